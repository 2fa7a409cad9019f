(** * Proof_Recon: what each stage of a reconstruction may change, dispatch,
    orientation and finishing. *)
From Coq Require Import List ZArith Bool String Reals Lia Lra.
From Flocq Require Import Core IEEE754.BinarySingleNaN.
From Verif Require Import Base BaseFacts Dbl DblFacts Scalar Model_TauRec Model_Checks Model_Select
  Model_Strings Model_Transform Model_Interp Model_Recon Spec_Tau Spec_Ops Spec_Select Spec_Recon
  Proof_Checks Proof_Sticky Proof_Strings Proof_Select Proof_SafeDbl.
Import ListNotations.
Open Scope Z_scope.

(** ** Frames *)
Section Frame.
  Context {S : scalar} (L : tmpl S).
  Local Notation tau := (tau S).

  (** A stage that only validates: the object is unchanged, or an error is set. *)
  Definition checks (f : tau -> res tau) : Prop :=
    forall t t', f t = Ok t' -> t' = t \/ exists m, t' = set_err t (Some m).
  Lemma checks_clean f t t' : checks f -> f t = Ok t' -> clean t' -> t' = t.
  Proof. intros H E Hc. destruct (H _ _ E) as [->|[m ->]]; auto. discriminate Hc. Qed.
  Ltac brk H := repeat match type of H with
    | (if ?c then _ else _) = Ok _ => destruct c
    | match ?c with _ => _ end = Ok _ => destruct c
    | fail _ _ = Ok _ => injection H as <-; right; eexists; reflexivity
    | Ok _ = Ok _ => injection H as <-; auto
    | bind _ _ = Ok _ => apply bind_ok in H; destruct H as (? & ? & H)
    end.
  Lemma checks_guarded (k : tau -> res tau) : checks k -> checks (fun t => guarded t (k t)).
  Proof. intros H t t' E. unfold guarded in E. destruct (err t); [injection E as <-; auto|eauto]. Qed.
  Lemma checks_seq f g : checks f -> checks g -> checks (fun t => do t1 <- f t; g t1).
  Proof.
    intros Hf Hg t t' E. apply bind_ok in E. destruct E as (t1 & E1 & E).
    destruct (Hf _ _ E1) as [->|[m ->]]; [eauto|].
    destruct (Hg _ _ E) as [->|[m' ->]]; right; eexists; reflexivity.
  Qed.
  Lemma checks_keywords : checks check_keywords.
  Proof.
    unfold check_keywords. apply checks_guarded.
    repeat (apply (checks_seq _ (fun t1 => _)));
      apply checks_guarded; intros t t' E; brk E.
  Qed.
  Lemma checks_core : checks check_core_data.
  Proof. apply checks_guarded. intros t t' E. brk E. Qed.
  Lemma checks_range : checks check_data_range.
  Proof. intros t t'. apply check_data_range_ok. Qed.

  (** A stage that may rewrite the reconstructed profile and set an error. *)
  Definition frames (t t' : tau) : Prop := exists T e, t' = set_err (set_T_out t T) e.
  Lemma frames_refl t : frames t t.
  Proof. exists (T_out t), (err t). destruct t; reflexivity. Qed.
  Lemma frames_err t m : frames t (set_err t m).
  Proof. exists (T_out t), m. destruct t; reflexivity. Qed.
  Lemma frames_out t T : frames t (set_T_out t T).
  Proof. exists T, (err t). destruct t; reflexivity. Qed.
  Lemma frames_trans a b c : frames a b -> frames b c -> frames a c.
  Proof. intros (T & e & ->) (T' & e' & ->). exists T', e'. reflexivity. Qed.
  Lemma frames_checks f t t' : checks f -> f t = Ok t' -> frames t t'.
  Proof. intros H E. destruct (H _ _ E) as [->|[m ->]]; [apply frames_refl|apply frames_err]. Qed.
  Lemma frames_same t t' : frames t t' -> same_but_out t t'.
  Proof. intros (T & e & ->). repeat split. Qed.

  Lemma frames_guarded t k t' : (k = Ok t' -> frames t t') -> guarded t k = Ok t' -> frames t t'.
  Proof. intros H. unfold guarded. destruct (err t); auto. intros E; injection E as <-. apply frames_refl. Qed.
  (** The two checks every driver starts with. *)
  Lemma frames_driver t t' k :
    (forall t2, k t2 = Ok t' -> frames t2 t') ->
    (do t1 <- check_core_data t; do t2 <- check_data_range t1; guarded t2 (k t2)) = Ok t' -> frames t t'.
  Proof.
    intros H E. apply bind_ok in E. destruct E as (t1 & E1 & E).
    apply bind_ok in E. destruct E as (t2 & E2 & E).
    eapply frames_trans; [eapply frames_checks; [apply checks_core|exact E1]|].
    eapply frames_trans; [eapply frames_checks; [apply checks_range|exact E2]|].
    revert E. apply frames_guarded. apply H.
  Qed.
  Ltac brkf H := repeat match type of H with
    | (if ?c then _ else _) = Ok _ => destruct c
    | match ?c with _ => _ end = Ok _ => destruct c
    | fail _ _ = Ok _ => injection H as <-; first [apply frames_err | eapply frames_trans; [apply frames_out|apply frames_err]]
    | Ok _ = Ok _ => injection H as <-; first [apply frames_refl | apply frames_out]
    | bind _ _ = Ok _ => apply bind_ok in H; destruct H as (? & ? & H)
    end.
  Lemma seq_run_frames f t wi d n t' : seq_run L f t wi d n = Ok t' -> frames t t'.
  Proof.
    unfold seq_run. intros E. do 3 (apply bind_ok in E; destruct E as (? & ? & E)).
    destruct x1 as [[p T'] e]. brkf E.
  Qed.
  Lemma dc_fresnel_frames sch t t' : dc_fresnel L sch t = Ok t' -> frames t t'.
  Proof. apply frames_driver. intros t2 E. cbv zeta in E. brkf E. Qed.
  Lemma dc_newton_frames sch t t' : dc_newton L sch t = Ok t' -> frames t t'.
  Proof. apply frames_driver. intros t2 E. cbv zeta in E. brkf E. Qed.
  Lemma dc_interp_frames t t' : dc_interp L t = Ok t' -> frames t t'.
  Proof.
    apply frames_driver. intros t2 E. cbv zeta in E.
    do 5 (apply bind_ok in E; destruct E as (? & ? & E)).
    destruct x3 as [[f|]|m]; [|brkf E|brkf E].
    destruct (negb _); [brkf E|]. eapply seq_run_frames; exact E.
  Qed.
  Lemma dc_fft_frames t t' : dc_fft L t = Ok t' -> frames t t'.
  Proof. apply frames_driver. intros t2 E. cbv zeta in E. brkf E. Qed.
  (** Legendre mode may also negate wave numbers. *)
  Definition k_may_change (t t' : tau) : Prop := exists k, t' = set_f t KV k.
  Lemma dc_legendre_frames t t' : dc_legendre L t = Ok t' ->
    frames t t' \/ (use_fwd t = true /\ exists t3, k_may_change t t3 /\ frames t3 t').
  Proof.
    unfold dc_legendre. intros E. unfold guarded in E at 1. destruct (err t) eqn:Ee.
    { injection E as <-. left. apply frames_refl. }
    apply bind_ok in E. destruct E as (t1 & E1 & E).
    apply bind_ok in E. destruct E as (t2 & E2 & E).
    assert (F1 := frames_checks _ _ _ checks_core E1).
    assert (F2 := frames_checks _ _ _ checks_range E2).
    unfold guarded in E. destruct (err t2) eqn:Ee2.
    { injection E as <-. left. eapply frames_trans; eauto. }
    assert (C1 : t1 = t).
    { destruct (checks_core _ _ E1) as [->|[m ->]]; auto.
      destruct (checks_range _ _ E2) as [->|[m' ->]]; discriminate Ee2. }
    subst t1. assert (C2 : t2 = t).
    { destruct (checks_range _ _ E2) as [->|[m ->]]; auto. discriminate Ee2. }
    subst t2. apply bind_ok in E. destruct E as (f & Ef & E).
    apply bind_ok in E. destruct E as (t3 & E3 & E).
    assert (F : frames t3 t').
    { cbv zeta in E. do 4 (apply bind_ok in E; destruct E as (? & ? & E)).
      destruct (negb _); [injection E as <-; apply frames_err|]. eapply seq_run_frames; exact E. }
    unfold flip_k in E3. destruct (use_fwd t) eqn:Eu; [|injection E3 as <-; auto].
    right. split; auto. apply bind_ok in E3. destruct E3 as (k & _ & E3).
    apply bind_ok in E3. destruct E3 as (k' & _ & E3). injection E3 as <-.
    exists (set_f t KV (Some k')). split; auto. eexists; reflexivity.
  Qed.
  Lemma dc_frames sch t t' : diffraction_correction L sch t = Ok t' ->
    frames t t' \/ (use_fwd t = true /\ psinum t = PsiLegendre /\ exists t3, k_may_change t t3 /\ frames t3 t').
  Proof.
    unfold diffraction_correction. intros E. unfold guarded in E. destruct (err t) eqn:Ee.
    { injection E as <-. left. apply frames_refl. }
    cbv zeta in E.
    destruct (psinum t); cbn [psi_val Z.eqb Z.leb Z.ltb Z.compare Pos.compare Pos.compare_cont Pos.eqb] in E;
      try (left; first [eapply dc_fresnel_frames; exact E | eapply dc_newton_frames; exact E
        | eapply dc_interp_frames; exact E | eapply dc_fft_frames; exact E
        | injection E as <-; apply frames_err ]; fail).
    destruct (dc_legendre_frames _ _ E) as [H|(H & H2)]; [left; exact H|right; auto].
  Qed.
  Lemma dc_frames_inv sch t t' : use_fwd t = false -> diffraction_correction L sch t = Ok t' -> frames t t'.
  Proof. intros Hu E. destruct (dc_frames _ _ _ E) as [H|(H & _)]; [exact H|congruence]. Qed.
End Frame.

(** ** C07 *)
Section Dispatch.
  Context {S : scalar} (L : tmpl S).
  Lemma dispatch_driver sch (t : tau S) : clean t ->
    match psinum t with
    | PsiFresnel => diffraction_correction L sch t = dc_fresnel L sch t
    | PsiLegendre => diffraction_correction L sch t = dc_legendre L t
    | PsiSimpleFFT => diffraction_correction L sch t = dc_fft L t
    | PsiNewton4 | PsiNewton8 | PsiNewton16 | PsiEllipticNewton4 | PsiEllipticNewton8 | PsiEllipticNewton16 =>
        diffraction_correction L sch t = dc_interp L t
    | PsiNone => exists m, diffraction_correction L sch t = Ok (set_err t (Some m))
    | _ => diffraction_correction L sch t = dc_newton L sch t
    end.
  Proof.
    intros Hc. unfold diffraction_correction. rewrite guarded_clean by exact Hc.
    destruct (psinum t); try reflexivity. eexists; reflexivity.
  Qed.
  Lemma newton_selected p f : select_newton L p = Ok (inl f) <-> window_method L p = Some f.
  Proof. split; destruct p; cbn; intros E; inversion E; reflexivity. Qed.
  Lemma newton_not_selected p : window_method L p = None -> exists m, select_newton L p = Ok (inr m).
  Proof. destruct p; cbn; intros E; try discriminate E; eexists; reflexivity. Qed.
  Lemma interp_selected p f : select_interp L p = Ok (inl (Some f)) <-> interp_method L p = Some f.
  Proof. split; destruct p; cbn; intros E; inversion E; reflexivity. Qed.
  Lemma series_selected (t : tau S) : 
    aread (legendre_table L) (legendre_index t) = Ok (series_method L (order t + 1) (use_norm t)).
  Proof.
    unfold legendre_index, series_method.
    replace (Z.even (order t + 1)) with (Z.odd (order t)) by (rewrite Z.even_add; destruct (Z.even (order t)) eqn:E; rewrite <- Z.negb_even, E; reflexivity).
    rewrite Zmod_odd. destruct (Z.odd (order t)), (use_norm t); reflexivity.
  Qed.
  Lemma unimplemented sch (t t' : tau S) : clean t -> ~ implemented L (psinum t) ->
    diffraction_correction L sch t = Ok t' -> failed t' /\ same_data t t'.
  Proof.
    intros Hc Hi E. assert (D := dispatch_driver sch t Hc). unfold implemented in Hi.
    destruct (psinum t) eqn:Ep; try (exfalso; apply Hi; cbn; intuition congruence).
    4:{ destruct D as [m Em]. rewrite Em in E. injection E as <-. split; [eexists; reflexivity|apply same_data_set_err]. }
    all: rewrite D in E; unfold dc_interp in E;
      apply bind_ok in E; destruct E as (t1 & E1 & E);
      apply bind_ok in E; destruct E as (t2 & E2 & E);
      destruct (checks_core _ _ E1) as [->|[m ->]];
      [|unfold check_data_range, guarded in E2; cbn [err set_err] in E2; injection E2 as <-; injection E as <-; split; [eexists; reflexivity|apply same_data_set_err]];
      destruct (checks_range _ _ E2) as [->|[m ->]];
      [|injection E as <-; split; [eexists; reflexivity|apply same_data_set_err]];
      rewrite guarded_clean in E by exact Hc; cbv zeta in E;
      do 4 (apply bind_ok in E; destruct E as (? & ? & E)); rewrite Ep in E; cbn in E; injection E as <-;
      (split; [eexists; reflexivity|apply same_data_set_err]).
  Qed.
  (** Whatever name is accepted, its method is implemented. *)
  Lemma named_implemented X s (t t' : tau S) : clean t ->
    set_psi_type L X s t = Ok t' -> clean t' ->
    implemented L (psinum t') /\ (psinum t' = PsiLegendre -> (psinum t' = psinum t /\ order t' = order t) \/ order t' <> 0).
  Proof.
    intros Hc. unfold set_psi_type. rewrite guarded_clean by exact Hc.
    destruct s as [s|]; [|intros E Hc'; injection E as <-; discriminate Hc'].
    destruct (negb _); [intros E Hc'; injection E as <-; discriminate Hc'|]. cbv zeta.
    destruct (lookup psi_table (normalise X s)) as [p|] eqn:El.
    - intros E _. injection E as <-. apply lookup_some in El. cbn [psinum set_psinum order].
      unfold implemented. unfold psi_table in El. cbn [In] in El.
      repeat (destruct El as [El|El]; [injection El as _ <-; cbn; split; [intuition congruence|discriminate]|]). contradiction.
    - destruct (String.eqb _ _); [|intros E Hc'; injection E as <-; discriminate Hc'].
      destruct (Z.eqb_spec (to_uchar X (substring 7 (String.length (normalise X s) - 7) (normalise X s))) 0);
        [intros E Hc'; injection E as <-; discriminate Hc'|].
      destruct (Z.eqb_spec (to_uchar X (substring 7 (String.length (normalise X s) - 7) (normalise X s))) 1);
        [intros E Hc'; injection E as <-; discriminate Hc'|].
      destruct (Z.eqb_spec (to_uchar X (substring 7 (String.length (normalise X s) - 7) (normalise X s))) 2);
        intros E _; injection E as <-; unfold implemented; cbn; split; auto; try discriminate.
      intros _. right. lia.
  Qed.
End Dispatch.
