(** * Proof_Create2: the data of a created object. *)
From Coq Require Import List ZArith Lia Bool String.
From Verif Require Import Base BaseFacts Scalar Spec_Tau Spec_Select Model_TauRec Model_Checks Model_Heap
  Spec_Csv Model_Create Spec_Create Proof_Checks Proof_Heap Proof_CsvText Proof_Create.
Import ListNotations.
Open Scope list_scope.
Open Scope Z_scope.

Lemma entry_aread {A} (l : list A) i x : entry l i x <-> aread l i = Ok x.
Proof.
  rewrite aread_ok. split.
  - intro E. split; [apply (entry_bound _ _ _ E)|apply E].
  - intros [B E]. split; [lia|exact E].
Qed.

Section Data.
  Context {S : scalar}.
  Variable L : tmpl S.
  Variable C : createlib S.
  Variable d : dlp S.
  Hypothesis U : usable d.
  Notation N := (d_n d).
  Notation tobj := (@tobj S).

  Lemma dget_ok g k : g <> dRAWTHR -> 0 <= k < N -> exists x, sample d g k x /\ dget d g k = Ok x.
  Proof.
    intros G K. destruct U as (_ & _ & UA). destruct (UA g G) as (l & E & Z).
    destruct (aread_in l k ltac:(lia)) as [x X]. exists x. split.
    - exists l. split; [exact E|apply entry_aread; exact X].
    - unfold dget. rewrite E. exact X.
  Qed.
  Lemma sample_fun g k x y : sample d g k x -> sample d g k y -> x = y.
  Proof.
    intros (l & E & X) (l' & E' & Y). rewrite E in E'. injection E' as <-. exact (entry_fun _ _ _ _ X Y).
  Qed.

  (** Nothing but the contents of the arrays [fs] differs. *)
  Definition frame (fs : list rf) (o o' : tobj) : Prop :=
    x_id o' = x_id o /\ x_tau o' = x_tau o /\ x_out o' = x_out o /\ x_fwd o' = x_fwd o /\
    (forall m, block o' m = block o m) /\ (forall g, ~ In g fs -> x_arr o' g = x_arr o g).
  Lemma frame_refl fs o : frame fs o o.
  Proof. repeat split; auto. Qed.
  Lemma frame_trans fs gs hs o o1 o2 :
    frame fs o o1 -> frame gs o1 o2 -> incl fs hs -> incl gs hs -> frame hs o o2.
  Proof.
    intros (A1 & A2 & A3 & A4 & A5 & A6) (B1 & B2 & B3 & B4 & B5 & B6) I J.
    do 4 (split; [congruence|]). split.
    - intro m. rewrite B5, A5. reflexivity.
    - intros g G. rewrite B6, A6; auto.
  Qed.
  (** The first [k] cells of array [f] hold values described by [P]. *)
  Definition filled (o : tobj) (f : rf) (k : Z) (P : Z -> S -> Prop) : Prop :=
    exists b l, x_arr o f = Some (b, l) /\ zlen l = N /\
      forall i, 0 <= i < k -> exists x, P i x /\ aread l i = Ok (Some x).
  Definition filled_in (o : tobj) (k : Z) (P : Z -> cplx S -> Prop) : Prop :=
    exists b l, x_in o = Some (b, l) /\ zlen l = N /\
      forall i, 0 <= i < k -> exists x, P i x /\ aread l i = Ok (Some x).

  Lemma put_ok o f k x (P : Z -> S -> Prop) : filled o f k P -> 0 <= k < N -> P k x ->
    exists o', put o f k x = Ok o' /\ filled o' f (k + 1) P /\ frame [f] o o' /\ x_in o' = x_in o.
  Proof.
    intros (b & l & E & Z & F) K Px. destruct (awrite_in l k (Some x) ltac:(lia)) as [l' W].
    destruct (awrite_ok _ _ _ _ W) as (_ & Z' & R & R').
    exists (with_arr o f (Some (b, l'))). unfold put. rewrite E. cbn [deref bind]. rewrite W. cbn [bind].
    split; [reflexivity|]. split; [|split; [|reflexivity]].
    - exists b, l'. split; [apply with_arr_same|]. split; [lia|]. intros i I.
      destruct (Z.eq_dec i k) as [->|NE]; [exists x; auto|]. rewrite R' by exact NE. apply F; lia.
    - repeat split.
      + intros [g| | |]; cbn [block]; try reflexivity.
        destruct (rf_eqb g f) eqn:G.
        * apply rf_eqb_eq in G; subst. rewrite with_arr_same, E. reflexivity.
        * rewrite with_arr_other by (intro; subst; rewrite rf_eqb_refl in G; discriminate). reflexivity.
      + intros g G. apply with_arr_other. intro; subst; apply G; left; reflexivity.
  Qed.
  Lemma put_in_ok o k x (P : Z -> cplx S -> Prop) : filled_in o k P -> 0 <= k < N -> P k x ->
    exists o', put_in o k x = Ok o' /\ filled_in o' (k + 1) P /\ frame [] o o'.
  Proof.
    intros (b & l & E & Z & F) K Px. destruct (awrite_in l k (Some x) ltac:(lia)) as [l' W].
    destruct (awrite_ok _ _ _ _ W) as (_ & Z' & R & R').
    exists (with_in o (Some (b, l'))). unfold put_in. rewrite E. cbn [deref bind]. rewrite W. cbn [bind].
    split; [reflexivity|]. split.
    - exists b, l'. split; [reflexivity|]. split; [lia|]. intros i I.
      destruct (Z.eq_dec i k) as [->|NE]; [exists x; auto|]. rewrite R' by exact NE. apply F; lia.
    - repeat split. intros [g| | |]; cbn [block with_in x_in]; try reflexivity. rewrite E. reflexivity.
  Qed.
  Lemma filled_frame fs o o' f k P : frame fs o o' -> ~ In f fs -> filled o f k P -> filled o' f k P.
  Proof.
    intros (_ & _ & _ & _ & _ & F) NI (b & l & E & R). exists b, l. rewrite F by exact NI. split; assumption.
  Qed.
  Lemma get_ok o f k P : filled o f N P -> 0 <= k < N -> exists x, P k x /\ get o f k = Ok x.
  Proof.
    intros (b & l & E & Z & F) K. destruct (F k K) as (x & X & R). exists x. split; [exact X|].
    unfold get. rewrite E. cbn [deref bind]. rewrite R. reflexivity.
  Qed.

  Lemma copy_sample_ok k : 0 <= k < N -> forall tab o,
    NoDup (map fst tab) -> (forall f g, In (f, g) tab -> g <> dRAWTHR /\ filled o f k (sample d g)) ->
    exists o', copy_sample tab d k o = Ok o' /\ frame (map fst tab) o o' /\ x_in o' = x_in o /\
      forall f g, In (f, g) tab -> filled o' f (k + 1) (sample d g).
  Proof.
    intro K. induction tab as [|[f g] tab IH]; intros o ND F.
    - exists o. split; [reflexivity|]. split; [apply frame_refl|]. split; [reflexivity|intros ? ? []].
    - cbn [map fst] in *. inversion ND as [|? ? NI ND']; subst.
      destruct (F f g (or_introl eq_refl)) as [G Ff].
      destruct (dget_ok g k G K) as (x & X & R).
      destruct (put_ok o f k x (sample d g) Ff K X) as (o1 & E1 & F1 & Fr1 & I1).
      destruct (IH o1 ND') as (o2 & E2 & Fr2 & I2 & F2).
      { intros f' g' I. destruct (F f' g' (or_intror I)) as [G' Ff']. split; [exact G'|].
        apply (filled_frame _ _ _ _ _ _ Fr1); [|exact Ff'].
        intros [->|[]]. apply NI. apply (in_map fst) in I. exact I. }
      exists o2. cbn [copy_sample]. rewrite R. cbn [bind]. rewrite E1. cbn [bind]. split; [exact E2|].
      split; [|split; [congruence|]].
      + apply (frame_trans _ _ _ _ _ _ Fr1 Fr2); [intros a [->|[]]; left; reflexivity|intros a A; right; exact A].
      + intros f' g' [E|I]; [|apply F2; exact I]. injection E as <- <-.
        apply (filled_frame _ _ _ _ _ _ Fr2 NI F1).
  Qed.

  Lemma copy_NoDup : NoDup (map fst copy_table).
  Proof. repeat (constructor; [cbn; let H := fresh in intro H; repeat (destruct H as [H|H]; [discriminate H|]); exact H|]). constructor. Qed.
  Lemma copy_good f g : In (f, g) copy_table -> g <> dRAWTHR.
  Proof. intro H. repeat (destruct H as [H|H]; [injection H as <- <-; discriminate|]). destruct H. Qed.

  (** Every array of [fs] and the profile has [N] cells. *)
  Definition sized (o : tobj) : Prop :=
    (forall f, In (MArr f) malloc_order -> filled o f 0 (fun _ _ => True)) /\
    filled_in o 0 (fun _ _ => True).

  Lemma filled_0 o f P Q : filled o f 0 P -> filled o f 0 Q.
  Proof. intros (b & l & E & Z & _). exists b, l. repeat split; auto; lia. Qed.
  Lemma filled_in_0 o P Q : filled_in o 0 P -> filled_in o 0 Q.
  Proof. intros (b & l & E & Z & _). exists b, l. repeat split; auto; lia. Qed.
  Lemma copy_in_malloc f g : In (f, g) copy_table -> In (MArr f) malloc_order.
  Proof.
    intro H. repeat (destruct H as [H|H]; [injection H as <- <-; repeat (first [left; reflexivity|right])|]).
    destruct H.
  Qed.

  Lemma copy_members_ok o : x_err o = None -> arr_size (x_tau o) = N -> sized o ->
    exists o', copy_dlp_members o d = Ok o' /\ frame (map fst copy_table) o o' /\ x_in o' = x_in o /\
      forall f g, In (f, g) copy_table -> filled o' f N (sample d g).
  Proof.
    intros E A [Zs _]. unfold copy_dlp_members. rewrite E. destruct U as (Ue & Un & _). rewrite Ue, A.
    rewrite Z.eqb_refl. cbn [negb].
    destruct (for_range_total (fun k o' => frame (map fst copy_table) o o' /\ x_in o' = x_in o /\
      forall f g, In (f, g) copy_table -> filled o' f k (sample d g)) 0 N
      (fun n o => copy_sample copy_table d n o) o) as (o' & E' & P).
    - lia.
    - split; [apply frame_refl|]. split; [reflexivity|]. intros f g I.
      apply (filled_0 _ _ _ _ (Zs f (copy_in_malloc f g I))).
    - intros k o1 K (Fr & I & F).
      destruct (copy_sample_ok k ltac:(lia) copy_table o1 copy_NoDup) as (o2 & E2 & Fr2 & I2 & F2).
      { intros f g J. split; [exact (copy_good f g J)|apply F; exact J]. }
      exists o2. split; [exact E2|]. split; [|split; [congruence|exact F2]].
      apply (frame_trans _ _ _ _ _ _ Fr Fr2); apply incl_refl.
    - exists o'. cbn [Z.add] in P. auto.
  Qed.

  Definition profile_value (i : Z) (v : cplx S) : Prop :=
    exists p ph, sample d dPNORM i p /\ sample d dPHASE i ph /\ v = k_polard C (ssqrt p) (- ph)%S.
  Definition wave_value (i : Z) (v : S) : Prop :=
    exists f, sample d dFSKY i f /\ v = k_wavenumber C (k_wavelength C f).
  Definition scale_value (i : Z) (v : S) : Prop :=
    exists f dist phi b, sample d dFSKY i f /\ sample d dD i dist /\ sample d dPHI i phi /\
      sample d dB i b /\ v = k_scale C (k_wavelength C f) dist phi b.

  Definition copied (o : tobj) : Prop := forall f g, In (f, g) copy_table -> filled o f N (sample d g).

  Lemma copied_frame o o' : copied o -> frame [KV; FKM] o o' -> copied o'.
  Proof.
    intros H Fr f g I. apply (filled_frame _ _ _ _ _ _ Fr); [|apply H; exact I].
    repeat (destruct I as [I|I]; [injection I as <- <-; cbn; intros [X|[X|[]]]; discriminate X|]). destruct I.
  Qed.

  Lemma compute_sample_ok k o : 0 <= k < N -> copied o ->
    filled_in o k profile_value -> filled o KV k wave_value -> filled o FKM k scale_value ->
    exists o', compute_sample C d k o = Ok o' /\ frame [KV; FKM] o o' /\
      filled_in o' (k + 1) profile_value /\ filled o' KV (k + 1) wave_value /\ filled o' FKM (k + 1) scale_value.
  Proof.
    intros K Cp Fi Fk Ff. unfold compute_sample.
    destruct (dget_ok dPNORM k ltac:(discriminate) K) as (p & P1 & ->).
    destruct (dget_ok dPHASE k ltac:(discriminate) K) as (ph & P2 & ->). cbn [bind].
    destruct (put_in_ok o k (k_polard C (ssqrt p) (- ph)%S) profile_value Fi K) as (o1 & E1 & F1 & Fr1).
    { exists p, ph; auto. }
    rewrite E1. cbn [bind].
    destruct (dget_ok dFSKY k ltac:(discriminate) K) as (f & P3 & ->). cbn [bind].
    destruct (put_ok o1 KV k (k_wavenumber C (k_wavelength C f)) wave_value) as (o2 & E2 & F2 & Fr2 & I2);
      [apply (filled_frame _ _ _ _ _ _ Fr1); [intros []|exact Fk]|exact K|exists f; auto|].
    rewrite E2. cbn [bind].
    assert (Fr12 : frame [KV; FKM] o o2).
    { apply (frame_trans _ _ _ _ _ _ Fr1 Fr2); [intros ? []|intros a [->|[]]; left; reflexivity]. }
    assert (Cp2 := copied_frame _ _ Cp Fr12).
    destruct (get_ok o2 DKM k _ (Cp2 DKM dD ltac:(cbn; tauto)) K) as (dist & P4 & ->). cbn [bind].
    destruct (get_ok o2 PHI k _ (Cp2 PHI dPHI ltac:(cbn; tauto)) K) as (phi & P5 & ->). cbn [bind].
    destruct (get_ok o2 BDEG k _ (Cp2 BDEG dB ltac:(cbn; tauto)) K) as (b & P6 & ->). cbn [bind].
    destruct (put_ok o2 FKM k (k_scale C (k_wavelength C f) dist phi b) scale_value) as (o3 & E3 & F3 & Fr3 & I3);
      [|exact K|exists f, dist, phi, b; auto|].
    { apply (filled_frame _ _ _ _ _ _ Fr2); [intros [X|[]]; discriminate X|].
      apply (filled_frame _ _ _ _ _ _ Fr1); [intros []|exact Ff]. }
    exists o3. split; [exact E3|]. split; [|split; [|split; [|exact F3]]].
    - apply (frame_trans _ _ _ _ _ _ Fr12 Fr3); [apply incl_refl|intros a [->|[]]; right; left; reflexivity].
    - destruct F1 as (b1 & l1 & X & Y). exists b1, l1. split; [congruence|exact Y].
    - apply (filled_frame _ _ _ _ _ _ Fr3); [intros [X|[]]; discriminate X|exact F2].
  Qed.

  Lemma compute_members_ok o : x_err o = None -> arr_size (x_tau o) = N -> copied o ->
    filled_in o 0 (fun _ _ => True) -> filled o KV 0 (fun _ _ => True) -> filled o FKM 0 (fun _ _ => True) ->
    exists o', compute_dlp_members C o d = Ok o' /\ frame [KV; FKM] o o' /\
      filled_in o' N profile_value /\ filled o' KV N wave_value /\ filled o' FKM N scale_value.
  Proof.
    intros E A Cp Fi Fk Ff. unfold compute_dlp_members. rewrite E. destruct U as (Ue & Un & _). rewrite Ue, A.
    rewrite Z.eqb_refl. cbn [negb].
    destruct (for_range_total (fun k o' => frame [KV; FKM] o o' /\
      filled_in o' k profile_value /\ filled o' KV k wave_value /\ filled o' FKM k scale_value) 0 N
      (compute_sample C d) o) as (o' & E' & P).
    - lia.
    - split; [apply frame_refl|]. split; [apply (filled_in_0 _ _ _ Fi)|].
      split; [apply (filled_0 _ _ _ _ Fk)|apply (filled_0 _ _ _ _ Ff)].
    - intros k o1 K (Fr & A1 & A2 & A3).
      destruct (compute_sample_ok k o1 ltac:(lia) (copied_frame _ _ Cp Fr) A1 A2 A3) as (o2 & E2 & Fr2 & R).
      exists o2. split; [exact E2|]. split; [|exact R].
      apply (frame_trans _ _ _ _ _ _ Fr Fr2); apply incl_refl.
    - exists o'. cbn [Z.add] in P. split; [exact E'|exact P].
  Qed.

  (** A full array seen as a list. *)
  Lemma cells_map (l : list (option S)) :
    (forall i, 0 <= i < zlen l -> exists x, aread l i = Ok (Some x)) ->
    exists m, cells l = Some m /\ l = map Some m.
  Proof.
    induction l as [|c l IH]; intro A.
    - exists []. auto.
    - destruct (A 0) as [x X]; [rewrite zlen_cons; pose proof (zlen_nonneg l); lia|].
      apply aread_ok in X. destruct X as [_ X]. cbn in X. injection X as ->.
      destruct IH as (m & E & M).
      { intros i I. destruct (A (i + 1)) as [y Y]; [rewrite zlen_cons; lia|].
        exists y. apply aread_ok in Y. destruct Y as [_ Y]. apply aread_ok. split; [exact I|].
        replace (Z.to_nat (i + 1)) with (Datatypes.S (Z.to_nat i)) in Y by lia. exact Y. }
      exists (x :: m). cbn. rewrite E. split; [reflexivity|]. rewrite <- M. reflexivity.
  Qed.
  Lemma filled_contents o f P : filled o f N P ->
    is_full (x_arr o f) = true /\
    (exists m, contents (x_arr o f) = Some m /\ zlen m = N /\
       forall i, 0 <= i < N -> exists x, P i x /\ entry m i x).
  Proof.
    intros (b & l & E & Z & F). rewrite E. cbn.
    destruct (cells_map l) as (m & Em & M).
    { intros i I. destruct (F i ltac:(lia)) as (x & _ & X). exists x; exact X. }
    rewrite Em. split; [reflexivity|]. exists m. split; [reflexivity|]. subst l. rewrite zlen_map in Z.
    split; [exact Z|]. intros i I. destruct (F i I) as (x & Px & X). exists x. split; [exact Px|].
    apply entry_aread. apply aread_ok in X. destruct X as [_ X]. apply aread_ok. split; [lia|].
    rewrite nth_error_map in X. destruct (nth_error m (Z.to_nat i)); cbn in X; congruence.
  Qed.
End Data.
