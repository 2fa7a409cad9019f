(** * Proof_Recon4: reprocessing a finished object (C12), the forward model
    against the plain reconstruction (C23). *)
From Coq Require Import List ZArith Bool String Reals Lia Lra.
From Flocq Require Import Core IEEE754.BinarySingleNaN.
From Verif Require Import Base BaseFacts Dbl DblFacts Scalar Model_TauRec Model_Checks Model_Select
  Model_Strings Model_Transform Model_Interp Model_Recon Spec_Tau Spec_Ops Spec_Select Spec_Recon
  Proof_Checks Proof_Sticky Proof_Select Proof_SafeDbl Proof_Recon Proof_Recon2 Proof_Recon3.
Import ListNotations.
Open Scope Z_scope.

Lemma rf_dec (f g : rf) : {f = g} + {f <> g}.
Proof. decide equality. Qed.
Lemma piece_in {A} (l l' : list A) s n a : piece l s n l' -> In a l' -> In a l.
Proof.
  intros [Hl Hp] H. apply In_aread in H. destruct H as [i H].
  assert (R := H). apply aread_ok in R. rewrite <- entry_aread in H.
  apply Hp in H; [|lia]. apply entry_in in H. exact H.
Qed.

Lemma twice (L : dlib) sch (t t1 t2 : dtau) v :
  minmax_law L -> velocities t v -> notnan (dx t) -> (inward t -> has_sizes t occ_reversed) ->
  reconstruction L sch t = Ok t1 -> clean t1 -> reconstruction L sch t1 = Ok t2 ->
  failed t2 /\ arr t2 = arr t1 /\ T_in t2 = T_in t1 /\ T_out t2 = T_out t1 /\ T_fwd t2 = T_fwd t1 /\
  arr_size t2 = arr_size t1.
Proof.
  intros HL Hv Hd Hs E1 C1 E2.
  destruct (reconstruction_stages L sch t t1 E1 C1) as
    (u2 & u3 & u9 & Ct & _ & Eo & Cu2 & Eg & Cu3 & Hn & Cu9 & Ef & HA & Hdx & Hst & Hnu & _ & _ & _).
  destruct (occ_type_exact L HL t v Ct Hv Hd Hs) as (u2' & Eo' & Hc). rewrite Eo in Eo'. injection Eo' as <-.
  (* the oriented object *)
  assert (O : exists v2, arr u2 RHODOT = Some v2 /\ all_positive v2 /\ outward u2).
  { destruct Hv as (Hv & Hl & Hnn). destruct Hc as [(_ & O & P & ->)|[(_ & O & N & ->)|[(_ & O & N & A & -> & HR & _)|(_ & m & ->)]]].
    - exists v. auto.
    - exists (map dabs v). split; [reflexivity|]. split; [|exact O].
      intros x Hx. apply in_map_iff in Hx. destruct Hx as (y & <- & Hy). apply abs_negative. apply N; auto.
    - exists (map dabs (rev v)). split; [exact HR|]. split.
      + intros x Hx. apply in_map_iff in Hx. destruct Hx as (y & <- & Hy). apply abs_negative. apply N. apply in_rev; auto.
      + unfold outward. cbn. apply abs_negative. exact O.
    - discriminate Cu2. }
  destruct O as (v2 & Hv2 & P2 & O2).
  destruct (gww_selects L u2 u3 Eg Cu2) as [(F & _)|(_ & _ & r0 & r1 & s & w & H3 & _)];
    [exfalso; exact (clean_not_failed _ Cu3 F)|].
  assert (R9 : arr u9 RHODOT = Some v2).
  { rewrite HA by discriminate. rewrite H3. exact Hv2. }
  assert (D9 : dx u9 = dx u2) by (rewrite Hdx, H3; reflexivity).
  rewrite <- Hnu in Hn.
  destruct (finish_pieces L u9 t1 Cu9 Hn Ef) as (_ & Ha & Hn1 & _ & _ & Hdx1 & Hp & _).
  destruct (Hp RHODOT v2) as (v1 & E & Hpc); [cbn; tauto|exact R9|].
  assert (P1 : all_positive v1) by (intros x Hx; apply P2; eapply piece_in; eauto).
  destruct Ha as (Hsz & Hal & _).
  assert (V1 : velocities t1 v1).
  { split; [exact E|]. split; [rewrite Hsz, Hn1; apply Hpc|]. intros x Hx. apply positive_notnan. apply P1; auto. }
  assert (O1 : outward t1) by (unfold outward; rewrite Hdx1, D9; exact O2).
  destruct (Hal WKM) as (w1 & W1 & _); [cbn; tauto|].
  destruct (refused L sch t1 t2 w1 C1 W1 E2) as (F & I1 & I2 & I3 & I4 & _ & Harr).
  split; auto. split; auto. apply Harr.
  assert (NI : ~ inward t1).
  { intros I. destruct (sign_cases (dx t1) (positive_notnan _ O1)) as [D|[D|D]]; unfold inward, outward in *; tauto. }
  destruct (occ_type_exact L HL t1 v1 C1 V1 (positive_notnan _ O1) (fun I => False_ind _ (NI I))) as (t' & Eo' & H).
  destruct H as [(_ & _ & _ & ->)|[(Hsz1 & _ & N & ->)|[(_ & I & _)|(_ & m & ->)]]]; [left; exact Eo'| |contradiction|right; eauto].
  exfalso. destruct v1 as [|x v1].
  { destruct V1 as (_ & V1 & _). cbn in V1. lia. }
  assert (PX := P1 x (or_introl eq_refl)). assert (NX := N x (or_introl eq_refl)).
  destruct (sign_cases x (positive_notnan _ PX)) as [D|[D|D]]; tauto.
Qed.

(** ** C23 *)
Section Forward.
  Context {S : scalar} (L : tmpl S).
  Local Notation tau := (tau S).
  Definition rmap {A B} (f : A -> B) (m : res A) : res B := do a <- m; Ok (f a).
  (** A stage that neither reads nor writes the forward-model switch. *)
  Definition blind (f : tau -> res tau) : Prop :=
    forall b t, f (set_use_fwd t b) = rmap (fun u => set_use_fwd u b) (f t).
  Lemma blind_guarded k : blind k -> blind (fun t => guarded t (k t)).
  Proof. intros H b t. unfold guarded. cbn [err set_use_fwd]. destruct (err t); [reflexivity|apply H]. Qed.
  Lemma blind_seq f g : blind f -> blind g -> blind (fun t => do t1 <- f t; g t1).
  Proof.
    intros Hf Hg b t. rewrite Hf. unfold rmap. destruct (f t) as [t1|]; cbn [bind]; [|reflexivity]. apply Hg.
  Qed.
  Ltac blnd := repeat match goal with
    | |- (if ?c then _ else _) = _ => destruct c
    | |- match ?c with _ => _ end = _ => destruct c
    | |- bind ?c _ = _ => destruct c; cbn [bind]
    | |- _ = _ => reflexivity
    end.
  Lemma blind_keywords : blind check_keywords.
  Proof.
    unfold check_keywords. apply blind_guarded.
    repeat (apply (blind_seq _ (fun t1 => _))); apply blind_guarded; intros b t; unfold rmap;
      cbn [sigma reso ecc peri range0 range1 set_use_fwd]; blnd.
  Qed.
  Lemma blind_core : blind check_core_data.
  Proof. unfold check_core_data. apply blind_guarded. intros b t. unfold rmap. cbn [T_in T_out arr set_use_fwd]. blnd. Qed.
  Lemma blind_range : blind check_data_range.
  Proof.
    unfold check_data_range. apply blind_guarded. intros b t. unfold rmap.
    cbn [T_in T_out arr dx arr_size n_used start set_use_fwd]. cbv zeta.
    destruct (arr t WKM); [|reflexivity]. destruct (sle _ _); [reflexivity|].
    destruct (data_range_loop _ _ _ _ _) as [[m|]|]; reflexivity.
  Qed.
  Lemma blind_reverse f : blind (reverse_f f).
  Proof.
    intros b t. unfold reverse_f, rmap. cbn [arr arr_size set_use_fwd].
    destruct (deref (arr t f)) as [l|]; [|reflexivity]. cbn [bind]. destruct (aprefix l (arr_size t)); reflexivity.
  Qed.
  Lemma blind_reverse_all fs : blind (reverse_all fs).
  Proof. induction fs; intros b t; [reflexivity|]. cbn [reverse_all]. apply (blind_seq _ _ (blind_reverse a) IHfs). Qed.
  Lemma blind_abs : blind abs_rho_dot.
  Proof.
    intros b t. unfold abs_rho_dot, rmap. cbn [arr arr_size set_use_fwd].
    destruct (deref (arr t RHODOT)) as [l|]; [|reflexivity]. cbn [bind]. destruct (aprefix l (arr_size t)); reflexivity.
  Qed.
  Lemma blind_occ : blind (check_occ_type L).
  Proof.
    unfold check_occ_type. apply blind_guarded. intros b t. cbn [arr arr_size dx set_use_fwd].
    destruct (arr t RHODOT); [|reflexivity]. destruct (_ <=? 1); [reflexivity|]. destruct (seqb _ _); [reflexivity|].
    destruct (aprefix _ _) as [v|]; [|reflexivity]. cbn [bind]. destruct (t_minmax L v) as [mn mx].
    do 3 (match goal with |- (if ?c then _ else _) = _ => destruct c end; [reflexivity|]).
    match goal with |- (if ?c then _ else _) = _ => destruct c end; [apply blind_abs|].
    match goal with |- (if ?c then _ else _) = _ => destruct c end; [|reflexivity].
    assert (B : blind (fun t => do t1 <- reverse_all occ_reversed t; do t2 <- abs_rho_dot t1; Ok (set_dx t2 (sabs (dx t2))))).
    { apply (blind_seq _ (fun t1 => do t2 <- abs_rho_dot t1; Ok (set_dx t2 (sabs (dx t2))))); [apply blind_reverse_all|].
      apply (blind_seq _ (fun t2 => Ok (set_dx t2 (sabs (dx t2))))); [apply blind_abs|]. intros b' t'. reflexivity. }
    apply (B b t).
  Qed.
  Lemma blind_trim rho w : blind (fun t => gww_trim L t rho w).
  Proof.
    intros b t. unfold gww_trim. 
    change (rho_legal ssub (set_use_fwd t b) rho w) with (rho_legal ssub t rho w).
    cbn [arr arr_size start n_used set_use_fwd].
    destruct (need _ _); [|reflexivity]. cbn [bind].
    destruct (rho_legal ssub t rho w) as [lft|]; [|reflexivity]. cbn [bind].
    destruct (aread rho 0); [|reflexivity]. cbn [bind]. destruct (need _ _); [|reflexivity]. cbn [bind].
    destruct (where_ _ lft) as [|i0 tl]; [reflexivity|]. cbv zeta.
    set (t1 := if 0 <? i0 then set_n_used (set_start t (start t + i0)) (n_used t - i0) else t).
    replace (if 0 <? i0 then set_n_used (set_start (set_use_fwd t b) (start t + i0)) (n_used t - i0) else set_use_fwd t b)
      with (set_use_fwd t1 b) by (unfold t1; destruct (0 <? i0); reflexivity).
    change (rho_legal sadd (set_use_fwd t1 b) rho w) with (rho_legal sadd t1 rho w).
    destruct (rho_legal sadd t1 rho w) as [rgt|]; [|reflexivity]. cbn [bind].
    destruct (aread rho _); [|reflexivity]. cbn [bind]. destruct (need _ _); [|reflexivity]. cbn [bind].
    destruct (where_ _ rgt) as [|i r]; [reflexivity|]. cbn [n_used set_use_fwd].
    destruct (List.last (i :: r) 0 <? n_used t1); cbn [start n_used arr_size set_use_fwd set_n_used]; unfold rmap; blnd.
  Qed.
  Lemma blind_fill b (t : tau) al Ps idx : forall n w,
    fill_w_bfac L (set_use_fwd t b) al Ps idx n w = fill_w_bfac L t al Ps idx n w.
  Proof.
    induction idx as [|i idx IH]; intros n w; cbn [fill_w_bfac]; [reflexivity|].
    apply bind_ext; intros p _. apply bind_ext; intros a _. apply bind_ext; intros w1 _. apply IH.
  Qed.
  Lemma blind_widths b (t : tau) : gww_widths L (set_use_fwd t b) = gww_widths L t.
  Proof.
    unfold gww_widths. cbn [bfac arr_size n_used arr normeq reso start set_use_fwd].
    apply bind_ext; intros u _. cbv zeta. destruct (bfac t); [|reflexivity].
    do 4 (apply bind_ext; intros ? _).
    change (alpha_P (set_use_fwd t b)) with (alpha_P t).
    apply bind_ext; intros ap _. apply bind_ext; intros u4 _. apply blind_fill.
  Qed.
  Lemma blind_gww : blind (get_window_width L).
  Proof.
    unfold get_window_width. apply blind_guarded. intros b t. unfold rmap.
    cbn [arr set_use_fwd]. destruct (deref (arr t RHO)) as [rho|]; [|reflexivity]. cbn [bind].
    change (gww_start (set_use_fwd t b) rho) with (gww_start t rho).
    destruct (gww_start t rho) as [[[r0 s]|]|]; [|reflexivity|reflexivity]. cbn [bind]. cbv zeta.
    change (gww_count (set_start (set_range0 (set_use_fwd t b) r0) s) rho) with (gww_count (set_start (set_range0 t r0) s) rho).
    destruct (gww_count _ rho) as [[[r1 n]|]|]; [|reflexivity|reflexivity]. cbn [bind].
    cbn [arr set_n_used set_range1 set_start set_range0 set_use_fwd]. destruct (arr t WKM); [reflexivity|].
    set (t2 := set_n_used (set_range1 (set_start (set_range0 t r0) s) r1) n).
    change (set_n_used (set_range1 (set_start (set_range0 (set_use_fwd t b) r0) s) r1) n) with (set_use_fwd t2 b).
    rewrite blind_widths.
    destruct (gww_widths L t2) as [w|]; [|reflexivity]. cbn [bind].
    exact (blind_trim rho w b (set_f t2 WKM (Some w))).
  Qed.

  (** Finishing, as equations on the members. *)
  Lemma resize_all_exact fs : forall (t t' : tau), NoDup fs -> resize_all L fs t = Ok t' ->
    t' = set_arr t (arr t') /\
    (forall f, In f fs -> resize L (arr t f) (start t) (n_used t) = Ok (arr t' f)) /\
    (forall f, ~ In f fs -> arr t' f = arr t f).
  Proof.
    induction fs as [|f fs IH]; intros t t' Hnd E.
    - injection E as <-. split; [destruct t; reflexivity|]. split; [intros f []|auto].
    - inversion Hnd; subst. cbn [resize_all] in E. apply bind_ok in E. destruct E as (t1 & E1 & E).
      unfold resize_f in E1. apply bind_ok in E1. destruct E1 as (v & Ev & E1). injection E1 as <-.
      apply IH in E; auto. destruct E as (E & HA & HB). split; [exact E|]. split.
      + intros g [<-|Hg].
        * rewrite HB by auto. rewrite set_f_eq. exact Ev.
        * rewrite <- (HA g Hg). rewrite set_f_neq by (intros ->; contradiction). reflexivity.
      + intros g Hg. cbn in Hg. rewrite HB by tauto. apply set_f_neq. intuition congruence.
  Qed.
  Lemma resize_all_defined fs : forall (t : tau), NoDup fs ->
    (forall f, In f fs -> exists v, resize L (arr t f) (start t) (n_used t) = Ok v) ->
    exists t', resize_all L fs t = Ok t'.
  Proof.
    induction fs as [|f fs IH]; intros t Hnd H; cbn [resize_all]; [eauto|]. inversion Hnd; subst.
    destruct (H f (or_introl eq_refl)) as [v Ev]. unfold resize_f. rewrite Ev. cbn [bind]. apply IH; auto.
    intros g Hg. destruct (H g (or_intror Hg)) as [vg Evg]. exists vg.
    rewrite set_f_neq by (intros ->; contradiction). exact Evg.
  Qed.
  Definition finished (t t' : tau) : Prop :=
    resize L (T_in t) (start t) (n_used t) = Ok (T_in t') /\
    resize L (T_out t) (start t) (n_used t) = Ok (T_out t') /\
    (forall f, In f finish_resized -> resize L (arr t f) (start t) (n_used t) = Ok (arr t' f)) /\
    (forall f, ~ In f finish_resized -> arr t' f = arr t f) /\
    arr_size t' = n_used t /\ err t' = err t /\ dx t' = dx t /\ start t' = start t /\ n_used t' = n_used t /\
    range0 t' = range0 t /\ range1 t' = range1 t /\ window t' = window t /\ psinum t' = psinum t /\
    order t' = order t /\ use_norm t' = use_norm t.
  Lemma finish_exact (t t' : tau) : clean t -> finish L t = Ok t' -> finished t t'.
  Proof.
    intros Hc. unfold finish. rewrite guarded_clean by exact Hc. intros E.
    apply bind_ok in E. destruct E as (a & Ea & E).
    apply bind_ok in E. destruct E as (b & Eb & E).
    apply bind_ok in E. destruct E as (t3 & E3 & E).
    apply resize_all_exact in E3; [|apply nodup_finish]. destruct E3 as (E3 & HA & HB).
    cbn [T_out start n_used arr set_T_in set_T_out] in *. rewrite E3 in E.
    cbn [use_fwd set_arr_size set_arr set_T_in set_T_out n_used] in E.
    unfold finished. destruct (use_fwd t).
    - apply bind_ok in E. destruct E as (c & Ec & E). injection E as <-. cbn. repeat (split; [assumption || reflexivity|]). reflexivity.
    - injection E as <-. cbn. repeat (split; [assumption || reflexivity|]). reflexivity.
  Qed.
  Lemma finish_defined (t : tau) : clean t -> use_fwd t = false ->
    (exists v, resize L (T_in t) (start t) (n_used t) = Ok v) ->
    (exists v, resize L (T_out t) (start t) (n_used t) = Ok v) ->
    (forall f, In f finish_resized -> exists v, resize L (arr t f) (start t) (n_used t) = Ok v) ->
    exists t', finish L t = Ok t'.
  Proof.
    intros Hc Hu (a & Ea) (b & Eb) H. unfold finish. rewrite guarded_clean by exact Hc.
    rewrite Ea. cbn [bind]. cbn [T_out start n_used set_T_in]. rewrite Eb. cbn [bind].
    destruct (resize_all_defined finish_resized (set_T_out (set_T_in t a) b) nodup_finish H) as [t3 E3].
    rewrite E3. cbn [bind]. apply resize_all_exact in E3; [|apply nodup_finish]. destruct E3 as (E3 & _ & _).
    rewrite E3. cbn [use_fwd set_arr_size set_arr set_T_in set_T_out n_used]. rewrite Hu. eauto.
  Qed.
  Lemma resize_len {A} (l l' : list A) st n v : zlen l' = zlen l ->
    resize L (Some l') st n = Ok v -> exists v', resize L (Some l) st n = Ok v'.
  Proof.
    intros Hl. unfold resize. intros E. apply bind_ok in E. destruct E as (u & Eu & E). rewrite Eu. cbn [bind].
    apply bind_ok in E. destruct E as (r & Er & E).
    destruct (Z_lt_dec n 0).
    - unfold tabulate in *. replace (Z.to_nat n) with O by lia. eexists; reflexivity.
    - apply tabulate_ok in Er; [|lia]. destruct Er as [Hr1 Hr2].
      destruct (tabulate_total n (fun i => aread l (st + i))) as [r2 E2]; [lia| |rewrite E2; cbn [bind]; eauto].
      intros i Hi. specialize (Hr2 i Hi). destruct (aread_in r i) as [a Ha]; [lia|]. rewrite Ha in Hr2.
      symmetry in Hr2. apply aread_ok in Hr2. apply aread_in. lia.
  Qed.
  (** Lengths of the wave numbers. *)
  Lemma legendre_k_length (t t' : tau) : dc_legendre L t = Ok t' ->
    arr t' KV = arr t KV \/ exists k k', arr t KV = Some k /\ arr t' KV = Some k' /\ zlen k' = zlen k.
  Proof.
    intros E. assert (E0 := E). unfold dc_legendre in E. unfold guarded in E at 1. destruct (err t) eqn:Ee.
    { injection E as <-. auto. }
    apply bind_ok in E. destruct E as (t1 & E1 & E).
    apply bind_ok in E. destruct E as (t2 & E2 & E).
    assert (A2 : arr t2 = arr t).
    { destruct (checks_core _ _ E1) as [->|[m ->]]; destruct (checks_range _ _ E2) as [->|[m' ->]]; reflexivity. }
    unfold guarded in E. destruct (err t2) eqn:Ee2; [injection E as <-; left; rewrite A2; reflexivity|].
    apply bind_ok in E. destruct E as (f & Ef & E).
    apply bind_ok in E. destruct E as (t3 & E3 & E).
    assert (A3 : arr t' = arr t3).
    { cbv zeta in E. do 4 (apply bind_ok in E; destruct E as (? & ? & E)).
      destruct (negb _) in E; [injection E as <-; reflexivity|]. apply seq_run_frames in E. destruct E as (T & e & ->). reflexivity. }
    unfold flip_k in E3. destruct (use_fwd t2); [|injection E3 as <-; left; rewrite A3, A2; reflexivity].
    apply bind_ok in E3. destruct E3 as (k & Ek & E3). apply bind_ok in E3. destruct E3 as (k' & Ek' & E3).
    injection E3 as <-. right. exists k, k'. rewrite <- A2. split; [destruct (arr t2 KV); inversion Ek; reflexivity|].
    split; [rewrite A3; reflexivity|]. clear - Ek'. destruct (Z_le_dec 0 (n_used t2 + 1)) as [H|H].
    - apply (for_range_partial (fun _ (l : list S) => zlen l = zlen k)) in Ek'; auto.
      intros i s s' Hi Hs Eb. apply bind_ok in Eb. destruct Eb as (v & _ & Eb). apply awrite_ok in Eb.
      etransitivity; [|exact Hs]. tauto.
    - unfold for_range in Ek'. destruct (n_used t2 + 1); [lia|lia|]. injection Ek' as <-. reflexivity.
  Qed.
  Lemma forward_k_length sch (t t' : tau) : forward_model L sch t = Ok (inl t') ->
    arr t' KV = arr t KV \/ exists k k', arr t KV = Some k /\ arr t' KV = Some k' /\ zlen k' = zlen k.
  Proof.
    unfold forward_model. cbv zeta. intros E.
    do 3 (apply bind_ok in E; destruct E as (? & _ & E)).
    match type of E with (if ?c then _ else _) = _ => destruct c end; [discriminate E|].
    apply bind_ok in E. destruct E as (t4 & E4 & E). injection E as <-. cbn.
    unfold diffraction_correction in E4. unfold guarded in E4.
    match type of E4 with match ?c with _ => _ end = _ => destruct c end; [injection E4 as <-; auto|].
    cbv zeta in E4.
    match type of E4 with context [psinum ?u] => set (u0 := u) in * end.
    assert (FR : frames u0 t4 -> arr t4 KV = arr t KV) by (intros (T & e & ->); reflexivity).
    destruct (psinum u0); cbn [psi_val Z.eqb Z.leb Z.ltb Z.compare Pos.compare Pos.compare_cont Pos.eqb] in E4;
      try (left; apply FR; first [eapply dc_fresnel_frames; exact E4 | eapply dc_newton_frames; exact E4
        | eapply dc_interp_frames; exact E4 | eapply dc_fft_frames; exact E4 | injection E4 as <-; apply frames_err]; fail).
    apply legendre_k_length in E4. exact E4.
  Qed.

  (** C23: a run with forward modelling returns the same inverse as one without. *)
  Lemma forward_same_inverse sch (t t1 : tau) :
    reconstruction L sch (set_use_fwd t true) = Ok t1 -> clean t1 ->
    exists t2, reconstruction L sch (set_use_fwd t false) = Ok t2 /\ clean t2 /\ same_inverse t2 t1 /\
      (psinum t <> PsiLegendre -> arr t1 KV = arr t2 KV).
  Proof.
    unfold reconstruction. intros E Hc.
    rewrite blind_keywords in *. unfold rmap in *. destruct (check_keywords t) as [k1|] eqn:E1; [|discriminate E].
    cbn [bind] in *. rewrite blind_occ in *. unfold rmap in *.
    destruct (check_occ_type L k1) as [k2|] eqn:E2; [|discriminate E]. cbn [bind] in *.
    rewrite blind_gww in *. unfold rmap in *. destruct (get_window_width L k2) as [k3|] eqn:E3; [|discriminate E].
    cbn [bind] in *. rewrite blind_range in *. unfold rmap in *.
    destruct (check_data_range k3) as [k4|] eqn:E4; [|discriminate E]. cbn [bind] in *.
    assert (P3 : psinum k3 = psinum t).
    { destruct (occ_type_only L _ _ E2) as (A & d & e & H & _).
      assert (P1 : psinum k1 = psinum t) by (destruct (checks_keywords _ _ E1) as [->|[m ->]]; reflexivity).
      destruct (clean_or k2) as [C2|[m C2]].
      - destruct (gww_selects L k2 k3 E3 C2) as [(_ & r0 & r1 & s & n & e' & w & Hk & _)|(_ & _ & r0 & r1 & s & w & Hk & _)];
          rewrite Hk; cbn; rewrite H; cbn; exact P1.
      - rewrite (sticky_gww L k2 m C2) in E3. injection E3 as <-. rewrite H. exact P1. }
    assert (G0 : forall b K, guarded (set_use_fwd k4 b) K = match err k4 with Some _ => Ok (set_use_fwd k4 b) | None => K end) by reflexivity.
    rewrite !G0 in *. clear G0.
    destruct (err k4) eqn:C4; [injection E as <-; unfold clean in Hc; cbn in Hc; congruence|].
    cbv zeta in *. cbn [arr_size set_use_fwd] in *.
    set (al := if t_alloc L 30 then Some (fresh (arr_size k4)) else None) in *.
    change (set_T_out (set_use_fwd k4 true) al) with (set_use_fwd (set_T_out k4 al) true) in E.
    change (set_T_out (set_use_fwd k4 false) al) with (set_use_fwd (set_T_out k4 al) false).
    rewrite blind_core in *. unfold rmap in *. destruct (check_core_data (set_T_out k4 al)) as [k6|] eqn:E6; [|discriminate E].
    cbn [bind] in *.
    assert (G0 : forall b K, guarded (set_use_fwd k6 b) K = match err k6 with Some _ => Ok (set_use_fwd k6 b) | None => K end) by reflexivity.
    rewrite !G0 in *. clear G0.
    destruct (err k6) eqn:C6; [injection E as <-; unfold clean in Hc; cbn in Hc; congruence|].
    change (set_use_fwd (set_use_fwd k6 true) false) with (set_use_fwd k6 false) in E.
    change (set_use_fwd (set_use_fwd k6 false) false) with (set_use_fwd k6 false).
    destruct (diffraction_correction L sch (set_use_fwd k6 false)) as [k7|] eqn:E7; [|discriminate E].
    cbn [bind] in *. cbn [use_fwd set_use_fwd] in *.
    apply dc_frames_inv in E7; [|reflexivity]. destruct E7 as (T7 & e7 & ->).
    set (k8 := set_use_fwd (set_err (set_T_out (set_use_fwd k6 false) T7) e7) false) in *.
    change (set_use_fwd (set_err (set_T_out (set_use_fwd k6 false) T7) e7) true) with (set_use_fwd k8 true) in E.
    apply bind_ok in E. destruct E as (r & Er & E). assert (Er0 := Er). apply forward_restores in Er.
    destruct r as [t9|t9]; [|injection E as <-; destruct Er as [[m Er] _]; unfold clean in Hc; congruence].
    assert (C9 : clean t9).
    { destruct (clean_or t9) as [C9|[m C9]]; auto.
      rewrite (sticky_finish L t9 m C9) in E. injection E as <-. unfold clean in Hc. congruence. }
    (* the inverse run had no error either *)
    assert (C8 : clean k8).
    { destruct (clean_or k8) as [C8|[m C8]]; auto. exfalso. clear - Er0 C8 C9. unfold forward_model in Er0. cbv zeta in Er0.
      do 3 (apply bind_ok in Er0; destruct Er0 as (? & _ & Er0)).
      match type of Er0 with (if ?c then _ else _) = _ => destruct c end; [discriminate Er0|].
      apply bind_ok in Er0. destruct Er0 as (t4 & E4 & Er0). injection Er0 as <-.
      unfold diffraction_correction in E4.
      match type of E4 with guarded ?u _ = _ => rewrite (guarded_err u m) in E4 by exact C8 end.
      injection E4 as <-. unfold clean in C9. cbn in C9, C8. congruence. }
    assert (K := forward_k_length _ _ _ Er0).
    destruct Er as (R1 & R2 & R3 & R4 & R5 & R6 & R7 & R8 & R9 & R10 & R11 & R12 & R13 & RA & RK).
    cbn [T_in T_out start n_used dx arr_size range0 range1 window psinum order use_norm arr set_use_fwd] in *.
    apply finish_exact in E; auto. destruct E as (F1 & F2 & F3 & F4 & F5 & F6 & F7 & F8 & F9 & F10 & F11 & F12 & F13 & F14 & F15).
    rewrite R1, R3, R4 in F1. rewrite R2, R3, R4 in F2. rewrite R3, R4 in F3.
    assert (D : exists t2, finish L k8 = Ok t2).
    { apply finish_defined; eauto. intros f Hf. specialize (F3 f Hf).
      destruct (rf_eqb f KV) eqn:EK.
      - apply rf_eqb_eq in EK. subst f. destruct K as [K|(k & k' & K1 & K2 & K3)].
        + rewrite K in F3. eauto.
        + rewrite K2 in F3. rewrite K1. eapply resize_len; [exact K3|exact F3].
      - rewrite RA in F3 by (intros ->; cbn in EK; discriminate). eauto. }
    destruct D as (t2 & D). exists t2. split; [exact D|].
    apply finish_exact in D; auto. destruct D as (D1 & D2 & D3 & D4 & D5 & D6 & D7 & D8 & D9 & D10 & D11 & D12 & D13 & D14 & D15).
    split; [unfold clean in *; congruence|].
    assert (P8 : psinum k8 = psinum t).
    { assert (H : psinum k4 = psinum k3) by (destruct (checks_range _ _ E4) as [->|[m ->]]; reflexivity).
      unfold k8. cbn. destruct (checks_core _ _ E6) as [->|[m ->]]; cbn; congruence. }
    split; [|intros HP; rewrite <- P8 in HP].
    - unfold same_inverse. split.
      + intros f Hf. destruct (in_dec rf_dec f finish_resized) as [Hi|Hi].
        * assert (Q := F3 f Hi). rewrite RA in Q by auto. rewrite (D3 f Hi) in Q. congruence.
        * rewrite F4, D4 by auto. apply RA; auto.
      + repeat (split; [congruence|]). congruence.
    - assert (Q := F3 KV ltac:(cbn; tauto)). rewrite RK in Q by auto. rewrite (D3 KV ltac:(cbn; tauto)) in Q. congruence.
  Qed.
End Forward.
