(** * Proof_Exact: the drivers over the real numbers (C61). *)
From Coq Require Import List ZArith Bool Reals Lia Lra String.
From Flocq Require Import Core.
From Verif Require Import Base BaseFacts Scalar Model_TauRec Model_Checks Model_Select Model_Transform Model_Interp
  Model_Recon Spec_Tau Spec_Select Spec_Safety Spec_Real Spec_Fft Spec_Exact Proof_Checks Proof_Safety Proof_Drivers Proof_SafeDbl.
Import ListNotations.
Open Scope Z_scope.

Lemma rcast_ok (q : R) (n : Z) : (0 <= q <= IZR n)%R -> n < two64 ->
  @scast real_scalar q = Ok (Ztrunc q) /\ 0 <= Ztrunc q <= n.
Proof.
  intros Hq Hn. assert (B : 0 <= Ztrunc q <= n).
  { rewrite Ztrunc_floor by lra. split; [apply Zfloor_lub; lra|]. apply le_IZR. apply Rle_trans with (2 := proj2 Hq). apply Zfloor_lb. }
  split; [|exact B]. cbn [scast real_scalar]. destruct (Z.leb_spec 0 (Ztrunc q)), (Z.ltb_spec (Ztrunc q) two64); try lia. reflexivity.
Qed.
Lemma rdiv_le (x d : R) (k : R) : (0 < d)%R -> (0 <= x <= d * k)%R -> (0 <= x / d <= k)%R.
Proof.
  intros Hd Hx. split.
  - apply Rmult_le_pos; [lra|apply Rlt_le, Rinv_0_lt_compat; lra].
  - apply Rmult_le_reg_r with d; [exact Hd|]. unfold Rdiv. rewrite Rmult_assoc, Rinv_l by lra. lra.
Qed.

Lemma rwidth_fun (t : rtau) i (x y : R) : width t i (x : real_scalar) -> width t i (y : real_scalar) -> x = y.
Proof. intros A B. exact (width_fun t i x y A B). Qed.

Section Margins.
  Variables (t : rtau) (lo hi : Z).
  Hypothesis Hd : (0 < dx t)%R.
  Hypothesis HM : margins t lo hi.
  Hypothesis Hhi : hi <= arr_size t.
  Hypothesis Hsz : arr_size t < two64.
  Local Notation two_dx := ((2 * dx t)%R : real_scalar).

  Lemma m_half i (x : R) : lo <= i < hi -> width t i (x : real_scalar) ->
    (0 <= x)%R /\ @scast real_scalar (x / (2 * dx t))%R = Ok (Ztrunc (x / (2 * dx t))) /\ 0 <= Ztrunc (x / (2 * dx t)) <= i.
  Proof.
    intros Hi Hx. destruct (proj1 HM i Hi) as (y & Hy & By). assert (y = x) by (eapply rwidth_fun; eauto). subst y.
    split; [lra|]. apply rcast_ok; [|lia]. apply rdiv_le; lra.
  Qed.
  Lemma m_gap (x y : R) : @sge real_scalar (@sabs real_scalar (@ssub real_scalar x y)) (2 * dx t)%R = false -> (x - y < 2 * dx t)%R.
  Proof.
    unfold sge. cbn [sle sabs ssub real_scalar]. destruct (Rle_dec _ _) as [|G]; [discriminate|]. intros _.
    apply Rnot_le_lt in G. pose proof (Rle_abs (x - y)). lra.
  Qed.
  Lemma m_fits : windows_fit t two_dx lo hi.
  Proof.
    split.
    - intros i Hi. destruct (proj1 HM i Hi) as (x & Hx & _). destruct (m_half i x Hi Hx) as (_ & E & _).
      eexists. exists x. split; [exact Hx|exact E].
    - intros j i m Hj Hi Hre (x & Hx & Em). destruct (m_half j x ltac:(lia) Hx) as (Px & E & B).
      change (@scast real_scalar (x / (2 * dx t))%R = Ok m) in Em. rewrite E in Em. injection Em as <-. split; [lia|].
      destruct (proj1 HM i ltac:(lia)) as (y & Hy & By).
      assert (G : (x - y < 2 * dx t)%R).
      { destruct Hre as [<-|(x' & y' & Hx' & Hy' & Hg)].
        - assert (x = y) by (eapply rwidth_fun; eauto). subst. lra.
        - assert (x = x') by (eapply rwidth_fun; eauto). assert (y = y') by (eapply rwidth_fun; eauto). subst x' y'. apply m_gap. exact Hg. }
      pose proof (proj2 HM j i x y Hj Hi Hx Hy G) as Q.
      destruct (rcast_ok (x / (2 * dx t)) (arr_size t - 1 - i)) as (_ & B2); [apply rdiv_le; lra|lia|]. lia.
  Qed.
  Lemma m_mono i j (x y : R) m n : lo <= i < hi -> lo <= j < hi -> width t i (x : real_scalar) -> width t j (y : real_scalar) -> (x <= y)%R ->
    half_count t two_dx i m -> half_count t two_dx j n -> m <= n.
  Proof.
    intros Hi Hj Hx Hy Hxy (x' & Hx' & Em) (y' & Hy' & En).
    assert (x = x') by (eapply rwidth_fun; eauto). assert (y = y') by (eapply rwidth_fun; eauto). subst x' y'.
    destruct (m_half i x Hi Hx) as (_ & E & _). destruct (m_half j y Hj Hy) as (_ & E' & _).
    change (@scast real_scalar (x / (2 * dx t))%R = Ok m) in Em. change (@scast real_scalar (y / (2 * dx t))%R = Ok n) in En.
    rewrite E in Em. rewrite E' in En. injection Em as <-. injection En as <-.
    apply Ztrunc_le. apply Rmult_le_compat_r; [apply Rlt_le, Rinv_0_lt_compat; lra|exact Hxy].
  Qed.
  Lemma m_wide i m : (forall x : R, width t i (x : real_scalar) -> (2 * dx t <= x)%R) -> lo <= i < hi -> half_count t two_dx i m -> 1 <= m.
  Proof.
    intros Hw Hi (x & Hx & Em). destruct (m_half i x Hi Hx) as (_ & E & _).
    change (@scast real_scalar (x / (2 * dx t))%R = Ok m) in Em. rewrite E in Em. injection Em as <-.
    specialize (Hw x Hx). apply Z.le_trans with (Ztrunc (IZR 1)); [rewrite Ztrunc_IZR; lia|]. apply Ztrunc_le.
    apply Rmult_le_reg_r with (2 * dx t)%R; [lra|]. unfold Rdiv. rewrite Rmult_assoc, Rinv_l by lra. lra.
  Qed.
End Margins.

Section Drivers.
  Variables (L : rlib) (sch : schedule) (t : rtau) (rho : list R).
  Hypothesis HL : maximum_law L.
  Hypothesis Hsch : valid_schedule sch.
  Hypothesis Hcl : clean t.
  Hypothesis HC : complete t.
  Hypothesis Hs : 0 <= start t.
  Hypothesis Hn : 0 < n_used t.
  Hypothesis He : start t + n_used t <= arr_size t.
  Hypothesis H2 : 2 <= arr_size t.
  Hypothesis Ho : no_obstacle L t.
  Hypothesis Hd : (0 < dx t)%R.
  Hypothesis Hrho : arr t RHO = Some rho.
  Hypothesis Heven : evenly_spaced t.
  Hypothesis HM : margins t (start t) (start t + n_used t).
  Local Notation two_dx := ((2 * dx t)%R : real_scalar).

  Lemma x_size : arr_size t < two64.
  Proof. apply HC. Qed.
  Lemma x_width : exists w, arr t WKM = Some w /\ zlen w = arr_size t.
  Proof. apply (proj1 HC). simpl. tauto. Qed.
  Lemma x_out : exists T, T_out t = Some T /\ zlen T = arr_size t.
  Proof. apply HC. Qed.
  Lemma x_rho_len : zlen rho = arr_size t.
  Proof. destruct (proj1 HC RHO ltac:(simpl; tauto)) as (l & E & Hl). rewrite Hrho in E. injection E as <-. exact Hl. Qed.
  (** The spacing found in the radii. *)
  Lemma x_step c : 0 <= c -> c + 1 < arr_size t -> exists r0 r1 : R, rd t RHO c = Ok (r0 : real_scalar) /\ rd t RHO (c + 1) = Ok (r1 : real_scalar) /\
    (@smul real_scalar s2 (@ssub real_scalar r1 r0)) = two_dx.
  Proof.
    intros Hc Hc1. pose proof x_rho_len as HLr. destruct Heven as (rh & r & Er & Hr).
    rewrite Hrho in Er. injection Er as <-.
    unfold rd. rewrite Hrho. cbn [deref bind].
    destruct (aread_in rho c) as [a Ea]; [lia|]. destruct (aread_in rho (c + 1)) as [b Eb]; [lia|].
    exists a, b. split; [exact Ea|]. split; [exact Eb|].
    apply entry_read in Ea, Eb. apply Hr in Ea, Eb. rewrite Ea, Eb, plus_IZR. unfold s2. cbn [smul ssub sofZ real_scalar]. change (car real_scalar) with R. ring.
  Qed.
  Lemma x_max : exists (wm : R) j, w_max_of L t = Ok (wm : real_scalar) /\ start t <= j < start t + n_used t /\ width t j (wm : real_scalar) /\
    forall i (x : R), start t <= i < start t + n_used t -> width t i (x : real_scalar) -> (x <= wm)%R.
  Proof.
    destruct x_width as (w & Hw & Hlen). change (car real_scalar) with R in *. unfold w_max_of. rewrite Hw. cbn [deref bind].
    set (l := firstn (Z.to_nat (n_used t)) (skipn (Z.to_nat (start t)) w)).
    assert (El : aprefix (skipn (Z.to_nat (start t)) w) (n_used t) = Ok l).
    { apply aprefix_in. rewrite zlen_skipn by lia. lia. }
    rwc El. cbn [bind].
    assert (Ll : zlen l = n_used t).
    { unfold l. rewrite zlen_firstn; [lia|]. rewrite zlen_skipn by lia. lia. }
    assert (Hread : forall k, 0 <= k < n_used t -> aread l k = aread w (start t + k)).
    { intros k Hk. unfold l. rewrite aread_firstn by lia. rewrite aread_skipn by lia. f_equal. }
    assert (Hin : forall x, In x l -> exists i, start t <= i < start t + n_used t /\ width t i (x : real_scalar)).
    { intros x Hx. destruct (In_aread l x Hx) as [k Hk].
      assert (0 <= k < zlen l) by (apply aread_ok in Hk; tauto).
      rewrite Hread in Hk by lia. exists (start t + k). split; [lia|]. exists w. split; auto. apply entry_read; auto. }
    destruct (HL l) as [M1 M2].
    { intros ->. rewrite zlen_nil in Ll. lia. }
    destruct (Hin _ M1) as (j & Hj & Hwj). exists (t_max L l), j. split; auto. split; auto. split; auto.
    intros i x Hi Hx. apply M2.
    destruct Hx as [w' [Ew Hx]]. rewrite Hw in Ew. injection Ew as <-. apply entry_read in Hx.
    apply (aread_In l (i - start t)). rewrite Hread by lia. replace (start t + (i - start t)) with i by lia. auto.
  Qed.

  Lemma x_result (Q : Z -> RC -> Prop) T T' k : T_out t = Some T -> progress t Q T k T' -> n_used t <= k ->
    clean (set_Tout t T') /\ forall i, start t <= i < start t + n_used t -> exists v, result_at (set_Tout t T') i v /\ Q i v.
  Proof.
    intros ET (P1 & P2 & P3) Hk. split; [exact Hcl|]. intros i Hi. destruct (P2 i ltac:(lia)) as (v & Ev & Hv).
    exists v. split; [|exact Hv]. exists T'. split; [reflexivity|]. apply entry_read. exact Ev.
  Qed.

  Lemma fresnel_driver_exact :
    start t + n_used t < arr_size t -> margins t (start t) (start t + n_used t + 1) ->
    (exists j (x y : R), selected t j /\ width t j (x : real_scalar) /\ width t (start t + n_used t) (y : real_scalar) /\ (y <= x)%R) ->
    exists t', dc_fresnel L sch t = Ok t' /\ clean t' /\
      forall i, start t <= i < start t + n_used t -> exists v, result_at t' i v /\ fresnel_sample L t two_dx i v.
  Proof.
    intros Hlt HM1 (j & x & y & Hj & Hx & Hy & Hxy). unfold dc_fresnel.
    rewrite check_core_complete by auto. cbn [bind]. destruct Ho as [Hal Hrc]. rewrite Hrc. cbn [bind].
    rewrite guarded_clean by auto. cbv zeta. change (s2 * dx t)%S with two_dx.
    destruct x_max as (wm & jm & Em & Hjm & Hwm & Hmax). rewrite Em. cbn [bind].
    destruct (m_half t _ _ Hd HM ltac:(lia) x_size jm wm Hjm Hwm) as (Pm & Enm & Bm).
    set (nm := Ztrunc (wm / (2 * dx t))) in *.
    rwc Enm. cbn [bind].
    rewrite !Hal. cbn [andb negb]. destruct x_out as (T & ET & HT). rewrite ET. cbn [deref bind].
    assert (Hmax1 : forall i (x : R), start t <= i < start t + n_used t + 1 -> width t i (x : real_scalar) -> (x <= wm)%R).
    { intros i xi Hi Hxi. destruct (Z.eq_dec i (start t + n_used t)) as [->|Hne].
      - assert (xi = y) by (eapply rwidth_fun; eauto). subst xi. apply Rle_trans with (1 := Hxy). apply (Hmax j); auto.
      - apply (Hmax i); auto. lia. }
    destruct (fresnel_threads_ok L t two_dx wm nm HC Hs ltac:(lia) ltac:(lia)) with (sch := sch) (T := T) as (T' & ET' & HT'); auto.
    - apply m_fits; auto; try lia. apply x_size.
    - intros i mi Hi Hh.
      assert (Hhm : half_count t two_dx jm nm) by (exists wm; split; auto).
      pose proof Hh as (xi & Hxi & _).
      apply (m_mono t (start t) (start t + n_used t + 1) Hd HM1 ltac:(lia) x_size i jm xi wm mi nm); auto; try lia.
      apply (Hmax1 i); auto.
    - lia.
    - intros i wc Hi Hwc Hg. specialize (Hmax1 i wc Hi Hwc).
      destruct (m_half t _ _ Hd HM1 ltac:(lia) x_size i wc Hi Hwc) as (Pc & Ec & Bc).
      change (@scast real_scalar (wc / (2 * dx t))%R = Ok 0). rewrite Ec. f_equal.
      unfold sge in Hg. cbn [sle sabs ssub smul sneg sofZ real_scalar] in Hg. destruct (Rle_dec _ _) as [|G]; [discriminate|].
      apply Rnot_le_lt in G. rewrite Rabs_left1 in G by lra.
      assert (Q : (0 <= wc / (2 * dx t) < 1)%R).
      { split; [apply Rmult_le_pos; [lra|apply Rlt_le, Rinv_0_lt_compat; lra]|].
        apply Rmult_lt_reg_r with (2 * dx t)%R; [lra|]. unfold Rdiv. rewrite Rmult_assoc, Rinv_l by lra. lra. }
      rewrite Ztrunc_floor by lra. apply Zfloor_imp. simpl. lra.
    - change (car real_scalar) with R in *. rwc ET'. cbn [bind]. eexists. split; [reflexivity|].
      apply (x_result _ T T' (n_used t + 1)); auto. lia.
  Qed.

  Lemma newton_driver_exact f : select_newton L (psinum t) = Ok (inl f) ->
    match psinum t with PsiNewtonFilon02 | PsiNewtonFilon12 => False | _ => True end ->
    exists t', dc_newton L sch t = Ok t' /\ clean t' /\
      forall i, start t <= i < start t + n_used t -> exists v, result_at t' i v /\ newton_sample L t f two_dx rho i v.
  Proof.
    intros Es Hp. unfold dc_newton.
    rewrite check_core_complete by auto. cbn [bind]. destruct Ho as [Hal Hrc]. rewrite Hrc. cbn [bind].
    rewrite guarded_clean by auto. destruct (x_step 0) as (r0 & r1 & Er0 & Er1 & Etw); [lia|lia|]. change (0 + 1) with 1 in Er1.
    rewrite Er1. cbn [bind]. rewrite Er0. cbn [bind]. cbv zeta.
    rewrite Etw.
    destruct x_max as (wm & jm & Em & Hjm & Hwm & Hmax). rewrite Em. cbn [bind].
    destruct (m_half t _ _ Hd HM ltac:(lia) x_size jm wm Hjm Hwm) as (Pm & Enm & Bm).
    set (nm := Ztrunc (wm / (2 * dx t))) in *.
    assert (Hnp : @newton_points real_scalar wm (2 * dx t)%R = Ok (2 * nm + 1)).
    { unfold newton_points. rwc Enm. cbn [bind].
      pose proof x_size. rewrite wrap64_id; auto.
      assert (jm + nm < arr_size t).
      { apply (proj2 (m_fits t (start t) (start t + n_used t) Hd HM He x_size) jm jm nm); try lia; [left; reflexivity|].
        exists wm. split; auto. }
      lia. }
    rwc Hnp. cbn [bind]. rewrite Es. cbn [bind]. rewrite Hal. cbn [negb].
    destruct x_out as (T & ET & HT). rewrite ET. cbn [deref bind].
    assert (Hf : newton_safe t 0 f).
    { intros w m c G1 G2 G3 G4. apply select_newton_inv in Es. destruct (psinum t); try contradiction; subst f.
      - eapply riemann_safe; eauto.
      - eapply filon01_safe; eauto.
      - eapply filon11_safe; eauto.
      - eapply elliptical_safe; eauto.
      - eapply perturbed_safe; eauto. }
    destruct (newton_threads_ok L t f _ two_dx (2 * nm + 1) rho HC Hf Hs Hn He Hrho) with (sch := sch) (T := T) as (T' & ET' & HT'); auto.
    - apply m_fits; auto. apply x_size.
    - intros i m Hi (x & Hx & Ex). destruct (m_half t _ _ Hd HM ltac:(lia) x_size i x Hi Hx) as (_ & E & B).
      change (@scast real_scalar (x / (2 * dx t))%R = Ok m) in Ex. rewrite E in Ex. injection Ex as <-. lia.
    - intros i mi Hi Hh.
      assert (Hhm : half_count t two_dx jm nm) by (exists wm; split; auto).
      pose proof Hh as (xi & Hxi & _). assert (mi <= nm); [|lia].
      apply (m_mono t (start t) (start t + n_used t) Hd HM ltac:(lia) x_size i jm xi wm mi nm); auto; try lia.
      apply (Hmax i); auto.
    - rwc ET'. cbn [bind]. eexists. split; [reflexivity|]. apply (x_result _ T T' (n_used t)); auto. lia.
  Qed.

  Lemma x_first : exists (w0 : R) m, rd t WKM (start t) = Ok (w0 : real_scalar) /\ @scast real_scalar (w0 / (2 * dx t))%R = Ok m.
  Proof.
    destruct (proj1 (m_fits t _ _ Hd HM He x_size) (start t)) as (m & w0 & Hw0 & Em); [lia|].
    apply width_rd in Hw0. eauto.
  Qed.
  Hypothesis Hwide : forall i (x : R), selected t i -> width t i (x : real_scalar) -> (2 * dx t <= x)%R.
  Lemma x_next : start t + 1 < arr_size t.
  Proof.
    destruct x_first as (w0 & m & Ew & Em). apply width_rd in Ew.
    assert (start t + m < arr_size t).
    { apply (proj2 (m_fits t (start t) (start t + n_used t) Hd HM He x_size) (start t) (start t) m); try lia; [left; reflexivity|].
      exists w0. split; auto. }
    assert (1 <= m); [|lia].
    apply (m_wide t (start t) (start t + n_used t) Hd HM He x_size (start t)); [intros x Hx; apply (Hwide (start t)); auto; unfold selected; lia|lia|].
    exists w0. split; auto.
  Qed.
  Lemma x_seq f : interp_safe t 1 f ->
    forall (w0 : R) m, rd t WKM (start t) = Ok (w0 : real_scalar) -> @scast real_scalar (w0 / (2 * dx t))%R = Ok m ->
    exists t', seq_run L f t w0 two_dx m = Ok t' /\ clean t' /\
      forall i, start t <= i < start t + n_used t -> exists v, result_at t' i v /\ interp_sample L t f two_dx i v.
  Proof.
    intros Hf w0 m Ew Em. destruct Ho as [Hal _]. destruct x_out as (T & ET & HT).
    destruct (seq_run_ok L t f 1 two_dx HC Hf Hn) with (w_init := w0) (nw := m) (T := T)
        as (T' & e & HT' & E & HP & HE); auto.
    - apply m_fits; auto. apply x_size.
    - intros i mi Hi Hh. apply (m_wide t (start t) (start t + n_used t) Hd HM He x_size i); auto.
      intros x Hx. apply (Hwide i); auto.
    - right. lia.
    - destruct e as [e|]; [destruct HE as [site HE]; [discriminate|rewrite Hal in HE; discriminate]|].
      eexists. split; [exact E|]. apply (x_result _ T T' (n_used t)); auto. lia.
  Qed.
  Lemma interp_driver_exact f : select_interp L (psinum t) = Ok (inl (Some f)) ->
    exists t', dc_interp L t = Ok t' /\ clean t' /\
      forall i, start t <= i < start t + n_used t -> exists v, result_at t' i v /\ interp_sample L t f two_dx i v.
  Proof.
    intros Es. unfold dc_interp.
    rewrite check_core_complete by auto. cbn [bind]. pose proof Ho as [Hal Hrc]. rewrite Hrc. cbn [bind].
    rewrite guarded_clean by auto. cbv zeta.
    destruct x_first as (w0 & m & Ew & Em). rewrite Ew. cbn [bind].
    destruct (x_step (start t)) as (r0 & r1 & Er0 & Er1 & Etw); [lia|apply x_next|].
    rewrite Er1. cbn [bind]. rewrite Er0. cbn [bind].
    rewrite Etw.
    rwc Em. cbn [bind]. rewrite Es. cbn [bind]. rewrite !Hal. cbn [andb negb].
    apply x_seq; auto.
    intros x w m' c G1 G2 G3 G4 G5. apply select_interp_inv in Es. destruct (psinum t); try contradiction; subst f.
    - eapply newton4_safe; eauto.
    - eapply newton8_safe; eauto.
    - eapply newton16_safe; eauto.
  Qed.
  Lemma legendre_driver_exact f : 2 <= order t -> (forall a b, zlen (t_legendre L a b (order t)) = order t) -> use_fwd t = false ->
    aread (legendre_table L) (legendre_index t) = Ok f ->
    exists t', dc_legendre L t = Ok t' /\ clean t' /\
      forall i, start t <= i < start t + n_used t -> exists v, result_at t' i v /\ interp_sample L t (legendre_step L f) two_dx i v.
  Proof.
    intros Hor Hleg Hfw Ef. unfold dc_legendre. rewrite guarded_clean by auto.
    rewrite check_core_complete by auto. cbn [bind]. pose proof Ho as [Hal Hrc]. rewrite Hrc. cbn [bind].
    rewrite guarded_clean by auto. rwc Ef. cbn [bind]. unfold flip_k. rewrite Hfw. cbn [bind]. cbv zeta.
    destruct x_first as (w0 & m & Ew & Em). rewrite Ew. cbn [bind].
    destruct (x_step (start t)) as (r0 & r1 & Er0 & Er1 & Etw); [lia|apply x_next|].
    rewrite Er1. cbn [bind]. rewrite Er0. cbn [bind].
    rewrite Etw.
    rwc Em. cbn [bind]. rewrite !Hal. cbn [andb negb].
    apply x_seq; auto.
    intros x w m' c G1 G2 G3 G4 G5. apply aread_In in Ef. apply legendre_step_safe; auto; lia.
  Qed.
End Drivers.
