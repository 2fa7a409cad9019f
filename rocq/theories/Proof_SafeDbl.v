(** * Proof_SafeDbl: the fitting conditions in double arithmetic, and the safety of
    the drivers. *)
From Coq Require Import List ZArith Bool String Lia Reals Lra.
From Flocq Require Import Core IEEE754.BinarySingleNaN.
From Verif Require Import Base BaseFacts Dbl DblFacts DblArith Scalar Model_TauRec Model_Checks Model_Select
  Model_Transform Model_Interp Model_Recon Spec_Tau Spec_Select Proof_Checks Proof_Select
  Spec_Safety Proof_Safety Proof_Drivers.
Import ListNotations.
Open Scope Z_scope.

Lemma width_fun {S} (t : tau S) i x y : width t i x -> width t i y -> x = y.
Proof.
  intros [w [E H]] [w' [E' H']]. rewrite E in E'. inversion E'; subst. eapply entry_fun; eauto.
Qed.
Lemma round_fix0 x : round radix2 (FIX_exp 0) Ztrunc x = IZR (Ztrunc x).
Proof.
  unfold round, F2R, scaled_mantissa, cexp, FIX_exp. simpl. rewrite !Rmult_1_r. reflexivity.
Qed.
Lemma dcast_fin x : finite x -> (0 <= val x)%R -> (val x < IZR two64)%R -> dcast x = Ok (Ztrunc (val x)).
Proof.
  intros F H0 H1. unfold dcast. unfold finite in F. rewrite F.
  assert (E : Btrunc x = Ztrunc (val x)).
  { apply eq_IZR. rewrite (Btrunc_correct dprec demax dprec_lt_emax x). apply round_fix0. }
  rewrite E. cbv zeta.
  assert (G0 : 0 <= Ztrunc (val x)) by (rewrite Ztrunc_floor by auto; apply Zfloor_lub; auto).
  assert (G1 : Ztrunc (val x) < two64).
  { apply lt_IZR. rewrite Ztrunc_floor by auto. pose proof (Zfloor_lb (val x)). lra. }
  apply Z.leb_le in G0. apply Z.ltb_lt in G1. rewrite G0, G1. reflexivity.
Qed.
Lemma dcast_range x m : dcast x = Ok m -> 0 <= m < two64.
Proof.
  unfold dcast. destruct (dfinite x); [|discriminate]. cbv zeta.
  destruct (0 <=? Btrunc x) eqn:E0; [|discriminate]. cbn [andb].
  destruct (Btrunc x <? two64) eqn:E1; [|discriminate]. intros E; inversion E. lia.
Qed.
Lemma drnd_int k : Z.abs k <= 9007199254740992 -> drnd (IZR k) = IZR k.
Proof. intros H. destruct (dofZ_exact k H) as [_ E]. rewrite <- E. apply drnd_d2r. Qed.

Lemma IZR_big k : Z.abs k <= 9007199254740992 -> (Rabs (IZR k) < dbig)%R.
Proof. intros H. destruct (dofZ_exact k H) as [_ E]. rewrite <- E. apply d2r_big. Qed.

(** Quotient of a width and a step, cast to an integer. *)
Lemma quotient_le (x d : double) k :
  finite x -> finite d -> (0 < val d)%R -> (0 <= val x <= val d * IZR k)%R -> 0 <= k <= 9007199254740992 ->
  exists m, dcast (ddiv x d) = Ok m /\ 0 <= m <= k /\ m = Ztrunc (drnd (val x / val d)).
Proof.
  intros Fx Fd Hd Hx Hk.
  assert (Hq : (0 <= val x / val d <= IZR k)%R).
  { split; [apply Rmult_le_pos; [tauto|apply Rlt_le, Rinv_0_lt_compat; auto]|].
    apply Rmult_le_reg_r with (val d); auto. field_simplify; lra. }
  assert (Hr : (0 <= drnd (val x / val d) <= IZR k)%R).
  { rewrite <- drnd_0. rewrite <- (drnd_int k) by lia. rewrite drnd_0 at 1.
    split; [rewrite <- drnd_0 at 1|]; apply drnd_le; lra. }
  destruct (ddiv_fin x d) as [E F]; auto; unfold val in *; try lra.
  { rewrite Rabs_pos_eq by lra. apply Rle_lt_trans with (IZR k); [lra|].
    pose proof (IZR_big k). rewrite Rabs_pos_eq in H by (apply IZR_le; lia). apply H; lia. }
  assert (Hlt : (IZR k < IZR two64)%R) by (apply IZR_lt; unfold two64; lia).
  exists (Ztrunc (drnd (val x / val d))). split; [|split; auto].
  - rewrite dcast_fin; unfold val in *; auto; [rewrite E; auto| |]; rewrite E; lra.
  - unfold val. rewrite Ztrunc_floor by lra. split.
    + apply Zfloor_lub. lra.
    + apply le_IZR. apply Rle_trans with (2 := proj2 Hr). apply Zfloor_lb.
Qed.
(** ... is monotone in the width. *)
Lemma quotient_mono (x y d : double) m n :
  (0 < val d)%R -> (0 <= val x <= val y)%R ->
  m = Ztrunc (drnd (val x / val d)) -> n = Ztrunc (drnd (val y / val d)) -> m <= n.
Proof.
  intros Hd H -> ->. apply Ztrunc_le. apply drnd_le. apply Rmult_le_compat_r; [apply Rlt_le, Rinv_0_lt_compat; auto|lra].
Qed.
(** Widths that differ by less than the step, as the loop tests it. *)
Lemma reuse_gap (x y d : double) : finite x -> finite y -> finite d ->
  @sge dbl_scalar (@sabs dbl_scalar (@ssub dbl_scalar x y)) d = false -> (val x - val y < val d)%R.
Proof.
  intros Fx Fy Fd H. unfold sge in H. cbn [sle sabs ssub dbl_scalar] in H.
  destruct (Rlt_le_dec (val x - val y) (val d)) as [G|G]; auto. exfalso.
  destruct (dsub_cases x y Fx Fy) as [[E F]|[[E G2]|[E G2]]].
  - assert (Fa : dfinite (dabs (dsub x y)) = true) by (unfold dfinite, dabs; rewrite is_finite_Babs; exact F).
    apply (proj1 (dle_false _ _ Fd Fa)) in H.
    unfold dabs in H. rewrite B2R_Babs in H. rewrite E in H.
    assert (K : (drnd (B2R d) <= drnd (B2R x - B2R y))%R) by (apply drnd_le; exact G).
    rewrite drnd_d2r in K.
    pose proof (Rle_abs (drnd (B2R x - B2R y))). lra.
  - rewrite E in H. change (dabs (B754_infinity false)) with (B754_infinity false : double) in H.
    rewrite dle_fin_inf in H by auto. discriminate.
  - rewrite E in H. change (dabs (B754_infinity true)) with (B754_infinity false : double) in H.
    rewrite dle_fin_inf in H by auto. discriminate.
Qed.

Section Room.
  Variables (t : dtau) (two_dx : double) (lo hi : Z).
  Hypothesis HR : room t two_dx lo hi.
  Hypothesis Hlo : 0 <= lo.
  Hypothesis Hhi : hi <= arr_size t.
  Hypothesis Hsz : arr_size t <= 9007199254740992.

  Lemma room_half i x : lo <= i < hi -> width t i x ->
    finite x /\ (0 <= val x)%R /\ exists m, dcast (ddiv x two_dx) = Ok m /\ 0 <= m <= i /\
      m = Ztrunc (drnd (val x / val two_dx)).
  Proof.
    intros Hi Hx. destruct HR as (F & P & H1 & _). destruct (H1 i Hi) as (y & Hy & Fy & By).
    assert (y = x) by (eapply width_fun; eauto). subst y. split; auto. split; [lra|].
    apply quotient_le; auto. lia.
  Qed.
  Lemma room_fits : windows_fit t two_dx lo hi.
  Proof.
    split.
    - intros i Hi. destruct (proj1 (proj2 (proj2 HR)) i Hi) as (x & Hx & _).
      destruct (room_half i x Hi Hx) as (_ & _ & m & E & _). exists m, x. auto.
    - intros j i m Hj Hi Hre (x & Hx & Em). change (dcast (ddiv x two_dx) = Ok m) in Em.
      destruct (room_half j x ltac:(lia) Hx) as (Fx & Px & m' & E & B & V).
      assert (m' = m) by congruence. subst m'. split; [lia|].
      destruct (proj1 (proj2 (proj2 HR)) i ltac:(lia)) as (y & Hy & Fy & By).
      assert (G : (val x - val y < val two_dx)%R).
      { destruct HR as (F & P & _). destruct Hre as [<-|(x' & y' & Hx' & Hy' & Hg)].
        - assert (x = y) by (eapply width_fun; eauto). subst. lra.
        - assert (x = x') by (eapply width_fun; eauto). assert (y = y') by (eapply width_fun; eauto). subst x' y'.
          apply reuse_gap; auto. }
      destruct HR as (F & P & _ & H2).
      specialize (H2 j i x y Hj Hi Hx Hy G).
      destruct (quotient_le x two_dx (arr_size t - 1 - i)) as (m2 & E2 & B2 & _); auto; try lia.
      assert (m2 = m) by congruence. subst. lia.
  Qed.
  Lemma room_mono i j x y m n : lo <= i < hi -> lo <= j < hi -> width t i x -> width t j y -> (val x <= val y)%R ->
    half_count t two_dx i m -> half_count t two_dx j n -> m <= n.
  Proof.
    intros Hi Hj Hx Hy Hxy (x' & Hx' & Em) (y' & Hy' & En).
    assert (x = x') by (eapply width_fun; eauto). assert (y = y') by (eapply width_fun; eauto). subst x' y'.
    destruct (room_half i x Hi Hx) as (Fx & Px & m' & E & B & V).
    destruct (room_half j y Hj Hy) as (Fy & Py & n' & E' & B' & V').
    change (dcast (ddiv x two_dx) = Ok m) in Em. change (dcast (ddiv y two_dx) = Ok n) in En.
    assert (Q1 : m = Ztrunc (drnd (val x / val two_dx))) by congruence.
    assert (Q2 : n = Ztrunc (drnd (val y / val two_dx))) by congruence.
    destruct HR as (F & P & _). eapply quotient_mono; [exact P| |exact Q1|exact Q2]. lra.
  Qed.
End Room.

(** ** The largest width *)
Section Max.
  Variables (L : dlib) (t : dtau) (two_dx : double) (w : list double).
  Hypothesis HL : max_law L.
  Hypothesis Hw : arr t WKM = Some w.
  Hypothesis Hlen : zlen w = arr_size t.
  Hypothesis Hs : 0 <= start t.
  Hypothesis Hn : 0 < n_used t.
  Hypothesis He : start t + n_used t <= arr_size t.
  Hypothesis HR : room t two_dx (start t) (start t + n_used t).
  Hypothesis Hsz : arr_size t <= 9007199254740992.

  Lemma w_max_ok : exists wm j, w_max_of L t = Ok wm /\ start t <= j < start t + n_used t /\ width t j wm /\
    forall i x, start t <= i < start t + n_used t -> width t i x -> (val x <= val wm)%R.
  Proof.
    unfold w_max_of. rewrite Hw. cbn [deref bind].
    set (l := firstn (Z.to_nat (n_used t)) (skipn (Z.to_nat (start t)) w)).
    assert (El : aprefix (skipn (Z.to_nat (start t)) w) (n_used t) = Ok l).
    { apply aprefix_in. change (car dbl_scalar) with double. rewrite zlen_skipn by lia. lia. }
    change (car dbl_scalar) with double in *. rewrite El. cbn [bind].
    assert (Ll : zlen l = n_used t).
    { unfold l. rewrite zlen_firstn; [lia|]. rewrite zlen_skipn by lia. lia. }
    assert (Hread : forall k, 0 <= k < n_used t -> aread l k = aread w (start t + k)).
    { intros k Hk. unfold l. rewrite aread_firstn by lia. rewrite aread_skipn by lia. f_equal. }
    assert (Hin : forall x, In x l -> exists i, start t <= i < start t + n_used t /\ width t i x).
    { intros x Hx. destruct (In_aread l x Hx) as [k Hk].
      assert (0 <= k < zlen l) by (apply aread_ok in Hk; tauto).
      rewrite Hread in Hk by lia. exists (start t + k). split; [lia|]. exists w. split; auto. apply entry_read; auto. }
    assert (Hfin : forall i x, start t <= i < start t + n_used t -> width t i x -> finite x).
    { intros i x Hi Hx. destruct (proj1 (proj2 (proj2 HR)) i Hi) as (y & Hy & Fy & _).
      assert (x = y) by (eapply width_fun; eauto). subst; auto. }
    destruct (HL l) as [M1 M2].
    { intros ->. rewrite zlen_nil in Ll. lia. }
    { intros x Hx. destruct (Hin x Hx) as (i & Hi & Hwi). apply dfinite_not_nan. apply (Hfin i); auto. }
    destruct (Hin _ M1) as (j & Hj & Hwj). exists (t_max L l), j. split; auto. split; auto. split; auto.
    intros i x Hi Hx. assert (Hx2 : In x l).
    { destruct Hx as [w' [Ew Hx]]. assert (w' = w) by congruence. subst w'. apply entry_read in Hx.
      apply (aread_In l (i - start t)). rewrite Hread by lia. replace (start t + (i - start t)) with i by lia. auto. }
    apply M2 in Hx2. apply dle_iff in Hx2; auto.
    - apply (Hfin i); auto.
    - apply (Hfin j); auto.
  Qed.
End Max.

(** ** The range check (C13) *)
Section RangeCheck.
  Variables (t : dtau) (w : list double).
  Hypothesis Hw : arr t WKM = Some w.
  Hypothesis Hlen : zlen w = arr_size t.
  Hypothesis Hs : 0 <= start t.
  Hypothesis Hn : 0 <= n_used t.
  Hypothesis He : start t + n_used t <= arr_size t.
  Hypothesis Hsz : 2 * arr_size t < two64.
  Hypothesis Hdef : forall i, selected t i -> exists m, checked_half t i m.

  Lemma data_range_loop_ok (k : nat) : forall n, start t <= n -> n + Z.of_nat k = start t + n_used t ->
    exists r, @data_range_loop dbl_scalar w (ddiv (dfrac 1 2) (dx t)) (arr_size t) k n = Ok r /\
      (r = None <-> forall i m, n <= i < start t + n_used t -> checked_half t i m -> m <= i /\ i + m <= arr_size t).
  Proof.
    induction k as [|k IH]; intros n Hn1 Hk.
    - exists None. split; [reflexivity|]. split; auto. intros _ i m Hi. lia.
    - destruct (Hdef n) as (m & x & Hx & Em); [unfold selected; lia|].
      assert (Hx' := Hx). destruct Hx' as (w' & Ew & Ex). assert (w' = w) by congruence. subst w'. apply entry_read in Ex.
      cbn [data_range_loop]. change (car dbl_scalar) with double in *. rewrite Ex. cbn [bind].
      change (scast (s:=dbl_scalar)) with dcast. change (smul (s:=dbl_scalar)) with dmul.
      rewrite Em. cbn [bind].
      assert (Hm0 : 0 <= m).
      { apply dcast_range in Em. lia. }
      assert (Hu : forall i m', checked_half t i m' -> i = n -> m' = m).
      { intros i m' (x' & Hx' & E') ->. assert (x' = x) by (eapply width_fun; eauto). congruence. }
      destruct (n <? m) eqn:E1.
      + eexists. split; [reflexivity|]. split; [discriminate|]. intros H.
        destruct (H n m) as [G _]; [lia|exists x; auto|]. lia.
      + assert (Ew2 : wrap64 (n + m) = n + m) by (apply wrap64_id; lia). rewrite Ew2.
        destruct (arr_size t <? n + m) eqn:E2.
        * eexists. split; [reflexivity|]. split; [discriminate|]. intros H.
          destruct (H n m) as [_ G]; [lia|exists x; auto|]. lia.
        * destruct (IH (n + 1)) as (r & E & Hr); [lia|lia|]. exists r. split; [exact E|]. rewrite Hr. split.
          -- intros H i m' Hi Hh. destruct (Z.eq_dec i n) as [->|Hne].
             ++ rewrite (Hu n m') by auto. lia.
             ++ apply H; auto. lia.
          -- intros H i m' Hi Hh. apply H; auto. lia.
  Qed.
  Lemma range_check_exact : clean t ->
    exists t', check_data_range t = Ok t' /\ same_data t t' /\
      (clean t' <-> dle (dx t) (dofZ 0) = false /\
         forall i m, selected t i -> checked_half t i m -> m <= i /\ i + m <= arr_size t).
  Proof.
    intros Hc. unfold check_data_range. rewrite guarded_clean by auto. rewrite Hw.
    change (sle (dx t) s0) with (dle (dx t) (dofZ 0)).
    destruct (dle (dx t) (dofZ 0)) eqn:Ed.
    - exists (set_err t (Some "data range: dx"%string)). split; [reflexivity|]. split; [apply same_data_set_err|].
      split; [intros H; discriminate H|intros [H _]; discriminate].
    - cbv zeta. destruct (data_range_loop_ok (Z.to_nat (n_used t)) (start t)) as (r & E & Hr); [lia|lia|].
      rwc E. cbn [bind]. destruct r as [m|].
      + exists (set_err t (Some m)). split; [reflexivity|]. split; [apply same_data_set_err|].
        split; [intros H; discriminate H|]. intros [_ H]. assert (G : Some m = None) by (apply Hr; exact H). discriminate.
      + exists t. split; [reflexivity|]. split; [apply same_data_refl|]. split; auto. intros _. split; auto.
        apply Hr. auto.
  Qed.
End RangeCheck.

(** ** The drivers *)
Lemma check_core_complete {S} (t : tau S) : clean t -> complete t -> check_core_data t = Ok t.
Proof.
  intros Hc (HA & (Ti & Ei & _) & (To & Eo & _) & _). unfold check_core_data. rewrite guarded_clean by auto.
  rewrite Ei, Eo. unfold core_fields in HA.
  assert (G : existsb (fun f => match arr t f with None => true | _ => false end)
     [RHO; FKM; PHI; KV; RHODOT; BDEG; DKM; WKM; RX; RY; RZ] = false); [|rewrite G; reflexivity].
  destruct (existsb _ _) eqn:E; auto. apply existsb_exists in E. destruct E as (f & Hf & E).
  destruct (HA f Hf) as (l & El & _). rewrite El in E. discriminate.
Qed.
Lemma check_data_range_ok {S} (t t2 : tau S) : check_data_range t = Ok t2 -> t2 = t \/ (exists m, t2 = set_err t (Some m)).
Proof.
  unfold check_data_range. destruct (err t) eqn:Ee; [rewrite (guarded_err t s) by auto; intros H; inversion H; auto|].
  rewrite guarded_clean by auto.
  destruct (arr t WKM) as [w|]; [|intros H; inversion H; right; eexists; reflexivity].
  destruct (sle (dx t) s0); [intros H; inversion H; right; eexists; reflexivity|]. cbv zeta.
  destruct (data_range_loop _ _ _ _ _) as [[m|]|]; cbn [bind]; intros H; inversion H; eauto.
Qed.
Lemma complete_err {S} (t : tau S) e : complete t -> complete (set_err t e).
Proof. intros H. exact H. Qed.

Lemma set_Tout_same {S} (t : tau S) T : T_out t = Some T -> set_Tout t T = t.
Proof. intros E. destruct t. unfold set_Tout, set_T_out. simpl in *. subst. reflexivity. Qed.

(** The initial private width, - 4 w_max, is kept only when the window is empty. *)
Lemma first_empty (wm wc two_dx : double) :
  finite wm -> finite wc -> finite two_dx -> (0 < val two_dx)%R -> (0 <= val wc <= val wm)%R ->
  @sge dbl_scalar (@sabs dbl_scalar (@ssub dbl_scalar (@smul dbl_scalar (@sneg dbl_scalar (dofZ 4)) wm) wc)) two_dx = false ->
  dcast (ddiv wc two_dx) = Ok 0.
Proof.
  intros Fm Fc Fd Pd Hw H. unfold sge in H. cbn [sle sabs ssub smul sneg dbl_scalar] in H.
  set (a := dmul (dneg (dofZ 4)) wm) in *.
  assert (F4 : finite (dneg (dofZ 4)) /\ val (dneg (dofZ 4)) = (-4)%R).
  { destruct (dofZ_exact 4 ltac:(lia)) as [F V]. unfold finite, val, dneg, dfinite in *. rewrite is_finite_Bopp, B2R_Bopp, V.
    split; [exact F|simpl; lra]. }
  destruct F4 as [F4 V4].
  assert (Ha : a = B754_infinity true \/ a = B754_infinity false \/ (finite a /\ (val a <= - val wm)%R)).
  { assert (G := Bmult_correct dprec demax _ _ mode_NE (dneg (dofZ 4)) wm). fold (dmul (dneg (dofZ 4)) wm) in G. fold a in G.
    destruct (Rlt_bool_spec (Rabs (drnd (val (dneg (dofZ 4)) * val wm))) dbig) as [B|B].
    - right. right. assert (G2 := dmul_fin (dneg (dofZ 4)) wm F4 Fm B). fold a in G2. destruct G2 as [E F]. split; [exact F|].
      change (d2r a <= - val wm)%R. rewrite E. change (drnd (val (dneg (dofZ 4)) * val wm) <= - val wm)%R. rewrite V4.
      replace (- val wm)%R with (drnd (- val wm)).
      + apply drnd_le. lra.
      + unfold val. rewrite <- (B2R_Bopp _ _ wm). apply drnd_d2r.
    - assert (G2 : Rlt_bool (Rabs (drnd (val (dneg (dofZ 4)) * val wm))) dbig = false) by (apply Rlt_bool_false; exact B).
      unfold drnd, val in G2. change (bpow radix2 demax) with dbig in G. rewrite G2 in G. apply SF_inf in G.
      destruct (xorb _ _) in G; auto. }
  assert (E : forall b, dle two_dx (dabs (dsub (B754_infinity b) wc)) = true).
  { intros b. replace (dabs (dsub (B754_infinity b) wc)) with (B754_infinity false : double); [apply dle_fin_inf; auto|].
    destruct wc; try discriminate Fc; destruct b; reflexivity. }
  destruct Ha as [Ha|[Ha|[Fa Va]]]; [rewrite Ha, E in H; discriminate|rewrite Ha, E in H; discriminate|].
  assert (K : (2 * val wc < val two_dx)%R).
  { destruct (Rlt_le_dec (2 * val wc) (val two_dx)) as [G|G]; auto. exfalso.
    destruct (dsub_cases a wc Fa Fc) as [[V F]|[[V G2]|[V G2]]].
    - assert (Fs : dfinite (dabs (dsub a wc)) = true) by (unfold dfinite, dabs; rewrite is_finite_Babs; exact F).
      apply (proj1 (dle_false _ _ Fd Fs)) in H. unfold dabs in H. rewrite B2R_Babs, V in H.
      assert (Q : (drnd (val a - val wc) <= drnd (- val two_dx))%R) by (apply drnd_le; lra).
      assert (Q2 : drnd (- val two_dx) = (- val two_dx)%R) by (unfold val; rewrite <- (B2R_Bopp _ _ two_dx); apply drnd_d2r).
      rewrite Q2 in Q. unfold val in Q. rewrite Rabs_left1 in H by (unfold val in *; lra). unfold val in *. lra.
    - rewrite V in H. change (dabs (B754_infinity false)) with (B754_infinity false : double) in H.
      rewrite dle_fin_inf in H by auto. discriminate.
    - rewrite V in H. change (dabs (B754_infinity true)) with (B754_infinity false : double) in H.
      rewrite dle_fin_inf in H by auto. discriminate. }
  destruct (quotient_le wc two_dx 1 Fc Fd Pd) as (m & Em & Bm & Vm); [lra|lia|].
  rewrite Em. f_equal. rewrite Vm.
  assert (Hh : drnd (/ 2) = (/ 2)%R) by (rewrite <- (proj1 dhalf_val); apply drnd_d2r).
  assert (Hq : (0 <= drnd (val wc / val two_dx) <= / 2)%R).
  { rewrite <- Hh. rewrite <- drnd_0 at 1. split; apply drnd_le.
    - apply Rmult_le_pos; [lra|apply Rlt_le, Rinv_0_lt_compat; auto].
    - apply Rmult_le_reg_r with (val two_dx); auto. field_simplify; lra. }
  rewrite Ztrunc_floor by lra. apply Zfloor_imp. simpl. lra.
Qed.

Section DriverSafe.
  Variables (L : dlib) (sch : schedule) (t : dtau).
  Hypothesis HL : max_law L.
  Hypothesis Hsch : valid_schedule sch.
  Hypothesis Hcl : clean t.
  Hypothesis HC : complete t.
  Hypothesis Hsz : arr_size t <= 9007199254740992.
  Hypothesis Hs : 0 <= start t.
  Hypothesis Hn : 0 < n_used t.
  Hypothesis Hrc : exists t2, check_data_range t = Ok t2.

  Lemma complete_w : exists w, arr t WKM = Some w /\ zlen w = arr_size t.
  Proof. apply (proj1 HC). simpl. tauto. Qed.
  Lemma complete_T : exists T, T_out t = Some T /\ zlen T = arr_size t.
  Proof. apply HC. Qed.
  Lemma failed_written Q m k : profile_written t Q (set_err t (Some m)) k.
  Proof.
    destruct complete_T as (T & ET & HT). exists T, (Some m), T. split; auto. split; auto. split; [|discriminate].
    rewrite set_Tout_same by auto. reflexivity.
  Qed.

  Lemma obstacle_range m : check_data_range t = Ok (set_err t (Some m)) -> ~ no_obstacle L t.
  Proof. intros E [_ F]. rewrite E in F. apply (f_equal (fun r => match r with Ok x => err x | _ => None end)) in F. cbn in F. unfold clean in Hcl. congruence. Qed.

  Lemma fresnel_driver_safe :
    start t + n_used t < arr_size t ->
    room t (dmul (dofZ 2) (dx t)) (start t) (start t + n_used t + 1) ->
    (exists j x y, start t <= j < start t + n_used t /\ width t j x /\ width t (start t + n_used t) y /\ (val y <= val x)%R) ->
    exists t', dc_fresnel L sch t = Ok t' /\
      profile_written t (fQ L t (dmul (dofZ 2) (dx t))) t' (n_used t + 1) /\
      (no_obstacle L t -> clean t').
  Proof.
    intros He HR (j & x & y & Hj & Hx & Hy & Hxy). unfold dc_fresnel.
    rewrite check_core_complete by auto. cbn [bind]. destruct Hrc as [t2 E2]. rewrite E2. cbn [bind].
    destruct (check_data_range_ok t t2 E2) as [->|[m ->]].
    2: { rewrite (guarded_err _ m) by reflexivity. eexists. split; [reflexivity|]. split; [apply failed_written|]. intros O. contradiction (obstacle_range m E2). }
    rewrite guarded_clean by auto. cbv zeta.
    change (s2 * dx t)%S with (dmul (dofZ 2) (dx t)). set (two_dx := dmul (dofZ 2) (dx t)) in *.
    assert (HR' : room t two_dx (start t) (start t + n_used t)).
    { destruct HR as (R1 & R2 & R3 & R4). split; auto. split; auto. split.
      - intros i Hi. apply R3. lia.
      - intros j' i x' y' Hj' Hi. apply R4; lia. }
    destruct complete_w as (w & Ew & Lw).
    destruct (w_max_ok L t two_dx w) as (wm & jm & Em & Hjm & Hwm & Hmax); auto; try lia.
    rewrite Em. cbn [bind].
    destruct (room_half t two_dx (start t) (start t + n_used t) HR' Hs ltac:(lia) Hsz jm wm Hjm Hwm) as (Fm & Pm & nm & Enm & Bm & Vm).
    change (scast (wm / two_dx)%S) with (dcast (ddiv wm two_dx)). rewrite Enm. cbn [bind].
    destruct (t_alloc L 20 && t_alloc L 21) eqn:A; cbn [negb].
    2: { eexists. split; [reflexivity|]. split; [apply failed_written|]. intros [O _]. rewrite !O in A. discriminate A. }
    destruct complete_T as (T & ET & HT). rewrite ET. cbn [deref bind].
    destruct (fresnel_threads_ok L t two_dx wm nm HC Hs ltac:(lia) ltac:(lia)) with (sch := sch) (T := T) as (T' & ET' & HT'); auto.
    - apply room_fits; auto; lia.
    - intros i mi Hi Hh.
      assert (Hhm : half_count t two_dx jm nm) by (exists wm; split; auto).
      pose proof Hh as (xi & Hxi & _).
      apply (room_mono t two_dx (start t) (start t + n_used t + 1) HR Hs ltac:(lia) Hsz i jm xi wm mi nm); auto; try lia.
      destruct (Z.eq_dec i (start t + n_used t)) as [->|Hne].
      + assert (xi = y) by (eapply width_fun; eauto). subst xi. apply Rle_trans with (1 := Hxy). apply (Hmax j); auto.
      + apply (Hmax i); auto. lia.
    - lia.
    - intros i wc Hi Hwc Hg. apply (first_empty wm wc two_dx); auto.
      + apply (room_half t two_dx (start t) (start t + n_used t + 1) HR Hs ltac:(lia) Hsz i wc Hi Hwc).
      + destruct HR as (R1 & _). exact R1.
      + destruct HR as (_ & R2 & _). exact R2.
      + split; [apply (room_half t two_dx (start t) (start t + n_used t + 1) HR Hs ltac:(lia) Hsz i wc Hi Hwc)|].
        destruct (Z.eq_dec i (start t + n_used t)) as [->|Hne].
        * assert (wc = y) by (eapply width_fun; eauto). subst wc. apply Rle_trans with (1 := Hxy). apply (Hmax j); auto.
        * apply (Hmax i); auto. lia.
    - rewrite ET'. cbn [bind]. eexists. split; [reflexivity|]. split; [|intros _; exact Hcl]. exists T, None, T'. split; auto. split; [apply HT'|]. auto.
  Qed.

  (** The transforms of the Newton modes. *)
  Lemma newton_table_safe p f : select_newton L p = Ok (inl f) ->
    newton_safe t (match p with PsiNewtonFilon02 | PsiNewtonFilon12 => 1 | _ => 0 end) f.
  Proof.
    intros E w m c H1 H2 H3 H4.
    apply select_newton_inv in E. destruct p; try contradiction; subst f.
    - eapply riemann_safe; eauto.
    - eapply filon01_safe; eauto.
    - eapply filon11_safe; eauto.
    - eapply filon02_safe; eauto.
    - eapply filon12_safe; eauto.
    - eapply elliptical_safe; eauto.
    - eapply perturbed_safe; eauto.
  Qed.
  Lemma select_newton_ok p : exists s, select_newton L p = Ok s.
  Proof. destruct p; eexists; reflexivity. Qed.

  Definition Qn (two_dx : double) : Z -> cplx dbl_scalar -> Prop :=
    match select_newton L (psinum t), arr t RHO with
    | Ok (inl f), Some rho => nQ L t f two_dx rho
    | _, _ => fun _ _ => False
    end.
  Lemma Qn_spec two_dx f rho : select_newton L (psinum t) = Ok (inl f) -> arr t RHO = Some rho ->
    Qn two_dx = nQ L t f two_dx rho.
  Proof. intros E1 E2. unfold Qn. rewrite E1, E2. reflexivity. Qed.
  Lemma newton_driver_safe r0 r1 :
    start t + n_used t <= arr_size t -> 2 <= arr_size t ->
    rd t RHO 0 = Ok r0 -> rd t RHO 1 = Ok r1 ->
    let two_dx := dmul (dofZ 2) (dsub r1 r0) in
    room t two_dx (start t) (start t + n_used t) ->
    (match psinum t with PsiNewtonFilon02 | PsiNewtonFilon12 =>
       forall i x, selected t i -> width t i x -> (val two_dx <= val x)%R | _ => True end) ->
    exists t' Q, dc_newton L sch t = Ok t' /\ profile_written t Q t' (n_used t) /\
      (forall f rho, select_newton L (psinum t) = Ok (inl f) -> arr t RHO = Some rho -> Q = nQ L t f two_dx rho) /\
      (no_obstacle L t -> (exists f, select_newton L (psinum t) = Ok (inl f)) -> clean t').
  Proof.
    intros He H2 Er0 Er1 two_dx HR Hfil. unfold dc_newton.
    rewrite check_core_complete by auto. cbn [bind]. destruct Hrc as [t2 E2]. rewrite E2. cbn [bind].
    destruct (check_data_range_ok t t2 E2) as [->|[m ->]].
    2: { rewrite (guarded_err _ m) by reflexivity. eexists _, (Qn two_dx). split; [reflexivity|]. split; [apply failed_written|]. split; [apply Qn_spec|]. intros O. contradiction (obstacle_range m E2). }
    rewrite guarded_clean by auto. rewrite Er1. cbn [bind]. rewrite Er0. cbn [bind]. cbv zeta.
    change (s2 * (r1 - r0))%S with two_dx.
    destruct complete_w as (w & Ew & Lw).
    destruct (w_max_ok L t two_dx w) as (wm & jm & Em & Hjm & Hwm & Hmax); auto; try lia.
    rewrite Em. cbn [bind].
    destruct (room_half t two_dx (start t) (start t + n_used t) HR Hs ltac:(lia) Hsz jm wm Hjm Hwm) as (Fm & Pm & nm & Enm & Bm & Vm).
    assert (Hnp : @newton_points dbl_scalar wm two_dx = Ok (2 * nm + 1)).
    { unfold newton_points. change (scast (wm / two_dx)%S) with (dcast (ddiv wm two_dx)). rewrite Enm. cbn [bind].
      rewrite wrap64_id; auto. unfold two64. lia. }
    rwc Hnp. cbn [bind].
    destruct (select_newton_ok (psinum t)) as [s Es]. rewrite Es. cbn [bind]. destruct s as [f|m].
    2: { eexists _, (Qn two_dx). split; [reflexivity|]. split; [apply failed_written|].
         split; [intros f1 rho1 E1 E3; apply Qn_spec; congruence|]. intros _ [f1 E1]. congruence. }
    destruct (t_alloc L 22) eqn:A; cbn [negb].
    2: { eexists _, (Qn two_dx). split; [reflexivity|]. split; [apply failed_written|].
         split; [intros f1 rho1 E1 E3; apply Qn_spec; congruence|]. intros [O _]. rewrite O in A. discriminate A. }
    destruct complete_T as (T & ET & HT). rewrite ET. cbn [deref bind].
    destruct (proj1 HC RHO ltac:(simpl; tauto)) as (rho & Erho & _).
    pose proof (newton_table_safe _ _ Es) as Hf.
    destruct (newton_threads_ok L t f _ two_dx (2 * nm + 1) rho HC Hf Hs Hn He Erho) with (sch := sch) (T := T) as (T' & ET' & HT'); auto.
    - apply room_fits; auto; lia.
    - intros i m Hi (x & Hx & Ex).
      destruct (room_half t two_dx (start t) (start t + n_used t) HR Hs ltac:(lia) Hsz i x Hi Hx) as (Fx & Px & m' & Em' & Bm' & Vm').
      change (dcast (ddiv x two_dx) = Ok m) in Ex. assert (Emm : m' = m) by congruence. rewrite Emm in Vm', Bm'.
      assert (G : 1 <= m \/ match psinum t with PsiNewtonFilon02 | PsiNewtonFilon12 => False | _ => True end).
      { destruct (psinum t); auto; left; specialize (Hfil i x Hi Hx);
          (apply (quotient_mono two_dx x two_dx 1 m); [apply HR| |
             replace (val two_dx / val two_dx)%R with 1%R by (destruct HR as (_ & R2 & _); field; lra); rewrite (drnd_int 1) by lia; symmetry; apply (Ztrunc_IZR 1)|exact Vm'];
           destruct HR as (_ & R2 & _); lra). }
      destruct G as [G|G]; destruct (psinum t); try contradiction; lia.
    - intros i mi Hi Hh.
      assert (Hhm : half_count t two_dx jm nm) by (exists wm; split; auto).
      pose proof Hh as (xi & Hxi & _).
      assert (mi <= nm); [|lia].
      apply (room_mono t two_dx (start t) (start t + n_used t) HR Hs ltac:(lia) Hsz i jm xi wm mi nm); auto; try lia.
      apply (Hmax i); auto.
    - rewrite ET'. cbn [bind]. eexists _, (nQ L t f two_dx rho). split; [reflexivity|]. split; [exists T, None, T'; split; auto; split; [apply HT'|]; auto|].
      split; [intros f' rho' Ef' Er'; congruence|]. intros _ _. exact Hcl.
  Qed.

  (** The sequential modes. *)
  Lemma room_min two_dx i m :
    room t two_dx (start t) (start t + n_used t) -> start t + n_used t <= arr_size t ->
    (forall i x, selected t i -> width t i x -> (val two_dx <= val x)%R) ->
    start t <= i < start t + n_used t -> half_count t two_dx i m -> 1 <= m.
  Proof.
    intros HR He Hw Hi (x & Hx & Ex).
    destruct (room_half t two_dx (start t) (start t + n_used t) HR Hs ltac:(lia) Hsz i x Hi Hx) as (Fx & Px & m' & Em' & Bm' & Vm').
    change (dcast (ddiv x two_dx) = Ok m) in Ex. assert (Emm : m' = m) by congruence. rewrite Emm in Vm', Bm'.
    specialize (Hw i x Hi Hx).
    apply (quotient_mono two_dx x two_dx 1 m); [apply HR| | |exact Vm'].
    - destruct HR as (_ & R2 & _). lra.
    - replace (val two_dx / val two_dx)%R with 1%R by (destruct HR as (_ & R2 & _); field; lra). rewrite (drnd_int 1) by lia. symmetry; apply (Ztrunc_IZR 1).
  Qed.
  Lemma interp_table_safe p f : select_interp L p = Ok (inl (Some f)) -> interp_safe t 1 f.
  Proof.
    intros E x w m c H1 H2 H3 H4 H5.
    apply select_interp_inv in E. destruct p; try contradiction; subst f.
    - eapply newton4_safe; eauto.
    - eapply newton8_safe; eauto.
    - eapply newton16_safe; eauto.
  Qed.
  Lemma select_interp_ok p : exists s, select_interp L p = Ok s.
  Proof. destruct p; eexists; reflexivity. Qed.
  Lemma seq_written Q T T' e k :
    T_out t = Some T -> zlen T' = arr_size t -> (e = None -> progress t Q T k T') ->
    profile_written t Q (match e with None => set_Tout t T' | Some _ => set_err (set_Tout t T') e end) k.
  Proof. intros E1 E2 E3. exists T, e, T'. auto. Qed.

  Definition Qi (two_dx : double) : Z -> cplx dbl_scalar -> Prop :=
    match select_interp L (psinum t) with
    | Ok (inl (Some f)) => interp_sample L t f two_dx
    | _ => fun _ _ => False
    end.
  Lemma Qi_spec two_dx f : select_interp L (psinum t) = Ok (inl (Some f)) -> Qi two_dx = interp_sample L t f two_dx.
  Proof. intros E1. unfold Qi. rewrite E1. reflexivity. Qed.
  Lemma interp_driver_safe r0 r1 :
    start t + n_used t <= arr_size t ->
    rd t RHO (start t) = Ok r0 -> rd t RHO (start t + 1) = Ok r1 ->
    let two_dx := dmul (dofZ 2) (dsub r1 r0) in
    room t two_dx (start t) (start t + n_used t) ->
    (forall i x, selected t i -> width t i x -> (val two_dx <= val x)%R) ->
    exists t' Q, dc_interp L t = Ok t' /\ profile_written t Q t' (n_used t) /\
      (forall f, select_interp L (psinum t) = Ok (inl (Some f)) -> Q = interp_sample L t f two_dx) /\
      (no_obstacle L t -> (exists f, select_interp L (psinum t) = Ok (inl (Some f))) -> clean t').
  Proof.
    intros He Er0 Er1 two_dx HR Hw. unfold dc_interp.
    rewrite check_core_complete by auto. cbn [bind]. destruct Hrc as [t2 E2]. rewrite E2. cbn [bind].
    destruct (check_data_range_ok t t2 E2) as [->|[m ->]].
    2: { rewrite (guarded_err _ m) by reflexivity. eexists _, (Qi two_dx). split; [reflexivity|]. split; [apply failed_written|].
         split; [apply Qi_spec|]. intros O. contradiction (obstacle_range m E2). }
    rewrite guarded_clean by auto. cbv zeta.
    destruct (proj1 (room_fits t two_dx (start t) (start t + n_used t) HR Hs He Hsz) (start t)) as (m & w0 & Hw0 & Em); [lia|].
    apply width_rd in Hw0. rewrite Hw0. cbn [bind]. rewrite Er1. cbn [bind]. rewrite Er0. cbn [bind].
    change (s2 * (r1 - r0))%S with two_dx. rwc Em. cbn [bind].
    destruct (select_interp_ok (psinum t)) as [s Es]. rewrite Es. cbn [bind]. destruct s as [[f|]|msg].
    - destruct (t_alloc L 23 && t_alloc L 24) eqn:A; cbn [negb].
      2: { eexists _, (Qi two_dx). split; [reflexivity|]. split; [apply failed_written|].
           split; [intros f' Ef; apply Qi_spec; congruence|]. intros [O _]. rewrite !O in A. discriminate A. }
      destruct complete_T as (T & ET & HT).
      destruct (seq_run_ok L t f 1 two_dx HC (interp_table_safe _ _ Es) Hn) with (w_init := w0) (nw := m) (T := T)
        as (T' & e & HT' & E & HP & HE); auto.
      + apply room_fits; auto.
      + intros i mi Hi Hh. eapply room_min; eauto.
      + right. lia.
      + eexists _, (interp_sample L t f two_dx). split; [exact E|]. split; [apply (seq_written _ T); auto|].
        split; [intros f' Ef; congruence|]. intros [O _] _. destruct e as [e|]; [|exact Hcl].
        destruct HE as [site HE]; [discriminate|]. rewrite O in HE. discriminate HE.
    - eexists _, (Qi two_dx). split; [reflexivity|]. split; [apply failed_written|]. split; [intros f' Ef; apply Qi_spec; congruence|].
      intros _ [f' Ef]. congruence.
    - eexists _, (Qi two_dx). split; [reflexivity|]. split; [apply failed_written|]. split; [intros f' Ef; apply Qi_spec; congruence|].
      intros _ [f' Ef]. congruence.
  Qed.
End DriverSafe.

(** Legendre mode. *)
Lemma flip_k_ok {S} (t : tau S) : complete t -> 0 <= n_used t -> n_used t < arr_size t ->
  exists t', flip_k t = Ok t' /\ same_but_k t t'.
Proof.
  intros HC Hn Hlt. unfold flip_k, same_but_k. destruct (use_fwd t); [|eauto 10].
  destruct (proj1 HC KV ltac:(simpl; tauto)) as (k & Ek & Lk). rewrite Ek. cbn [deref bind].
  destruct (for_range_total (fun j (k' : list S) => zlen k' = zlen k /\
       forall i v, entry k i v -> entry k' i (if i <? j then (v * - s1)%S else v)) 0 (n_used t + 1)
     (fun n k => do v <- aread k n; awrite k n (v * - s1)%S) k) as (k' & E & Lk' & Pk'); auto; try lia.
  - split; auto. intros i v Hv. assert (G := entry_range _ _ _ Hv). destruct (Z.ltb_spec i 0); [lia|auto].
  - intros i k1 Hi (H1 & H2). destruct (aread_in k1 i) as [v Ev]; [lia|]. rewrite Ev. cbn [bind].
    destruct (awrite_in k1 i (v * - s1)%S) as [k2 E2]; [lia|]. exists k2. split; auto. apply awrite_ok in E2.
    destruct E2 as (_ & W1 & W2 & W3). split; [congruence|]. intros j u Hu. apply entry_aread.
    assert (Hu' := H2 j u Hu). apply entry_aread in Hu'.
    destruct (Z.eq_dec j i) as [->|Hne].
    + destruct (Z.ltb_spec i i) in Hu'; [lia|]. destruct (Z.ltb_spec i (i + 1)); [|lia].
      assert (u = v) by congruence. subst u. exact W2.
    + rewrite W3 by lia. destruct (Z.ltb_spec j i), (Z.ltb_spec j (i + 1)); auto; lia.
  - rwc E. cbn [bind]. eexists. split; [reflexivity|]. right. split; auto. exists k, k'. split; auto. split; auto. split; auto.
    intros i v Hv. specialize (Pk' i v Hv). rewrite Z.add_0_l in Pk'.
    destruct (Z.leb_spec i (n_used t)), (Z.ltb_spec i (n_used t + 1)); auto; lia.
Qed.
Lemma complete_set_k {S} (t : tau S) k : complete t -> zlen k = arr_size t -> complete (set_f t KV (Some k)).
Proof.
  intros (HA & HT & HO & Hp & Hs) Hk. split; [|auto].
  intros f Hf. destruct (HA f Hf) as (l & El & Ll).
  destruct f; simpl; eauto.
Qed.
Lemma legendre_driver_safe (L : dlib) (t : dtau) r0 r1 :
  clean t -> complete t -> arr_size t <= 9007199254740992 ->
  0 <= start t -> 0 < n_used t -> start t + n_used t <= arr_size t -> n_used t < arr_size t ->
  (exists t2, check_data_range t = Ok t2) ->
  2 <= order t -> (forall a b, zlen (t_legendre L a b (order t)) = order t) ->
  rd t RHO (start t) = Ok r0 -> rd t RHO (start t + 1) = Ok r1 ->
  let two_dx := dmul (dofZ 2) (dsub r1 r0) in
  room t two_dx (start t) (start t + n_used t) ->
  (forall i x, selected t i -> width t i x -> (val two_dx <= val x)%R) ->
  exists t3 t' f, dc_legendre L t = Ok t' /\ (same_but_k t t3 \/ (failed t' /\ t3 = t)) /\ aread (legendre_table L) (legendre_index t) = Ok f /\
    profile_written t3 (interp_sample L t3 (legendre_step L f) two_dx) t' (n_used t) /\
    (no_obstacle L t -> clean t').
Proof.
  intros Hcl HC Hsz Hs Hn He Hlt Hrc Ho Hleg Er0 Er1 two_dx HR Hw. unfold dc_legendre.
  rewrite guarded_clean by auto.
  rewrite check_core_complete by auto. cbn [bind]. destruct Hrc as [t2 E2]. rewrite E2. cbn [bind].
  assert (Hidx : 0 <= legendre_index t < 4).
  { unfold legendre_index. pose proof (Z.mod_pos_bound (order t) 2). destruct (use_norm t); lia. }
  destruct (aread_in (legendre_table L) (legendre_index t)) as [f Ef]; [exact Hidx|].
  assert (Ef0 := Ef).
  destruct (check_data_range_ok t t2 E2) as [->|[m ->]].
  2: { rewrite (guarded_err _ m) by reflexivity. exists t. eexists. exists f. split; [reflexivity|]. split; [right; split; [eexists; reflexivity|reflexivity]|]. split; [exact Ef|].
       split; [apply failed_written; auto|]. intros O. contradiction (obstacle_range L t Hcl m E2). }
  rewrite guarded_clean by auto. cbv zeta.
  change (@legendre_fn dbl_scalar) with (tau dbl_scalar -> @buffer dbl_scalar -> @buffer dbl_scalar -> list dbl_scalar -> Z -> Z -> res (cplx dbl_scalar)) in *.
  rewrite Ef. cbn [bind]. apply aread_In in Ef.
  destruct (flip_k_ok t HC ltac:(lia) Hlt) as (t3 & E3 & H3). rewrite E3. cbn [bind].
  assert (HC3 : complete t3).
  { destruct H3 as [(_ & ->)|(_ & k & k' & Ek & Lk & _ & ->)]; [auto|apply complete_set_k; auto].
    destruct (proj1 HC KV ltac:(simpl; tauto)) as (k2 & Ek2 & Lk2). congruence. }
  assert (Hsame : start t3 = start t /\ n_used t3 = n_used t /\ arr_size t3 = arr_size t /\ order t3 = order t /\
     arr t3 WKM = arr t WKM /\ arr t3 RHO = arr t RHO /\ clean t3)
    by (destruct H3 as [(_ & ->)|(_ & k & k' & Ek & Lk & _ & ->)]; repeat split; auto).
  destruct Hsame as (S1 & S2 & S3 & S4 & S5 & S6 & S7).
  assert (Hwd : forall i x, width t3 i x <-> width t i x) by (intros; unfold width; rewrite S5; tauto).
  assert (HR3 : room t3 two_dx (start t3) (start t3 + n_used t3)).
  { destruct HR as (R1 & R2 & R3 & R4). split; auto. split; auto. rewrite S1, S2. split.
    - intros i Hi. destruct (R3 i Hi) as (x & Hx & G). exists x. rewrite Hwd. auto.
    - intros j i x y Hj Hi Hx Hy G. rewrite S3. apply (R4 j i x y); auto; apply Hwd; auto. }
  assert (Hsel : forall i x, selected t3 i -> width t3 i x -> (val two_dx <= val x)%R).
  { intros i x Hi Hx. apply (Hw i); [unfold selected in *; rewrite S1, S2 in Hi; auto|apply Hwd; auto]. }
  assert (Er0' : rd t3 RHO (start t3) = Ok r0) by (unfold rd in *; rewrite S6, S1; auto).
  assert (Er1' : rd t3 RHO (start t3 + 1) = Ok r1) by (unfold rd in *; rewrite S6, S1; auto).
  assert (Hs3 : 0 <= start t3) by lia. assert (Hn3 : 0 < n_used t3) by lia.
  assert (He3 : start t3 + n_used t3 <= arr_size t3) by lia. assert (Hsz3 : arr_size t3 <= 9007199254740992) by lia.
  destruct (proj1 (room_fits t3 two_dx (start t3) (start t3 + n_used t3) HR3 Hs3 He3 Hsz3) (start t3)) as (m & w0 & Hw0 & Em); [lia|].
  apply width_rd in Hw0. rewrite Hw0. cbn [bind]. rewrite Er1'. cbn [bind]. rewrite Er0'. cbn [bind].
  change (s2 * (r1 - r0))%S with two_dx. rwc Em. cbn [bind]. exists t3.
  destruct (t_alloc L 25 && t_alloc L 26 && t_alloc L 27) eqn:A; cbn [negb].
  2: { eexists. exists f. split; [reflexivity|]. split; [left; exact H3|]. split; [first [exact Ef0|reflexivity]|]. split; [apply failed_written; auto|].
       intros [O _]. rewrite !O in A. discriminate A. }
  destruct (complete_T t3 HC3) as (T & ET & HT).
  destruct (seq_run_ok L t3 (legendre_step L f) 1 two_dx HC3) with (w_init := w0) (nw := m) (T := T)
        as (T' & e & HT' & E & HP & HE); auto.
  - intros x w' m' c H1 H2 G3 G4 G5. apply legendre_step_safe; auto; try lia. intros; rewrite S4; auto.
  - apply room_fits; auto.
  - intros i mi Hi Hh. apply (room_min t3 Hsz3 Hs3 two_dx i mi HR3 He3 Hsel Hi Hh).
  - right. lia.
  - eexists. exists f. split; [exact E|]. split; [left; exact H3|]. split; [first [exact Ef0|reflexivity]|]. split; [rewrite <- S2; eapply seq_written; eauto|].
    intros [O _]. destruct e as [e|]; [|exact S7].
    destruct HE as [site HE]; [discriminate|]. rewrite O in HE. discriminate HE.
Qed.
