(** * Proof_Pipe: arithmetic and selection for whole reconstructions (C54). *)
From Coq Require Import List ZArith Bool String Reals Lra Lia.
From Flocq Require Import Core Relative IEEE754.BinarySingleNaN.
From Verif Require Import Base BaseFacts Dbl DblFacts DblArith Scalar Model_TauRec
  Model_Checks Model_Select Spec_Tau Spec_Select Spec_Safety Spec_Recon Spec_Pipe
  Proof_Checks Proof_Select Proof_Drivers Proof_SafeDbl.
Import ListNotations.
Open Scope Z_scope.

(** ** Arithmetic *)
Lemma d2r_val (x : double) : d2r x = val x.
Proof. reflexivity. Qed.

Lemma double_exact (x : double) : drnd (2 * val x) = (2 * val x)%R.
Proof.
  apply round_generic; [apply valid_rnd_round_mode|].
  assert (G := generic_format_B2R dprec demax x).
  change (SpecFloat.fexp dprec demax) with (FLT_exp (SpecFloat.emin dprec demax) dprec) in *.
  apply FLT_format_generic in G; [|reflexivity]. destruct G as [f Ef Hn He].
  apply generic_format_FLT. exists (Float radix2 (Fnum f) (Fexp f + 1)); cbn [Fnum Fexp]; auto; [|lia].
  unfold val. rewrite Ef. unfold F2R; cbn [Fnum Fexp]. rewrite bpow_plus. simpl (bpow radix2 1).
  change (IZR (Z.pow_pos 2 1)) with 2%R. ring.
Qed.

Lemma drnd_rel (y : R) : (/ 18446744073709551616 <= y)%R -> (drnd y <= y * (1 + / 9007199254740992))%R.
Proof.
  intros Hy. assert (P : (0 < y)%R) by lra.
  assert (G := relative_error_N_FLT radix2 (SpecFloat.emin dprec demax) dprec eq_refl (fun x => negb (Z.even x)) y).
  change (FLT_exp (SpecFloat.emin dprec demax) dprec) with (SpecFloat.fexp dprec demax) in G.
  change (round radix2 (SpecFloat.fexp dprec demax) (Znearest (fun x => negb (Z.even x))) y) with (drnd y) in G.
  rewrite Rabs_pos_eq with (x := y) in G by lra.
  assert (B : (bpow radix2 (SpecFloat.emin dprec demax + dprec - 1) <= y)%R).
  { apply Rle_trans with (bpow radix2 (-64)); [apply bpow_le; vm_compute; discriminate|].
    simpl. change (Z.pow_pos 2 64) with 18446744073709551616. exact Hy. }
  specialize (G B). apply Rabs_le_inv in G.
  assert (E : (/ 2 * bpow radix2 (- dprec + 1) = / 9007199254740992)%R).
  { change (- dprec + 1)%Z with (-52)%Z. simpl. change (Z.pow_pos 2 52) with 4503599627370496. lra. }
  rewrite E in G. lra.
Qed.

(** Half a width in samples, as the range check counts. *)
Lemma checked_bound (x d : double) (h : R) k :
  finite x -> finite d -> val d = h -> (/ 1000000 <= h <= 1000000000000)%R ->
  0 <= k <= 1125899906842624 -> (0 <= val x <= 2 * h * (IZR k - 1))%R ->
  exists m, dcast (dmul x (ddiv (dfrac 1 2) d)) = Ok m /\ 0 <= m <= k.
Proof.
  intros Fx Fd Vd Hh Hk Hx. destruct dhalf_val as [V2 F2].
  assert (Hp : (0 < h)%R) by lra.
  set (u := (/ 2 / h)%R) in *.
  assert (Hu : (u * h = / 2)%R) by (unfold u; field; lra).
  assert (Hq : (/ 18446744073709551616 <= u <= 500000)%R).
  { split; [|apply Rmult_le_reg_r with h; lra].
    apply Rmult_le_reg_r with h; auto. rewrite Hu. lra. }
  assert (Hr := drnd_rel u (proj1 Hq)).
  assert (Hr0 : (0 <= drnd u)%R) by (rewrite <- drnd_0; apply drnd_le; lra).
  destruct (ddiv_fin (dfrac 1 2) d F2) as [Vq Fq].
  { rewrite d2r_val, Vd. lra. }
  { rewrite V2, d2r_val, Vd. fold u. rewrite Rabs_pos_eq by exact Hr0.
    apply Rle_lt_trans with (IZR 1000000); [lra|]. pose proof (IZR_big 1000000 ltac:(lia)) as B. apply Rabs_lt_inv in B. lra. }
  rewrite V2 in Vq. change (val (ddiv (dfrac 1 2) d) = drnd (/ 2 / val d)) in Vq. rewrite Vd in Vq. fold u in Vq. set (q := ddiv (dfrac 1 2) d) in *.
  assert (Hk1 : (1 <= IZR k)%R).
  { assert (0 <= 2 * h * (IZR k - 1))%R by lra. apply Rnot_lt_le. intros K.
    assert (IZR k - 1 < 0)%R by lra. assert (2 * h * (IZR k - 1) < 0)%R; [|lra].
    replace (2 * h * (IZR k - 1))%R with (- (2 * h * (1 - IZR k)))%R by ring.
    assert (0 < 2 * h * (1 - IZR k))%R; [|lra]. apply Rmult_lt_0_compat; lra. }
  assert (Hk2 : (IZR k <= 1125899906842624)%R) by (apply (IZR_le k 1125899906842624); lia).
  assert (Hxq : (0 <= val x * val q <= IZR k)%R).
  { rewrite Vq. split; [apply Rmult_le_pos; lra|].
    apply Rle_trans with (2 * h * (IZR k - 1) * (u * (1 + / 9007199254740992)))%R.
    - apply Rmult_le_compat; lra.
    - replace (2 * h * (IZR k - 1) * (u * (1 + / 9007199254740992)))%R
        with (2 * (u * h) * ((IZR k - 1) * (1 + / 9007199254740992)))%R by ring.
      rewrite Hu. assert ((IZR k - 1) * / 9007199254740992 <= 1)%R; [|lra].
      apply Rmult_le_reg_r with 9007199254740992%R; [lra|]. rewrite Rmult_assoc, Rinv_l by lra. lra. }
  assert (Hm : (0 <= drnd (val x * val q) <= IZR k)%R).
  { split; [rewrite <- drnd_0; apply drnd_le; lra|]. rewrite <- (drnd_int k) by lia. apply drnd_le; lra. }
  assert (Hb : (IZR k < dbig)%R) by (pose proof (IZR_big k ltac:(lia)) as B; apply Rabs_lt_inv in B; lra).
  destruct (dmul_fin x q Fx Fq) as [Vm Fm].
  { change (Rabs (drnd (val x * val q)) < dbig)%R. rewrite Rabs_pos_eq by lra. lra. }
  change (val (dmul x q) = drnd (val x * val q)) in Vm.
  assert (Hc : dcast (dmul x q) = Ok (Ztrunc (val (dmul x q)))).
  { apply dcast_fin; auto; rewrite Vm; [lra|]. apply Rle_lt_trans with (IZR k); [lra|]. apply IZR_lt. unfold two64. lia. }
  eexists. split; [exact Hc|]. rewrite Vm. rewrite Ztrunc_floor by lra. split.
  - apply Zfloor_lub. simpl. lra.
  - apply le_IZR. pose proof (Zfloor_lb (drnd (val x * val q))). lra.
Qed.

(** Differences that are doubles are exact. *)
Lemma dsub_exact (a b d : double) : finite a -> finite b -> finite d -> (0 < val d)%R ->
  (val a - val b = val d)%R -> dsub a b = d.
Proof.
  intros Fa Fb Fd Pd E. assert (Big := d2r_big d). apply Rabs_lt_inv in Big.
  assert (R : drnd (d2r a - d2r b) = val d).
  { change (drnd (val a - val b) = val d). rewrite E. apply drnd_d2r. }
  destruct (dsub_cases a b Fa Fb) as [[V F]|[[_ F]|[_ F]]]; rewrite R in *; [|unfold val in *; lra|unfold val in *; lra].
  apply B2R_inj.
  - apply is_finite_strict_B2R. unfold val in *. rewrite V. lra.
  - apply is_finite_strict_B2R. unfold val in *. lra.
  - exact V.
Qed.
Lemma twice_val (d : double) : finite d -> (0 <= val d <= 1000000000000)%R ->
  finite (dmul (dofZ 2) d) /\ val (dmul (dofZ 2) d) = (2 * val d)%R.
Proof.
  intros Fd Hd. destruct (dofZ_exact 2 ltac:(lia)) as [F2 V2].
  destruct (dmul_fin (dofZ 2) d F2 Fd) as [V F].
  - rewrite V2. change (Rabs (drnd (2 * val d)) < dbig)%R. rewrite double_exact. rewrite Rabs_pos_eq by lra.
    pose proof (IZR_big 2000000000000 ltac:(lia)) as B. apply Rabs_lt_inv in B. lra.
  - split; auto. rewrite V2 in V. change (val (dmul (dofZ 2) d) = drnd (2 * val d)) in V. rewrite V. apply double_exact.
Qed.

(** The edges of a window that has a full sample of room. *)
Lemma left_room (lo next a x : double) (W : R) :
  finite lo -> finite next -> finite a -> finite x -> (0 <= val x <= W)%R ->
  (val lo < val next)%R -> (val next + W / 2 <= val a)%R -> dlt lo (left_edge a x) = true.
Proof.
  intros Fl Fn Fa Fx Hx Hln Ha. unfold left_edge. destruct (half_mul x Fx) as [Fh Vh].
  set (b := dmul (dfrac 1 2) x) in *. apply Rabs_le_inv in Vh. fold (val b) (val x) in Vh.
  assert (G : (val next <= val a - val b)%R).
  { destruct (fin_multiple next) as [n En], (fin_multiple a) as [k Ek], (fin_multiple b) as [m Em].
    unfold val in *. rewrite En, Ek, Em in *. assert (P := bpow_gt_0 radix2 (-1074)). fold dtiny in P.
    assert (Q : (IZR n * dtiny < (IZR k - IZR m + 1) * dtiny)%R) by lra.
    apply Rmult_lt_reg_r in Q; auto. rewrite <- minus_IZR, <- plus_IZR in Q. apply lt_IZR in Q.
    assert (Q' : n <= k - m) by lia. apply IZR_le in Q'. rewrite minus_IZR in Q'.
    replace (IZR k * dtiny - IZR m * dtiny)%R with ((IZR k - IZR m) * dtiny)%R by ring.
    apply Rmult_le_compat_r; lra. }
  apply drnd_le in G. unfold val in G at 1. rewrite (drnd_d2r next) in G.
  assert (Big := d2r_big lo). apply Rabs_lt_inv in Big.
  destruct (dsub_cases a b Fa Fh) as [[V F]|[[E _]|[_ F]]].
  - apply dlt_iff; auto. unfold val in *. rewrite V. lra.
  - rewrite E. unfold finite in Fl. destruct lo as [[]|[]| |[] ? ? ?]; try discriminate Fl; reflexivity.
  - unfold val in *. lra.
Qed.
Lemma right_room (hi prev a x : double) (W : R) :
  finite hi -> finite prev -> finite a -> finite x -> (0 <= val x <= W)%R ->
  (val prev < val hi)%R -> (val a <= val prev - W / 2)%R -> dlt (right_edge a x) hi = true.
Proof.
  intros Fl Fn Fa Fx Hx Hln Ha. unfold right_edge. destruct (half_mul x Fx) as [Fh Vh].
  set (b := dmul (dfrac 1 2) x) in *. apply Rabs_le_inv in Vh. fold (val b) (val x) in Vh.
  assert (G : (val a + val b <= val prev)%R).
  { destruct (fin_multiple prev) as [n En], (fin_multiple a) as [k Ek], (fin_multiple b) as [m Em].
    unfold val in *. rewrite En, Ek, Em in *. assert (P := bpow_gt_0 radix2 (-1074)). fold dtiny in P.
    assert (Q : ((IZR k + IZR m) * dtiny < (IZR n + 1) * dtiny)%R) by lra.
    apply Rmult_lt_reg_r in Q; auto. rewrite <- !plus_IZR in Q. apply lt_IZR in Q.
    assert (Q' : k + m <= n) by lia. apply IZR_le in Q'. rewrite plus_IZR in Q'.
    rewrite <- Rmult_plus_distr_r. apply Rmult_le_compat_r; lra. }
  apply drnd_le in G. unfold val in G at 3. rewrite (drnd_d2r prev) in G.
  assert (Big := d2r_big hi). apply Rabs_lt_inv in Big.
  destruct (dadd_cases a b Fa Fh) as [[V F]|[[_ F]|[E _]]].
  - apply dlt_iff; auto. unfold val in *. rewrite V. lra.
  - unfold val in *. lra.
  - rewrite E. unfold finite in Fl. destruct hi as [[]|[]| |[] ? ? ?]; try discriminate Fl; reflexivity.
Qed.

(** ** Selection when every requested window fits *)
Section Selection.
  Variable L : dlib.
  Hypothesis Hal : forall site, t_alloc L site = true.

  Lemma gww_start_total (t : dtau) rho i :
    ready t rho -> wanted t rho i -> exists r s, gww_start t rho = Ok (Some (r, s)).
  Proof.
    intros (Hc & Hr & Hlen & Hsz & Hinc & Hf0 & Hf1) (a & Ha & Hb).
    change (car dbl_scalar) with double in *.
    destruct (aread_in rho 0) as [x0 Hx0]; [lia|].
    destruct (aread_in rho (arr_size t - 1)) as [xl Hxl]; [lia|].
    assert (Fl : finite xl) by (apply (proj1 Hinc); eapply aread_In; eauto).
    unfold gww_start. change (car dbl_scalar) with double in *. rewrite Hx0. cbn [bind].
    destruct (sle (range0 t) x0); [eauto|].
    rewrite wrap64_id by lia. rewrite Hxl. cbn [bind].
    destruct (sgt (range0 t) xl) eqn:C.
    - exfalso. unfold sgt in C. change (dlt xl (range0 t) = true) in C. apply dlt_iff in C; auto.
      assert (val a <= val xl)%R; [|unfold val in *; lra].
      apply entry_aread in Hxl. assert (G := entry_range _ _ _ Ha). eapply inc_le; eauto. lia.
    - destruct (scan_total (fun r : double => dlt r (range0 t)) rho 0 (arr_size t - 1) xl) as [m Hm]; auto; [lia|].
      match goal with |- exists r_ s_, bind ?x _ = _ => change x with (scan (fun r : double => dlt r (range0 t)) rho 0) end.
      rewrite Hm. cbn [bind]. apply scan_ok in Hm. destruct Hm as (_ & _ & _ & b & Hb' & _).
      rewrite Hb'. cbn [bind]. eauto.
  Qed.
  Lemma gww_count_total (t : dtau) rho r s i :
    ready t rho -> wanted t rho i -> 0 <= s < zlen rho ->
    exists r1 n, gww_count (set_start (set_range0 t r) s) rho = Ok (Some (r1, n)).
  Proof.
    intros (Hc & Hr & Hlen & Hsz & Hinc & Hf0 & Hf1) (a & Ha & Hb) Hs.
    change (car dbl_scalar) with double in *.
    destruct (aread_in rho 0) as [x0 Hx0]; [lia|].
    destruct (aread_in rho (arr_size t - 1)) as [xl Hxl]; [lia|].
    assert (F0 : finite x0) by (apply (proj1 Hinc); eapply aread_In; eauto).
    unfold gww_count. change (car dbl_scalar) with double in *. simpl. rewrite wrap64_id by lia. rewrite Hxl. cbn [bind].
    destruct (dle xl (range1 t)) eqn:C1; [eauto|].
    rewrite Hx0. cbn [bind]. destruct (dlt (range1 t) x0) eqn:C2.
    - exfalso. apply dlt_iff in C2; auto. assert (val x0 <= val a)%R; [|unfold val in *; lra].
      apply entry_aread in Hx0. assert (G := entry_range _ _ _ Ha). eapply inc_le; eauto. lia.
    - destruct (scan_total (fun r : double => dle r (range1 t)) rho s (arr_size t - 1) xl) as [m Hm]; auto; [lia|].
      match goal with |- exists r_ s_, bind ?x _ = _ => change x with (scan (fun r : double => dle r (range1 t)) rho s) end.
      rewrite Hm. cbn [bind]. apply scan_ok in Hm. destruct Hm as (_ & _ & _ & b & Hb' & _).
      rewrite Hb'. cbn [bind]. eauto.
  Qed.

  Lemma where_all_of {A} (p : A -> bool) l : l <> [] -> (forall i a, aread l i = Ok a -> p a = true) ->
    exists r, where_ p l = 0 :: r /\ zlen (where_ p l) = zlen l /\ List.last (where_ p l) 0 = zlen l - 1.
  Proof.
    intros Hl H. assert (H' : forall a, In a l -> p a = true).
    { intros a Ha. apply In_aread in Ha. destruct Ha as [i Hi]. eauto. }
    assert (Hz : 0 < zlen l) by (destruct l; [congruence|rewrite zlen_cons; assert (Q := zlen_nonneg l); lia]).
    unfold where_. destruct (where_all p l 0 H' 0) as [E0 El]; [lia|].
    destruct (where_from p l 0) as [|z r] eqn:Ew.
    { apply aread_ok in E0. change (zlen (@nil Z)) with 0 in E0. lia. }
    apply aread_ok in E0. destruct E0 as [_ E0]. injection E0 as ->. exists r. split; auto. split; auto.
    destruct (where_all p l 0 H' (zlen l - 1)) as [E1 _]; [lia|]. rewrite Ew in E1.
    assert (EL : forall (q : list Z), q <> [] -> forall d, aread q (zlen q - 1) = Ok (List.last q d)).
    { intros q Hq d. destruct (exists_last Hq) as (q' & b & ->). rewrite last_last. rewrite aread_app2.
      - unfold zlen. rewrite app_length. simpl. replace (Z.of_nat (List.length q' + 1) - 1 - Z.of_nat (List.length q')) with 0 by lia. reflexivity.
      - unfold zlen. rewrite app_length. simpl. lia. }
    rewrite <- El in E1. rewrite (EL (0 :: r) ltac:(discriminate) 0) in E1. assert (E2 : last (0 :: r) 0 = 0 + (zlen l - 1)) by (rewrite El in E1; congruence). rewrite E2. lia.
  Qed.

  Lemma fill_total (t : dtau) al Ps idx : forall n w,
    (forall m i, aread idx m = Ok i -> 0 <= i < zlen Ps /\ 0 <= start t + i < zlen w) ->
    0 <= n -> n + zlen idx <= zlen al ->
    exists w', fill_w_bfac L t al Ps idx n w = Ok w'.
  Proof.
    induction idx as [|i0 idx IH]; intros n w H Hn Hl; cbn [fill_w_bfac]; [eauto|].
    rewrite zlen_cons in Hl. assert (Q := zlen_nonneg idx).
    destruct (H 0 i0) as [H1 H2]; [reflexivity|].
    destruct (aread_in Ps i0) as [p Ep]; [exact H1|]. destruct (aread_in al n) as [a Ea]; [lia|].
    rewrite Ep, Ea. cbn [bind].
    destruct (awrite_in w (start t + i0) (normeq t * t_resinv L p / a)%S) as [w1 Ew]; [exact H2|].
    rwc Ew. cbn [bind]. apply IH; [|lia|lia]. intros m i Hm. apply awrite_ok in Ew. destruct Ew as (_ & Lw & _).
    assert (0 <= m) by (apply aread_ok in Hm; lia).
    change (car dbl_scalar) with double in *. rewrite Lw.
    apply (H (m + 1) i). change (i0 :: idx) with ([i0] ++ idx)%list. rewrite aread_app2; unfold zlen; simpl; [|lia].
    replace (m + 1 - 1) with m by lia. exact Hm.
  Qed.

  (** What the width of each wanted sample is, by the case of [bfac]. *)
  Definition width_rule (t : dtau) rho Fk (wd : Z -> double -> Prop) : Prop :=
    forall i F, wanted t rho i -> entry Fk i F ->
      (bfac t = false -> wd i (plain_width F (normeq t) (reso t))) /\
      (bfac t = true -> forall s kv rd k u, first_wanted t rho s -> arr t KV = Some kv -> arr t RHODOT = Some rd ->
         entry kv i k -> entry rd (i - s) u ->
         dlt (dofZ 1) (bfac_P F k u (sigma t) (reso t)) = true /\
         wd i (bfac_width (t_resinv L) F k u (sigma t) (normeq t) (reso t))).

  Lemma gww_all (t : dtau) rho Fk (wd : Z -> double -> Prop) :
    ready t rho -> arr t WKM = None -> arr t FKM = Some Fk -> zlen Fk = arr_size t ->
    (exists kv, arr t KV = Some kv /\ zlen kv = arr_size t) ->
    (exists rd, arr t RHODOT = Some rd /\ zlen rd = arr_size t) ->
    (exists i j, i < j /\ wanted t rho i /\ wanted t rho j) ->
    width_rule t rho Fk wd ->
    (forall i a x lo hi, wanted t rho i -> entry rho i a -> wd i x ->
       entry rho 0 lo -> entry rho (arr_size t - 1) hi ->
       dlt lo (left_edge a x) = true /\ dlt (right_edge a x) hi = true) ->
    exists s n r0' r1' w, 0 <= s /\ 0 < n /\ s + n < arr_size t /\
      (forall i, wanted t rho i <-> s <= i <= s + n) /\ zlen w = arr_size t /\
      (forall i x, wanted t rho i -> entry w i x -> wd i x) /\
      get_window_width L t = Ok (set_n_used
        (set_f (set_n_used (set_range1 (set_start (set_range0 t r0') s) r1') (n + 1)) WKM (Some w)) n).
  Proof.
    intros HR EW HF LF (kv & HK & LK) (rd & HD & LD) (i1 & j1 & Hij & Wi & Wj) Hwd Hfit.
    assert (HR' := HR). destruct HR' as (Hc & Hr & Hlen & Hsz & Hinc & Hf0 & Hf1).
    destruct (gww_start_total t rho i1 HR Wi) as (r0' & s & Es).
    unfold get_window_width. rewrite guarded_clean by exact Hc. rewrite Hr. cbn [deref bind]. rewrite Es. cbn [bind].
    apply gww_start_ok in Es; auto. destruct Es as [Es0 [Es1 Es2]]. assert (Hs := entry_range _ _ _ Es0).
    destruct (gww_count_total t rho r0' s i1 HR Wi Hs) as (r1' & m & En). rewrite En. cbn [bind].
    apply gww_count_ok in En; simpl; auto. destruct En as [En0 [En1 [En2 En3]]]. simpl in En1, En2, En3.
    change (car dbl_scalar) with double in *.
    assert (Wt : forall i, wanted t rho i <-> s <= i < s + m).
    { intros i. split.
      - intros (a & Ha & Hv). assert (G := entry_range _ _ _ Ha).
        destruct (Z_lt_ge_dec i s) as [Hl|Hl]; [specialize (Es2 i a Hl Ha); lra|].
        destruct (Z_lt_ge_dec i (s + m)) as [Hl2|Hl2]; [lia|]. specialize (En3 i a ltac:(lia) Ha). lra.
      - intros Hi. destruct (entry_ex rho i) as [a Ha]; [lia|]. exists a. split; auto. split; [apply (Es1 i a)|apply (En2 i a)]; auto; lia. }
    assert (Hm : 2 <= m) by (apply Wt in Wi; apply Wt in Wj; lia).
    rewrite EW. set (t2 := set_n_used (set_range1 (set_start (set_range0 t r0') s) r1') m).
    assert (Fst : first_wanted t rho s).
    { split; [apply Wt; lia|]. intros i Hi. apply Wt in Hi. lia. }
    assert (EWd : exists w, gww_widths L t2 = Ok w /\ zlen w = arr_size t /\
      forall j x, s <= j < s + m -> entry w j x -> wd j x).
    { unfold gww_widths. rewrite !Hal. cbn [andb]. rewrite !need_true. cbn [bind]. cbv zeta.
      change (arr t2 FKM) with (arr t FKM). change (arr t2 KV) with (arr t KV). change (arr t2 RHODOT) with (arr t RHODOT).
      rewrite HF, HK, HD. cbn [deref bind]. change (bfac t2) with (bfac t).
      destruct (bfac t) eqn:Hb.
      1:{ change (arr_size t2) with (arr_size t). change (n_used t2) with m.
        destruct (tabulate_total m (@alpha_P dbl_scalar t2 Fk kv rd)) as [ap Hap].
        { lia. }
        { intros k Hk. unfold alpha_P. change (start t2) with s.
          destruct (aread_in Fk (k + s)) as [F E1]; [lia|]. destruct (aread_in kv (k + s)) as [q E2]; [lia|].
          destruct (aread_in rd k) as [u E3]; [lia|]. change (car dbl_scalar) with double in *. rewrite E1, E2, E3. cbn [bind]. eauto. }
        rwc Hap. cbn [bind]. apply tabulate_ok in Hap; [|lia]. destruct Hap as [Lap Hap].
        assert (AP : forall j, 0 <= j < m -> exists F k u, entry Fk (j + s) F /\ entry kv (j + s) k /\ entry rd j u /\
          aread ap j = Ok (bfac_alpha k (sigma t) u, bfac_P F k u (sigma t) (reso t))).
        { intros j Hj. specialize (Hap j Hj). unfold alpha_P in Hap. change (start t2) with s in Hap.
          destruct (aread_in Fk (j + s)) as [F E1]; [lia|]. destruct (aread_in kv (j + s)) as [q E2]; [lia|].
          destruct (aread_in rd j) as [u E3]; [lia|]. change (car dbl_scalar) with double in *. rewrite E1, E2, E3 in Hap. cbn [bind] in Hap.
          exists F, q, u. rewrite !entry_aread. do 3 (split; [assumption|]). etransitivity; [exact Hap|reflexivity]. }
        assert (RW : forall j F k u, 0 <= j < m -> entry Fk (j + s) F -> entry kv (j + s) k -> entry rd j u ->
          dlt (dofZ 1) (bfac_P F k u (sigma t) (reso t)) = true /\
          wd (j + s) (bfac_width (t_resinv L) F k u (sigma t) (normeq t) (reso t))).
        { intros j F k u Hj E1 E2 E3. destruct (Hwd (j + s) F) as [_ Q]; [apply Wt; lia|exact E1|].
          apply (Q Hb s kv rd k u); auto. replace (j + s - s) with j by lia. exact E3. }
        assert (All : forall p, In p (map snd ap) -> dlt (dofZ 1) p = true).
        { intros p Hp. apply In_aread in Hp. destruct Hp as [j Hj]. rewrite aread_map in Hj.
          apply bind_ok in Hj. destruct Hj as [e [He Hj]]. injection Hj as <-.
          assert (Hj : 0 <= j < m) by (apply aread_ok in He; change (car dbl_scalar) with double in *; lia).
          destruct (AP j Hj) as (F & k & u & Q1 & Q2 & Q3 & Q4).
          change (car dbl_scalar) with double in *. rewrite He in Q4. injection Q4 as ->. simpl. apply (RW j F k u); auto. }
        assert (Lps : zlen (map snd ap) = m) by (rewrite zlen_map; exact Lap).
        set (idx := where_ (fun p : double => dlt (dofZ 1) p) (map snd ap)).
        assert (Hidx : forall j, 0 <= j < m -> aread idx j = Ok j /\ zlen idx = m).
        { intros j Hj. destruct (where_all (fun p : double => dlt (dofZ 1) p) (map snd ap) 0 All j) as [G1 G2]; [change (car dbl_scalar) with double in *; lia|].
          unfold idx, where_. rewrite Z.add_0_l in G1. split; [exact G1|]. change (car dbl_scalar) with double in *. lia. }
        destruct (fill_total t2 (map fst ap) (map snd ap) idx 0 (repeat (@s0 dbl_scalar) (Z.to_nat (arr_size t)))) as [w Ew].
        { intros k i Hk. assert (Hk' : 0 <= k < m).
          { apply aread_ok in Hk. rewrite (proj2 (Hidx 0 ltac:(lia))) in Hk. tauto. }
          rewrite (proj1 (Hidx k Hk')) in Hk. injection Hk as <-. change (start t2) with s.
          change (car dbl_scalar) with double in *. rewrite Lps, zlen_repeat by lia. lia. }
        { lia. }
        { rewrite (proj2 (Hidx 0 ltac:(lia))), zlen_map. change (car dbl_scalar) with double in *. lia. }
        exists w. split; [exact Ew|]. assert (Ew' := Ew). apply fill_len in Ew'. split.
        { rewrite Ew'. apply zlen_repeat. lia. }
        apply fill_ok in Ew.
        2:{ intros j k a b Hjk Ha Hb'. unfold idx in *. eapply where_sorted; eauto. }
        destruct Ew as [G _]. intros j x Hj Hx.
        destruct (AP (j - s) ltac:(lia)) as (F & k & u & Q1 & Q2 & Q3 & Q4).
        destruct (G (j - s) (j - s)) as (p & al & P1 & P2 & P3); [apply Hidx; lia|].
        rewrite Z.add_0_l in P2. rewrite aread_map in P1, P2. change (car dbl_scalar) with double in *.
        rewrite Q4 in P1, P2. simpl in P1, P2. injection P1 as <-. injection P2 as <-.
        change (start t2) with s in P3. replace (s + (j - s)) with j in P3 by lia.
        destruct (RW (j - s) F k u ltac:(lia) Q1 Q2 Q3) as [R1 R2]. replace (j - s + s) with j in R2 by lia.
        apply entry_aread in Hx. rewrite P3 in Hx. injection Hx as <-.
        unfold bfac_width in R2. rewrite R1 in R2. exact R2. }
      1:{ change (arr_size t2) with (arr_size t). change (n_used t2) with m. change (start t2) with s.
      destruct (for_range_total (fun k (w : list double) => zlen w = arr_size t /\
        (forall j, s <= j < s + k -> exists F, entry Fk j F /\
           entry w j (plain_width F (normeq t) (reso t)))) 0 m
        (fun n w => do F <- aread Fk (n + s);
           awrite w (n + s) (@s2 dbl_scalar * F * F * (normeq t2 / reso t2))%S)
        (repeat (@s0 dbl_scalar) (Z.to_nat (arr_size t)))) as (w & E & Lw & Pw).
      - lia.
      - split; [apply zlen_repeat; lia|]. intros j Hj. lia.
      - intros k v Hk (V1 & V2). destruct (aread_in Fk (k + s)) as [F EF]; [lia|]. rewrite EF. cbn [bind].
        destruct (awrite_in v (k + s) (@s2 dbl_scalar * F * F * (normeq t2 / reso t2))%S) as [v' Ev]; [lia|].
        exists v'. split; [exact Ev|]. apply awrite_ok in Ev. destruct Ev as (W1 & W2 & W3 & W4). change (car dbl_scalar) with double in *.
        split; [congruence|]. intros j Hj. destruct (Z.eq_dec j (k + s)) as [->|Hne].
        + exists F. split; [apply entry_aread; exact EF|]. apply entry_aread. exact W3.
        + destruct (V2 j) as (F' & Q1 & Q2); [lia|]. exists F'. split; auto. apply entry_aread. rewrite W4 by lia. apply entry_aread. exact Q2.
      - exists w. split; [exact E|]. split; [exact Lw|]. intros j x Hj Hx. destruct (Pw j Hj) as (F & Q1 & Q2).
        assert (x = plain_width F (normeq t) (reso t)) by (eapply entry_fun; eauto). subst x. apply (Hwd j F); auto. apply Wt; exact Hj. } }
    destruct EWd as (w & Ew & Lw & PW). rewrite Ew. cbn [bind].
    set (t3 := set_f t2 WKM (Some w)).
    exists s, (m - 1), r0', r1', w.
    split; [lia|]. split; [lia|]. split; [lia|]. split; [intros i; rewrite Wt; lia|]. split; [exact Lw|].
    split; [intros i x Hi; apply PW; apply Wt; exact Hi|].
    replace (m - 1 + 1) with m by lia. fold t2. fold t3.
    destruct (aread_in rho 0) as [lo Hlo]; [lia|]. destruct (aread_in rho (arr_size t - 1)) as [hi Hhi]; [lia|].
    assert (LG : forall op : double -> double -> double, exists l, @rho_legal dbl_scalar op t3 rho w = Ok l /\ zlen l = m /\
      forall k y, aread l k = Ok y -> exists a x, wanted t rho (s + k) /\ entry rho (s + k) a /\ wd (s + k) x /\
        y = op a (dmul (dfrac 1 2) x)).
    { intros op. unfold rho_legal. change (n_used t3) with m. change (start t3) with s.
      destruct (tabulate_total m (fun n => do r <- aread rho (s + n); do x <- aread w (s + n); Ok (op r (dmul (dfrac 1 2) x)))) as [l El].
      - lia.
      - intros k Hk. destruct (aread_in rho (s + k)) as [a Ea]; [lia|]. destruct (aread_in w (s + k)) as [x Ex]; [lia|].
        rewrite Ea, Ex. cbn [bind]. eauto.
      - exists l. split; [exact El|]. apply tabulate_ok in El; [|lia]. destruct El as [Ll El]. split; auto.
        intros k y Hy. assert (Hk : 0 <= k < m) by (apply aread_ok in Hy; rewrite <- Ll; tauto).
        specialize (El k Hk). change (car dbl_scalar) with double in *. rewrite El in Hy. clear El. apply bind_ok in Hy. destruct Hy as (a & Ea & Hy). apply bind_ok in Hy. destruct Hy as (x & Ex & Hy).
        injection Hy as <-. apply entry_aread in Ea. apply entry_aread in Ex.
        exists a, x. split; [apply Wt; lia|]. split; [exact Ea|]. split; [|reflexivity]. apply PW; [lia|exact Ex]. }
    unfold gww_trim. rewrite !Hal, !need_true. cbn [bind].
    destruct (LG dsub) as (lft & El & Ll & Pl).
    rwc El. cbn [bind].
    rwc Hlo. cbn [bind].
    destruct (where_all_of (fun r => @sgt dbl_scalar r lo) lft) as (q & Eq & _ & _).
    { intros ->. assert (G : 0 = m) by (rewrite <- Ll; reflexivity). lia. }
    { intros k y Hy. destruct (Pl k y Hy) as (a & x & W1 & Ea & EF & ->).
      apply (Hfit (s + k) a x lo hi); auto; apply entry_aread; auto. }
    change (car dbl_scalar) with double in *. rewrite Eq. cbv zeta. cbn [Z.ltb Z.compare].
    destruct (LG dadd) as (rgt & Er & Lr & Pr).
    rwc Er. cbn [bind].
    change (set_f t2 WKM (Some w)) with t3. change (arr_size t3) with (arr_size t). rewrite (wrap64_id (arr_size t - 1)) by lia. rwc Hhi. cbn [bind].
    destruct (where_all_of (fun r => @slt dbl_scalar r hi) rgt) as (q' & Eq' & Lq' & Last).
    { intros ->. assert (G : 0 = m) by (rewrite <- Lr; reflexivity). lia. }
    { intros k y Hy. destruct (Pr k y Hy) as (a & x & W1 & Ea & EF & ->).
      apply (Hfit (s + k) a x lo hi); auto; apply entry_aread; auto. }
    change (car dbl_scalar) with double in *. rewrite Eq' in *. rewrite Last, Lq', Lr. change (n_used t3) with m.
    destruct (Z.ltb_spec (m - 1) m); [|lia].
    change (start (set_n_used t3 (m - 1))) with s. change (arr_size (set_n_used t3 (m - 1))) with (arr_size t).
    change (n_used (set_n_used t3 (m - 1))) with (m - 1).
    destruct (Z.ltb_spec (arr_size t) s); [lia|]. rewrite wrap64_id by lia.
    destruct (Z.ltb_spec (arr_size t) (s + (m - 1))); [lia|]. reflexivity.
  Qed.
End Selection.
