(** * DblArith: double addition, subtraction, multiplication and division in
    terms of real numbers and rounding (Flocq). *)
From Coq Require Import ZArith Bool Lia Reals Lra.
From Flocq Require Import Core IEEE754.BinarySingleNaN.
From Verif Require Import Base BaseFacts Dbl DblFacts.
Open Scope R_scope.

(** Rounding to nearest, ties to even, in binary64 with unbounded exponent. *)
Definition drnd (x : R) : R :=
  round radix2 (SpecFloat.fexp dprec demax) (round_mode mode_NE) x.
Notation dbig := (bpow radix2 1024).

Lemma drnd_le x y : x <= y -> drnd x <= drnd y.
Proof. intros; apply round_le; auto. apply fexp_correct; reflexivity. apply valid_rnd_round_mode. Qed.
Lemma drnd_d2r x : drnd (d2r x) = d2r x.
Proof. apply round_generic. apply valid_rnd_round_mode. apply generic_format_B2R. Qed.
Lemma drnd_0 : drnd 0 = 0.
Proof. apply round_0. apply valid_rnd_round_mode. Qed.
Lemma d2r_big x : Rabs (d2r x) < dbig.
Proof. apply abs_B2R_lt_emax. Qed.

Lemma dmul_fin x y : dfinite x = true -> dfinite y = true ->
  Rabs (drnd (d2r x * d2r y)) < dbig ->
  d2r (dmul x y) = drnd (d2r x * d2r y) /\ dfinite (dmul x y) = true.
Proof.
  intros Hx Hy H. assert (G := Bmult_correct dprec demax _ _ mode_NE x y).
  rewrite Rlt_bool_true in G by exact H. destruct G as [G1 [G2 _]].
  split; [exact G1|]. unfold dfinite, dmul in *. rewrite G2, Hx, Hy. reflexivity.
Qed.
Lemma ddiv_fin x y : dfinite x = true -> d2r y <> 0 ->
  Rabs (drnd (d2r x / d2r y)) < dbig ->
  d2r (ddiv x y) = drnd (d2r x / d2r y) /\ dfinite (ddiv x y) = true.
Proof.
  intros Hx Hy H. assert (G := Bdiv_correct dprec demax _ _ mode_NE x y Hy).
  rewrite Rlt_bool_true in G by exact H. destruct G as [G1 [G2 _]].
  split; [exact G1|]. unfold dfinite, ddiv in *. rewrite G2, Hx. reflexivity.
Qed.

Lemma SF_inf s x : B2SF (prec:=dprec) (emax:=demax) x = binary_overflow dprec demax mode_NE s ->
  x = B754_infinity s.
Proof. destruct x as [[]|[]| |[]]; destruct s; simpl; unfold binary_overflow, overflow_to_inf; simpl; congruence. Qed.

(** A subtraction either rounds the exact difference or overflows with its
    sign. *)
Lemma dsub_cases x y : dfinite x = true -> dfinite y = true ->
  (d2r (dsub x y) = drnd (d2r x - d2r y) /\ dfinite (dsub x y) = true) \/
  (dsub x y = B754_infinity false /\ dbig <= drnd (d2r x - d2r y)) \/
  (dsub x y = B754_infinity true /\ drnd (d2r x - d2r y) <= - dbig).
Proof.
  intros Hx Hy. assert (G := Bminus_correct dprec demax _ _ mode_NE x y Hx Hy).
  fold (drnd (d2r x - d2r y)) in G. change (bpow radix2 demax) with dbig in G.
  case (Rlt_bool_spec (Rabs (drnd (d2r x - d2r y))) dbig) as [H|H].
  - left. destruct G as [G1 [G2 _]]. split; auto.
  - right. destruct G as [G1 G2]. apply SF_inf in G1. fold (dsub x y) in G1. rewrite G1.
    destruct (Bsign x) eqn:Sx.
    + right; split; auto.
      assert (d2r x <= 0) by (destruct x as [| | |[]]; simpl in *; try discriminate; try lra; apply F2R_le_0; simpl; lia).
      assert (0 <= d2r y) by (destruct y as [| | |[]]; simpl in *; try discriminate; try lra; apply F2R_ge_0; simpl; lia).
      assert (K : drnd (d2r x - d2r y) <= drnd 0) by (apply drnd_le; lra). rewrite drnd_0 in K.
      rewrite Rabs_left1 in H by lra. lra.
    + left; split; auto.
      assert (0 <= d2r x) by (destruct x as [| | |[]]; simpl in *; try discriminate; try lra; apply F2R_ge_0; simpl; lia).
      assert (d2r y <= 0) by (destruct y as [| | |[]]; simpl in *; try discriminate; try lra; apply F2R_le_0; simpl; lia).
      assert (K : drnd 0 <= drnd (d2r x - d2r y)) by (apply drnd_le; lra). rewrite drnd_0 in K.
      rewrite Rabs_pos_eq in H by lra. lra.
Qed.
Lemma dadd_cases x y : dfinite x = true -> dfinite y = true ->
  (d2r (dadd x y) = drnd (d2r x + d2r y) /\ dfinite (dadd x y) = true) \/
  (dadd x y = B754_infinity false /\ dbig <= drnd (d2r x + d2r y)) \/
  (dadd x y = B754_infinity true /\ drnd (d2r x + d2r y) <= - dbig).
Proof.
  intros Hx Hy. assert (G := Bplus_correct dprec demax _ _ mode_NE x y Hx Hy).
  fold (drnd (d2r x + d2r y)) in G. change (bpow radix2 demax) with dbig in G.
  case (Rlt_bool_spec (Rabs (drnd (d2r x + d2r y))) dbig) as [H|H].
  - left. destruct G as [G1 [G2 _]]. split; auto.
  - right. destruct G as [G1 G2]. apply SF_inf in G1. fold (dadd x y) in G1. rewrite G1.
    destruct (Bsign x) eqn:Sx.
    + right; split; auto.
      assert (d2r x <= 0) by (destruct x as [| | |[]]; simpl in *; try discriminate; try lra; apply F2R_le_0; simpl; lia).
      assert (d2r y <= 0) by (destruct y as [| | |[]]; simpl in *; try discriminate; try lra; apply F2R_le_0; simpl; lia).
      assert (K : drnd (d2r x + d2r y) <= drnd 0) by (apply drnd_le; lra). rewrite drnd_0 in K.
      rewrite Rabs_left1 in H by lra. lra.
    + left; split; auto.
      assert (0 <= d2r x) by (destruct x as [| | |[]]; simpl in *; try discriminate; try lra; apply F2R_ge_0; simpl; lia).
      assert (0 <= d2r y) by (destruct y as [| | |[]]; simpl in *; try discriminate; try lra; apply F2R_ge_0; simpl; lia).
      assert (K : drnd 0 <= drnd (d2r x + d2r y)) by (apply drnd_le; lra). rewrite drnd_0 in K.
      rewrite Rabs_pos_eq in H by lra. lra.
Qed.

(** A computed difference above [z] means the exact difference is above [z]. *)
Lemma dlt_dsub z x y : dfinite z = true -> dfinite x = true -> dfinite y = true ->
  dlt z (dsub x y) = true -> d2r z < d2r x - d2r y.
Proof.
  intros Hz Hx Hy H. apply Rnot_le_lt. intros K. apply drnd_le in K. rewrite drnd_d2r in K.
  assert (B := d2r_big z). apply Rabs_lt_inv in B.
  destruct (dsub_cases x y Hx Hy) as [[E F]|[[E F]|[E F]]].
  - apply dlt_iff in H; auto. lra.
  - lra.
  - rewrite E in H. rewrite dlt_fin_ninf in H. discriminate.
Qed.
Lemma dlt_dadd z x y : dfinite z = true -> dfinite x = true -> dfinite y = true ->
  dlt (dadd x y) z = true -> d2r x + d2r y < d2r z.
Proof.
  intros Hz Hx Hy H. apply Rnot_le_lt. intros K. apply drnd_le in K. rewrite drnd_d2r in K.
  assert (B := d2r_big z). apply Rabs_lt_inv in B.
  destruct (dadd_cases x y Hx Hy) as [[E F]|[[E F]|[E F]]].
  - apply dlt_iff in H; auto. lra.
  - rewrite E in H. rewrite dlt_pinf in H. discriminate.
  - lra.
Qed.

(** All finite doubles are integer multiples of 2^-1074. *)
Notation dtiny := (bpow radix2 (-1074)).
Lemma fin_multiple x : exists m : Z, d2r x = IZR m * dtiny.
Proof.
  assert (G := generic_format_B2R dprec demax x). unfold generic_format in G.
  set (e := cexp radix2 (SpecFloat.fexp dprec demax) (d2r x)) in G.
  assert (He : (-1074 <= e)%Z) by (unfold e, cexp, SpecFloat.fexp, SpecFloat.emin, dprec, demax; lia).
  set (M := Ztrunc (scaled_mantissa radix2 (SpecFloat.fexp dprec demax) (d2r x))) in G.
  exists (M * 2 ^ (e + 1074))%Z. rewrite G at 1. unfold F2R; cbn [Fnum Fexp].
  rewrite mult_IZR. replace (IZR (2 ^ (e + 1074))) with (bpow radix2 (e + 1074)).
  2:{ symmetry. apply (IZR_Zpower radix2). lia. }
  rewrite Rmult_assoc, <- bpow_plus.
  do 2 f_equal. lia.
Qed.
Lemma fin_gap x y : d2r x < d2r y -> d2r x + dtiny <= d2r y.
Proof.
  destruct (fin_multiple x) as [a ->], (fin_multiple y) as [b ->]. intros H.
  assert (P := bpow_gt_0 radix2 (-1074)).
  apply Rmult_lt_reg_r in H; auto. apply lt_IZR in H.
  assert (K : (a + 1 <= b)%Z) by lia. apply IZR_le in K. rewrite plus_IZR in K.
  replace (IZR a * dtiny + dtiny) with ((IZR a + 1) * dtiny) by ring.
  apply Rmult_le_compat_r; lra.
Qed.

Lemma dhalf_val : d2r (dfrac 1 2) = / 2 /\ dfinite (dfrac 1 2) = true.
Proof.
  unfold dfrac. destruct (dofZ_exact 1) as [F1 V1]; [lia|]. destruct (dofZ_exact 2) as [F2 V2]; [lia|].
  assert (E : drnd (d2r (dofZ 1) / d2r (dofZ 2)) = / 2).
  { rewrite V1, V2. replace (1 / 2) with (bpow radix2 (-1)) by (simpl; lra).
    replace (/ 2) with (bpow radix2 (-1)) by (simpl; lra).
    apply round_generic. apply valid_rnd_round_mode.
    apply generic_format_bpow. unfold SpecFloat.fexp, SpecFloat.emin, dprec, demax; simpl; lia. }
  destruct (ddiv_fin (dofZ 1) (dofZ 2)) as [A B]; auto.
  - rewrite V2; lra.
  - rewrite E. rewrite Rabs_pos_eq by lra. apply Rlt_trans with 1; [lra|].
    change 1 with (bpow radix2 0). apply bpow_lt. lia.
  - rewrite A, E. auto.
Qed.
(** Halving is exact up to half of the smallest double. *)
Lemma half_mul w : dfinite w = true ->
  dfinite (dmul (dfrac 1 2) w) = true /\
  Rabs (d2r (dmul (dfrac 1 2) w) - d2r w / 2) <= dtiny / 2.
Proof.
  intros Hw. destruct dhalf_val as [V F].
  assert (E : Rabs (drnd (/ 2 * d2r w)) < dbig).
  { assert (B := d2r_big w). apply Rabs_lt_inv in B.
    destruct (Rle_or_lt 0 (d2r w)) as [Hp|Hp].
    - assert (K1 : drnd 0 <= drnd (/ 2 * d2r w)) by (apply drnd_le; lra).
      assert (K2 : drnd (/ 2 * d2r w) <= drnd (d2r w)) by (apply drnd_le; lra).
      rewrite drnd_0 in K1. rewrite drnd_d2r in K2. apply Rabs_lt; lra.
    - assert (K1 : drnd (/ 2 * d2r w) <= drnd 0) by (apply drnd_le; lra).
      assert (K2 : drnd (d2r w) <= drnd (/ 2 * d2r w)) by (apply drnd_le; lra).
      rewrite drnd_0 in K1. rewrite drnd_d2r in K2. apply Rabs_lt; lra. }
  destruct (dmul_fin (dfrac 1 2) w F Hw) as [A B]; [rewrite V; auto|].
  split; auto. rewrite A, V. replace (d2r w / 2) with (/ 2 * d2r w) by lra.
  assert (T := bpow_gt_0 radix2 (-1074)).
  destruct (Rle_or_lt (bpow radix2 (-1021)) (Rabs (d2r w))) as [Hn|Hn].
  - assert (G : generic_format radix2 (SpecFloat.fexp dprec demax) (/ 2 * d2r w)).
    { apply (generic_format_FLT radix2 (-1074) 53).
      assert (Q := generic_format_B2R dprec demax w).
      apply (FLT_format_generic radix2 (-1074) 53) in Q.
      destruct Q as [[m e] E1 E2 E3]. simpl in E2, E3.
      assert (He : (-1073 <= e)%Z).
      { apply Znot_gt_le. intros He. assert (e = -1074)%Z by lia. subst e.
        rewrite E1 in Hn. unfold F2R in Hn; cbn [Fnum Fexp] in Hn.
        rewrite Rabs_mult in Hn. rewrite (Rabs_pos_eq dtiny) in Hn by lra.
        assert (K : Rabs (IZR m) < bpow radix2 53).
        { rewrite <- abs_IZR. change (bpow radix2 53) with (IZR (2 ^ 53)). apply IZR_lt. exact E2. }
        assert (K2 : Rabs (IZR m) * dtiny < bpow radix2 53 * dtiny) by (apply Rmult_lt_compat_r; auto).
        rewrite <- bpow_plus in K2. simpl (53 + -1074)%Z in K2. lra. }
      exists (Float radix2 m (e - 1)); simpl; auto; [|lia].
      rewrite E1. unfold F2R; cbn [Fnum Fexp]. rewrite <- Rmult_assoc, (Rmult_comm (/2)), Rmult_assoc. f_equal.
      replace (bpow radix2 (e - 1)) with (bpow radix2 e * / 2); [lra|].
      replace (e - 1)%Z with (e + -1)%Z by lia. rewrite bpow_plus. change (bpow radix2 (-1)) with (/ 2). lra. }
    unfold drnd. rewrite round_generic; auto; [|apply valid_rnd_round_mode].
    replace (/ 2 * d2r w - / 2 * d2r w) with 0 by lra. rewrite Rabs_R0. lra.
  - eapply Rle_trans; [apply error_le_half_ulp|].
    + apply fexp_correct; reflexivity.
    + replace (dtiny / 2) with (/ 2 * dtiny) by lra. apply Rmult_le_compat_l; [lra|].
      destruct (Req_dec (/ 2 * d2r w) 0) as [Z0|Z0].
      * rewrite Z0. change (SpecFloat.fexp dprec demax) with (FLT_exp (-1074) 53). rewrite ulp_FLT_0 by reflexivity. lra.
      * rewrite ulp_neq_0 by auto. apply bpow_le. unfold cexp.
        assert (M : (mag radix2 (/ 2 * d2r w) <= -1021)%Z).
        { apply mag_le_bpow; auto. rewrite Rabs_mult, Rabs_pos_eq by lra. assert (Q := Rabs_pos (d2r w)). lra. }
        revert M; generalize (mag_val radix2 _ (mag radix2 (/ 2 * d2r w))); intros g M; unfold SpecFloat.fexp, SpecFloat.emin, dprec, demax. lia.
Qed.
(** The window of width [w] around [r], as evaluated in doubles, fits in the
    reals too. *)
Lemma left_fits z r w : dfinite z = true -> dfinite r = true -> dfinite w = true ->
  dlt z (dsub r (dmul (dfrac 1 2) w)) = true -> d2r z < d2r r - d2r w / 2.
Proof.
  intros Hz Hr Hw H. destruct (half_mul w Hw) as [F E].
  apply dlt_dsub in H; auto.
  destruct (fin_multiple z) as [a Ea], (fin_multiple r) as [b Eb],
    (fin_multiple (dmul (dfrac 1 2) w)) as [c Ec].
  assert (P := bpow_gt_0 radix2 (-1074)).
  assert (K : d2r z + dtiny <= d2r r - d2r (dmul (dfrac 1 2) w)).
  { rewrite Ea, Eb, Ec in *.
    replace (IZR b * dtiny - IZR c * dtiny) with (IZR (b - c) * dtiny) in * by (rewrite minus_IZR; ring).
    apply Rmult_lt_reg_r in H; auto. apply lt_IZR in H.
    assert (K : (a + 1 <= b - c)%Z) by lia. apply IZR_le in K. rewrite plus_IZR in K.
    replace (IZR a * dtiny + dtiny) with ((IZR a + 1) * dtiny) by ring.
    apply Rmult_le_compat_r; lra. }
  apply Rabs_le_inv in E. lra.
Qed.
Lemma right_fits z r w : dfinite z = true -> dfinite r = true -> dfinite w = true ->
  dlt (dadd r (dmul (dfrac 1 2) w)) z = true -> d2r r + d2r w / 2 < d2r z.
Proof.
  intros Hz Hr Hw H. destruct (half_mul w Hw) as [F E].
  apply dlt_dadd in H; auto.
  destruct (fin_multiple z) as [a Ea], (fin_multiple r) as [b Eb],
    (fin_multiple (dmul (dfrac 1 2) w)) as [c Ec].
  assert (P := bpow_gt_0 radix2 (-1074)).
  assert (K : d2r r + d2r (dmul (dfrac 1 2) w) + dtiny <= d2r z).
  { rewrite Ea, Eb, Ec in *.
    replace (IZR b * dtiny + IZR c * dtiny) with (IZR (b + c) * dtiny) in * by (rewrite plus_IZR; ring).
    apply Rmult_lt_reg_r in H; auto. apply lt_IZR in H.
    assert (K : (b + c + 1 <= a)%Z) by lia. apply IZR_le in K. rewrite plus_IZR in K.
    replace (IZR (b + c) * dtiny + dtiny) with ((IZR (b + c) + 1) * dtiny) by ring.
    apply Rmult_le_compat_r; lra. }
  apply Rabs_le_inv in E. lra.
Qed.
