(** * Proof_Geometry: the angles are heights above planes (C62). *)
From Coq Require Import List ZArith Bool Reals Lra String.
From Verif Require Import Base Scalar Model_Geometry Spec_Create Spec_Geometry.
Open Scope R_scope.

Lemma dot_comm a b : dot a b = dot b a.
Proof. destruct a as [[? ?] ?], b as [[? ?] ?]. cbn. ring. Qed.
Lemma complement (E : spice real_scalar) (p n : V3) : angle_law E -> degrees_law E -> norm3 p <> 0 -> norm3 n <> 0 ->
  height_above_plane n p ((PI / 2 - e_angle E p n) * e_degrees E).
Proof.
  intros HA HD Np Nn. destruct (HA p n Np Nn) as ((A1 & A2) & C). pose proof PI_RGT_0 as P. rewrite HD. split.
  - split.
    + apply Rmult_le_reg_r with PI; [lra|]. replace ((PI / 2 - e_angle E p n) * (180 / PI) * PI) with ((PI / 2 - e_angle E p n) * 180) by (field; lra). change (-90 * PI <= (PI / 2 - e_angle E p n) * 180). lra.
    + apply Rmult_le_reg_r with PI; [lra|]. replace ((PI / 2 - e_angle E p n) * (180 / PI) * PI) with ((PI / 2 - e_angle E p n) * 180) by (field; lra). change ((PI / 2 - e_angle E p n) * 180 <= 90 * PI). lra.
  - unfold degree. replace ((PI / 2 - e_angle E p n) * (180 / PI) * (PI / 180)) with (PI / 2 - e_angle E p n) by (field; lra).
    rewrite sin_shift. exact C.
Qed.
Lemma elevation_exact (E : spice real_scalar) time target observer ref p q :
  angle_law E -> degrees_law E -> seen E observer target time ref p -> seen E "EARTH" observer time ref q ->
  norm3 p <> 0 -> norm3 q <> 0 ->
  exists x : R, elevation_angle_deg E (time : real_scalar) target observer ref = Ok (x : real_scalar) /\ height_above_plane q p x.
Proof.
  intros HA HD S1 S2 N1 N2. unfold elevation_angle_deg, position. unfold seen in S1, S2. rewrite S1. cbn [bind]. rewrite S2. cbn [bind].
  eexists. split; [reflexivity|]. apply complement; assumption.
Qed.
Lemma opening_exact (E : spice real_scalar) time nhat spacecraft dsn ref p :
  angle_law E -> degrees_law E -> seen E spacecraft dsn time ref p -> norm3 p <> 0 -> norm3 nhat <> 0 ->
  exists x : R, opening_angle_deg E (time : real_scalar) nhat spacecraft dsn ref = Ok (x : real_scalar) /\ height_above_plane nhat p x.
Proof.
  intros HA HD S1 N1 N2. unfold opening_angle_deg, position. unfold seen in S1. rewrite S1. cbn [bind].
  eexists. split; [reflexivity|]. apply complement; assumption.
Qed.
Lemma degree_range x : -90 <= x <= 90 -> - (PI / 2) <= degree x <= PI / 2.
Proof. intros H. unfold degree. pose proof PI_RGT_0. split; nra. Qed.
(** The height determines the number. *)
Lemma height_unique n p x y : height_above_plane n p x -> height_above_plane n p y -> x = y.
Proof.
  intros (A1 & A2) (B1 & B2). apply degree_range in A1, B1. pose proof PI_RGT_0 as P.
  assert (E : degree x = degree y).
  { rewrite <- (asin_sin (degree x)), <- (asin_sin (degree y)) by lra. congruence. }
  unfold degree in E. apply Rmult_eq_reg_r in E; [exact E|]. intro Z. assert (0 < PI / 180) by lra. lra.
Qed.
Lemma norm_opposite n : norm3 (opposite n) = norm3 n.
Proof. destruct n as [[a b] c]. unfold norm3. f_equal. cbn. ring. Qed.
Lemma dot_opposite p n : dot p (opposite n) = - dot p n.
Proof. destruct n as [[a b] c], p as [[u v] w]. cbn. ring. Qed.
Lemma opening_opposite (E : spice real_scalar) time nhat spacecraft dsn ref p :
  angle_law E -> degrees_law E -> seen E spacecraft dsn time ref p -> norm3 p <> 0 -> norm3 nhat <> 0 ->
  exists x : R, opening_angle_deg E (time : real_scalar) nhat spacecraft dsn ref = Ok (x : real_scalar) /\
    opening_angle_deg E (time : real_scalar) (opposite nhat) spacecraft dsn ref = Ok ((- x) : real_scalar).
Proof.
  intros HA HD S1 N1 N2. destruct (opening_exact E time nhat spacecraft dsn ref p HA HD S1 N1 N2) as (x & E1 & H1).
  destruct (opening_exact E time (opposite nhat) spacecraft dsn ref p HA HD S1 N1) as (y & E2 & H2). { rewrite norm_opposite. exact N2. }
  exists x. split; [exact E1|]. replace (-x) with y; [exact E2|].
  apply (height_unique (opposite nhat) p); [exact H2|]. destruct H1 as (A & B). split; [lra|].
  rewrite norm_opposite, dot_opposite. unfold degree in *. replace (- x * (PI / 180)) with (- (x * (PI / 180))) by ring.
  rewrite sin_neg, B. unfold Rdiv. ring.
Qed.
Lemma elevation_missing {S} (E : spice S) time target observer ref :
  e_spkpos E target time ref "CN" observer = None -> elevation_angle_deg E time target observer ref = UB Uninitialised.
Proof. intros H. unfold elevation_angle_deg, position. rewrite H. reflexivity. Qed.
Lemma opening_missing {S} (E : spice S) time nhat spacecraft dsn ref :
  e_spkpos E dsn time ref "CN" spacecraft = None -> opening_angle_deg E time nhat spacecraft dsn ref = UB Uninitialised.
Proof. intros H. unfold opening_angle_deg, position. rewrite H. reflexivity. Qed.
