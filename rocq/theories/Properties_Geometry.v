(** * Properties_Geometry: C62, elevation and ring opening angle.

    Vocabulary: Spec_Geometry.v. *)
From Coq Require Import List ZArith Bool Reals Lra String.
From Verif Require Import Base Scalar Model_Geometry Spec_Create Spec_Geometry Proof_Geometry.
Open Scope R_scope.

(** ** C62 *)
(** The elevation of a target: the height of its direction, seen from the station, above
    the plane whose normal points from the centre of the Earth to the station. *)
Theorem c62_elevation : forall (E : spice real_scalar) (time : R) (target observer ref : string) (p q : V3),
  angle_law E -> degrees_law E -> seen E observer target time ref p -> seen E "EARTH" observer time ref q ->
  norm3 p <> 0 -> norm3 q <> 0 ->
  exists x : R, elevation_angle_deg E (time : real_scalar) target observer ref = Ok (x : real_scalar) /\ height_above_plane q p x.
Proof. exact elevation_exact. Qed.
Print Assumptions c62_elevation.
(** The ring opening angle: the height of the direction of the station, seen from the
    spacecraft, above the ring plane. *)
Theorem c62_opening : forall (E : spice real_scalar) (time : R) (nhat : V3) (spacecraft dsn ref : string) (p : V3),
  angle_law E -> degrees_law E -> seen E spacecraft dsn time ref p -> norm3 p <> 0 -> norm3 nhat <> 0 ->
  exists x : R, opening_angle_deg E (time : real_scalar) nhat spacecraft dsn ref = Ok (x : real_scalar) /\ height_above_plane nhat p x.
Proof. exact opening_exact. Qed.
Print Assumptions c62_opening.
(** A height is one number. *)
Theorem c62_unique : forall (n p : V3) (x y : R), height_above_plane n p x -> height_above_plane n p y -> x = y.
Proof. exact height_unique. Qed.
Print Assumptions c62_unique.
(** The opposite pole gives the opposite angle. *)
Theorem c62_opposite_pole : forall (E : spice real_scalar) (time : R) (nhat : V3) (spacecraft dsn ref : string) (p : V3),
  angle_law E -> degrees_law E -> seen E spacecraft dsn time ref p -> norm3 p <> 0 -> norm3 nhat <> 0 ->
  exists x : R, opening_angle_deg E (time : real_scalar) nhat spacecraft dsn ref = Ok (x : real_scalar) /\
    opening_angle_deg E (time : real_scalar) (opposite nhat) spacecraft dsn ref = Ok ((- x) : real_scalar).
Proof. exact opening_opposite. Qed.
Print Assumptions c62_opposite_pole.
(** An error of SPICE is not noticed: a vector that was never written is used. *)
Theorem c62_missing_ephemeris_refuted : forall (S : scalar) (E : spice S) (time : S) (target observer spacecraft dsn ref : string) (nhat : vec3 S),
  (e_spkpos E target time ref "CN" observer = None -> elevation_angle_deg E time target observer ref = UB Uninitialised) /\
  (e_spkpos E dsn time ref "CN" spacecraft = None -> opening_angle_deg E time nhat spacecraft dsn ref = UB Uninitialised).
Proof. intros. split; [apply elevation_missing|apply opening_missing]. Qed.
Print Assumptions c62_missing_ephemeris_refuted.

(** A library that satisfies the laws: the station is on the x axis of the Earth, the
    spacecraft in direction (1, 1, 0) from it. *)
Definition ex_spice : spice real_scalar := Build_spice real_scalar
  (fun body _ _ abcorr from =>
     if negb (String.eqb abcorr "CN") then None
     else if (String.eqb body "Cassini" && String.eqb from "DSS-14")%bool then Some (1, 1, 0)
     else if (String.eqb body "DSS-14" && String.eqb from "EARTH")%bool then Some (1, 0, 0)
     else if (String.eqb body "DSS-14" && String.eqb from "Cassini")%bool then Some (-1, -1, 0)
     else None)
  (fun a b => acos (dot a b / (norm3 a * norm3 b))) (180 / PI).
Lemma ex_angle : angle_law ex_spice.
Proof.
  intros a b Na Nb. cbn [e_angle ex_spice]. split; [apply acos_bound|]. apply cos_acos.
  assert (Pa : 0 <= norm3 a) by apply sqrt_pos. assert (Pb : 0 <= norm3 b) by apply sqrt_pos.
  assert (P : 0 < norm3 a * norm3 b) by (apply Rmult_lt_0_compat; lra).
  assert (B : Rabs (dot a b) <= norm3 a * norm3 b).
  { apply Rsqr_incr_0_var; [|lra]. rewrite <- Rsqr_abs. unfold norm3 in *. rewrite Rsqr_mult.
    assert (Qa : forall v, 0 <= dot v v) by (intros [[x y] z]; cbn; nra).
    rewrite !Rsqr_sqrt by apply Qa. destruct a as [[a1 a2] a3], b as [[b1 b2] b3]. cbn [dot]. unfold Rsqr.
    pose proof (Rle_0_sqr (a1 * b2 - a2 * b1)). pose proof (Rle_0_sqr (a1 * b3 - a3 * b1)). pose proof (Rle_0_sqr (a2 * b3 - a3 * b2)).
    unfold Rsqr in *. nra. }
  pose proof (Rle_abs (dot a b)) as B1. pose proof (Rle_abs (- dot a b)) as B2. rewrite Rabs_Ropp in B2. split.
  - apply Rmult_le_reg_r with (norm3 a * norm3 b); [lra|]. unfold Rdiv. rewrite Rmult_assoc, Rinv_l by lra. lra.
  - apply Rmult_le_reg_r with (norm3 a * norm3 b); [lra|]. unfold Rdiv. rewrite Rmult_assoc, Rinv_l by lra. lra.
Qed.
Example c62_example : exists x : R,
  elevation_angle_deg ex_spice (0 : real_scalar) "Cassini" "DSS-14" "J2000" = Ok (x : real_scalar) /\
  -90 <= x <= 90 /\ sin (degree x) = 1 / sqrt 2.
Proof.
  assert (N1 : norm3 (1, 1, 0) = sqrt 2) by (unfold norm3; f_equal; cbn; lra).
  assert (N2 : norm3 (1, 0, 0) = 1) by (unfold norm3; replace (dot (1, 0, 0) (1, 0, 0)) with 1 by (cbn; lra); apply sqrt_1).
  assert (S2 : 0 < sqrt 2) by (apply sqrt_lt_R0; lra).
  destruct (c62_elevation ex_spice 0 "Cassini" "DSS-14" "J2000" (1, 1, 0) (1, 0, 0) ex_angle eq_refl eq_refl eq_refl) as (x & X & B & H).
  - rewrite N1. lra.
  - rewrite N2. lra.
  - exists x. split; [exact X|]. split; [exact B|]. rewrite H, N1, N2. cbn [dot]. field. lra.
Qed.
Example c62_opening_example : exists x : R,
  opening_angle_deg ex_spice (0 : real_scalar) (0, 0, 1) "Cassini" "DSS-14" "J2000" = Ok (x : real_scalar) /\
  -90 <= x <= 90 /\ sin (degree x) = 0.
Proof.
  assert (N1 : norm3 (-1, -1, 0) = sqrt 2) by (unfold norm3; f_equal; cbn; lra).
  assert (N2 : norm3 (0, 0, 1) = 1) by (unfold norm3; replace (dot (0, 0, 1) (0, 0, 1)) with 1 by (cbn; lra); apply sqrt_1).
  assert (S2 : 0 < sqrt 2) by (apply sqrt_lt_R0; lra).
  destruct (c62_opening ex_spice 0 (0, 0, 1) "Cassini" "DSS-14" "J2000" (-1, -1, 0) ex_angle eq_refl eq_refl) as (x & X & B & H).
  - rewrite N1. lra.
  - rewrite N2. lra.
  - exists x. split; [exact X|]. split; [exact B|]. rewrite H, N1, N2. cbn [dot]. field. lra.
Qed.
