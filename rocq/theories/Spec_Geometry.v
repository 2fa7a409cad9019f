(** * Spec_Geometry: vocabulary of C62.  Definitions only. *)
From Coq Require Import List ZArith Bool Reals String.
From Verif Require Import Base Scalar Model_Geometry Spec_Create.
Open Scope R_scope.

Notation V3 := (vec3 real_scalar).
Definition dot (a b : V3) : R :=
  match a, b with (a1, a2, a3), (b1, b2, b3) => a1 * b1 + a2 * b2 + a3 * b3 end.
Definition norm3 (a : V3) : R := sqrt (dot a a).
Definition opposite (a : V3) : V3 := match a with (a1, a2, a3) => (- a1, - a2, - a3) end.
(** The angle of libtmpl, for vectors that are not zero, and its number of degrees in a
    radian. *)
Definition angle_law (E : spice real_scalar) : Prop :=
  forall a b : V3, norm3 a <> 0 -> norm3 b <> 0 ->
    0 <= e_angle E a b <= PI /\ cos (e_angle E a b) = dot a b / (norm3 a * norm3 b).
Definition degrees_law (E : spice real_scalar) : Prop := e_degrees E = 180 / PI.
(** Light-time corrected position of a body seen from another. *)
Definition seen (E : spice real_scalar) (from body : string) (time : R) (ref : string) (p : V3) : Prop :=
  e_spkpos E body (time : real_scalar) ref "CN" from = Some p.
(** [x] degrees above the plane through the origin with normal [n] lies the direction of
    [p]: between -90 and 90, the sine being the component of the unit vector along [p]
    in the direction of [n]. *)
Definition height_above_plane (n p : V3) (x : R) : Prop :=
  -90 <= x <= 90 /\ sin (degree x) = dot p n / (norm3 p * norm3 n).
