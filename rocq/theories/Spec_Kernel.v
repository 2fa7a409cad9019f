(** * Spec_Kernel: the data of the kernels (C53). *)
From Coq Require Import ZArith List Reals.
From Verif Require Import Base Scalar Model_TauRec Model_Transform Spec_Select Spec_Real.
Import ListNotations.
Open Scope Z_scope.

(** Samples [lo], ..., [hi] of every variable of the profile are [v]. *)
Definition tabulated (t : rtau) (v : rf -> Z -> R) (lo hi : Z) : Prop := forall g i, lo <= i <= hi -> at_sample t g i (v g i : real_scalar).
(** The geometry for the ring intercept point of sample [a] and the radius of sample [b]: the
    spacecraft and the azimuth of [a], with [phi] the azimuth from which the stationary one is
    searched. *)
Definition ring_geometry (v : rf -> Z -> R) (a b : Z) (phi : R) : geometry real_scalar :=
  mkGeo (S := real_scalar) (v RX a, v RY a, v RZ a) (v RHO a, v PHI a) (v RHO b, phi).
(** The quartic polynomial with coefficients [p]. *)
Definition quartic (p : list R) (x : R) : R :=
  match p with [p0; p1; p2; p3; p4] => p0 + p1 * x + p2 * x ^ 2 + p3 * x ^ 3 + p4 * x ^ 4 | _ => 0 end%R.
