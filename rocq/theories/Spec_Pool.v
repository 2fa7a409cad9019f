(** * Spec_Pool: vocabulary of C66.  Definitions only. *)
From Coq Require Import List ZArith Bool Reals String.
From Verif Require Import Base Scalar Model_Geometry Model_Pool.
Import ListNotations.

Section Spec.
  Context {S : scalar}.
  (** The elements of a list that satisfy [P], in order, [P] being decided for each. *)
  Inductive picked (P : S -> bool -> Prop) : list S -> list S -> Prop :=
  | pk_nil : picked P [] []
  | pk_keep x l l' : P x true -> picked P l l' -> picked P (x :: l) (x :: l')
  | pk_drop x l l' : P x false -> picked P l l' -> picked P (x :: l) l'.
  (** The planet, as an ellipsoid with these radii, hides the spacecraft from the observer
      at this time, wholly or in part. *)
  Definition hides (N : naif S) (upper : string -> string) (planet spacecraft obs : string)
      (radii : list S) (et : S) (b : bool) : Prop :=
    exists code, n_occult N radii planet ("IAU_" ++ upper planet)%string spacecraft obs et = Some code /\
      (b = true <-> code <> 0%Z).
  (** Radii with [h] added. *)
  Definition raised (h : S) (radii : list S) : list S := map (fun r => sadd r h) radii.
  (** Two pools that hold the same values. *)
  Definition same_pool (p q : pool S) : Prop := forall c, p c = q c.
End Spec.
(** More of the sky is hidden by a larger ellipsoid. *)
Definition monotone (N : naif real_scalar) (upper : string -> string) : Prop :=
  forall planet spacecraft obs (radii : list real_scalar) (h : R) et b,
    (0 <= h)%R -> hides N upper planet spacecraft obs radii et true ->
    hides N upper planet spacecraft obs (raised (h : real_scalar) radii) et b -> b = true.
