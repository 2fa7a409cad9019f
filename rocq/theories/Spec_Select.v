(** * Spec_Select: vocabulary of the statements about sample selection
    (C08-C13, C20-C22).  Definitions only. *)
From Coq Require Import List ZArith Bool Reals String.
From Flocq Require Import Core IEEE754.BinarySingleNaN.
From Verif Require Import Base Dbl Scalar Model_TauRec Spec_Tau.
Import ListNotations.
Open Scope Z_scope.

(** Entry [i] of an array is [a]. *)
Definition entry {A} (l : list A) (i : Z) (a : A) : Prop :=
  0 <= i /\ nth_error l (Z.to_nat i) = Some a.
(** A recorded radius array: finite numbers, strictly increasing. *)
Definition increasing (l : list double) : Prop :=
  (forall x, In x l -> finite x) /\
  forall i j a b, i < j -> entry l i a -> entry l j b -> (val a < val b)%R.
(** The samples a processed object reports: indices into the arrays. *)
Definition selected {S} (t : tau S) (i : Z) : Prop :=
  start t <= i < start t + n_used t.

(** An object as handed to window selection: radii recorded, increasing, one per
    sample, and no earlier error; the request is a pair of finite numbers. *)
Definition ready (t : dtau) (rho : list double) : Prop :=
  clean t /\ arr t RHO = Some rho /\ zlen rho = arr_size t /\
  1 <= arr_size t < two64 /\ increasing rho /\
  finite (range0 t) /\ finite (range1 t).

(** The window of width [w] around radius [r] fits strictly inside (lo, hi). *)
Definition fits (lo hi r w : double) : Prop :=
  (val lo < val r - val w / 2 /\ val r + val w / 2 < val hi)%R.
(** Left and right end of the window, as double arithmetic evaluates them. *)
Definition left_edge (r w : double) : double := dsub r (dmul (dfrac 1 2) w).
Definition right_edge (r w : double) : double := dadd r (dmul (dfrac 1 2) w).
(** Sample [i], of radius [a] and width [x], lies in the request of [t]. *)
Definition requested (t : dtau) (rho w : list double) (i : Z) (a x : double) : Prop :=
  entry rho i a /\ entry w i x /\ (val (range0 t) <= val a <= val (range1 t))%R.
(** ... and its window fits in the data, as double arithmetic evaluates it. *)
Definition admissible (t : dtau) (rho w : list double) (i : Z) : Prop :=
  exists a x lo hi, requested t rho w i a x /\
    entry rho 0 lo /\ entry rho (arr_size t - 1) hi /\
    dlt lo (left_edge a x) = true /\ dlt (right_edge a x) hi = true.
(** The window edges of the requested samples increase with the radius (widths
    vary more slowly than radii). *)
Definition edges_increase (t : dtau) (rho w : list double) : Prop :=
  forall i j a b x y, i < j ->
    requested t rho w i a x -> requested t rho w j b y ->
    dle (left_edge a x) (left_edge b y) = true /\
    dle (right_edge a x) (right_edge b y) = true.

(** The documented window width without the Allan-deviation correction:
    2 F^2 E / dR, evaluated in double arithmetic. *)
Definition plain_width (F E dR : double) : double :=
  dmul (dmul (dmul (dofZ 2) F) F) (ddiv E dR).
(** The documented width with the correction: with a = (c k sigma)^2 / (2 v)
    and P = dR / (a F^2), the width is E resinv(P) / a for P > 1 and 0
    otherwise (no width reaches the resolution). *)
Definition bfac_alpha (k sigma v : double) : double :=
  let os := dmul (dmul (dfrac 299792458 1000) k) sigma in
  dmul os (ddiv (dmul os (dfrac 1 2)) v).
Definition bfac_P (F k v sigma dR : double) : double :=
  ddiv dR (dmul (dmul (bfac_alpha k sigma v) F) F).
Definition bfac_width (resinv : double -> double) (F k v sigma E dR : double) : double :=
  let P := bfac_P F k v sigma dR in
  if dlt (dofZ 1) P then ddiv (dmul E (resinv P)) (bfac_alpha k sigma v)
  else dofZ 0.
