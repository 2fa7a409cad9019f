(** * Spec_Mask: which offsets belong in a fit, independently of the code. *)
From Coq Require Import List ZArith Bool Reals.
Import ListNotations.
Open Scope R_scope.

(** Sample [i] is a number within 150 Hz, its distance [diff] from the trend is not above [stdev],
    and, if it has two samples on either side, it is within [df] of both neighbours (those that are
    numbers). *)
Definition steady (f diff : list (option R)) (stdev df : R) (i : nat) : Prop :=
  exists x, nth_error f i = Some (Some x) /\ -150 <= x <= 150 /\ (forall d, nth_error diff i = Some (Some d) -> d <= stdev) /\
    ((2 <= i)%nat -> (i + 3 <= length f)%nat -> forall k y, k = (i - 1)%nat \/ k = (i + 1)%nat -> nth_error f k = Some (Some y) -> Rabs (x - y) <= df).
Definition selects (m : list bool) (n : nat) (P : nat -> Prop) : Prop := length m = n /\ forall i, nth i m false = true <-> (i < n)%nat /\ P i.
(** [m'] is [m] without the isolated samples: from the fourth sample to the third last those with
    no neighbour in [m], and the third if none of the other four of the first five is in [m]. *)
Definition alive (m : list bool) (i : nat) : bool :=
  let s k := nth k m false in
  if ((3 <=? i) && (i + 3 <=? length m))%nat then s (i - 1)%nat || s (i + 1)%nat
  else if ((i =? 2) && (5 <=? length m))%nat then s 0%nat || s 1%nat || s 3%nat || s 4%nat else true.
Definition thinned (m m' : list bool) : Prop := length m' = length m /\ forall i, nth i m' false = nth i m false && alive m i.
Definition trues (m : list bool) : nat := count_occ bool_dec m true.
