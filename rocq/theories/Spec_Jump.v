(** * Spec_Jump: sharp bends of a sampled curve, independently of the code. *)
From Coq Require Import List ZArith Reals Sorted.
Import ListNotations.
Open Scope R_scope.

(** The samples are f i at the times x i, i < n.  The size of the second difference at sample [i],
    zero at the ends. *)
Definition bend (x f : nat -> R) (n i : nat) : R :=
  if le_lt_dec i 0 then 0 else if le_lt_dec (n - 1) i then 0
  else Rabs ((f (i + 1)%nat - 2 * f i + f (i - 1)%nat) / ((x i - x (i - 1)%nat) * (x (i + 1)%nat - x i))).
(** A sharp bend: sharper than both neighbours, and by more than two thirds of the sharpest. *)
Definition sharp (x f : nat -> R) (n i : nat) : Prop :=
  (0 < i < n - 1)%nat /\ bend x f n (i - 1) < bend x f n i /\ bend x f n (i + 1) < bend x f n i /\ forall j, (j < n)%nat -> 2 / 3 * bend x f n j < bend x f n i.
(** At least ten samples from the begin to [i] and from [i] to the one before the last, the same to
    every other sharp bend, not smooth, and not within the B ring. *)
Definition genuine (x f rho : nat -> R) (df : R) (n i : nat) : Prop :=
  (10 <= i)%nat /\ (i + 11 <= n)%nat /\ (forall j, sharp x f n j -> j <> i -> (i + 10 <= j \/ j + 10 <= i)%nat) /\
  (df <= Rabs (f i - f (i - 1)%nat) \/ df <= Rabs (f (i + 1)%nat - f i) \/ df <= Rabs (f (i + 1)%nat - f (i - 1)%nat)) /\
  (rho i <= 91000 \/ 119000 <= rho i).
Definition sampled (f : nat -> R) (n : nat) : list R := map f (seq 0 n).
