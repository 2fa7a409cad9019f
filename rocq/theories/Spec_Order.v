(** * Spec_Order: least squares and the F test, independently of the code. *)
From Coq Require Import List ZArith Reals.
Import ListNotations.
Open Scope R_scope.

(** The value at [x] of the polynomial with these coefficients, the constant last, and its squared
    distance from the data. *)
Fixpoint value (c : list R) (x : R) : R := match c with [] => 0 | a :: c' => a * x ^ length c' + value c' x end.
Definition distance (c : list R) (data : list (R * R)) : R := fold_right (fun d s => (value c (fst d) - snd d) ^ 2 + s) 0 data.
(** [s] is the least squared distance of a polynomial of order [k]. *)
Definition least (data : list (R * R)) (k : nat) (s : R) : Prop :=
  (exists c, length c = S k /\ distance c data = s) /\ (forall c, length c = S k -> s <= distance c data).
(** A least-squares fit of these data. *)
Definition least_squares (fit : list (R * R) -> nat -> list R) (data : list (R * R)) : Prop :=
  forall k, length (fit data k) = S k /\ least data k (distance (fit data k) data).
(** The next order is significant: it lowers the squared distance by more than the mean of what it
    leaves to each remaining degree of freedom. *)
Definition significant (data : list (R * R)) (k : nat) : Prop :=
  exists s1 s2, least data k s1 /\ least data (S k) s2 /\ (k + 2 < length data)%nat /\ s2 < (s1 - s2) * INR (length data - (k + 2)).
