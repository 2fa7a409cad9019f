(** * Spec_Chord: vocabulary of C68.  Definitions only. *)
From Coq Require Import List ZArith Bool Reals Sorted.
From Verif Require Import Base Model_Time Model_Chord.
Import ListNotations.
Open Scope R_scope.

Section Spec.
  Context {A : Type}.
  Variables t rho : A -> R.
  (** The radius falls, or rises, from each sample to every later one. *)
  Definition falling (xs : list A) : Prop := StronglySorted (fun x y => rho y < rho x) xs.
  Definition rising (xs : list A) : Prop := StronglySorted (fun x y => rho x < rho y) xs.
  Definition in_time (xs : list A) : Prop := StronglySorted (fun x y => t x < t y) xs.
  (** The samples [0 .. m] fall and the samples [m ..] rise; there are samples on both
      sides of [m]. *)
  Definition valley (xs : list A) (m : nat) : Prop :=
    (0 < m)%nat /\ (S m < length xs)%nat /\ falling (firstn (S m) xs) /\ rising (skipn m xs).
  (** The samples before, at and after the lowest one. *)
  Definition around (xs : list A) (m : nat) (a b c : A) : Prop :=
    nth_error xs (m - 1) = Some a /\ nth_error xs m = Some b /\ nth_error xs (m + 1) = Some c.
  (** Signal not blocked. *)
  Definition free (atmos : list R) (x : A) : Prop := ~ In (t x) atmos.
  (** The free samples, in order. *)
  Inductive frees (atmos : list R) : list A -> list A -> Prop :=
  | fr_nil : frees atmos [] []
  | fr_keep x l l' : free atmos x -> frees atmos l l' -> frees atmos (x :: l) (x :: l')
  | fr_drop x l l' : ~ free atmos x -> frees atmos l l' -> frees atmos (x :: l) l'.
End Spec.
