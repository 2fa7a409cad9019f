(** * Spec_Down: vocabulary of C80. *)
From Coq Require Import List ZArith Reals.
Import ListNotations.
Open Scope R_scope.

(** [n] times from [t0] on, [dt] apart. *)
Definition evenly (t0 dt : R) (n : nat) : list R := map (fun k => t0 + dt * INR k) (seq 0 n).
(** The number of raw samples for one downsampled sample: the integer nearest to the ratio of the
    spacings. *)
Definition factor (dt_down dt : R) (q : nat) : Prop := (1 <= q)%nat /\ Rabs (dt_down / dt - INR q) <= 1 / 2.
(** As many as there are in [n], the last perhaps incomplete. *)
Definition count (n q m : nat) : Prop := (q * (m - 1) < n <= q * m)%nat.
