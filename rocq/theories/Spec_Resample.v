(** * Spec_Resample: vocabulary of C71.  Definitions only. *)
From Coq Require Import List ZArith Bool Reals Sorted.
From Verif Require Import Base Model_Resample.
Import ListNotations.
Open Scope R_scope.

(** Radii in ascending order. *)
Definition ascending_radii (rho : list R) : Prop := StronglySorted Rlt rho.
(** The data reach far enough for a first radius: half a kilometre and one spacing. *)
Definition long_enough (rho : list R) (dr : R) : Prop :=
  (2 <= length rho)%nat /\ hd 0 rho + 1 / 2 < last rho 0 /\ hd 0 rho + dr <= last rho 0.
(** The mean spacing of the data from a radius on. *)
Definition mean_spacing (rho : list R) (r0 : R) : R := (last rho 0 - r0) / INR (length rho - 1).
(** A whole number of metres. *)
Definition in_metres (d : R) : Prop := exists z : Z, d = IZR z / 1000.
(** A filter that keeps constants and has no delay, for every factor. *)
Definition proper (taps : nat -> Z -> R) : Prop := forall q, (2 <= q)%nat ->
  fold_right Rplus 0 (map (fun m => taps q (Z.of_nat m - Z.of_nat (10 * q))%Z) (seq 0 (20 * q + 1))) = 1 /\
  forall j, taps q (- j)%Z = taps q j.
(** A signal that is a linear function of the radius. *)
Definition line_of (a b : R) (rho : list R) : list R := map (fun r => a + b * r) rho.
