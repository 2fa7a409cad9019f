(** * Model_Down: the downsampled power to which the free space is fitted
    (rss_ringoccs/calibration/power_normalization.py, downsample_IQ).  Definitions only.  Exact
    arithmetic. *)
From Coq Require Import List ZArith Bool Reals.
From Verif Require Import Base Model_Time Model_Chord Model_Resample.
Import ListNotations.
Open Scope R_scope.

(** np.linspace(a, b, num=m). *)
Definition linspace (a b : R) (m : nat) : list R := map (fun k => a + INR k * ((b - a) / INR (m - 1))) (seq 0 m).
(** downsample_IQ, 510-553: the times and the powers.  The signal is given by its two components.
    A spacing of zero makes the factor infinite or not a number, for which round raises; scipy's
    resample_poly raises for a factor below one. *)
Definition downsample_IQ (taps : nat -> Z -> R) (spm I Q : list R) (dt_down : R) : py (list R * list R) :=
  match spm with
  | t0 :: t1 :: _ =>
      let dt_raw := t1 - t0 in
      if eqb dt_raw 0 then Raises else
      let q := pyround (dt_down / dt_raw) in
      if (q <? 1)%Z then Raises else
      let p := map (fun z => fst z ^ 2 + snd z ^ 2) (combine (resample_poly taps I (Z.to_nat q)) (resample_poly taps Q (Z.to_nat q))) in
      Returns (linspace t0 (last spm 0) (length p), p)
  | _ => Raises
  end.
