(** * Properties_Down: C80, the downsampled power to which the free space is fitted. *)
From Coq Require Import List ZArith Bool Reals Lra Lia.
From Verif Require Import Base Model_Time Model_Resample Spec_Resample Ref_Resample Model_Down Spec_Down Proof_Down.
Import ListNotations.
Open Scope R_scope.

(** Sample [k] belongs to the time t0 + q k dt of the raw data; the time given for it is late by a
    share of the raw samples that are left over, always by less than one downsampled spacing. *)
Theorem c80_times : forall taps t0 dt n I Q dt_down times p, (2 <= n)%nat -> 0 < dt -> length I = n -> length Q = n ->
  downsample_IQ taps (evenly t0 dt n) I Q dt_down = Returns (times, p) ->
  exists q m, factor dt_down dt q /\ count n q m /\ length times = m /\ length p = m /\
    ((2 <= m)%nat -> forall k, (k < m)%nat ->
      nth k times 0 = t0 + dt * INR (q * k) + dt * INR k * INR (n - 1 - q * (m - 1)) / INR (m - 1) /\
      t0 + dt * INR (q * k) <= nth k times 0 <= t0 + dt * INR (q * k) + dt * INR (q - 1)).
Proof. exact times_ok. Qed.
Print Assumptions c80_times.
Theorem c80_values : forall taps t0 dt n a b c d dt_down times p, proper taps -> (2 <= n)%nat -> 0 < dt ->
  downsample_IQ taps (evenly t0 dt n) (line_of a b (evenly t0 dt n)) (line_of c d (evenly t0 dt n)) dt_down = Returns (times, p) ->
  exists q, factor dt_down dt q /\ forall k, (10 <= k)%nat -> (k + 10 < length p)%nat ->
    exists t, t = t0 + dt * INR (q * k) /\ nth k p 0 = (a + b * t) ^ 2 + (c + d * t) ^ 2.
Proof. exact values_ok. Qed.
Print Assumptions c80_values.
Theorem c80_raises : forall taps t0 dt n I Q dt_down, (2 <= n)%nat -> 0 < dt -> length I = n -> length Q = n ->
  (downsample_IQ taps (evenly t0 dt n) I Q dt_down = Raises <-> dt_down <= dt / 2) /\ downsample_IQ taps (evenly t0 dt n) I Q dt_down <> Exits.
Proof. exact raises_ok. Qed.
Print Assumptions c80_raises.
(** The claim that each power is given with its time is false: a signal whose amplitude is the time
    has, of 50 samples downsampled to 25, the power 24^2 at the time 24.5. *)
Theorem c80_late_refuted : forall taps, proper taps -> exists times p, downsample_IQ taps (evenly 0 1 50) (line_of 0 1 (evenly 0 1 50)) (line_of 0 0 (evenly 0 1 50)) 2 = Returns (times, p) /\
  nth 12 times 0 = 24 + 1 / 2 /\ nth 12 p 0 = 24 ^ 2.
Proof. exact late_refuted. Qed.
Print Assumptions c80_late_refuted.
(** There is a proper filter, and with it the hypotheses are met. *)
Example c80_example : proper copy_taps /\ exists times p, downsample_IQ copy_taps (evenly 0 1 50) (line_of 0 1 (evenly 0 1 50)) (line_of 0 0 (evenly 0 1 50)) 2 = Returns (times, p).
Proof. split; [exact copy_proper|]. destruct (c80_late_refuted copy_taps copy_proper) as (times & p & E & _). exists times, p. exact E. Qed.
