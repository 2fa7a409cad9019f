(** * Properties_Resample: C71, the diffraction-limited signal at equally spaced radii. *)
From Coq Require Import List ZArith Bool Reals Lia Lra Sorted.
From Verif Require Import Base Model_Time Model_Resample Spec_Resample Proof_Resample Proof_Resample2 Proof_Resample3 Ref_Resample.
Import ListNotations.
Open Scope R_scope.

(** C71: the radii are equally spaced from a first radius that is a whole number of
    kilometres and of spacings, not before the data and near their begin.  If the data are
    dense enough, the spacing is the desired one to the metre; if not, it is the next
    multiple of 25 m that is.  Both components have one value for each radius. *)
Theorem c71_radii : forall taps rho I Q dr, 0 < dr -> ascending_radii rho -> long_enough rho dr -> length I = length rho -> length Q = length rho ->
  exists r0 s n I' Q', resample_IQ taps rho I Q dr = Returns (map (fun k => r0 + s * INR k) (seq 0 n), I', Q') /\
    (0 < n)%nat /\ length I' = n /\ length Q' = n /\
    hd 0 rho <= r0 /\ (r0 <= hd 0 rho + 1 / 2 \/ r0 < hd 0 rho + dr) /\ (exists (z : Z) (m : nat), r0 = IZR z + INR m * dr) /\
    (mean_spacing rho r0 <= dr -> in_metres s /\ Rabs (s - dr) <= 1 / 2000 /\ (in_metres dr -> s = dr)) /\
    (dr < mean_spacing rho r0 -> mean_spacing rho r0 <= s < mean_spacing rho r0 + 1 / 40 /\ exists z : Z, s = IZR z / 40).
Proof. exact radii_ok. Qed.
Print Assumptions c71_radii.

(** C71: for a spacing of whole metres every radius is within the data (nothing is
    extrapolated), and the radii reach the end of the data to less than two spacings. *)
Theorem c71_within : forall taps rho I Q dr, 0 < dr -> in_metres dr -> ascending_radii rho -> long_enough rho dr -> length I = length rho -> length Q = length rho ->
  forall radii I' Q', resample_IQ taps rho I Q dr = Returns (radii, I', Q') ->
    (forall r, In r radii -> hd 0 rho <= r < last rho 0) /\
    exists s, 0 < s /\ (forall k, (k + 1 < length radii)%nat -> nth (k + 1) radii 0 - nth k radii 0 = s) /\ last rho 0 <= last radii 0 + 3 / 2 * s.
Proof. exact within_ok. Qed.
Print Assumptions c71_within.

(** C71: the signal is where it is said to be: if both components are linear functions of
    the radius, the values are these functions of the radii returned, except at the first
    and last ten. *)
Theorem c71_signal : forall taps a b a' b' rho dr radii I' Q', proper taps -> 0 < dr -> in_metres dr -> ascending_radii rho -> long_enough rho dr ->
  resample_IQ taps rho (line_of a b rho) (line_of a' b' rho) dr = Returns (radii, I', Q') ->
  forall k, (10 <= k)%nat -> (k + 10 < length radii)%nat -> nth k I' 0 = a + b * nth k radii 0 /\ nth k Q' 0 = a' + b' * nth k radii 0.
Proof. exact signal_ok. Qed.
Print Assumptions c71_signal.

(** C71: an ingress occultation, with the radii going down, gives the same as the same
    samples in the other order. *)
Theorem c71_direction : forall taps rho I Q dr, ascending_radii rho -> (2 <= length rho)%nat ->
  resample_IQ taps (rev rho) (rev I) (rev Q) dr = resample_IQ taps rho I Q dr.
Proof. exact turned_same. Qed.
Print Assumptions c71_direction.

(** The property fails for a spacing that is not a whole number of metres: the samples keep
    the desired spacing, the radii have it rounded, and they drift apart with every
    sample. *)
Theorem c71_drift_refuted : forall taps a b a' b' rho dr radii I' Q', proper taps -> 0 < dr -> ascending_radii rho -> long_enough rho dr ->
  resample_IQ taps rho (line_of a b rho) (line_of a' b' rho) dr = Returns (radii, I', Q') -> mean_spacing rho (hd 0 radii) <= dr ->
  forall k, (10 <= k)%nat -> (k + 10 < length radii)%nat ->
    nth k I' 0 = a + b * (nth k radii 0 + (dr - round3 dr) * INR k).
Proof. exact drift. Qed.
Print Assumptions c71_drift_refuted.

(** It fails at the ends: a constant signal begins with a little more than half of its
    value, since the filter reads zeros before the data. *)
Theorem c71_ends_refuted : forall taps c rho dr radii I' Q', proper taps -> 0 < dr -> ascending_radii rho -> long_enough rho dr ->
  resample_IQ taps rho (line_of c 0 rho) (line_of 0 0 rho) dr = Returns (radii, I', Q') -> (10 < length radii)%nat ->
  3 / 2 * mean_spacing rho (hd 0 radii) < dr -> exists q, (2 <= q)%nat /\ hd 0 I' = c * ((1 + taps q 0%Z) / 2).
Proof. exact first_low. Qed.
Print Assumptions c71_ends_refuted.

(** It fails for data that end before the first whole kilometre: a radius beyond the data. *)
Theorem c71_short_refuted : forall taps, exists rho radii I' Q' r, ascending_radii rho /\ (2 <= length rho)%nat /\
  resample_IQ taps rho (line_of 1 0 rho) (line_of 0 0 rho) (1 / 4) = Returns (radii, I', Q') /\ In r radii /\ last rho 0 < r.
Proof. exact short. Qed.
Print Assumptions c71_short_refuted.

(** ** The hypotheses hold for 200 samples 250 m apart and spacings of 1 km and of a third
    of a kilometre, which drifts by a third of a metre with every sample. *)
Example c71_case : proper copy_taps /\ in_metres 1 /\ ascending_radii ex_rho /\ long_enough ex_rho 1 /\ long_enough ex_rho (1 / 3).
Proof. exact (conj copy_proper (conj one_metres (conj ex_rho_ascending (conj (ex_rho_long 1 ltac:(lra)) (ex_rho_long (1 / 3) ltac:(lra)))))). Qed.
Example c71_case_output : forall taps d, 1 / 4 <= d <= 1 -> exists radii I' Q',
  resample_IQ taps ex_rho (line_of 5 2 ex_rho) (line_of 0 3 ex_rho) d = Returns (radii, I', Q') /\ (40 < length radii)%nat /\
  mean_spacing ex_rho (hd 0 radii) <= 1 / 4.
Proof. exact ex_many. Qed.
Example c71_case_drift : 1 / 3 - round3 (1 / 3) = 1 / 3000.
Proof. exact third. Qed.
