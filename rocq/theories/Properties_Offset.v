(** * Properties_Offset: C76, the frequency of the strongest signal in windows of the raw data. *)
From Coq Require Import String List ZArith Bool Reals Lra Lia Sorting.Sorted.
From Verif Require Import Base Model_Time Model_Offset Spec_Sky Spec_Offset Proof_Offset Proof_Offset2.
Import ListNotations.
Open Scope R_scope.

Theorem c76_peak : forall dt time IQ, length time = length IQ -> (0 < length IQ)%nat ->
  let n := length IQ in let z := fun k => nth k IQ (0, 0) in let P := spectrum n (fun k => nth k time 0) z in let Q := spectrum n INR z in
  exists m j, bin n m /\ (forall m', bin n m' -> Q (IZR m' / INR n) <= Q (IZR m / INR n)) /\
    let grid := fun j => IZR m / (INR n * dt) - 2 / 10 + INR j / 1000 in
    (j <= 400)%nat /\ find_peak_freq dt time IQ = Returns (grid j) /\ forall i, (i <= 400)%nat -> P (grid i) <= P (grid j).
Proof. exact peak_ok. Qed.
Print Assumptions c76_peak.
Theorem c76_tone : forall dt t0 n A f0 theta m j, (4 <= n)%nat -> 0 < dt -> dt < 5 / 2 -> A <> 0 ->
  let time := map (fun k => t0 + dt * INR k) (seq 0 n) in let IQ := map (fun t => signal A (2 * PI * f0 * t + theta)) time in
  let Q := spectrum n INR (fun k => nth k IQ (0, 0)) in
  bin n m -> (forall m', bin n m' -> m' <> m -> Q (IZR m' / INR n) < Q (IZR m / INR n)) -> (j <= 400)%nat -> f0 = IZR m / (INR n * dt) - 2 / 10 + INR j / 1000 ->
  find_peak_freq dt time IQ = Returns f0.
Proof. exact tone_peak. Qed.
Print Assumptions c76_tone.
Theorem c76_bin : forall dt t0 n A theta m, (4 <= n)%nat -> 0 < dt -> dt < 5 / 2 -> A <> 0 -> bin n m ->
  let f0 := IZR m / (INR n * dt) in
  let time := map (fun k => t0 + dt * INR k) (seq 0 n) in let IQ := map (fun t => signal A (2 * PI * f0 * t + theta)) time in
  find_peak_freq dt time IQ = Returns f0.
Proof. exact tone_bin. Qed.
Print Assumptions c76_bin.
Theorem c76_windows : forall spm IQ lo hi w out, find_offset_freqs spm IQ lo hi w = Returns out ->
  let W := fun s => samples_in w s (combine spm IQ) in
  (forall s, In s (map fst out) <-> exists k : nat, s = lo + 10 * INR k /\ s < hi + 10 /\ (2 < length (W s))%nat) /\ StronglySorted Rlt (map fst out) /\
  exists t0 t1 l, spm = t0 :: t1 :: l /\ forall s f, In (s, f) out -> find_peak_freq (t1 - t0) (map fst (W s)) (map snd (W s)) = Returns f.
Proof. exact windows_ok. Qed.
Print Assumptions c76_windows.
Theorem c76_total : forall spm IQ lo hi w, (2 <= length spm)%nat -> exists out, find_offset_freqs spm IQ lo hi w = Returns out.
Proof. exact windows_total. Qed.
Print Assumptions c76_total.
(** The upper limit of the times is not one: here all samples are later than it. *)
Theorem c76_beyond_refuted : exists spm IQ lo hi w out s, find_offset_freqs spm IQ lo hi w = Returns out /\ In s (map fst out) /\ hi < s /\ (forall t, In t spm -> hi < t).
Proof. exact beyond. Qed.
Print Assumptions c76_beyond_refuted.
(** Sixteen samples of a tone of 3/4 Hz, four in a second. *)
Example c76_example : let time := map (fun k => 100 + 1 / 4 * INR k) (seq 0 16) in
  find_peak_freq (1 / 4) time (map (fun t => signal 5 (2 * PI * (IZR 3 / (INR 16 * (1 / 4))) * t + 1)) time) = Returns (IZR 3 / (INR 16 * (1 / 4))) /\ IZR 3 / (INR 16 * (1 / 4)) = 3 / 4.
Proof.
  split; [apply c76_bin; try lra; [lia|unfold bin; lia]|]. replace (INR 16) with 16 by (rewrite INR_IZR_INZ; reflexivity). lra.
Qed.
