(** * Model_Offset: the frequency of the strongest signal in windows of the raw data
    (rss_ringoccs/calibration/calc_freq_offset.py).  Definitions only.  Exact arithmetic: np.fft.fft
    is the discrete Fourier transform and np.arange has no rounding. *)
From Coq Require Import String List ZArith Bool Reals.
From Flocq Require Import Core.
From Verif Require Import Base Model_Time Model_Chord Model_Frame Model_Sky.
Import ListNotations.
Open Scope R_scope.

(** np.arange(a, b, s) for s > 0. *)
Definition arange (a b s : R) : list R := map (fun k => a + s * INR k) (seq 0 (Z.to_nat (Zceil ((b - a) / s)))).
(** np.fft.fftfreq(n, d): the frequencies 0, 1, ..., (n-1)//2, -(n//2), ..., -1 over n d; here the
    numerators. *)
Definition bins (n : nat) : list Z := map Z.of_nat (seq 0 ((n + 1) / 2)) ++ map (fun k => (Z.of_nat k - Z.of_nat (n / 2))%Z) (seq 0 (n / 2)).
(** Lines 103-105, the weights; lines 124 and 127, the transform at one frequency and its power. *)
Definition weight (n k : nat) : R := 1 / 2 * (1 - cos (2 * PI * INR k / (INR n - 1))).
Definition weighted (IQ : list (R * R)) : list (R * R) :=
  map (fun kz => (weight (length IQ) (fst kz) * fst (snd kz), weight (length IQ) (fst kz) * snd (snd kz))) (combine (seq 0 (length IQ)) IQ).
Definition transform (time : list R) (IQ : list (R * R)) (f : R) : R * R :=
  fold_right (fun tz s => let r := rotated (2 * PI * fst tz * f) (snd tz) in (fst r + fst s, snd r + snd s)) (0, 0) (combine time IQ).
Definition power_at (time : list R) (IQ : list (R * R)) (f : R) : R :=
  let s := transform time IQ f in (fst s ^ 2 + snd s ^ 2) / INR (length IQ) ^ 2.
(** l[np.argmax(p(l))]: the first greatest value; an empty [l] is a ValueError. *)
Fixpoint best {A} (p : A -> R) (cur : A) (l : list A) : A :=
  match l with [] => cur | x :: l' => best p (if ltb (p cur) (p x) then x else cur) l' end.
Definition argbest {A} (p : A -> R) (l : list A) : py A := match l with [] => Raises | x :: l' => Returns (best p x l') end.

(** __find_peak_freq, 92-133; [dt] is self.dt. *)
Definition find_peak_freq (dt : R) (time : list R) (IQ : list (R * R)) : py R :=
  let IQ := weighted IQ in
  let n := length IQ in
  pybind (argbest (fun m => power_at (map INR (seq 0 n)) IQ (IZR m / INR n)) (bins n)) (fun m =>
  let f_max := IZR m / (INR n * dt) in
  argbest (power_at time IQ) (arange (f_max - 2 / 10) (f_max + 2 / 10 + 1 / 1000) (1 / 1000))).

(** __init__ and __find_offset_freqs, 38-90: the pairs of f_spm and f_offset. *)
Definition in_window (dt_freq mid t : R) : bool := negb (ltb t (mid - dt_freq)) && ltb t (mid + dt_freq).
Definition find_offset_freqs (spm : list R) (IQ : list (R * R)) (spm_min spm_max dt_freq : R) : py (list (R * R)) :=
  match spm with
  | t0 :: t1 :: _ =>
      let data := combine spm IQ in
      let windows := map (fun mid => (mid, filter (fun d => in_window dt_freq mid (fst d)) data)) (arange spm_min (spm_max + 10) 10) in
      each (fun w => pybind (find_peak_freq (t1 - t0) (map fst (snd w)) (map snd (snd w))) (fun f => Returns (fst w, f)))
        (filter (fun w => (2 <? length (snd w))%nat) windows)
  | _ => Raises
  end.
