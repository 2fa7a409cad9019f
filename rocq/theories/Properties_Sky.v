(** * Properties_Sky: C74 and C75, reconstructed sky frequencies and the frequency correction. *)
From Coq Require Import String List ZArith Bool Reals Lra Lia Sorting.Sorted.
From Verif Require Import Base Model_Time Model_Frame Model_Sky Spec_Sky Proof_Sky2 Ref_Sky.
Import ListNotations.
Open Scope R_scope.

Theorem c74_frequency : forall N sc_name dsn ul suffix bands f ets sc rs p1 v1 p2 v2 q lt d, code N sc_name = Some sc -> code N dsn = Some rs ->
  (forall s, state N sc s = Some (p1 s, v1 s)) -> (forall s, state N rs s = Some (p2 s, v2 s)) -> (forall m s, In m masses -> exists w, state N (fst m) s = Some (q s (fst m), w)) ->
  (forall t, sent N t rs sc = Some (t - lt t)) ->
  clight N <> 0 -> moves p1 v1 -> moves p2 v2 -> travels (clight N) 9.8509818970128e-6 p1 p2 lt -> (forall t, derivable_pt_lim lt t (d t)) ->
  (forall t, In t ets -> clear_path (clight N) 9.8509818970128e-6 (p1 (t - lt t)) (v1 (t - lt t)) (p2 t) /\ slowness (clight N) (p2 t) (v2 t) (q t) <> 1) ->
  calc_f_sky_recon N 1 sc_name dsn ul suffix bands f ets = Returns (map (fun t => let t1 := t - lt t in
    f * (1 - d t) * ((1 - slowness (clight N) (p1 t1) (v1 t1) (q t1)) / (1 - slowness (clight N) (p2 t) (v2 t) (q t)))) ets).
Proof. exact frequency. Qed.
Print Assumptions c74_frequency.
Theorem c74_light_time : forall N sc rs p1 v1 p2 v2 lt d t,
  (forall s, state N sc s = Some (p1 s, v1 s)) -> (forall s, state N rs s = Some (p2 s, v2 s)) ->
  clight N <> 0 -> moves p1 v1 -> moves p2 v2 -> travels (clight N) 9.8509818970128e-6 p1 p2 lt -> derivable_pt_lim lt t d ->
  let t1 := t - lt t in
  let a := p1 t1 in let b := p2 t in let D := vnorm (vsub b a) in
  vnorm a <> 0 -> vnorm b <> 0 -> D <> 0 -> D < vnorm a + vnorm b ->
  (let r := vdot (vhat a) (v1 t1) in let w := - vdot (vhat (vsub b a)) (v1 t1) in
   ((r + w) / (vnorm a + vnorm b + D) - (r - w) / (vnorm a + vnorm b - D)) * 9.8509818970128e-6 + w / clight N + 1 <> 0) ->
  derlt N sc t1 rs t = Returns d.
Proof. exact light_rate_is. Qed.
Print Assumptions c74_light_time.
Theorem c74_clock : forall N et b p v q, state N b et = Some (p, v) -> (forall m, In m masses -> exists w, state N (fst m) et = Some (q (fst m), w)) ->
  derpt N et b = Returns (slowness (clight N) p v q).
Proof. exact clock_is. Qed.
Print Assumptions c74_clock.
(** [derlt] and [derpt] are what c74_light_time and c74_clock say. *)
Theorem c74_two_way : forall N track sc_name dsn ul suffix bands f ets RF sc rs ts, track <> 1%Z -> code N sc_name = Some sc -> code N dsn = Some rs ->
  (String.length suffix = 2%nat -> code N ul = Some ts) -> (String.length suffix <> 2%nat -> ts = rs) ->
  calc_f_sky_recon N track sc_name dsn ul suffix bands f ets = Returns RF ->
  Forall2 (fun et F => exists etsc etts A12 A23 B1 B3, sent N et rs sc = Some etsc /\ sent N etsc sc ts = Some etts /\ derlt N sc etsc rs et = Returns A23 /\ derlt N ts etts sc etsc = Returns A12 /\
    derpt N etts ts = Returns B1 /\ derpt N et rs = Returns B3 /\
    (B3 <> 1 -> (exists turn, In (bands, turn) ratios /\ F = f * turn * (1 - A12) * (1 - A23) * ((1 - B1) / (1 - B3))) \/ In bands ["S-K"; "K-S"; "K-X"]%string /\ F = 0)) ets RF.
Proof. exact two_way_is. Qed.
Print Assumptions c74_two_way.
(** For three pairs of bands the reconstructed frequency is 0. *)
Theorem c74_band_refuted : exists N f RF, 0 < f /\ calc_f_sky_recon N 2 "Cassini" "DSS-43" "DSS-43" "43" "S-K" f [0] = Returns RF /\ RF = [0].
Proof. exact no_band. Qed.
Print Assumptions c74_band_refuted.
(** A station that moves away from a spacecraft. *)
Example c74_example : calc_f_sky_recon ex_naif 1 "Cassini" "DSS-43" "" "" "" 8400 [0] =
  Returns [8400 * (9 / 10 - 9.8509818970128e-6 / 3) * ((1 - slowness 10 (1, 0, 0) (0, 0, 0) (fun _ => (0, 4, 0))) / (1 - slowness 10 (3, 0, 0) (1, 0, 0) (fun _ => (0, 4, 0))))].
Proof. exact ex_frequency. Qed.

Theorem c75_power : forall spl spm IQ f_spm f_off out, correct_IQ spl spm IQ f_spm f_off = Returns out -> map power out = map power IQ.
Proof. exact power_ok. Qed.
Print Assumptions c75_power.
Theorem c75_tone : forall spl spm IQ f_spm t0 a A theta, reproduces_cubics spl -> StronglySorted Rlt f_spm -> (4 <= length f_spm)%nat -> hd_error f_spm = Some t0 -> t0 + 4 / 100 <= last f_spm 0 ->
  IQ = map (fun t => signal A (2 * PI * a * t + theta)) spm ->
  exists psi, correct_IQ spl spm IQ f_spm (map (fun _ => a) f_spm) = Returns (map (fun _ => signal A psi) spm).
Proof. exact tone_ok. Qed.
Print Assumptions c75_tone.
Theorem c75_drift : forall spl spm IQ f_spm t0 a b, reproduces_cubics spl -> StronglySorted Rlt f_spm -> (4 <= length f_spm)%nat -> hd_error f_spm = Some t0 -> t0 + 4 / 100 <= last f_spm 0 ->
  length spm = length IQ ->
  exists out, correct_IQ spl spm IQ f_spm (map (fun t => a + b * (t - t0)) f_spm) = Returns out /\ length out = length IQ /\
    forall k t A theta, nth_error spm k = Some t -> nth_error IQ k = Some (signal A (theta + 2 * PI * (a * (t - t0) + b * (t - t0) ^ 2 / 2))) ->
      nth_error out k = Some (signal A (theta - 2 * PI * (a / 100 + b * (t - t0) / 200))).
Proof. exact drift_ok. Qed.
Print Assumptions c75_drift.
(** A signal with a linear drift is not brought to a constant: the offset is known exactly here, and
    the sign of the second sample is wrong. *)
Theorem c75_drift_refuted : forall spl, reproduces_cubics spl -> exists spm f_spm off, StronglySorted Rlt f_spm /\
  correct_IQ spl spm (map (fun t => signal 1 (2 * PI * (50 * t ^ 2))) spm) f_spm (map off f_spm) = Returns [(1, 0); (-1, 0)] /\ spm = [0; 1] /\ f_spm = [0; 10; 20; 30] /\ off = (fun t => 100 * t).
Proof. exact drift_left. Qed.
Print Assumptions c75_drift_refuted.
Example c75_used : reproduces_cubics ref_spl /\ exists psi, correct_IQ ref_spl [0; 1 / 4; 1 / 2] (map (fun t => signal 3 (2 * PI * 1 * t + 1)) [0; 1 / 4; 1 / 2]) ex_f_spm (map (fun _ => 1) ex_f_spm) = Returns (map (fun _ => signal 3 psi) [0; 1 / 4; 1 / 2]).
Proof.
  split; [exact ref_spl_ok|]. apply (c75_tone ref_spl _ _ ex_f_spm 0 1 3 1 ref_spl_ok ex_f_sorted); [cbn; lia|reflexivity|cbn; lra|reflexivity].
Qed.
