(** * Properties_Dlp: C72, the diffraction-limited profile. *)
From Coq Require Import List ZArith Bool Reals Lia Lra Sorted.
From Verif Require Import Base Model_Time Model_Chord Model_Free Model_Frame Model_Resample Model_Dlp Spec_Dlp Proof_Dlp Proof_Dlp2 Ref_Resample Ref_Dlp.
Import ListNotations.
Open Scope R_scope.

(** C72: the profile has the radial velocity in one direction only.  Every sample of it lies
    between two neighbouring samples of the geometry, the same part of the way in radius,
    time, velocity, opening angle and every other column; its power is that of one sample of
    the resampled signal within the range of radii, divided by the free-space power of the
    calibration at this radius, and is not negative; its phase is the phase of this sample;
    its optical depth is that which takes this power away at this opening angle; and its
    frequency and threshold are those of the calibration at its time. *)
Theorem c72_profile : forall spline taps noise raw geo cal d dr lo hi out,
  timed g_t geo -> timed c_t cal -> one_way geo -> (2 <= length geo)%nat -> (2 <= length cal)%nat ->
  let rad := spline (map (fun g => (g_t g, g_rho g)) geo) in
  (StronglySorted (fun a b => rad (c_t a) < rad (c_t b)) cal \/ StronglySorted (fun a b => rad (c_t b) < rad (c_t a)) cal) ->
  profile spline taps noise raw geo cal d dr lo hi = Returns out ->
  exists kept radii I Q ys, trim geo raw = Returns kept /\
    resample_IQ taps (map (fun x => rad (r_t x)) kept) (map r_I kept) (map r_Q kept) dr = Returns (radii, I, Q) /\
    in_range fst lo hi (combine radii (combine I Q)) = Returns ys /\
    ((forall p, In p out -> p_dot p <= 0) \/ (forall p, In p out -> 0 <= p_dot p)) /\
    forall p, In p out ->
      (exists a b w, neighbours a b geo /\ between a b w p) /\
      (exists i q a b w, In (p_rho p, (i, q)) ys /\ neighbours a b cal /\ 0 <= w <= 1 /\ p_rho p = (1 - w) * rad (c_t a) + w * rad (c_t b) /\
         0 <= p_norm p /\ p_norm p = (i * i + q * q) / ((1 - w) * c_free a + w * c_free b) /\
         ((i <> 0 \/ q <> 0) -> exists r, 0 < r /\ r * r = i * i + q * q /\ i = r * cos (p_phase p) /\ q = r * sin (p_phase p))) /\
      (sin (p_B p) <> 0 -> 0 < p_norm p -> p_norm p = exp (- p_tau p / sin (p_B p))) /\
      (forall a b w, neighbours a b cal -> 0 <= w <= 1 -> p_t p = (1 - w) * c_t a + w * c_t b ->
         p_sky p = (1 - w) * c_sky a + w * c_sky b /\
         forall Ta Tb, threshold_of noise (round3 (Rabs (nth 1 radii 0 - nth 0 radii 0))) geo a Ta ->
           threshold_of noise (round3 (Rabs (nth 1 radii 0 - nth 0 radii 0))) geo b Tb -> p_thresh p = (1 - w) * Ta + w * Tb).
Proof. exact profile_ok. Qed.
Print Assumptions c72_profile.

(** C72: the raw samples used are those within the times of the geometry: all of them if none
    lies outside, else those from its first time on to before its last; cutting again changes
    nothing. *)
Theorem c72_trim : forall geo raw out first final, timed g_t geo -> timed r_t raw -> hd_error geo = Some first -> hd_error (rev geo) = Some final ->
  trim geo raw = Returns out ->
  ((out = raw /\ forall x, In x raw -> g_t first <= r_t x <= g_t final) \/
   ((exists x, In x raw /\ ~ g_t first <= r_t x <= g_t final) /\ those (fun x => g_t first <= r_t x < g_t final) raw out)) /\
  trim geo out = Returns out.
Proof. exact trim_ok. Qed.
Print Assumptions c72_trim.

(** C72: the range keeps every radius in it, in one piece, and at most half a spacing
    more; it is refused exactly if no radius lies strictly inside. *)
Theorem c72_range : forall {A} (radius : A -> R) xs lo hi s, 0 <= s -> StronglySorted (fun x y => radius x < radius y) xs ->
  (forall a b, neighbours a b xs -> radius b - radius a <= s) ->
  (in_range radius lo hi xs = Raises <-> forall x, In x xs -> ~ lo < radius x < hi) /\
  forall ys, in_range radius lo hi xs = Returns ys ->
    (exists l1 l2, xs = l1 ++ ys ++ l2) /\ (forall x, In x xs -> lo <= radius x <= hi -> In x ys) /\
    (forall y, In y ys -> lo - s / 2 <= radius y <= hi + s / 2).
Proof. exact @range_ok. Qed.
Print Assumptions c72_range.

(** C72: samples are removed only if the velocity has both signs, and then those that go the
    other way. *)
Theorem c72_direction : forall d geo xs ys, one_direction d geo xs = Returns ys ->
  let dot := fun x => np_interp (map (fun g => (g_t g, g_dot g)) geo) (m_t x) in
  let mixed := (exists x, In x xs /\ dot x < 0) /\ exists x, In x xs /\ 0 < dot x in
  (~ mixed /\ ys = xs) \/ (mixed /\ d = INGRESS /\ those (fun x => dot x <= 0) xs ys) \/ (mixed /\ d = EGRESS /\ those (fun x => 0 <= dot x) xs ys).
Proof. exact direction_ok. Qed.
Print Assumptions c72_direction.

(** C72: the threshold is the optical depth at which the power left of free space is that of
    the noise in the band of one resolution; it is positive exactly if free space is above it. *)
Theorem c72_threshold : forall noise res calpha rho_dot B p_free, 0 < noise -> 0 < res -> 0 < calpha -> rho_dot <> 0 -> 0 < Rabs B < 180 -> 0 < p_free ->
  (0 < tau_thresh noise res calpha rho_dot B p_free <-> calpha / 2 * (Rabs rho_dot / res) * noise < p_free) /\
  exp (- tau_thresh noise res calpha rho_dot B p_free / sin (Rabs (B * (PI / 180)))) * p_free = calpha / 2 * (Rabs rho_dot / res) * noise.
Proof. exact thresh_sign. Qed.
Print Assumptions c72_threshold.

(** C72: a chord is cut at the sample [b] after the first change of the sign of the velocity:
    the first profile gets exactly the samples earlier than a second before it, the second
    exactly those from a second after it on, in the geometry, the raw data and the
    calibration alike. *)
Theorem c72_chord : forall geo raw cal d1 g1 r1 c1 d2 g2 r2 c2, timed g_t geo -> timed r_t raw -> timed c_t cal ->
  chord_parts geo raw cal = Returns ((d1, g1, r1, c1), (d2, g2, r2, c2)) ->
  exists a b, neighbours a b geo /\ sign (g_dot a) <> sign (g_dot b) /\
    (forall x, In x geo -> g_t x <= g_t a -> sign (g_dot x) = sign (g_dot a)) /\
    those (fun x => g_t x < g_t b - 1) geo g1 /\ those (fun x => r_t x < g_t b - 1) raw r1 /\ those (fun x => c_t x < g_t b - 1) cal c1 /\
    those (fun x => g_t b + 1 <= g_t x) geo g2 /\ those (fun x => g_t b + 1 <= r_t x) raw r2 /\ those (fun x => g_t b + 1 <= c_t x) cal c2 /\
    direction_of g1 = Returns d1 /\ direction_of g2 = Returns d2.
Proof. exact chord_ok. Qed.
Print Assumptions c72_chord.
Theorem c72_heads : forall geo raw cal d1 g1 r1 c1 d2 g2 r2 c2, chord_parts geo raw cal = Returns ((d1, g1, r1, c1), (d2, g2, r2, c2)) -> heads d1 g1 /\ heads d2 g2.
Proof. exact heads_ok. Qed.
Print Assumptions c72_heads.

(** That a signal weaker than free space has a positive optical depth fails for rings seen
    from below: a quarter of the power of free space at an opening angle of -30 degrees has a
    negative one (the threshold takes the angle without its sign). *)
Theorem c72_depth_refuted : forall noise, exists out p, profile np_interp copy_taps noise ex_raw ex_geo ex_cal EGRESS 1 10 20 = Returns out /\
  In p out /\ p_rho p = 15 /\ p_norm p = 1 / 4 /\ p_tau p < 0.
Proof. exact ex_profile. Qed.
Print Assumptions c72_depth_refuted.

(** ** The hypotheses hold for the egress of [c72_depth_refuted], whose profile is not empty;
    for a chord of seven seconds; and for raw data longer than the geometry. *)
Example c72_case : timed g_t ex_geo /\ timed c_t ex_cal /\ one_way ex_geo /\ timed r_t ex_raw.
Proof. exact (conj ex_geo_timed (conj ex_cal_timed (conj (or_introl ex_geo_rising) ex_raw_timed))). Qed.
Example c72_case_radii : forall a b, neighbours a b ex_cal ->
  np_interp (map (fun g => (g_t g, g_rho g)) ex_geo) (c_t a) < np_interp (map (fun g => (g_t g, g_rho g)) ex_geo) (c_t b).
Proof.
  intros a b (l1 & l2 & E). unfold ex_cal in E. destruct l1 as [|x [|y l1]]; cbn in E; injection E; intros; subst; try (destruct l1; discriminate).
  - rewrite !ex_rad; cbn; lra.
  - discriminate.
Qed.
Example c72_case_chord : timed g_t ch_geo /\ timed r_t ch_raw /\ timed c_t ch_cal /\ chord_parts ch_geo ch_raw ch_cal =
  Returns ((INGRESS, [ch_g 0 (-1) 73; ch_g 1 (-1) 72], map ch_r [0; 1], map ex_c [0; 1]),
           (EGRESS, [ch_g 4 1 71; ch_g 5 1 72; ch_g 6 1 73], map ch_r [4; 5; 6], map ex_c [4; 5; 6])).
Proof. exact (conj ch_geo_timed (conj ch_raw_timed (conj ch_cal_timed ch_parts))). Qed.
Example c72_case_trim : timed g_t cut_geo /\ trim cut_geo ch_raw = Returns (map ch_r [1; 2; 3; 4]).
Proof. exact (conj cut_geo_timed cut_trim). Qed.
