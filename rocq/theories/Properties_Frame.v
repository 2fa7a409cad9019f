(** * Properties_Frame: C70, frames and angles of an occultation.

    Vocabulary: Spec_Frame.v. *)
From Coq Require Import List ZArith Bool Reals Lra Lia String.
From Verif Require Import Base Model_Time Model_Chord Model_Frame Spec_Frame Proof_Frame Proof_Frame2.
Import ListNotations.
Open Scope R_scope.

(** ** C70 *)
(** Ring longitude and observed ring azimuth. *)
Theorem c70_azimuth : forall E spacecraft dsn n ref et rho starg, unit_vector n -> inclined n ->
  spkpos E dsn et ref "CN" spacecraft = Some starg -> onto_plane n rho <> (0, 0, 0) -> onto_plane n starg <> (0, 0, 0) ->
  exists phi_rl phi_ora, calc_phi_deg E spacecraft dsn n ref et rho = Returns (phi_rl, phi_ora) /\
    turned n (node n) rho phi_rl /\ turned n starg rho phi_ora.
Proof. intros E spacecraft dsn ((a, b), c) ref et rho starg U I. apply longitude; [exact U|exact (inclined_sq a b c I)]. Qed.
Print Assumptions c70_azimuth.
(** Opening angle and elevation. *)
Theorem c70_opening : forall E spacecraft dsn n ref et p, spkpos E dsn et ref "CN" spacecraft = Some p -> p <> (0, 0, 0) -> n <> (0, 0, 0) ->
  exists B, calc_B_deg E spacecraft dsn n ref et = Returns B /\ height n p B.
Proof. exact opening. Qed.
Print Assumptions c70_opening.
Theorem c70_elevation : forall E topo target obs et p q,
  spkpos E target et topo "CN" obs = Some p -> spkpos E obs et topo "CN" "EARTH" = Some q -> p <> (0, 0, 0) -> q <> (0, 0, 0) ->
  exists h, calc_elevation_deg E topo target obs et = Returns h /\ height q p h.
Proof. exact elevation. Qed.
Print Assumptions c70_elevation.
(** The pole has the right ascension and the declination of the kernel at the given time, in
    Julian centuries. *)
Theorem c70_pole : forall et a0 a1 a2 d0 d1 d2,
  let T := et / (36525 * 86400) in
  let a := radians (a0 + a1 * T + a2 * T ^ 2) in let d := radians (d0 + d1 * T + d2 * T ^ 2) in
  get_pole et (a0, a1, a2) (d0, d1, d2) = (cos d * cos a, cos d * sin a, sin d) /\ unit_vector (get_pole et (a0, a1, a2) (d0, d1, d2)).
Proof. exact pole_ok. Qed.
Print Assumptions c70_pole.
(** The state of the spacecraft: lengths are kept; the third axis is the pole, the first the
    projected line of sight in J2000, the second a right angle further. *)
Theorem c70_state : forall E spacecraft dsn planet ref n, unit_vector n -> inclined n -> forall t p v los,
  spkezr E spacecraft t ref "CN" planet = Some (p, v) -> spkpos E dsn t "J2000" "XCN" spacecraft = Some los -> onto_plane n los <> (0, 0, 0) ->
  exists r w, calc_sc_state E spacecraft dsn planet n ref t = Returns (r, w) /\ vnorm r = vnorm p /\ vnorm w = vnorm v /\
    let x := onto_plane n los in
    forall q q', (q = p /\ q' = r) \/ (q = v /\ q' = w) ->
      vnorm x * fst (fst q') = vdot x q /\ vnorm x * snd (fst q') = vdot n (vcrss x q) /\ snd q' = vdot q n.
Proof. exact state. Qed.
Print Assumptions c70_state.
(** The impact radius of every sample, for years before 2016. *)
Theorem c70_impact : forall E spacecraft dsn planet ref n, unit_vector n -> inclined n -> forall year t_oet t_set, (year < 2016)%Z ->
  Forall (fun t => exists p d los, known E spacecraft dsn planet n ref t p d los) t_set ->
  exists rs, geometry_impact E spacecraft dsn planet n ref year t_oet t_set = Returns rs /\
    Forall2 (fun t r => exists p d los, known E spacecraft dsn planet n ref t p d los /\ distance_to_line p d r) t_set rs.
Proof. exact impacts. Qed.
Print Assumptions c70_impact.
(** The Fresnel scale, and that it belongs to the effective opening angle. *)
Theorem c70_fresnel : forall D f B phi, 0 <= D -> 0 < f -> sin (radians B) <> 0 -> 0 <= calc_F_km D f B phi /\
  calc_F_km D f B phi * calc_F_km D f B phi * (sin (radians B) * sin (radians B)) =
  299792458 / 1000 / f * D / 2 * (1 - cos (radians B) * cos (radians B) * (sin (radians phi) * sin (radians phi))).
Proof. exact fresnel. Qed.
Print Assumptions c70_fresnel.
Theorem c70_fresnel_effective : forall D f B phi x, 0 <= D -> 0 < f -> sin (radians B) <> 0 -> cos (radians B) <> 0 -> effective B phi x ->
  calc_F_km D f B phi * Rabs (sin (radians x)) = sqrt (299792458 / 1000 / f * D / 2).
Proof. exact fresnel_effective. Qed.
Print Assumptions c70_fresnel_effective.
(** The enhancement factor is the cotangent of the effective opening angle. *)
Theorem c70_beta : forall B phi, cos (radians phi) <> 0 -> tan (radians B) <> 0 -> calc_beta B phi = cos (radians phi) / tan (radians B).
Proof. exact beta. Qed.
Print Assumptions c70_beta.
(** The effective opening angle itself is returned in radians. *)
Theorem c70_effective : forall B phi,
  ((cos (radians phi) <> 0 \/ tan (radians B) <> 0) -> effective B phi (calc_B_eff_deg B phi * (180 / PI))) /\
  (forall x, effective B phi x -> calc_B_eff_deg B phi = radians x).
Proof. intros. split; [apply effective_is|apply effective_radians]. Qed.
Print Assumptions c70_effective.
(** So it is not the number of degrees that the name promises. *)
Theorem c70_degrees_refuted : forall B phi x, effective B phi x -> x <> 0 -> calc_B_eff_deg B phi <> x.
Proof. exact not_degrees. Qed.
Print Assumptions c70_degrees_refuted.
(** A pole along the third axis of the frame is refused. *)
Theorem c70_axis_refuted : forall E spacecraft dsn ref et c rho v, spkpos E dsn et ref "CN" spacecraft <> None ->
  calc_phi_deg E spacecraft dsn (0, 0, c) ref et rho = Raises /\ xform_j2k_to_pcf E spacecraft dsn (0, 0, c) v et = Raises.
Proof. exact on_axis. Qed.
Print Assumptions c70_axis_refuted.
(** From 2016 on: if samples are removed, the impact radii are those of other samples.
    Here the first of two samples is removed; the impact radius of the second is computed
    from the position at the first. *)
Theorem c70_removed_refuted : exists r,
  geometry_impact ex_ephemeris "Cassini" "DSS-14" "Saturn" ex_pole "J2000" 2016 [0; 1] [0; 1] = Returns [r] /\
  distance_to_line (1, 5, 0) (1, 0, 1) r /\ ~ distance_to_line (-1, 3, 0) (1, 0, 1) r.
Proof. exact misaligned. Qed.
Print Assumptions c70_removed_refuted.
(** In another frame than J2000 the first axis is not along the line of sight.  The same
    position: 10 along the line of sight in one frame, 0 in the other. *)
Theorem c70_frame_refuted : exists r w r' w',
  calc_sc_state ex_frames "Cassini" "DSS-14" "Saturn" (0, 1, 0) "J2000" 0 = Returns (r, w) /\ fst (fst r) = 10 /\
  calc_sc_state ex_frames "Cassini" "DSS-14" "Saturn" (0, 1, 0) "B1950" 0 = Returns (r', w') /\ fst (fst r') = 0.
Proof. exact other_frame. Qed.
Print Assumptions c70_frame_refuted.

(** The ephemerides of the refutation, before 2016: both samples. *)
Example c70_impact_nonvacuous : exists r1 r2,
  geometry_impact ex_ephemeris "Cassini" "DSS-14" "Saturn" ex_pole "J2000" 2015 [0; 1] [0; 1] = Returns [r1; r2] /\
  distance_to_line (1, 5, 0) (1, 0, 1) r1 /\ distance_to_line (-1, 3, 0) (1, 0, 1) r2.
Proof.
  assert (K0 : known ex_ephemeris "Cassini" "DSS-14" "Saturn" ex_pole "J2000" 0 (1, 5, 0) (1, 0, 1) (1, 0, 1)) by (apply ex_known; rewrite eqb_refl0; reflexivity).
  assert (K1 : known ex_ephemeris "Cassini" "DSS-14" "Saturn" ex_pole "J2000" 1 (-1, 3, 0) (1, 0, 1) (1, 0, 1)) by (apply ex_known; rewrite eqb_10; reflexivity).
  destruct (c70_impact ex_ephemeris "Cassini" "DSS-14" "Saturn" "J2000" ex_pole ex_unit ex_inclined 2015 [0; 1] [0; 1]) as (rs & E & F).
  - lia.
  - constructor; [eexists _, _, _; exact K0|]. constructor; [eexists _, _, _; exact K1|constructor].
  - inversion F as [|? r1 ? l (p & d & los & ((v & A) & B & _) & D) F']; subst. inversion F' as [|? r2 ? l' (p' & d' & los' & ((v' & A') & B' & _) & D') F'']; subst.
    inversion F''; subst. exists r1, r2. split; [exact E|]. cbn in A, B, A', B'. rewrite eqb_refl0 in A. rewrite eqb_10 in A'.
    injection A as <- <-. injection A' as <- <-. injection B as <-. injection B' as <-. split; assumption.
Qed.
(** Longitude and azimuth of a point at a right angle to the node and along the line of
    sight. *)
Example c70_azimuth_nonvacuous : exists phi_rl phi_ora,
  calc_phi_deg ex_ephemeris "Cassini" "DSS-14" ex_pole "J2000" 0 (0, 0, 7) = Returns (phi_rl, phi_ora) /\
  turned ex_pole (0, 1, 0) (0, 0, 7) phi_rl /\ turned ex_pole (1, 0, 1) (0, 0, 7) phi_ora /\ cos (radians phi_ora) = 1.
Proof.
  destruct (c70_azimuth ex_ephemeris "Cassini" "DSS-14" ex_pole "J2000" 0 (0, 0, 7) (1, 0, 1) ex_unit ex_inclined eq_refl) as (a & b & E & A & B).
  - unfold onto_plane, vsub, ex_pole. cbn. intro K. injection K as K1 K2 K3. lra.
  - exact ex_off.
  - exists a, b. split; [exact E|]. split; [replace (0, 1, 0) with (node ex_pole); [exact A|unfold node, ex_pole; f_equal; f_equal; ring]|]. split; [exact B|].
    destruct B as (_ & C & _). cbv zeta in C.
    assert (P1 : onto_plane ex_pole (1, 0, 1) = (0, 0, 1)) by (unfold onto_plane, vsub, ex_pole; cbn; apply vec_eq; ring).
    assert (P2 : onto_plane ex_pole (0, 0, 7) = (0, 0, 7)) by (unfold onto_plane, vsub, ex_pole; cbn; apply vec_eq; ring).
    rewrite P1, P2 in C. rewrite (vnorm_is (0, 0, 1) 1), (vnorm_is (0, 0, 7) 7) in C by (cbn; lra). cbn in C. lra.
Qed.
Example c70_effective_nonvacuous : effective 45 0 45 /\ calc_B_eff_deg 45 0 = PI / 4.
Proof.
  assert (R : radians 45 = PI / 4) by (unfold radians; field). assert (Z : radians 0 = 0) by (unfold radians; ring).
  assert (Ef : effective 45 0 45).
  { split; [lra|]. exists (sqrt 2). rewrite R, Z, cos_0, tan_PI4, cos_PI4, sin_PI4. assert (0 < sqrt 2) by (apply sqrt_lt_R0; lra).
    split; [assumption|]. split; field; lra. }
  split; [exact Ef|]. rewrite (proj2 (c70_effective 45 0) 45 Ef). exact R.
Qed.
