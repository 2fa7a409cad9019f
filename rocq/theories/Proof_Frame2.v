(** * Proof_Frame2: proofs of C70, continued. *)
From Coq Require Import List ZArith Bool Reals Lra Lia String.
From Verif Require Import Base Model_Time Model_Chord Model_Frame Spec_Frame Proof_Chord Proof_Frame.
Import ListNotations.
Open Scope R_scope.

Lemma inclined_sq : forall a b c, inclined (a, b, c) -> a * a + b * b <> 0.
Proof.
  intros a b c H E. pose proof (Rle_0_sqr a) as A. pose proof (Rle_0_sqr b) as B. unfold Rsqr in *. destruct H as [H|H]; pose proof (Rsqr_pos_lt _ H) as K; unfold Rsqr in K; lra.
Qed.
(** ** Heights. *)
Lemma height_sep : forall p n x, vnorm p <> 0 -> vnorm n <> 0 -> radians x = PI / 2 - vsep p n -> height n p x.
Proof.
  intros p n x P N X. unfold height. assert (B := cos_between p n P N). unfold vsep in X.
  rewrite (proj2 (eqb_false _ _) P), (proj2 (eqb_false _ _) N) in X. cbn [orb] in X.
  pose proof (acos_bound (vdot p n / (vnorm p * vnorm n))) as A. pose proof PI_RGT_0 as Pp. split.
  - assert (x = radians x * (180 / PI)) as -> by (unfold radians; field; lra). rewrite X.
    set (q := acos _) in *. split.
    + apply Rmult_le_reg_r with PI; [lra|]. replace ((PI / 2 - q) * (180 / PI) * PI) with ((PI / 2 - q) * 180) by (field; lra). lra.
    + apply Rmult_le_reg_r with PI; [lra|]. replace ((PI / 2 - q) * (180 / PI) * PI) with ((PI / 2 - q) * 180) by (field; lra). lra.
  - rewrite X, sin_minus, sin_PI2, cos_PI2. rewrite cos_acos by exact B. ring.
Qed.
Lemma opening : forall E spacecraft dsn n ref et p, spkpos E dsn et ref "CN" spacecraft = Some p -> p <> (0, 0, 0) -> n <> (0, 0, 0) ->
  exists B, calc_B_deg E spacecraft dsn n ref et = Returns B /\ height n p B.
Proof.
  intros E spacecraft dsn n ref et p S P N. unfold calc_B_deg. rewrite S. eexists. split; [reflexivity|].
  apply height_sep; [rewrite vnorm_0; exact P|rewrite vnorm_0; exact N|]. apply rad_deg.
Qed.
Lemma elevation : forall E topo target obs et p q, spkpos E target et topo "CN" obs = Some p -> spkpos E obs et topo "CN" "EARTH" = Some q ->
  p <> (0, 0, 0) -> q <> (0, 0, 0) -> exists h, calc_elevation_deg E topo target obs et = Returns h /\ height q p h.
Proof.
  intros E topo target obs et p q S T P Q. unfold calc_elevation_deg. rewrite S. cbn [orelse]. rewrite T. eexists. split; [reflexivity|].
  apply height_sep; [rewrite vnorm_0; exact P|rewrite vnorm_0; exact Q|]. unfold radians. field. apply PI_neq0.
Qed.
Lemma pole_unit : forall et ra dec, unit_vector (get_pole et ra dec).
Proof.
  intros et ((r0, r1), r2) ((d0, d1), d2). unfold unit_vector, get_pole, radrec. cbn. set (x := _ * (PI / 180)). set (y := _ * (PI / 180)).
  pose proof (sin2_cos2 x) as X. pose proof (sin2_cos2 y) as Y. unfold Rsqr in *.
  replace (1 * cos x * cos y * (1 * cos x * cos y) + 1 * sin x * cos y * (1 * sin x * cos y) + 1 * sin y * (1 * sin y))
    with ((sin x * sin x + cos x * cos x) * (cos y * cos y) + sin y * sin y) by ring. rewrite X. lra.
Qed.
Theorem pole_ok : forall et a0 a1 a2 d0 d1 d2,
  let T := et / (36525 * 86400) in
  let a := radians (a0 + a1 * T + a2 * T ^ 2) in let d := radians (d0 + d1 * T + d2 * T ^ 2) in
  get_pole et (a0, a1, a2) (d0, d1, d2) = (cos d * cos a, cos d * sin a, sin d) /\ unit_vector (get_pole et (a0, a1, a2) (d0, d1, d2)).
Proof.
  intros et a0 a1 a2 d0 d1 d2 T a d. split; [|apply pole_unit]. unfold get_pole, radrec. cbv zeta.
  replace (et / (86400 * (36525 / 100) * 100)) with T by (unfold T; field).
  replace ((a0 + T * a1 + T * T * a2) * (PI / 180)) with a by (unfold a, radians; field).
  replace ((d0 + T * d1 + T * T * d2) * (PI / 180)) with d by (unfold d, radians; field).
  f_equal; [f_equal|]; ring.
Qed.

(** ** The impact radius. *)
Lemma norm_le : forall u v, vdot u u <= vdot v v -> vnorm u <= vnorm v.
Proof. intros u v H. apply sqrt_le_1_alt. exact H. Qed.
Lemma nearest_on_line : forall p d, d <> (0, 0, 0) -> distance_to_line p d (vnorm (vsub p (vscl (vdot p d / vdot d d) d))).
Proof.
  intros p d D. set (k := vdot p d / vdot d d).
  assert (Dd : vdot d d <> 0). { intro K. apply D, vnorm_0. unfold vnorm. rewrite K. apply sqrt_0. }
  assert (Kd : vdot p d = k * vdot d d) by (unfold k; field; exact Dd). split.
  - exists (- k). f_equal. unfold vsub. f_equal. destruct d as ((x, y), z). cbn. apply vec_eq; ring.
  - intro s. apply norm_le. pose proof (vdot_pos d) as Dp.
    assert (Ex : vdot (vadd p (vscl s d)) (vadd p (vscl s d)) - vdot (vsub p (vscl k d)) (vsub p (vscl k d)) =
      (s * s - k * k) * vdot d d + 2 * (s + k) * vdot p d).
    { clear. unfold vsub. destruct p as ((p1, p2), p3). destruct d as ((d1, d2), d3). cbn. ring. }
    rewrite Kd in Ex. assert (0 <= (s + k) * (s + k) * vdot d d); [apply Rmult_le_pos; [apply (Rle_0_sqr (s + k))|exact Dp]|]. lra.
Qed.
Section Impact.
  Variable E : ephemeris.
  Variables spacecraft dsn planet ref : string.
  Variable n : vec.
  Hypothesis U : unit_vector n.
  Hypothesis I : inclined n.
  Lemma moved : forall et los, spkpos E dsn et "J2000" "XCN" spacecraft = Some los -> onto_plane n los <> (0, 0, 0) ->
    exists M : vec -> vec, (forall v, xform_j2k_to_pcf E spacecraft dsn n v et = Returns (M v)) /\
      (forall u v, vdot (M u) (M v) = vdot u v) /\
      (forall u k v, M (vadd u (vscl k v)) = vadd (M u) (vscl k (M v))) /\
      let p := onto_plane n los in
      forall v, vnorm p * fst (fst (M v)) = vdot p v /\ vnorm p * snd (fst (M v)) = vdot n (vcrss p v) /\ snd (M v) = vdot v n.
  Proof. destruct n as ((a, b), c). intros et los. apply planetocentric; [exact U|apply (inclined_sq a b c I)]. Qed.
  Lemma impact_one : forall t p d los, known E spacecraft dsn planet n ref t p d los ->
    exists st r, calc_sc_state E spacecraft dsn planet n ref t = Returns st /\
      calc_impact_radius_km E spacecraft dsn n ref (fst st) t = Returns r /\ distance_to_line p d r.
  Proof.
    intros t p d los ((v & K1) & K2 & K3 & K4 & K5). destruct (moved t los K3 K4) as (M & X & Dt & Ln & _).
    unfold calc_sc_state. rewrite K1. cbn [orelse fst snd]. rewrite X. cbn [pybind]. rewrite X. cbn [pybind].
    eexists _, _. split; [reflexivity|]. unfold calc_impact_radius_km. rewrite K2. cbn [orelse]. rewrite X. cbn [pybind fst].
    unfold nplnpt_distance.
    assert (Nm : forall u, vnorm (M u) = vnorm u) by (intro u; unfold vnorm; rewrite Dt; reflexivity).
    rewrite Nm. destruct (eqb (vnorm d) 0) eqn:Z; [apply eqb_true in Z; apply vnorm_0 in Z; contradiction|].
    cbn [orelse]. split; [reflexivity|].
    replace (vsub (M p) (vscl (vdot (M p) (M d) / vdot (M d) (M d)) (M d))) with (M (vsub p (vscl (vdot p d / vdot d d) d))).
    - rewrite Nm. apply nearest_on_line. exact K5.
    - rewrite !Dt. unfold vsub. set (k := vdot p d / vdot d d).
      replace (vscl (-1) (vscl k d)) with (vscl (- k) d) by (destruct d as ((x, y), z); cbn; apply vec_eq; ring).
      rewrite Ln. f_equal. destruct (M d) as ((x, y), z). cbn. apply vec_eq; ring.
  Qed.
  Lemma states : forall ts, Forall (fun t => exists p d los, known E spacecraft dsn planet n ref t p d los) ts ->
    exists sts, each (calc_sc_state E spacecraft dsn planet n ref) ts = Returns sts /\
      exists rs, each (fun p => calc_impact_radius_km E spacecraft dsn n ref (fst p) (snd p)) (zip (map fst sts) ts) = Returns rs /\
      Forall2 (fun t r => exists p d los, known E spacecraft dsn planet n ref t p d los /\ distance_to_line p d r) ts rs.
  Proof.
    intros ts F. induction F as [|t ts (p & d & los & K) F IH]; [exists []; split; [reflexivity|]; exists []; split; [reflexivity|constructor]|].
    destruct IH as (sts & A & rs & B & C). destruct (impact_one t p d los K) as (st & r & X & Y & Z).
    exists (st :: sts). cbn [each]. rewrite X. cbn [pybind]. rewrite A. cbn [pybind]. split; [reflexivity|].
    exists (r :: rs). cbn [map zip each fst snd]. rewrite Y. cbn [pybind]. rewrite B. cbn [pybind]. split; [reflexivity|].
    constructor; [exists p, d, los; split; assumption|exact C].
  Qed.
  Lemma impacts : forall year t_oet t_set, (year < 2016)%Z -> Forall (fun t => exists p d los, known E spacecraft dsn planet n ref t p d los) t_set ->
    exists rs, geometry_impact E spacecraft dsn planet n ref year t_oet t_set = Returns rs /\
      Forall2 (fun t r => exists p d los, known E spacecraft dsn planet n ref t p d los /\ distance_to_line p d r) t_set rs.
  Proof.
    intros year t_oet t_set Y F. destruct (states t_set F) as (sts & A & rs & B & C). exists rs. split; [|exact C].
    unfold geometry_impact. rewrite A. cbn [pybind]. destruct (Z.leb_spec 2016 year); [lia|]. cbn [pybind]. exact B.
  Qed.
  (** The state of the spacecraft. *)
  Lemma state : forall t p v los, spkezr E spacecraft t ref "CN" planet = Some (p, v) ->
    spkpos E dsn t "J2000" "XCN" spacecraft = Some los -> onto_plane n los <> (0, 0, 0) ->
    exists r w, calc_sc_state E spacecraft dsn planet n ref t = Returns (r, w) /\ vnorm r = vnorm p /\ vnorm w = vnorm v /\
      let x := onto_plane n los in
      forall q q', (q = p /\ q' = r) \/ (q = v /\ q' = w) ->
        vnorm x * fst (fst q') = vdot x q /\ vnorm x * snd (fst q') = vdot n (vcrss x q) /\ snd q' = vdot q n.
  Proof.
    intros t p v los K1 K3 K4. destruct (moved t los K3 K4) as (M & X & Dt & _ & Co). unfold calc_sc_state. rewrite K1. cbn [orelse fst snd].
    rewrite X. cbn [pybind]. rewrite X. cbn [pybind]. eexists _, _. split; [reflexivity|].
    assert (Nm : forall u, vnorm (M u) = vnorm u) by (intro u; unfold vnorm; rewrite Dt; reflexivity).
    split; [apply Nm|]. split; [apply Nm|]. cbv zeta in *. intros q q' [(-> & ->)|(-> & ->)]; apply Co.
  Qed.
End Impact.

(** ** Fresnel scale and effective opening angle. *)
Lemma fresnel : forall D f B phi, 0 <= D -> 0 < f -> sin (radians B) <> 0 -> 0 <= calc_F_km D f B phi /\
  calc_F_km D f B phi * calc_F_km D f B phi * (sin (radians B) * sin (radians B)) =
  299792458 / 1000 / f * D / 2 * (1 - cos (radians B) * cos (radians B) * (sin (radians phi) * sin (radians phi))).
Proof.
  intros D f B phi Dp Fp S. unfold calc_F_km. fold (radians B). fold (radians phi). split; [apply sqrt_pos|].
  set (c := cos (radians B)). set (s := sin (radians B)) in *. set (w := sin (radians phi)).
  pose proof (sin2_cos2 (radians B)) as P1. pose proof (SIN_bound (radians phi)) as P2. fold c s in P1. fold w in P2. unfold Rsqr in P1.
  assert (W1 : w * w <= 1) by nra. assert (C1 : 0 <= c * c <= 1) by nra.
  assert (X : 0 <= 1 - c * c * (w * w)) by nra.
  assert (L : 0 <= 299792458 / 1000 / f) by (apply Rmult_le_pos; [lra|left; apply Rinv_0_lt_compat; exact Fp]).
  assert (S2 : 0 < s * s) by (pose proof (Rsqr_pos_lt s S) as K; exact K).
  rewrite sqrt_sqrt.
  - field. split; lra.
  - apply Rmult_le_pos; [|left; apply Rinv_0_lt_compat; exact S2]. apply Rmult_le_pos; [|exact X]. apply Rmult_le_pos; [|exact Dp]. lra.
Qed.
Lemma effective_is : forall B phi, (cos (radians phi) <> 0 \/ tan (radians B) <> 0) -> effective B phi (calc_B_eff_deg B phi * (180 / PI)).
Proof.
  intros B phi H. unfold effective. rewrite rad_deg. unfold calc_B_eff_deg. fold (radians B) (radians phi).
  destruct (atan2_polar _ _ H) as ((L & U) & r & R0 & _ & X & Y). pose proof PI_RGT_0. split.
  - split.
    + apply Rmult_lt_reg_r with PI; [lra|]. match goal with |- _ < ?q * _ * _ => replace (q * (180 / PI) * PI) with (q * 180) by (field; lra) end. lra.
    + apply Rmult_le_reg_r with PI; [lra|]. match goal with |- ?q * _ * _ <= _ => replace (q * (180 / PI) * PI) with (q * 180) by (field; lra) end. lra.
  - exists r. auto.
Qed.
Lemma same_angle : forall x y, - PI < x <= PI -> - PI < y <= PI -> cos x = cos y -> sin x = sin y -> x = y.
Proof.
  intros x y X Y C S. pose proof PI_RGT_0. set (h := (x - y) / 2).
  assert (K : cos (x - y) = 1) by (rewrite cos_minus, C, S; pose proof (sin2_cos2 y) as P; unfold Rsqr in P; lra).
  replace (x - y) with (2 * h) in K by (unfold h; field). rewrite cos_2a_sin in K.
  assert (Z : sin h = 0). { destruct (Req_dec (sin h) 0) as [D|D]; [exact D|]. pose proof (Rsqr_pos_lt _ D) as Q. unfold Rsqr in Q. exfalso. lra. }
  destruct (Rtotal_order h 0) as [D|[D|D]].
  - assert (0 < sin (- h)) by (apply sin_gt_0; unfold h in *; lra). rewrite sin_neg in *. lra.
  - unfold h in D. lra.
  - assert (0 < sin h) by (apply sin_gt_0; unfold h in *; lra). lra.
Qed.
Lemma polar_unique : forall r r' x y, 0 < r -> 0 < r' -> r * cos x = r' * cos y -> r * sin x = r' * sin y -> cos x = cos y /\ sin x = sin y.
Proof.
  intros r r' x y R R' C S. pose proof (sin2_cos2 x) as X. pose proof (sin2_cos2 y) as Y. unfold Rsqr in *.
  assert (Q : r * r = r' * r').
  { replace (r * r) with (r * r * (sin x * sin x + cos x * cos x)) by (rewrite X; ring).
    replace (r' * r') with (r' * r' * (sin y * sin y + cos y * cos y)) by (rewrite Y; ring).
    replace (r * r * (sin x * sin x + cos x * cos x)) with ((r * sin x) * (r * sin x) + (r * cos x) * (r * cos x)) by ring. rewrite C, S. ring. }
  assert (r = r') by nra. subst r'. split; apply Rmult_eq_reg_l with r; lra.
Qed.
Lemma effective_radians : forall B phi x, effective B phi x -> calc_B_eff_deg B phi = radians x.
Proof.
  intros B phi x (Bx & r & R0 & C & S). pose proof PI_RGT_0 as Pp.
  assert (H : cos (radians phi) <> 0 \/ tan (radians B) <> 0).
  { destruct (Req_dec (cos (radians phi)) 0) as [Z|Z]; [right|left; exact Z]. intro T. rewrite C in Z. rewrite S in T.
    pose proof (sin2_cos2 (radians x)) as P. unfold Rsqr in P. 
    assert (K1 : cos (radians x) = 0) by (apply Rmult_integral in Z; destruct Z as [Z|Z]; [exfalso; lra|exact Z]).
    assert (K2 : sin (radians x) = 0) by (apply Rmult_integral in T; destruct T as [T|T]; [exfalso; lra|exact T]).
    rewrite K1, K2 in P. lra. }
  unfold calc_B_eff_deg. fold (radians B) (radians phi). destruct (atan2_polar _ _ H) as (Bd & r' & R0' & _ & C' & S').
  destruct (polar_unique r r' (radians x) (atan2 (tan (radians B)) (cos (radians phi))) R0 R0') as (K1 & K2); [congruence|congruence|].
  symmetry. apply same_angle; try assumption. unfold radians.
  replace (x * (PI / 180)) with (x / 180 * PI) by (field; lra). split; [|rewrite <- (Rmult_1_l PI) at 2]; nra.
Qed.
Lemma not_degrees : forall B phi x, effective B phi x -> x <> 0 -> calc_B_eff_deg B phi <> x.
Proof.
  intros B phi x Ef N. rewrite (effective_radians B phi x Ef). unfold radians. pose proof PI_RGT_0. pose proof PI_4 as P4. intro K.
  assert (x * (PI / 180 - 1) = 0) by lra. apply Rmult_integral in H0. destruct H0; [contradiction|]. lra.
Qed.
Lemma beta : forall B phi, cos (radians phi) <> 0 -> tan (radians B) <> 0 -> calc_beta B phi = cos (radians phi) / tan (radians B).
Proof.
  intros B phi C T. unfold calc_beta, calc_B_eff_deg. fold (radians B) (radians phi).
  destruct (atan2_polar (cos (radians phi)) (tan (radians B)) (or_introl C)) as (_ & r & R0 & _ & X & Y).
  set (e := atan2 (tan (radians B)) (cos (radians phi))) in *. set (p := cos (radians phi)) in *. set (q := tan (radians B)) in *.
  unfold tan. assert (Ce : cos e <> 0) by (intro K; rewrite K in X; lra). assert (Se : sin e <> 0) by (intro K; rewrite K in Y; lra).
  rewrite X, Y. field. repeat split; try lra; assumption.
Qed.
Lemma fresnel_effective : forall D f B phi x, 0 <= D -> 0 < f -> sin (radians B) <> 0 -> cos (radians B) <> 0 -> effective B phi x ->
  calc_F_km D f B phi * Rabs (sin (radians x)) = sqrt (299792458 / 1000 / f * D / 2).
Proof.
  intros D f B phi x Dp Fp Sb Cb (_ & r & R0 & C & S). destruct (fresnel D f B phi Dp Fp Sb) as (F0 & F2).
  set (F := calc_F_km D f B phi) in *. set (s := sin (radians B)) in *. set (c := cos (radians B)) in *. set (sx := sin (radians x)) in *.
  symmetry. apply Rsqr_inj; [apply sqrt_pos|apply Rmult_le_pos; [exact F0|apply Rabs_pos]|].
  assert (L : 0 <= 299792458 / 1000 / f * D / 2).
  { apply Rmult_le_pos; [|lra]. apply Rmult_le_pos; [|exact Dp]. apply Rmult_le_pos; [lra|left; apply Rinv_0_lt_compat; exact Fp]. }
  rewrite Rsqr_sqrt by exact L. unfold Rsqr. replace (F * Rabs sx * (F * Rabs sx)) with (F * F * (Rabs sx * Rabs sx)) by ring.
  replace (Rabs sx * Rabs sx) with (sx * sx) by (unfold Rabs; destruct (Rcase_abs sx); ring).
  pose proof (sin2_cos2 (radians x)) as Px. pose proof (sin2_cos2 (radians phi)) as Pp. pose proof (sin2_cos2 (radians B)) as Pb. unfold Rsqr in *.
  fold sx in Px. fold s c in Pb. set (lam := 299792458 / 1000 / f * D / 2) in *.
  assert (T : s = r * sx * c) by (unfold tan in S; fold s c in S; fold sx in S; apply Rmult_eq_reg_r with (/ c); [|apply Rinv_neq_0_compat; exact Cb]; replace (r * sx * c * / c) with (r * sx) by (field; exact Cb); exact S).
  set (cx := cos (radians x)) in *. set (w := sin (radians phi)) in *. set (z := cos (radians phi)) in *.
  assert (W : 1 - c * c * (w * w) = r * r * (c * c)).
  { replace (w * w) with (1 - z * z) by lra. rewrite C. replace (1 - c * c * (1 - r * cx * (r * cx))) with ((1 - c * c) + c * c * (r * r) * (cx * cx)) by ring.
    replace (1 - c * c) with (s * s) by lra. rewrite T. replace (r * sx * c * (r * sx * c) + c * c * (r * r) * (cx * cx)) with (r * r * (c * c) * (sx * sx + cx * cx)) by ring.
    rewrite Px. ring. }
  rewrite W in F2. rewrite T in F2.
  assert (Nz : r * r * (c * c) <> 0). { pose proof (Rsqr_pos_lt c Cb) as K. unfold Rsqr in K. assert (0 < r * r) by nra. assert (0 < r * r * (c * c)) by (apply Rmult_lt_0_compat; assumption). lra. }
  apply Rmult_eq_reg_r with (r * r * (c * c)); [|exact Nz]. rewrite <- F2. ring.
Qed.

(** ** Refutations. *)
Lemma on_axis : forall E spacecraft dsn ref et c rho v, spkpos E dsn et ref "CN" spacecraft <> None ->
  calc_phi_deg E spacecraft dsn (0, 0, c) ref et rho = Raises /\ xform_j2k_to_pcf E spacecraft dsn (0, 0, c) v et = Raises.
Proof.
  intros E spacecraft dsn ref et c rho v S.
  assert (T : twovec_3_2 (0, 0, c) zaxis = None).
  { unfold twovec_3_2. replace (vnorm (vcrss (0, 0, c) zaxis)) with 0; [|symmetry; apply vnorm_is; [lra|cbn; ring]].
    destruct (eqb 0 0) eqn:K; [reflexivity|]. apply eqb_false in K. contradiction. }
  unfold calc_phi_deg, xform_j2k_to_pcf. rewrite T. split.
  - destruct (spkpos E dsn et ref "CN" spacecraft); reflexivity.
  - destruct (spkpos E dsn et "J2000" "XCN" spacecraft); reflexivity.
Qed.
(** Two samples, the first with Earth and spacecraft on the same side. *)
Definition ex_ephemeris : ephemeris :=
  {| spkpos := fun _ _ _ _ _ => Some (1, 0, 1);
     spkezr := fun target t _ _ _ => if String.eqb target "Earth" then Some ((1, 0, 0), (0, 0, 0))
                                     else if eqb t 0 then Some ((1, 5, 0), (0, 0, 0)) else Some ((-1, 3, 0), (0, 0, 0)) |}.
Definition ex_pole : vec := (1, 0, 0).
Lemma ex_unit : unit_vector ex_pole.
Proof. unfold unit_vector, ex_pole. cbn. ring. Qed.
Lemma ex_inclined : inclined ex_pole.
Proof. left. lra. Qed.
Lemma ex_off : onto_plane ex_pole (1, 0, 1) <> (0, 0, 0).
Proof. unfold onto_plane, vsub, ex_pole. cbn. intro K. injection K as K1 K2 K3. lra. Qed.
Lemma ex_known : forall t p, (if eqb t 0 then Some ((1, 5, 0), (0, 0, 0)) else Some ((-1, 3, 0), (0, 0, 0))) = Some (p, (0, 0, 0)) ->
  known ex_ephemeris "Cassini" "DSS-14" "Saturn" ex_pole "J2000" t p (1, 0, 1) (1, 0, 1).
Proof.
  intros t p H. split; [exists (0, 0, 0); exact H|]. split; [reflexivity|]. split; [reflexivity|]. split; [exact ex_off|].
  intro K. injection K as K1 K3. lra.
Qed.
Lemma eqb_refl0 : eqb 0 0 = true.
Proof. apply eqb_true. reflexivity. Qed.
Lemma eqb_10 : eqb 1 0 = false.
Proof. apply eqb_false. lra. Qed.
Lemma misaligned : exists r, geometry_impact ex_ephemeris "Cassini" "DSS-14" "Saturn" ex_pole "J2000" 2016 [0; 1] [0; 1] = Returns [r] /\
  distance_to_line (1, 5, 0) (1, 0, 1) r /\ ~ distance_to_line (-1, 3, 0) (1, 0, 1) r.
Proof.
  destruct (moved ex_ephemeris "Cassini" "DSS-14" ex_pole ex_unit ex_inclined 0 (1, 0, 1) eq_refl ex_off) as (M & X & Dt & Ln & Co).
  assert (X' : forall sc t v, xform_j2k_to_pcf ex_ephemeris sc "DSS-14" ex_pole v t = Returns (M v)) by (intros sc t v; exact (X v)).
  destruct (impact_one ex_ephemeris "Cassini" "DSS-14" "Saturn" "J2000" ex_pole ex_unit ex_inclined 0 (1, 5, 0) (1, 0, 1) (1, 0, 1)) as (st & r & St & Im & Di).
  { apply ex_known. rewrite eqb_refl0. reflexivity. }
  assert (S0 : calc_sc_state ex_ephemeris "Cassini" "DSS-14" "Saturn" ex_pole "J2000" 0 = Returns (M (1, 5, 0), M (0, 0, 0))).
  { unfold calc_sc_state. cbn [spkezr ex_ephemeris String.eqb Ascii.eqb Bool.eqb]. rewrite eqb_refl0. cbn [orelse fst snd]. rewrite !X'. reflexivity. }
  assert (S1 : calc_sc_state ex_ephemeris "Cassini" "DSS-14" "Saturn" ex_pole "J2000" 1 = Returns (M (-1, 3, 0), M (0, 0, 0))).
  { unfold calc_sc_state. cbn [spkezr ex_ephemeris String.eqb Ascii.eqb Bool.eqb]. rewrite eqb_10. cbn [orelse fst snd]. rewrite !X'. reflexivity. }
  assert (Se : forall t, calc_sc_state ex_ephemeris "Earth" "DSS-14" "Saturn" ex_pole "J2000" t = Returns (M (1, 0, 0), M (0, 0, 0))).
  { intro t. unfold calc_sc_state. cbn [spkezr ex_ephemeris String.eqb Ascii.eqb Bool.eqb]. cbn [orelse fst snd]. rewrite !X'. reflexivity. }
  exists r. split; [|split; [exact Di|]].
  - unfold geometry_impact. cbn [each]. rewrite S0, S1. cbn [pybind map fst]. change (2016 <=? 2016)%Z with true. cbn iota.
    rewrite !Se. cbn [pybind map fst snd zip].
    destruct (Co (1, 5, 0)) as (_ & _ & Z0). destruct (Co (-1, 3, 0)) as (_ & _ & Z1). destruct (Co (1, 0, 0)) as (_ & _ & Z2).
    rewrite Z0, Z1, Z2. cbn [vdot ex_pole].
    assert (B0 : same_side (1 * 1 + 5 * 0 + 0 * 0) (1 * 1 + 0 * 0 + 0 * 0) = true).
    { unfold same_side. rewrite !(proj2 (ltb_true 0 _)) by lra. reflexivity. }
    assert (B1 : same_side (-1 * 1 + 3 * 0 + 0 * 0) (1 * 1 + 0 * 0 + 0 * 0) = false).
    { unfold same_side. rewrite (proj2 (ltb_false 0 (-1 * 1 + 3 * 0 + 0 * 0))), (proj2 (ltb_false (1 * 1 + 0 * 0 + 0 * 0) 0)), andb_false_r by lra. reflexivity. }
    rewrite B0, B1. cbn [negb forallb andb masked pybind zip each fst snd].
    rewrite S0 in St. injection St as <-. cbn [fst] in Im.
    assert (Im1 : calc_impact_radius_km ex_ephemeris "Cassini" "DSS-14" ex_pole "J2000" (M (1, 5, 0)) 1 = Returns r) by exact Im.
    rewrite Im1. reflexivity.
  - destruct Di as ((s & Es) & _). intros (_ & K). specialize (K (1 / 2)). rewrite <- Es in K.
    pose proof (vnorm_pos (vadd (1, 5, 0) (vscl s (1, 0, 1)))) as P.
    pose proof (vnorm_sq (vadd (1, 5, 0) (vscl s (1, 0, 1)))) as Q1. pose proof (vnorm_sq (vadd (-1, 3, 0) (vscl (1 / 2) (1, 0, 1)))) as Q2.
    set (u := vnorm (vadd (1, 5, 0) (vscl s (1, 0, 1)))) in *. set (w := vnorm (vadd (-1, 3, 0) (vscl (1 / 2) (1, 0, 1)))) in *.
    assert (u * u <= w * w) by nra. cbn in Q1, Q2. pose proof (Rle_0_sqr (1 + s)) as Y1. pose proof (Rle_0_sqr s) as Y2. unfold Rsqr in *. lra.
Qed.
(** Positions asked for in another frame: the axes are those of the line of sight in J2000.
    Here the other frame is J2000 turned by a right angle about the pole (0, 1, 0). *)
Definition ex_frames : ephemeris :=
  {| spkpos := fun _ _ frame _ _ => if String.eqb frame "J2000" then Some (1, 0, 0) else Some (0, 0, 1);
     spkezr := fun _ _ frame _ _ => if String.eqb frame "J2000" then Some ((10, 0, 0), (0, 0, 0)) else Some ((0, 0, 10), (0, 0, 0)) |}.
Lemma other_frame : exists r w r' w',
  calc_sc_state ex_frames "Cassini" "DSS-14" "Saturn" (0, 1, 0) "J2000" 0 = Returns (r, w) /\ fst (fst r) = 10 /\
  calc_sc_state ex_frames "Cassini" "DSS-14" "Saturn" (0, 1, 0) "B1950" 0 = Returns (r', w') /\ fst (fst r') = 0.
Proof.
  assert (U : unit_vector (0, 1, 0)) by (unfold unit_vector; cbn; ring). assert (I : inclined (0, 1, 0)) by (right; lra).
  assert (Pl : onto_plane (0, 1, 0) (1, 0, 0) = (1, 0, 0)) by (unfold onto_plane, vsub; cbn; apply vec_eq; ring).
  assert (O : onto_plane (0, 1, 0) (1, 0, 0) <> (0, 0, 0)) by (rewrite Pl; intro K; injection K as K; lra).
  assert (N1 : vnorm (1, 0, 0) = 1) by (apply vnorm_is; [lra|cbn; ring]).
  destruct (state ex_frames "Cassini" "DSS-14" "Saturn" "J2000" (0, 1, 0) U I 0 (10, 0, 0) (0, 0, 0) (1, 0, 0) eq_refl eq_refl O) as (r & w & A & _ & _ & B).
  destruct (state ex_frames "Cassini" "DSS-14" "Saturn" "B1950" (0, 1, 0) U I 0 (0, 0, 10) (0, 0, 0) (1, 0, 0) eq_refl eq_refl O) as (r' & w' & A' & _ & _ & B').
  exists r, w, r', w'. cbv zeta in *. specialize (B (10, 0, 0) r (or_introl (conj eq_refl eq_refl))). specialize (B' (0, 0, 10) r' (or_introl (conj eq_refl eq_refl))).
  rewrite Pl, N1 in B, B'. cbn in B, B'. split; [exact A|]. split; [lra|]. split; [exact A'|]. lra.
Qed.
