(** * Proof_Frame: proofs of C70. *)
From Coq Require Import List ZArith Bool Reals Lra Lia String.
From Verif Require Import Base Model_Time Model_Chord Model_Frame Spec_Frame Proof_Chord.
Import ListNotations.
Open Scope R_scope.

(** ** Real functions. *)
Lemma eqb_false : forall x y, eqb x y = false <-> x <> y.
Proof. intros x y. unfold eqb. destruct (Req_EM_T x y); split; intro; congruence || discriminate || contradiction. Qed.
Lemma atan_bounds : forall x, - (PI / 2) < atan x < PI / 2.
Proof. intro x. pose proof (atan_bound x). lra. Qed.
Lemma cos_atan_pos : forall x, 0 < cos (atan x).
Proof. intro x. pose proof (atan_bounds x). apply cos_gt_0; lra. Qed.
Lemma sin_atan : forall x, sin (atan x) = x * cos (atan x).
Proof.
  intro x. pose proof (cos_atan_pos x) as C. pose proof (atan_right_inv x) as T. unfold tan in T.
  apply Rmult_eq_reg_r with (/ cos (atan x)); [|apply Rinv_neq_0_compat; lra].
  replace (sin (atan x) * / cos (atan x)) with (sin (atan x) / cos (atan x)) by reflexivity. rewrite T. field. lra.
Qed.
Lemma atan2_polar : forall x y, (x <> 0 \/ y <> 0) -> - PI < atan2 y x <= PI /\
  exists r, 0 < r /\ r * r = x * x + y * y /\ x = r * cos (atan2 y x) /\ y = r * sin (atan2 y x).
Proof.
  intros x y H. pose proof PI_RGT_0 as Pp. unfold atan2.
  assert (Q : forall c s t, c * c + s * s = 1 -> x = t * c -> y = t * s -> t * t = x * x + y * y).
  { intros c s t Q1 -> ->. replace (t * c * (t * c) + t * s * (t * s)) with (t * t * (c * c + s * s)) by ring. rewrite Q1. ring. }
  assert (P1 : forall a, cos a * cos a + sin a * sin a = 1) by (intro a; pose proof (sin2_cos2 a) as K; unfold Rsqr in K; lra).
  destruct (ltb 0 x) eqn:X1.
  - apply ltb_true in X1. pose proof (atan_bounds (y / x)). split; [lra|]. pose proof (cos_atan_pos (y / x)) as C.
    set (t := x / cos (atan (y / x))). assert (T : 0 < t) by (apply Rmult_lt_0_compat; [lra|apply Rinv_0_lt_compat; lra]).
    assert (A : x = t * cos (atan (y / x))) by (unfold t; field; lra).
    assert (B : y = t * sin (atan (y / x))).
    { rewrite sin_atan. replace (t * (y / x * cos (atan (y / x)))) with (y / x * (t * cos (atan (y / x)))) by ring. rewrite <- A. field. lra. }
    exists t. repeat split; try assumption. exact (Q _ _ t (P1 _) A B).
  - apply ltb_false in X1. destruct (ltb x 0) eqn:X2.
    + apply ltb_true in X2. set (a := atan (y / x)). pose proof (atan_bounds (y / x)) as Bd. fold a in Bd. pose proof (cos_atan_pos (y / x)) as C. fold a in C.
      assert (Sa : sin a = y / x * cos a) by apply sin_atan.
      set (t := - x / cos a). assert (T : 0 < t) by (apply Rmult_lt_0_compat; [lra|apply Rinv_0_lt_compat; lra]).
      assert (A : x = t * - cos a) by (unfold t; field; lra).
      assert (B : y = t * - sin a).
      { rewrite Sa. replace (t * - (y / x * cos a)) with (y / x * (t * - cos a)) by ring. rewrite <- A. field. lra. }
      assert (S1 : 0 <= y -> sin a <= 0) by (intro K; nra).
      assert (S2 : y < 0 -> 0 < sin a) by (intro K; nra).
      destruct (ltb y 0) eqn:Y1.
      * apply ltb_true in Y1. specialize (S2 Y1). split.
        -- assert (0 < a); [|lra]. destruct (Rlt_le_dec 0 a) as [D|D]; [exact D|]. exfalso. assert (0 <= sin (- a)) by (apply sin_ge_0; lra). rewrite sin_neg in *. lra.
        -- exists t. assert (Ec : cos (a - PI) = - cos a) by (rewrite cos_minus, cos_PI, sin_PI; ring).
           assert (Es : sin (a - PI) = - sin a) by (rewrite sin_minus, cos_PI, sin_PI; ring).
           rewrite Ec, Es. repeat split; try assumption. apply (Q (- cos a) (- sin a) t); [pose proof (P1 a); lra|exact A|exact B].
      * apply ltb_false in Y1. specialize (S1 Y1). split.
        -- assert (a <= 0); [|lra]. destruct (Rlt_le_dec 0 a) as [D|D]; [|exact D]. exfalso. assert (0 < sin a) by (apply sin_gt_0; lra). lra.
        -- exists t. assert (Ec : cos (a + PI) = - cos a) by (rewrite cos_plus, cos_PI, sin_PI; ring).
           assert (Es : sin (a + PI) = - sin a) by (rewrite sin_plus, cos_PI, sin_PI; ring).
           rewrite Ec, Es. repeat split; try assumption. apply (Q (- cos a) (- sin a) t); [pose proof (P1 a); lra|exact A|exact B].
    + apply ltb_false in X2. assert (x = 0) by lra. subst x. destruct (ltb 0 y) eqn:Y1.
      * apply ltb_true in Y1. split; [lra|]. exists y. rewrite cos_PI2, sin_PI2. repeat split; try lra; ring.
      * apply ltb_false in Y1. destruct (ltb y 0) eqn:Y2.
        -- apply ltb_true in Y2. split; [lra|]. exists (- y). rewrite cos_neg, sin_neg, cos_PI2, sin_PI2. repeat split; try lra; ring.
        -- apply ltb_false in Y2. exfalso. destruct H; lra.
Qed.
Lemma mod360_spec : forall x, 0 <= mod360 x < 360 /\ exists k : Z, mod360 x = x - 360 * IZR k.
Proof.
  intro x. unfold mod360. split; [|exists (Int_part (x / 360)); reflexivity].
  destruct (base_Int_part (x / 360)) as (A & B). assert (x / 360 * 360 = x) by (field). lra.
Qed.
Lemma cos_Z : forall x (k : Z), cos (x + 2 * PI * IZR k) = cos x /\ sin (x + 2 * PI * IZR k) = sin x.
Proof.
  intros x k. destruct (Z_le_gt_dec 0 k) as [K|K].
  - replace (2 * PI * IZR k) with (2 * INR (Z.to_nat k) * PI) by (rewrite INR_IZR_INZ, Z2Nat.id by lia; ring).
    split; [apply cos_period|apply sin_period].
  - set (y := x + 2 * PI * IZR k). assert (E : x = y + 2 * INR (Z.to_nat (- k)) * PI).
    { unfold y. rewrite INR_IZR_INZ, Z2Nat.id by lia. rewrite opp_IZR. ring. }
    rewrite E. split; symmetry; [apply cos_period|apply sin_period].
Qed.

(** ** Vectors. *)
Lemma vdot_pos : forall v, 0 <= vdot v v.
Proof. intros ((x, y), z). cbn. nra. Qed.
Lemma vnorm_sq : forall v, vnorm v * vnorm v = vdot v v.
Proof. intro v. apply sqrt_sqrt. apply vdot_pos. Qed.
Lemma vnorm_pos : forall v, 0 <= vnorm v.
Proof. intro v. apply sqrt_pos. Qed.
Lemma vnorm_is : forall v r, 0 <= r -> r * r = vdot v v -> vnorm v = r.
Proof. intros v r R E. unfold vnorm. rewrite <- E. apply sqrt_square. exact R. Qed.
Lemma vnorm_1 : forall n, unit_vector n -> vnorm n = 1.
Proof. intros n U. unfold vnorm. rewrite U. apply sqrt_1. Qed.
Lemma vnorm_0 : forall v, vnorm v = 0 <-> v = (0, 0, 0).
Proof.
  intro v. split.
  - intro H. pose proof (vnorm_sq v) as S. rewrite H in S. destruct v as ((x, y), z). cbn in S.
    assert (Z : forall w, w * w <= 0 -> w = 0) by (intros w K; destruct (Req_dec w 0) as [D|D]; [exact D|]; pose proof (Rsqr_pos_lt w D) as Q; unfold Rsqr in Q; exfalso; lra).
    pose proof (Rle_0_sqr x) as Sx. pose proof (Rle_0_sqr y) as Sy. pose proof (Rle_0_sqr z) as Sz. unfold Rsqr in *.
    rewrite (Z x), (Z y), (Z z) by lra. reflexivity.
  - intros ->. unfold vnorm. cbn. replace (0 * 0 + 0 * 0 + 0 * 0) with 0 by ring. apply sqrt_0.
Qed.
(** Cauchy and Schwarz. *)
Lemma schwarz : forall a b, vdot a b * vdot a b <= vdot a a * vdot b b.
Proof.
  intros ((a1, a2), a3) ((b1, b2), b3). cbn.
  pose proof (Rle_0_sqr (a1 * b2 - a2 * b1)) as K1. pose proof (Rle_0_sqr (a1 * b3 - a3 * b1)) as K2. pose proof (Rle_0_sqr (a2 * b3 - a3 * b2)) as K3.
  unfold Rsqr in *.
  match goal with |- ?l <= ?r => assert (r - l = (a1 * b2 - a2 * b1) * (a1 * b2 - a2 * b1) + (a1 * b3 - a3 * b1) * (a1 * b3 - a3 * b1) + (a2 * b3 - a3 * b2) * (a2 * b3 - a3 * b2)) by ring end.
  lra.
Qed.
Lemma cos_between : forall a b, vnorm a <> 0 -> vnorm b <> 0 -> -1 <= vdot a b / (vnorm a * vnorm b) <= 1.
Proof.
  intros a b A B. pose proof (vnorm_pos a). pose proof (vnorm_pos b). set (m := vnorm a * vnorm b).
  assert (M : 0 < m) by (apply Rmult_lt_0_compat; lra). pose proof (schwarz a b) as Sc.
  assert (Sm : vdot a b * vdot a b <= m * m) by (unfold m; replace (vnorm a * vnorm b * (vnorm a * vnorm b)) with (vnorm a * vnorm a * (vnorm b * vnorm b)) by ring; rewrite !vnorm_sq; exact Sc).
  assert (- m <= vdot a b <= m) by (split; nra).
  split; apply Rmult_le_reg_r with m; try exact M; unfold Rdiv; rewrite Rmult_assoc, Rinv_l by lra; lra.
Qed.

(** ** The frame. *)
Section Pole.
  Variables a b c : R.
  Hypothesis U : unit_vector (a, b, c).
  Hypothesis Nz : a * a + b * b <> 0.
  Let s := sqrt (a * a + b * b).
  Lemma s_sq : s * s = a * a + b * b.
  Proof. apply sqrt_sqrt. nra. Qed.
  Lemma s_pos : 0 < s.
  Proof. apply sqrt_lt_R0. nra. Qed.
  Definition rows : mat := ((- b / s, a / s, 0), (- c * a / s, - c * b / s, s), (a, b, c)).
  Lemma U' : a * a + b * b + c * c = 1.
  Proof. exact U. Qed.
  Lemma vec_eq : forall x y z x' y' z' : R, x = x' -> y = y' -> z = z' -> (x, y, z) = (x', y', z').
  Proof. intros. subst. reflexivity. Qed.
  Lemma frame : twovec_3_2 (a, b, c) zaxis = Some rows.
  Proof.
    pose proof s_sq as Q. pose proof s_pos as P. pose proof U' as U1. unfold twovec_3_2.
    assert (N1 : vnorm (vcrss (a, b, c) zaxis) = s) by (apply vnorm_is; [lra|rewrite Q; cbn; ring]).
    rewrite N1, (proj2 (eqb_false s 0)) by lra.
    assert (N2 : vnorm (vcrss zaxis (a, b, c)) = s) by (apply vnorm_is; [lra|rewrite Q; cbn; ring]).
    assert (X : ucrss zaxis (a, b, c) = (- b / s, a / s, 0)).
    { unfold ucrss, vhat. rewrite N2, (proj2 (eqb_false s 0)) by lra. cbn. apply vec_eq; field; lra. }
    rewrite X.
    assert (W : vcrss (a, b, c) (- b / s, a / s, 0) = (- c * a / s, - c * b / s, s)).
    { cbn. apply vec_eq; [field; lra|field; lra|]. apply Rmult_eq_reg_r with s; [|lra]. rewrite Q. field. lra. }
    assert (N3 : vnorm (vcrss (a, b, c) (- b / s, a / s, 0)) = 1).
    { rewrite W. apply vnorm_is; [lra|]. cbn.
      replace (- c * a / s * (- c * a / s) + - c * b / s * (- c * b / s) + s * s) with (c * c * ((a * a + b * b) / (s * s)) + s * s) by (field; lra).
      rewrite Q. replace ((a * a + b * b) / (a * a + b * b)) with 1 by (field; exact Nz). lra. }
    assert (Y : ucrss (a, b, c) (- b / s, a / s, 0) = (- c * a / s, - c * b / s, s)).
    { unfold ucrss, vhat. rewrite N3, (proj2 (eqb_false 1 0)) by lra. rewrite W. cbn. apply vec_eq; field; lra. }
    rewrite Y.
    assert (Z : vhat (a, b, c) = (a, b, c)).
    { unfold vhat. rewrite (vnorm_1 _ U), (proj2 (eqb_false 1 0)) by lra. cbn. apply vec_eq; field. }
    rewrite Z. reflexivity.
  Qed.
  (** The first two coordinates of a vector. *)
  Let P (v : vec) := a * fst (fst v) + b * snd (fst v).
  Let Q (v : vec) := a * snd (fst v) - b * fst (fst v).
  Lemma coordinates : forall v, mxv rows v = (Q v / s, s * snd v - c * P v / s, vdot v (a, b, c)).
  Proof.
    intros ((x, y), z). unfold rows, mxv, P, Q. cbn. pose proof s_pos. apply vec_eq; [field; lra|field; lra|ring].
  Qed.
  Lemma frame_dot : forall u v, vdot (mxv rows u) (mxv rows v) = vdot u v.
  Proof.
    intros u v. rewrite !coordinates. pose proof s_sq as Sq. pose proof s_pos as Sp. pose proof U' as U1.
    destruct u as ((u1, u2), u3). destruct v as ((v1, v2), v3). unfold P, Q. cbn.
    apply Rmult_eq_reg_r with (s * s); [|nra].
    replace (((a * u2 - b * u1) / s * ((a * v2 - b * v1) / s) +
      (s * u3 - c * (a * u1 + b * u2) / s) * (s * v3 - c * (a * v1 + b * v2) / s) +
      (u1 * a + u2 * b + u3 * c) * (v1 * a + v2 * b + v3 * c)) * (s * s))
    with ((a * u2 - b * u1) * (a * v2 - b * v1) +
      ((s * s) * u3 - c * (a * u1 + b * u2)) * ((s * s) * v3 - c * (a * v1 + b * v2)) +
      (u1 * a + u2 * b + u3 * c) * (v1 * a + v2 * b + v3 * c) * (s * s)) by (field; lra).
    rewrite Sq. assert (Cc : c * c = 1 - a * a - b * b) by lra.
    replace ((a * u2 - b * u1) * (a * v2 - b * v1) + ((a * a + b * b) * u3 - c * (a * u1 + b * u2)) * ((a * a + b * b) * v3 - c * (a * v1 + b * v2)) +
      (u1 * a + u2 * b + u3 * c) * (v1 * a + v2 * b + v3 * c) * (a * a + b * b))
    with ((a * u2 - b * u1) * (a * v2 - b * v1) + (a * u1 + b * u2) * (a * v1 + b * v2) * (c * c + (a * a + b * b))
      + (a * a + b * b) * (u3 * v3) * ((a * a + b * b) + c * c)) by ring.
    rewrite Cc. ring.
  Qed.
  Lemma frame_cross : forall u v, vdot (a, b, c) (vcrss u v) =
    fst (fst (mxv rows u)) * snd (fst (mxv rows v)) - snd (fst (mxv rows u)) * fst (fst (mxv rows v)).
  Proof.
    intros u v. rewrite !coordinates. pose proof s_sq as Sq. pose proof s_pos as Sp.
    destruct u as ((u1, u2), u3). destruct v as ((v1, v2), v3). unfold P, Q. cbn.
    apply Rmult_eq_reg_r with (s * s); [|nra].
    replace (((a * u2 - b * u1) / s * (s * v3 - c * (a * v1 + b * v2) / s) - (s * u3 - c * (a * u1 + b * u2) / s) * ((a * v2 - b * v1) / s)) * (s * s))
    with ((a * u2 - b * u1) * ((s * s) * v3 - c * (a * v1 + b * v2)) - ((s * s) * u3 - c * (a * u1 + b * u2)) * (a * v2 - b * v1)) by (field; lra).
    rewrite Sq. ring.
  Qed.
  Lemma plane_dot : forall u v, vdot (onto_plane (a, b, c) u) (onto_plane (a, b, c) v) =
    fst (fst (mxv rows u)) * fst (fst (mxv rows v)) + snd (fst (mxv rows u)) * snd (fst (mxv rows v)).
  Proof.
    intros u v. pose proof (frame_dot u v) as D. pose proof U' as U1.
    assert (E : vdot (onto_plane (a, b, c) u) (onto_plane (a, b, c) v) = vdot u v - vdot u (a, b, c) * vdot v (a, b, c)).
    { destruct u as ((u1, u2), u3). destruct v as ((v1, v2), v3). unfold onto_plane, vsub. cbn.
      assert (Cc : c * c = 1 - a * a - b * b) by lra.
      match goal with |- ?l = ?r => assert (l - r = (u1 * a + u2 * b + u3 * c) * (v1 * a + v2 * b + v3 * c) * (a * a + b * b + c * c - 1)) by ring end.
      rewrite Cc in *. nra. }
    rewrite E, <- D, !coordinates. cbn. ring.
  Qed.
  Lemma plane_cross : forall u v, vdot (a, b, c) (vcrss (onto_plane (a, b, c) u) (onto_plane (a, b, c) v)) = vdot (a, b, c) (vcrss u v).
  Proof. intros ((u1, u2), u3) ((v1, v2), v3). unfold onto_plane, vsub. cbn. ring. Qed.
  Lemma plane_polar : forall u, onto_plane (a, b, c) u <> (0, 0, 0) ->
    (fst (fst (mxv rows u)) <> 0 \/ snd (fst (mxv rows u)) <> 0) /\
    (forall r, 0 < r -> r * r = fst (fst (mxv rows u)) * fst (fst (mxv rows u)) + snd (fst (mxv rows u)) * snd (fst (mxv rows u)) -> vnorm (onto_plane (a, b, c) u) = r).
  Proof.
    intros u N. split.
    - destruct (Req_dec (fst (fst (mxv rows u))) 0) as [A|A]; [|left; exact A]. right. intro B. apply N. apply vnorm_0.
      apply vnorm_is; [lra|]. rewrite plane_dot, A, B. ring.
    - intros r R0 E. apply vnorm_is; [lra|]. rewrite plane_dot. exact E.
  Qed.
  Lemma ra_polar : forall v, (fst (fst v) <> 0 \/ snd (fst v) <> 0) -> 0 <= recrad_ra v < 2 * PI /\
    exists r, 0 < r /\ r * r = fst (fst v) * fst (fst v) + snd (fst v) * snd (fst v) /\
      fst (fst v) = r * cos (recrad_ra v) /\ snd (fst v) = r * sin (recrad_ra v).
  Proof.
    intros ((x, y), z) H. cbn in H. destruct (atan2_polar x y H) as (B & r & R0 & Rr & X & Y). unfold recrad_ra. cbn [fst snd].
    pose proof PI_RGT_0. destruct (ltb (atan2 y x) 0) eqn:L.
    - apply ltb_true in L. split; [lra|]. exists r. destruct (cos_Z (atan2 y x) 1) as (C & S). rewrite Rmult_1_r in C, S. rewrite C, S. auto.
    - apply ltb_false in L. split; [lra|]. exists r. auto.
  Qed.
  Lemma rad_deg : forall x, radians (x * (180 / PI)) = x.
  Proof. intro x. unfold radians. field. apply PI_neq0. Qed.

  Lemma longitude : forall E spacecraft dsn ref et rho starg, spkpos E dsn et ref "CN" spacecraft = Some starg ->
    onto_plane (a, b, c) rho <> (0, 0, 0) -> onto_plane (a, b, c) starg <> (0, 0, 0) ->
    exists phi_rl phi_ora, calc_phi_deg E spacecraft dsn (a, b, c) ref et rho = Returns (phi_rl, phi_ora) /\
      turned (a, b, c) (node (a, b, c)) rho phi_rl /\ turned (a, b, c) starg rho phi_ora.
  Proof.
    intros E spacecraft dsn ref et rho starg Sp Nr Ns. unfold calc_phi_deg. rewrite Sp. cbn [orelse]. rewrite frame. cbn [orelse].
    eexists _, _. split; [reflexivity|].
    destruct (plane_polar rho Nr) as (Hr & Vr). destruct (plane_polar starg Ns) as (Hs & Vs).
    destruct (ra_polar (mxv rows rho) Hr) as (B1 & r1 & R1 & Q1 & X1 & Y1).
    set (vo := (fst (fst (mxv rows starg)), snd (fst (mxv rows starg)), 0)).
    destruct (ra_polar vo Hs) as (B2 & r2 & R2 & Q2 & X2 & Y2). unfold vo in Q2, X2, Y2. cbn [fst snd] in Q2, X2, Y2. fold vo in X2, Y2.
    set (al := recrad_ra (mxv rows rho)) in *. set (be := recrad_ra vo) in *. pose proof PI_RGT_0 as Pp.
    split.
    - split.
      + split; [apply Rmult_le_pos; [lra|]; left; apply Rmult_lt_0_compat; [lra|apply Rinv_0_lt_compat; lra]|].
        apply Rmult_lt_reg_r with PI; [lra|]. replace (al * (180 / PI) * PI) with (al * 180) by (field; lra). nra.
      + cbv zeta. rewrite rad_deg, plane_cross, plane_dot, (frame_cross (node (a, b, c)) rho), (Vr r1 R1 Q1).
        assert (Nd : mxv rows (node (a, b, c)) = (s, 0, 0)).
        { rewrite coordinates. unfold P, Q, node. cbn. pose proof s_pos. pose proof s_sq. apply vec_eq; [|field; lra|ring].
          apply Rmult_eq_reg_r with s; [|lra]. replace ((a * a - b * - b) / s * s) with (a * a + b * b) by (field; lra). symmetry. assumption. }
        assert (Nn : vnorm (onto_plane (a, b, c) (node (a, b, c))) = s).
        { pose proof s_pos. apply vnorm_is; [lra|]. rewrite plane_dot, Nd. cbn. ring. }
        rewrite Nn, Nd. cbn [fst snd]. rewrite X1, Y1. split; ring.
    - destruct (mod360_spec (al * (180 / PI) - be * (180 / PI) + 720)) as (M1 & k & M2). split; [exact M1|].
      cbv zeta. rewrite plane_cross, plane_dot, (frame_cross starg rho), (Vr r1 R1 Q1), (Vs r2 R2 Q2), X1, Y1, X2, Y2.
      assert (An : radians (mod360 (al * (180 / PI) - be * (180 / PI) + 720)) = (al - be) + 2 * PI * IZR (2 - k)).
      { rewrite M2, minus_IZR. unfold radians. field. lra. }
      rewrite An. destruct (cos_Z (al - be) (2 - k)) as (Cc & Ss). rewrite Cc, Ss, cos_minus, sin_minus. split; ring.
  Qed.

  (** ** The planetocentric frame. *)
  Lemma turn_dot : forall t u v, vdot (mxv (rotate_3 t) u) (mxv (rotate_3 t) v) = vdot u v.
  Proof.
    intros t ((u1, u2), u3) ((v1, v2), v3). cbn. pose proof (sin2_cos2 t) as K. unfold Rsqr in K.
    replace ((cos t * u1 + sin t * u2 + 0 * u3) * (cos t * v1 + sin t * v2 + 0 * v3) +
      (- sin t * u1 + cos t * u2 + 0 * u3) * (- sin t * v1 + cos t * v2 + 0 * v3) + (0 * u1 + 0 * u2 + 1 * u3) * (0 * v1 + 0 * v2 + 1 * v3))
    with ((u1 * v1 + u2 * v2) * (sin t * sin t + cos t * cos t) + u3 * v3) by ring. rewrite K. ring.
  Qed.
  Lemma planetocentric : forall E spacecraft dsn et los, spkpos E dsn et "J2000" "XCN" spacecraft = Some los ->
    onto_plane (a, b, c) los <> (0, 0, 0) ->
    exists M : vec -> vec, (forall v, xform_j2k_to_pcf E spacecraft dsn (a, b, c) v et = Returns (M v)) /\
      (forall u v, vdot (M u) (M v) = vdot u v) /\
      (forall u k v, M (vadd u (vscl k v)) = vadd (M u) (vscl k (M v))) /\
      let p := onto_plane (a, b, c) los in
      forall v, vnorm p * fst (fst (M v)) = vdot p v /\ vnorm p * snd (fst (M v)) = vdot (a, b, c) (vcrss p v) /\ snd (M v) = vdot v (a, b, c).
  Proof.
    intros E spacecraft dsn et los L N. unfold xform_j2k_to_pcf. rewrite L. cbn [orelse]. rewrite frame. cbn [orelse].
    set (w := vscl (1 / vnorm (mxv rows los)) (mxv rows los)). set (t := atan2 (snd (fst w)) (fst (fst w))).
    exists (fun v => mxv (rotate_3 t) (mxv rows v)). split; [reflexivity|]. split; [intros u v; rewrite turn_dot; apply frame_dot|]. split.
    { intros ((u1, u2), u3) k ((v1, v2), v3). unfold rows. cbn. apply vec_eq; ring. }
    cbv zeta. destruct (plane_polar los N) as (H & V). intro v.
    assert (Nl : 0 < vnorm (mxv rows los)).
    { pose proof (vnorm_pos (mxv rows los)) as K. destruct K as [K|K]; [exact K|]. exfalso. symmetry in K. apply vnorm_0 in K. rewrite K in H. cbn in H. destruct H; lra. }
    assert (W : fst (fst w) = fst (fst (mxv rows los)) / vnorm (mxv rows los) /\ snd (fst w) = snd (fst (mxv rows los)) / vnorm (mxv rows los)).
    { unfold w. destruct (mxv rows los) as ((x, y), z). cbn [vscl fst snd]. split; unfold Rdiv; ring. }
    destruct W as (W1 & W2).
    assert (Hw : fst (fst w) <> 0 \/ snd (fst w) <> 0).
    { rewrite W1, W2. assert (Ki : / vnorm (mxv rows los) <> 0) by (apply Rinv_neq_0_compat; lra).
      destruct H as [H|H]; [left|right]; unfold Rdiv; apply Rmult_integral_contrapositive_currified; assumption. }
    destruct (atan2_polar _ _ Hw) as (_ & r & R0 & Rr & Xw & Yw). fold t in Xw, Yw.
    set (q := r * vnorm (mxv rows los)).
    assert (Lx : fst (fst (mxv rows los)) = q * cos t). { apply Rmult_eq_reg_r with (/ vnorm (mxv rows los)); [|apply Rinv_neq_0_compat; lra]. unfold Rdiv in W1. rewrite <- W1, Xw. unfold q. field. lra. }
    assert (Ly : snd (fst (mxv rows los)) = q * sin t). { apply Rmult_eq_reg_r with (/ vnorm (mxv rows los)); [|apply Rinv_neq_0_compat; lra]. unfold Rdiv in W2. rewrite <- W2, Yw. unfold q. field. lra. }
    assert (Vq : vnorm (onto_plane (a, b, c) los) = q).
    { apply V; [unfold q; apply Rmult_lt_0_compat; assumption|]. rewrite Lx, Ly. pose proof (sin2_cos2 t) as K. unfold Rsqr in K.
      replace (q * cos t * (q * cos t) + q * sin t * (q * sin t)) with (q * q * (sin t * sin t + cos t * cos t)) by ring. rewrite K. ring. }
    assert (D : vdot (onto_plane (a, b, c) los) v = fst (fst (mxv rows los)) * fst (fst (mxv rows v)) + snd (fst (mxv rows los)) * snd (fst (mxv rows v))).
    { rewrite <- plane_dot. pose proof U' as U1. clear - U1. destruct los as ((l1, l2), l3). destruct v as ((v1, v2), v3). unfold onto_plane, vsub. cbn.
      match goal with |- ?l = ?r => assert (r - l = (l1 * a + l2 * b + l3 * c) * (v1 * a + v2 * b + v3 * c) * (a * a + b * b + c * c - 1)) as K by ring end.
      rewrite U1 in K. lra. }
    assert (C : vdot (a, b, c) (vcrss (onto_plane (a, b, c) los) v) = fst (fst (mxv rows los)) * snd (fst (mxv rows v)) - snd (fst (mxv rows los)) * fst (fst (mxv rows v))).
    { rewrite <- frame_cross. clear. destruct los as ((l1, l2), l3). destruct v as ((v1, v2), v3). unfold onto_plane, vsub. cbn. ring. }
    rewrite Vq, D, C, Lx, Ly. assert (Z : snd (mxv rows v) = vdot v (a, b, c)) by (rewrite coordinates; reflexivity).
    destruct (mxv rows v) as ((x, y), z). cbn [fst snd] in *. cbn. rewrite Z. split; [ring|]. split; ring.
  Qed.
End Pole.
