(** * Ref_Dlp: an example of C72. *)
From Coq Require Import List ZArith Bool Reals Lia Lra Sorted.
From Verif Require Import Base Model_Time Model_Chord Model_Free Model_Frame Model_Resample Model_Dlp Spec_Resample Spec_Dlp
  Proof_Chord Proof_Free Proof_Free2 Proof_Resample Proof_Resample2 Proof_Resample3 Ref_Resample Proof_Dlp Proof_Dlp2.
Import ListNotations.
Open Scope R_scope.

(** Fifty seconds of an egress at 1 km/s, seen from below the rings at 30 degrees; the raw
    signal has half the amplitude of free space. *)
Definition ex_g (t : R) : gsmp := {| g_t := t; g_rho := t; g_dot := 1; g_B := -30; g_col := fun _ => t |}.
Definition ex_geo : list gsmp := [ex_g 0; ex_g (199 / 4)].
Definition ex_raw : list rsmp := map (fun x => {| r_t := x; r_I := 1 / 2; r_Q := 0 |}) ex_rho.
Definition ex_c (t : R) : csmp := {| c_t := t; c_sky := 8; c_free := 1 |}.
Definition ex_cal : list csmp := [ex_c 0; ex_c (199 / 4)].

Lemma ex_geo_timed : timed g_t ex_geo.
Proof. unfold timed, ex_geo. constructor; [constructor; constructor|]. constructor; [cbn; lra|constructor]. Qed.
Lemma ex_geo_rising : StronglySorted (fun x y => g_rho x < g_rho y) ex_geo.
Proof. unfold ex_geo. constructor; [constructor; constructor|]. constructor; [cbn; lra|constructor]. Qed.
Lemma ex_cal_timed : timed c_t ex_cal.
Proof. unfold timed, ex_cal. constructor; [constructor; constructor|]. constructor; [cbn; lra|constructor]. Qed.
Lemma ex_raw_timed : timed r_t ex_raw.
Proof. unfold timed, ex_raw. eapply sorted_map; [|apply ex_rho_ascending]. intros x y H. exact H. Qed.
Lemma ex_bounds : forall x, In x ex_rho -> 0 <= x <= 199 / 4.
Proof.
  intros x H. unfold ex_rho in H. apply in_map_iff in H. destruct H as (k & <- & Hk). apply in_seq in Hk. pose proof (pos_INR k).
  assert (INR k <= 199) by (replace 199 with (INR 199) by (rewrite INR_IZR_INZ; reflexivity); apply le_INR; lia). lra.
Qed.
Lemma ex_rad : forall x, 0 <= x <= 199 / 4 -> np_interp (map (fun g => (g_t g, g_rho g)) ex_geo) x = x.
Proof.
  intros x H. pose proof (np_at g_t g_rho ex_geo (ex_g 0) (ex_g (199 / 4)) (x / (199 / 4)) ex_geo_timed) as P. cbn [ex_g g_t g_rho] in P.
  replace ((1 - x / (199 / 4)) * 0 + x / (199 / 4) * (199 / 4)) with x in P by (field; lra). apply P; [exists [], []; reflexivity|lra].
Qed.
Lemma np_const : forall a b c x, np_interp [(a, c); (b, c)] x = c.
Proof. intros a b c x. cbn. destruct (ltb x a); [reflexivity|]. destruct (ltb x b); [|reflexivity]. unfold Rdiv. ring. Qed.
Lemma each_all : forall {A B} (f : A -> py B) l, (forall x, In x l -> exists y, f x = Returns y) -> exists r, each f l = Returns r.
Proof.
  intros A B f. induction l as [|x l IH]; intro H; [exists []; reflexivity|]. destruct (H x (or_introl eq_refl)) as (y & Ey).
  destruct IH as (r & Er); [intros; apply H; right; assumption|]. exists (y :: r). cbn. rewrite Ey, Er. reflexivity.
Qed.
Lemma each_in : forall {A B} (f : A -> py B) l r x y, each f l = Returns r -> In x l -> f x = Returns y -> In y r.
Proof.
  intros A B f l r x y E. apply each_ok in E. induction E as [|a b l r H E IH]; intros Hx Ey; [destruct Hx|]. destruct Hx as [<-|Hx]; [left; congruence|right; auto].
Qed.
Lemma range_not_exits : forall {A} (radius : A -> R) lo hi xs, in_range radius lo hi xs <> Exits.
Proof. intros A radius lo hi xs. unfold in_range. destruct (negb _); [discriminate|]. destruct (nearest_index _ lo); [|discriminate]. destruct (nearest_index _ hi); discriminate. Qed.
Lemma bounded_ok : forall ps x a b, In a ps -> In b ps -> fst a <= x <= fst b -> exists v, interp1d_bounded ps x = Returns v.
Proof.
  intros ps x a b Ha Hb H. unfold interp1d_bounded. destruct ps as [|p ps]; [destruct Ha|]. cbn [map minimum maximum].
  destruct (lmin_in (map fst ps) (fst p)) as (_ & I1). destruct (lmax_in (map fst ps) (fst p)) as (_ & I2).
  pose proof (I1 (fst a) (in_map fst (p :: ps) a Ha)). pose proof (I2 (fst b) (in_map fst (p :: ps) b Hb)).
  rewrite (proj2 (ltb_false x _)) by lra. rewrite (proj2 (ltb_false _ x)) by lra. cbn. eexists. reflexivity.
Qed.
Lemma combine_fst : forall {A B} (l : list A) (l' : list B), length l = length l' -> map fst (combine l l') = l.
Proof. induction l as [|x l IH]; intros [|y l'] H; try discriminate; cbn; [reflexivity|]. f_equal. apply IH. cbn in H. lia. Qed.
Lemma sorted_unmap : forall {A B} (P : B -> B -> Prop) (h : A -> B) l, StronglySorted P (map h l) -> StronglySorted (fun x y => P (h x) (h y)) l.
Proof.
  intros A B P h. induction l as [|x l IH]; intro H; [constructor|]. cbn in H. inversion H as [|? ? S F]; subst. constructor; [apply IH, S|].
  rewrite Forall_forall in *. intros y Hy. apply F, in_map, Hy.
Qed.
Lemma trim_all : trim ex_geo ex_raw = Returns ex_raw.
Proof.
  unfold trim, ex_geo. cbv zeta.
  assert (M1 : minimum (map g_t ex_geo) = 0) by (apply min_sorted; apply (timed_map g_t ex_geo ex_geo_timed)).
  assert (M2 : maximum (map g_t ex_geo) = 199 / 4) by (apply (max_sorted [0] (199 / 4)); apply (timed_map g_t ex_geo ex_geo_timed)).
  fold ex_geo. rewrite M1, M2. match goal with |- (if ?c then _ else _) = _ => destruct c eqn:E end; [|reflexivity]. exfalso. apply existsb_exists in E. destruct E as (x & Hx & Px).
  unfold ex_raw in Hx. apply in_map_iff in Hx. destruct Hx as (y & <- & Hy). apply ex_bounds in Hy. cbn [r_t] in Px. apply orb_true_iff in Px. rewrite !ltb_true in Px. destruct Px; lra.
Qed.
Lemma ex_lines : forall taps a b a' b' d, 1 / 4 <= d <= 1 -> exists radii I' Q',
  resample_IQ taps ex_rho (line_of a b ex_rho) (line_of a' b' ex_rho) d = Returns (radii, I', Q') /\ (40 < length radii)%nat /\
  mean_spacing ex_rho (hd 0 radii) <= 1 / 4.
Proof.
  intros taps a b a' b' d Hd. pose proof (ex_rho_long d ltac:(lra)) as L.
  destruct (resample_rising taps ex_rho (line_of a b ex_rho) (line_of a' b' ex_rho) d ltac:(lra) ex_rho_ascending L (line_length _ _ _) (line_length _ _ _)) as (q & N & g & Hq & HN & Hg & E1 & E2 & E3 & E4 & P).
  do 3 eexists. split; [exact P|]. rewrite map_length, seq_length, ex_rho_last in *.
  destruct (first_ok (hd 0 ex_rho) d ltac:(lra)) as (F1 & F2 & _). fold (start ex_rho d) in F1, F2. change (hd 0 ex_rho) with (INR 0 / 4) in *. cbn [INR] in F1, F2.
  assert (M : mean_spacing ex_rho (start ex_rho d) <= 1 / 4).
  { unfold mean_spacing. rewrite ex_rho_last, ex_rho_length. replace (INR (200 - 1)) with 199 by (rewrite INR_IZR_INZ; reflexivity). lra. }
  assert (Et : true_step ex_rho d = d). { unfold true_step. fold (start ex_rho d). rewrite (proj2 (ltb_false _ _)); [reflexivity|lra]. }
  rewrite Et in E1. set (n := ((N + q - 1) / q)%nat).
  assert (K2 : (N <= n * q)%nat). { unfold n. pose proof (Nat.mul_succ_div_gt (N + q - 1) q ltac:(lia)). nia. }
  apply le_INR in K2. rewrite mult_INR in K2. pose proof (Rmult_le_compat_l g _ _ ltac:(lra) K2) as K3.
  assert (Q1 : 1 <= INR q) by (apply (le_INR 1); exact Hq).
  assert (G1 : g <= d). { rewrite <- E1. apply Rle_trans with (g * 1); [lra|]. apply Rmult_le_compat_l; lra. }
  assert (Nn : INR n * d <= INR n) by (pose proof (pos_INR n); nra).
  replace (g * (INR n * INR q)) with (INR n * d) in K3 by (rewrite <- E1; ring).
  assert (n40 : (40 < n)%nat) by (apply INR_lt; replace (INR 40) with 40 by (rewrite INR_IZR_INZ; reflexivity); destruct F2; lra).
  split; [exact n40|]. destruct n as [|n]; [lia|]. cbn [seq map hd INR]. replace (start ex_rho d + said_step ex_rho d * 0) with (start ex_rho d) by lra. exact M.
Qed.
Theorem ex_profile : forall noise, exists out p, profile np_interp copy_taps noise ex_raw ex_geo ex_cal EGRESS 1 10 20 = Returns out /\
  In p out /\ p_rho p = 15 /\ p_norm p = 1 / 4 /\ p_tau p < 0.
Proof.
  intro noise. unfold profile. rewrite trim_all. cbn [pybind]. cbv zeta.
  assert (Er : map (fun x => np_interp (map (fun g => (g_t g, g_rho g)) ex_geo) (r_t x)) ex_raw = ex_rho).
  { unfold ex_raw. rewrite map_map. cbn [r_t]. rewrite <- (map_id ex_rho) at 2. apply map_ext_in. intros x Hx. apply ex_rad, ex_bounds, Hx. }
  assert (Ei : map r_I ex_raw = line_of (1 / 2) 0 ex_rho) by (unfold ex_raw, line_of; rewrite map_map; apply map_ext; intro x; cbn [r_I]; ring).
  assert (Eq : map r_Q ex_raw = line_of 0 0 ex_rho) by (unfold ex_raw, line_of; rewrite map_map; apply map_ext; intro x; cbn [r_Q]; ring).
  rewrite Er, Ei, Eq. pose proof (ex_rho_long 1 ltac:(lra)) as L.
  destruct (radii_ok copy_taps ex_rho (line_of (1 / 2) 0 ex_rho) (line_of 0 0 ex_rho) 1 ltac:(lra) ex_rho_ascending L (line_length _ _ _) (line_length _ _ _))
    as (r0 & s & n & I & Q & E & Hn & LI & LQ & F1 & F2 & (z & m & Ez) & D1 & _).
  pose proof (signal_ok copy_taps (1 / 2) 0 0 0 ex_rho 1 _ I Q copy_proper ltac:(lra) one_metres ex_rho_ascending L E) as Sg.
  change (hd 0 ex_rho) with (INR 0 / 4) in F1, F2. cbn [INR] in F1, F2.
  assert (R0 : r0 = 0).
  { rewrite Ez, INR_IZR_INZ, Rmult_1_r, <- plus_IZR in *. assert (H0 : (0 <= z + Z.of_nat m < 1)%Z) by (split; [apply le_IZR; lra|apply lt_IZR; destruct F2; lra]).
    replace (z + Z.of_nat m)%Z with 0%Z by lia. reflexivity. }
  clear Ez. subst r0.
  assert (S1 : s = 1).
  { destruct D1 as (_ & _ & D); [|apply D, one_metres]. unfold mean_spacing. rewrite ex_rho_last, ex_rho_length. replace (INR (200 - 1)) with 199 by (rewrite INR_IZR_INZ; reflexivity). lra. }
  subst s. set (radii := map (fun k => 0 + 1 * INR k) (seq 0 n)) in *.
  assert (Lr : length radii = n) by (unfold radii; rewrite map_length; apply seq_length).
  assert (Nr : forall k, (k < n)%nat -> nth k radii 0 = INR k).
  { intros k Hk. unfold radii. rewrite (nth_indep _ 0 ((fun k => 0 + 1 * INR k) 0%nat)) by (rewrite map_length, seq_length; exact Hk).
    rewrite (map_nth (fun k => 0 + 1 * INR k)). rewrite seq_nth by exact Hk. cbn [Nat.add]. ring. }
  assert (N40 : (40 < n)%nat).
  { destruct (ex_lines copy_taps (1 / 2) 0 0 0 1 ltac:(lra)) as (ra & I1 & Q1 & P1 & P2 & _). rewrite E in P1. injection P1 as P1 _ _. rewrite <- P1 in P2. rewrite Lr in P2. exact P2. }
  rewrite E. cbn [pybind].
  assert (Ds : exists rs, radii = 0 :: 1 :: rs).
  { clear - Nr N40 Lr. destruct radii as [|x [|y rs]]; cbn in Lr; try lia. pose proof (Nr 0%nat ltac:(lia)) as A1. pose proof (Nr 1%nat ltac:(lia)) as A2. cbn in A1, A2. subst. exists rs. reflexivity. }
  destruct Ds as (rs & Ds). rewrite Ds. cbn [pybind]. rewrite <- Ds.
  set (xs := combine radii (combine I Q)). set (res := round3 _).
  assert (LIQ : length radii = length (combine I Q)) by (rewrite combine_length; lia).
  assert (Fx : map fst xs = radii) by (apply combine_fst; exact LIQ).
  assert (Sr : StronglySorted Rlt radii) by (unfold radii; eapply sorted_map; [|apply seq_sorted]; intros x y H; apply lt_INR in H; lra).
  assert (Sx : StronglySorted (fun x y : R * (R * R) => fst x < fst y) xs) by (apply (sorted_unmap Rlt fst); rewrite Fx; exact Sr).
  assert (Gx : forall a b, neighbours a b xs -> fst b - fst a <= 1).
  { intros a b (l1 & l2 & El). assert (E3 : radii = map fst l1 ++ fst a :: fst b :: map fst l2) by (rewrite <- Fx, El, map_app; reflexivity).
    assert (Ln : n = (length l1 + 2 + length l2)%nat) by (rewrite <- Lr, E3, app_length; cbn [length]; rewrite !map_length; lia).
    pose proof (Nr (length l1) ltac:(lia)) as A1. pose proof (Nr (S (length l1)) ltac:(lia)) as A2. rewrite E3 in A1, A2. rewrite S_INR in A2.
    rewrite <- (map_length fst l1) in A1, A2. rewrite nth_middle in A1. rewrite app_nth2 in A2 by lia. replace (S (length (map fst l1)) - length (map fst l1))%nat with 1%nat in A2 by lia. cbn [nth] in A2. lra. }
  destruct (range_ok fst xs 10 20 1 ltac:(lra) Sx Gx) as (Ra & Rr).
  assert (I15 : In (15, (1 / 2, 0)) xs).
  { assert (E15 : nth 15 xs (0, (0, 0)) = (15, (1 / 2, 0))).
    { unfold xs. rewrite combine_nth by exact LIQ. rewrite combine_nth by lia. destruct (Sg 15%nat ltac:(lia) ltac:(lia)) as (S1 & S2). rewrite S1, S2, (Nr 15%nat ltac:(lia)).
      replace (INR 15) with 15 by (rewrite INR_IZR_INZ; reflexivity). f_equal. f_equal; ring. }
    rewrite <- E15. apply nth_In. unfold xs. rewrite combine_length, <- LIQ. lia. }
  destruct (in_range fst 10 20 xs) as [ys| |] eqn:Ey; [|exfalso; apply (proj1 Ra eq_refl _ I15); cbn; lra|exfalso; exact (range_not_exits _ _ _ _ Ey)].
  destruct (Rr ys eq_refl) as (_ & Y1 & Y2). cbn [pybind]. specialize (Y1 _ I15 ltac:(cbn; lra)).
  assert (Rc : map (fun c => (np_interp (map (fun g => (g_t g, g_rho g)) ex_geo) (c_t c), c_free c)) ex_cal = map (fun c => (c_t c, c_free c)) ex_cal).
  { unfold ex_cal. cbn [map c_t ex_c c_free]. rewrite !ex_rad by lra. reflexivity. }
  assert (Res : forall x, In x ys -> exists t, resampled np_interp x ex_geo ex_cal =
            Returns {| m_rho := fst x; m_t := t; m_norm := (fst (snd x) * fst (snd x) + snd (snd x) * snd (snd x)) / 1; m_phase := atan2 (snd (snd x)) (fst (snd x)) |}).
  { intros (r & (i & q)) Hx. specialize (Y2 _ Hx). cbn [fst snd] in *. unfold resampled. rewrite Rc.
    destruct (bounded_ok (map (fun g => (g_rho g, g_t g)) ex_geo) r (0, 0) (199 / 4, 199 / 4)) as (t & Et); [cbn; tauto|cbn; tauto|cbn; lra|].
    destruct (bounded_ok (map (fun c => (c_t c, c_free c)) ex_cal) r (0, 1) (199 / 4, 1)) as (v & Ev); [cbn; tauto|cbn; tauto|cbn; lra|].
    rewrite Et, Ev. cbn [pybind]. exists t.
    destruct (find_pair c_t c_free ex_cal r v ltac:(cbn; lia) (or_introl ex_cal_timed) Ev) as (a & b & w & (l1 & l2 & Nb) & _ & _ & ->).
    assert (Fa : forall c, In c ex_cal -> c_free c = 1) by (intros c [<-|[<-|[]]]; reflexivity).
    rewrite (Fa a), (Fa b) by (rewrite Nb; apply in_or_app; right; cbn; tauto). replace ((1 - w) * 1 + w * 1) with 1 by ring. reflexivity. }
  destruct (each_all (fun x => resampled np_interp x ex_geo ex_cal) ys) as (zs & Ez2). { intros x Hx. destruct (Res x Hx) as (t & Et). eexists. exact Et. }
  rewrite Ez2. cbn [pybind].
  assert (Nn : existsb (fun x => ltb (m_norm x) 0) zs = false).
  { apply not_true_is_false. intro K. apply existsb_exists in K. destruct K as (x & Hx & Px). apply ltb_true in Px.
    destruct (Forall2_in _ _ _ _ (each_ok _ _ _ Ez2) Hx) as (y & Hy & Ey2). cbn beta in Ey2. destruct (Res y Hy) as (t & Et). rewrite Et in Ey2. injection Ey2 as <-. cbn [m_norm] in Px.
    pose proof (Rle_0_sqr (fst (snd y))). pose proof (Rle_0_sqr (snd (snd y))). unfold Rsqr in *. lra. }
  rewrite Nn.
  assert (Od : one_direction EGRESS ex_geo zs = Returns zs).
  { unfold one_direction. cbv zeta. assert (E0 : existsb (fun x => ltb (np_interp (map (fun g => (g_t g, g_dot g)) ex_geo) (m_t x)) 0) zs = false).
    { apply not_true_is_false. intro K. apply existsb_exists in K. destruct K as (x & Hx & Px). apply ltb_true in Px. unfold ex_geo in Px. cbn [map ex_g g_t g_dot] in Px. rewrite np_const in Px. lra. }
    rewrite E0. reflexivity. }
  rewrite Od. cbn [pybind]. destruct (Res _ Y1) as (t & Et). cbn [fst snd] in Et.
  eexists. exists (attributes ex_geo ex_cal (thresholds noise res ex_geo ex_cal) {| m_rho := 15; m_t := t; m_norm := (1 / 2 * (1 / 2) + 0 * 0) / 1; m_phase := atan2 0 (1 / 2) |}).
  split; [reflexivity|]. split; [apply in_map; exact (each_in _ _ _ _ _ Ez2 Y1 Et)|].
  unfold attributes. cbn [p_rho p_norm p_tau m_rho m_norm m_t]. split; [reflexivity|]. split; [lra|].
  unfold ex_geo. cbn [map ex_g g_t g_B]. rewrite np_const. replace (-30 * (PI / 180)) with (- (PI / 6)) by field. rewrite sin_neg.
  assert (0 < sin (PI / 6)) by (rewrite sin_PI6; lra). pose proof (ln_increasing ((1 / 2 * (1 / 2) + 0 * 0) / 1) 1 ltac:(lra) ltac:(lra)) as Ln. rewrite ln_1 in Ln.
  rewrite Ropp_involutive. clear - H Ln. set (s := sin (PI / 6)) in *. set (l := ln _) in *. assert (0 < s * - l) by (apply Rmult_lt_0_compat; lra). lra.
Qed.

(** ** Cuts. *)
Lemma part_at : forall {A} (t : A -> R) v l1 x l2, timed t (l1 ++ x :: l2) -> t x = v -> part t v (l1 ++ x :: l2) = Some (length l1).
Proof.
  intros A t v l1 x l2 S E. destruct (sorted_mid _ _ _ _ S) as (K1 & _). unfold part. clear S. replace (length l1) with (0 + length l1)%nat by lia. generalize 0%nat.
  induction l1 as [|a l1 IH]; intros n; cbn.
  - rewrite (proj2 (eqb_true _ _) E). f_equal. lia.
  - assert (eqb (t a) v = false) as ->. { apply not_true_is_false. intro K. apply eqb_true in K. specialize (K1 a (or_introl eq_refl)). lra. }
    rewrite (IH ltac:(intros; apply K1; right; assumption) (S n)). f_equal. lia.
Qed.
Definition ch_g (t d r : R) : gsmp := {| g_t := t; g_rho := r; g_dot := d; g_B := 20; g_col := fun _ => 0 |}.
Definition ch_r (t : R) : rsmp := {| r_t := t; r_I := 1; r_Q := 0 |}.
(** Seven seconds of a chord. *)
Definition ch_geo : list gsmp := [ch_g 0 (-1) 73; ch_g 1 (-1) 72; ch_g 2 (-1) 71; ch_g 3 1 70; ch_g 4 1 71; ch_g 5 1 72; ch_g 6 1 73].
Definition ch_raw : list rsmp := map ch_r [0; 1; 2; 3; 4; 5; 6].
Definition ch_cal : list csmp := map ex_c [0; 1; 2; 3; 4; 5; 6].
Lemma ch_times : StronglySorted Rlt [0; 1; 2; 3; 4; 5; 6].
Proof. repeat (apply SSorted_cons; [|repeat (apply Forall_cons; [lra|]); apply Forall_nil]). apply SSorted_nil. Qed.
Lemma ch_geo_timed : timed g_t ch_geo. Proof. apply (sorted_unmap Rlt g_t). exact ch_times. Qed.
Lemma ch_raw_timed : timed r_t ch_raw. Proof. apply (sorted_unmap Rlt r_t). exact ch_times. Qed.
Lemma ch_cal_timed : timed c_t ch_cal. Proof. apply (sorted_unmap Rlt c_t). exact ch_times. Qed.
Lemma ch_parts : chord_parts ch_geo ch_raw ch_cal =
  Returns ((INGRESS, [ch_g 0 (-1) 73; ch_g 1 (-1) 72], map ch_r [0; 1], map ex_c [0; 1]),
           (EGRESS, [ch_g 4 1 71; ch_g 5 1 72; ch_g 6 1 73], map ch_r [4; 5; 6], map ex_c [4; 5; 6])).
Proof.
  unfold chord_parts. assert (C : changes 0 (map sign (map g_dot ch_geo)) = [2%nat]).
  { unfold ch_geo, ch_g. cbn [map g_dot]. rewrite (sign_neg (-1)), (sign_pos 1) by lra. reflexivity. }
  rewrite C. change (nth_error ch_geo (2 + 1)) with (Some (ch_g 3 1 70)). cbn [ch_g g_t].
  assert (G1 : part g_t (3 - 1) ch_geo = Some 2%nat) by (apply (part_at g_t _ [ch_g 0 (-1) 73; ch_g 1 (-1) 72] (ch_g 2 (-1) 71)); [exact ch_geo_timed|cbn; lra]).
  assert (G2 : part g_t (3 + 1) ch_geo = Some 4%nat) by (apply (part_at g_t _ [ch_g 0 (-1) 73; ch_g 1 (-1) 72; ch_g 2 (-1) 71; ch_g 3 1 70] (ch_g 4 1 71)); [exact ch_geo_timed|cbn; lra]).
  assert (R1 : part r_t (3 - 1) ch_raw = Some 2%nat) by (apply (part_at r_t _ (map ch_r [0; 1]) (ch_r 2)); [exact ch_raw_timed|cbn; lra]).
  assert (R2 : part r_t (3 + 1) ch_raw = Some 4%nat) by (apply (part_at r_t _ (map ch_r [0; 1; 2; 3]) (ch_r 4)); [exact ch_raw_timed|cbn; lra]).
  assert (C1 : part c_t (3 - 1) ch_cal = Some 2%nat) by (apply (part_at c_t _ (map ex_c [0; 1]) (ex_c 2)); [exact ch_cal_timed|cbn; lra]).
  assert (C2 : part c_t (3 + 1) ch_cal = Some 4%nat) by (apply (part_at c_t _ (map ex_c [0; 1; 2; 3]) (ex_c 4)); [exact ch_cal_timed|cbn; lra]).
  rewrite G1, G2, R1, R2, C1, C2. cbn [firstn skipn ch_geo direction_of pybind ch_g g_rho].
  rewrite (proj2 (ltb_true (72 - 73) 0)) by lra. rewrite (proj2 (ltb_false (72 - 71) 0)) by lra. reflexivity.
Qed.
(** The geometry of seconds 1 to 5 only: the raw sample of second 5 goes too. *)
Definition cut_geo : list gsmp := map ex_g [1; 2; 3; 4; 5].
Lemma cut_geo_timed : timed g_t cut_geo.
Proof. apply (sorted_unmap Rlt g_t). change (map g_t cut_geo) with [1; 2; 3; 4; 5]. repeat (apply SSorted_cons; [|repeat (apply Forall_cons; [lra|]); apply Forall_nil]). apply SSorted_nil. Qed.
Lemma cut_trim : trim cut_geo ch_raw = Returns (map ch_r [1; 2; 3; 4]).
Proof.
  unfold trim, cut_geo. cbn [map]. cbv zeta. fold cut_geo.
  set (ts := [g_t (ex_g 1); g_t (ex_g 2); g_t (ex_g 3); g_t (ex_g 4); g_t (ex_g 5)]).
  assert (M1 : minimum ts = 1) by (apply min_sorted; apply (timed_map g_t cut_geo cut_geo_timed)).
  rewrite M1. assert (Ex : existsb (fun x => (ltb (maximum ts) (r_t x) || ltb (r_t x) 1)%bool) ch_raw = true).
  { apply existsb_exists. exists (ch_r 0). split; [left; reflexivity|]. apply orb_true_iff. right. apply ltb_true. cbn. lra. }
  rewrite Ex. change (last ts 0) with 5. cbn [ex_g g_t].
  assert (P1 : index_where (fun x => eqb (r_t x) 1) 0 ch_raw = Some 1%nat) by (apply (part_at r_t 1 (map ch_r [0]) (ch_r 1)); [exact ch_raw_timed|reflexivity]).
  assert (P2 : index_where (fun x => eqb (r_t x) 5) 0 ch_raw = Some 5%nat) by (apply (part_at r_t 5 (map ch_r [0; 1; 2; 3; 4]) (ch_r 5)); [exact ch_raw_timed|reflexivity]).
  rewrite P1, P2. reflexivity.
Qed.
