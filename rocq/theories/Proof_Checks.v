(** * Proof_Checks: proofs about the validation functions (C01, C02, C03). *)
From Coq Require Import List ZArith Bool Reals String Lra Lia.
From Flocq Require Import Core IEEE754.BinarySingleNaN.
From Verif Require Import Base BaseFacts Dbl DblFacts PiBounds Scalar Model_TauRec
  Model_Checks Spec_Tau Ref_Tmpl.
Import ListNotations.
Open Scope Z_scope.

Lemma same_data_refl {S} (t : tau S) : same_data t t.
Proof. repeat split. Qed.
Lemma same_data_set_err {S} (t : tau S) e : same_data t (set_err t e).
Proof. repeat split. Qed.
Lemma same_data_trans {S} (a b c : tau S) : same_data a b -> same_data b c -> same_data a c.
Proof. unfold same_data; intuition congruence. Qed.
Lemma set_err_id {S} (t : tau S) : err t = None -> set_err t None = t.
Proof. destruct t; unfold set_err; simpl; intros ->; reflexivity. Qed.

(** A validation step: it returns the object, possibly with an error added. *)
Definition step_ok {S} (f : tau S -> res (tau S)) (t : tau S) (P : Prop) : Prop :=
  exists t', f t = Ok t' /\ same_data t t' /\ (err t' = None <-> P).

Lemma fail_step {S} (t : tau S) (m : string) (P : Prop) :
  ~ P -> exists t', fail t m = Ok t' /\ same_data t t' /\ (err t' = None <-> P).
Proof.
  intros HP. exists (set_err t (Some m)). split; auto. split; [apply same_data_set_err|].
  simpl; split; [discriminate|tauto].
Qed.
Lemma ok_step {S} (t : tau S) (P : Prop) :
  err t = None -> P -> exists t', Ok t = Ok t' /\ same_data t t' /\ (err t' = None <-> P).
Proof. intros. exists t. split; auto. split; [apply same_data_refl|tauto]. Qed.

Lemma guarded_clean {S} (t : tau S) k : err t = None -> guarded t k = k.
Proof. unfold guarded; intros ->; auto. Qed.
Lemma guarded_err {S} (t : tau S) m k : err t = Some m -> guarded t k = Ok t.
Proof. unfold guarded; intros ->; auto. Qed.

(** Composition of validation steps. *)
Lemma step_seq {S} (f g : tau S -> res (tau S)) t (P Q : Prop) :
  step_ok f t P ->
  (forall t', same_data t t' -> err t' = None -> P -> step_ok g t' Q) ->
  (forall t' m, err t' = Some m -> g t' = Ok t') ->
  step_ok (fun t => do t1 <- f t; g t1) t (P /\ Q).
Proof.
  intros [t1 [E1 [S1 H1]]] Hg Hs. unfold step_ok. rewrite E1; simpl.
  destruct (err t1) eqn:Ee.
  - rewrite (Hs _ _ Ee). exists t1. split; auto. split; auto.
    rewrite Ee. split; [discriminate|]. intros [HP _]. apply H1 in HP; discriminate.
  - destruct (Hg t1 S1 Ee (proj1 H1 eq_refl)) as [t2 [E2 [S2 H2]]].
    exists t2. split; auto. split; [eapply same_data_trans; eauto|].
    rewrite H2. tauto.
Qed.

(** ** Comparisons with literals *)
Lemma d2r_0 : d2r (dofZ 0) = 0%R.
Proof. apply (dofZ_exact 0); lia. Qed.
Lemma fin_0 : dfinite (dofZ 0) = true.
Proof. apply (dofZ_exact 0); lia. Qed.
Lemma d2r_360 : d2r (dofZ 360) = 360%R.
Proof. apply (dofZ_exact 360); lia. Qed.
Lemma fin_360 : dfinite (dofZ 360) = true.
Proof. apply (dofZ_exact 360); lia. Qed.
Lemma d2r_opp x : d2r (dneg x) = (- d2r x)%R.
Proof. apply B2R_Bopp. Qed.
Lemma fin_opp x : dfinite (dneg x) = dfinite x.
Proof. apply is_finite_Bopp. Qed.
Lemma inf_cases (x : double) :
  dnan x = false -> dinf x = true -> x = B754_infinity true \/ x = B754_infinity false.
Proof. destruct x as [|[]| |]; simpl; intros; try discriminate; auto. Qed.

Ltac fin_of H1 H2 x :=
  assert (finite x) by (unfold finite; apply dfinite_iff; split; [exact H1 | exact H2]).

Lemma check_allan_step t :
  err t = None -> step_ok (check_allan_deviation (S:=dbl_scalar)) t
    (finite (sigma t) /\ 0 < val (sigma t))%R.
Proof.
  intros He. unfold step_ok, check_allan_deviation. rewrite guarded_clean by auto.
  change (s0 (S:=dbl_scalar)) with (dofZ 0). cbn [snan sinf sle slt dbl_scalar].
  destruct (dnan (sigma t)) eqn:E1.
  { apply fail_step. intros [F _]. apply dfinite_iff in F. destruct F; congruence. }
  destruct (dinf (sigma t)) eqn:E2.
  { apply fail_step. intros [F _]. apply dfinite_iff in F. destruct F; congruence. }
  assert (F : dfinite (sigma t) = true) by (apply dfinite_iff; auto).
  destruct (dle (sigma t) (dofZ 0)) eqn:E3.
  - apply fail_step. apply dle_iff in E3; [|auto|apply fin_0].
    rewrite d2r_0 in E3.
    unfold val. intros [_ ?]; lra.
  - apply ok_step; auto. split; auto.
    apply dle_false in E3; [|auto|apply fin_0].
    rewrite d2r_0 in E3. exact E3.
Qed.
Lemma check_resolution_step t :
  err t = None -> step_ok (check_resolution (S:=dbl_scalar)) t
    (finite (reso t) /\ 0 < val (reso t))%R.
Proof.
  intros He. unfold step_ok, check_resolution. rewrite guarded_clean by auto.
  change (s0 (S:=dbl_scalar)) with (dofZ 0). cbn [snan sinf sle slt dbl_scalar].
  destruct (dnan (reso t)) eqn:E1.
  { apply fail_step. intros [F _]. apply dfinite_iff in F. destruct F; congruence. }
  destruct (dinf (reso t)) eqn:E2.
  { apply fail_step. intros [F _]. apply dfinite_iff in F. destruct F; congruence. }
  assert (F : dfinite (reso t) = true) by (apply dfinite_iff; auto).
  destruct (dle (reso t) (dofZ 0)) eqn:E3.
  - apply fail_step. apply dle_iff in E3; [|auto|apply fin_0].
    rewrite d2r_0 in E3.
    unfold val. intros [_ ?]; lra.
  - apply ok_step; auto. split; auto.
    apply dle_false in E3; [|auto|apply fin_0].
    rewrite d2r_0 in E3. exact E3.
Qed.
Lemma check_eccentricity_step t :
  err t = None -> step_ok (check_eccentricity (S:=dbl_scalar)) t
    (finite (ecc t) /\ 0 <= val (ecc t))%R.
Proof.
  intros He. unfold step_ok, check_eccentricity. rewrite guarded_clean by auto.
  change (s0 (S:=dbl_scalar)) with (dofZ 0). cbn [snan sinf sle slt dbl_scalar].
  destruct (dnan (ecc t)) eqn:E1.
  { apply fail_step. intros [F _]. apply dfinite_iff in F. destruct F; congruence. }
  destruct (dinf (ecc t)) eqn:E2.
  { apply fail_step. intros [F _]. apply dfinite_iff in F. destruct F; congruence. }
  assert (F : dfinite (ecc t) = true) by (apply dfinite_iff; auto).
  destruct (dlt (ecc t) (dofZ 0)) eqn:E3.
  - apply fail_step. apply dlt_iff in E3; [|auto|apply fin_0].
    rewrite d2r_0 in E3.
    unfold val. intros [_ ?]; lra.
  - apply ok_step; auto. split; auto.
    apply dlt_false in E3; [|auto|apply fin_0].
    rewrite d2r_0 in E3. exact E3.
Qed.
Lemma check_periapse_step t :
  err t = None -> step_ok (check_periapse (S:=dbl_scalar)) t
    (finite (peri t) /\ - (2 * PI) <= val (peri t) <= 2 * PI)%R.
Proof.
  intros He. unfold step_ok, check_periapse. rewrite guarded_clean by auto.
  unfold sgt. cbn [snan sinf slt sneg stwopi dbl_scalar]. fold tp.
  destruct (dnan (peri t)) eqn:E1.
  { apply fail_step. intros [F _]. apply dfinite_iff in F. destruct F; congruence. }
  destruct (dinf (peri t)) eqn:E2.
  { apply fail_step. intros [F _]. apply dfinite_iff in F. destruct F; congruence. }
  assert (F : dfinite (peri t) = true) by (apply dfinite_iff; auto).
  destruct tp_val as [Ft _].
  assert (Fn : dfinite (dneg tp) = true) by (rewrite fin_opp; auto).
  destruct (dlt (peri t) (dneg tp)) eqn:E3.
  - apply fail_step. apply dlt_iff in E3; auto. rewrite d2r_opp in E3.
    unfold val. intros [_ [H _]]. apply ge_neg_two_pi in H; auto. lra.
  - apply dlt_false in E3; auto. rewrite d2r_opp in E3. apply ge_neg_two_pi in E3; auto.
    destruct (dlt tp (peri t)) eqn:E4.
    + apply fail_step. apply dlt_iff in E4; auto.
      unfold val. intros [_ [_ H]]. apply le_two_pi in H; auto. lra.
    + apply dlt_false in E4; auto. apply le_two_pi in E4; auto.
      apply ok_step; [auto|repeat split; auto].
Qed.
Lemma check_range_step t :
  err t = None -> step_ok (check_range (S:=dbl_scalar)) t
    (finite (range0 t) /\ finite (range1 t) /\
     0 <= val (range0 t) <= val (range1 t))%R.
Proof.
  intros He. unfold step_ok, check_range. rewrite guarded_clean by auto.
  unfold sgt. cbn [snan sinf slt dbl_scalar].
  destruct (dnan (range0 t)) eqn:E1.
  { apply fail_step. intros [F _]. apply dfinite_iff in F. destruct F; congruence. }
  destruct (dnan (range1 t)) eqn:E2.
  { apply fail_step. intros [_ [F _]]. apply dfinite_iff in F. destruct F; congruence. }
  destruct (dinf (range0 t)) eqn:E3.
  { apply fail_step. intros [F _]. apply dfinite_iff in F. destruct F; congruence. }
  destruct (dinf (range1 t)) eqn:E4.
  { apply fail_step. intros [_ [F _]]. apply dfinite_iff in F. destruct F; congruence. }
  assert (F0 : dfinite (range0 t) = true) by (apply dfinite_iff; auto).
  assert (F1 : dfinite (range1 t) = true) by (apply dfinite_iff; auto).
  change (s0 (S:=dbl_scalar)) with (dofZ 0).
  destruct (dlt (range0 t) (dofZ 0)) eqn:E5.
  - apply dlt_iff in E5; [|auto|apply fin_0]. rewrite d2r_0 in E5.
    apply fail_step. unfold val. intros [_ [_ ?]]; lra.
  - apply dlt_false in E5; [|auto|apply fin_0]. rewrite d2r_0 in E5.
    destruct (dlt (range1 t) (range0 t)) eqn:E6.
    + apply dlt_iff in E6; auto. apply fail_step. unfold val. intros [_ [_ ?]]; lra.
    + apply dlt_false in E6; auto. apply ok_step; [auto|repeat split; auto].
Qed.

Lemma check_keywords_exact (t : dtau) :
  clean t ->
  exists t', check_keywords t = Ok t' /\ same_data t t' /\ (clean t' <-> keywords_ok t).
Proof.
  intros He. change (step_ok (check_keywords (S:=dbl_scalar)) t (keywords_ok t)).
  unfold keywords_ok.
  cut (step_ok (fun t => do t1 <- check_allan_deviation t; do t2 <- check_resolution t1;
        do t3 <- check_eccentricity t2; do t4 <- check_periapse t3; check_range t4) t
        ((finite (sigma t) /\ 0 < val (sigma t))%R /\
  (finite (reso t) /\ 0 < val (reso t))%R /\
  (finite (ecc t) /\ 0 <= val (ecc t))%R /\
  (finite (peri t) /\ - (2 * PI) <= val (peri t) <= 2 * PI)%R /\
  (finite (range0 t) /\ finite (range1 t) /\
   0 <= val (range0 t) <= val (range1 t))%R)).
  { intros H. unfold step_ok, check_keywords in *. rewrite guarded_clean by exact He. exact H. }
  assert (St : forall (f : dtau -> res dtau), 
    forall t m, err t = Some m -> guarded t (f t) = Ok t) by (intros; eapply guarded_err; eauto).
  apply step_seq; [apply check_allan_step; exact He| |].
  2:{ intros t' m Em. unfold check_resolution, check_eccentricity, check_periapse, check_range.
      do 4 (rewrite (guarded_err t' m) by exact Em; cbn [bind]; try reflexivity). }
  intros t1 S1 E1 _.
  assert (Q1 : reso t1 = reso t /\ ecc t1 = ecc t /\ peri t1 = peri t /\
               range0 t1 = range0 t /\ range1 t1 = range1 t) by (unfold same_data in S1; tauto).
  destruct Q1 as (<- & <- & <- & <- & <-). clear t S1 He.
  apply step_seq; [apply check_resolution_step; exact E1| |].
  2:{ intros t' m Em. unfold check_resolution, check_eccentricity, check_periapse, check_range.
      do 3 (rewrite (guarded_err t' m) by exact Em; cbn [bind]; try reflexivity). }
  intros t S1 E _.
  assert (Q1 : ecc t1 = ecc t /\ peri t1 = peri t /\
               range0 t1 = range0 t /\ range1 t1 = range1 t) by (unfold same_data in S1; intuition congruence).
  destruct Q1 as (-> & -> & -> & ->). clear t1 S1 E1.
  apply step_seq; [apply check_eccentricity_step; exact E| |].
  2:{ intros t' m Em. unfold check_resolution, check_eccentricity, check_periapse, check_range.
      do 2 (rewrite (guarded_err t' m) by exact Em; cbn [bind]; try reflexivity). }
  intros t1 S1 E1 _.
  assert (Q1 : peri t1 = peri t /\
               range0 t1 = range0 t /\ range1 t1 = range1 t) by (unfold same_data in S1; tauto).
  destruct Q1 as (<- & <- & <-). clear t S1 E.
  apply step_seq; [apply check_periapse_step; exact E1| |].
  2:{ intros t' m Em. unfold check_range. apply (guarded_err t' m); exact Em. }
  intros t S1 E _.
  assert (Q1 : range0 t1 = range0 t /\ range1 t1 = range1 t) by (unfold same_data in S1; intuition congruence).
  destruct Q1 as (-> & ->). apply check_range_step; auto.
Qed.

(** ** Geometry *)
Section Geometry.
  Variable L : dlib.
  Hypothesis HL : minmax_law L.
  Hypothesis Hmin : min_law L.

  Lemma nonempty_len {A} (l : list A) : 1 <= zlen l -> l <> [].
  Proof. intros H ->. cbn in H. lia. Qed.

  Lemma angle_range (l : list double) :
    l <> [] -> (forall x, In x l -> notnan x) ->
    (dlt (fst (t_minmax L l)) (dneg (dofZ 360)) = false /\
     dlt (dofZ 360) (snd (t_minmax L l)) = false) <->
    (forall x, In x l -> angle_ok x).
  Proof.
    intros Hl Hn. destruct (HL l Hl Hn) as [I1 [I2 Hb]].
    assert (Fm : dfinite (dneg (dofZ 360)) = true) by (rewrite fin_opp; apply fin_360).
    split.
    - intros [H1 H2] x Hx. destruct (Hb x Hx) as [B1 B2].
      assert (G1 : dle (dneg (dofZ 360)) x = true).
      { apply dle_trans with (fst (t_minmax L l)); auto.
        apply dlt_false_dle; [apply (Hn _ I1)| apply dfinite_not_nan; auto|auto]. }
      assert (G2 : dle x (dofZ 360) = true).
      { apply dle_trans with (snd (t_minmax L l)); auto.
        apply dlt_false_dle; auto; apply (Hn _ I2). }
      assert (F : dfinite x = true).
      { destruct (dfin_cases x) as [?|[N|[s ->]]]; auto.
        - rewrite (Hn x Hx) in N; discriminate.
        - destruct s; [|rewrite dle_inf_fin in G2; auto].
          apply dle_ninf_r in G1. discriminate. }
      split; auto. apply dle_iff in G1; [|auto|auto]. apply dle_iff in G2; [|auto|apply fin_360].
      rewrite d2r_opp, d2r_360 in G1. rewrite d2r_360 in G2. unfold val; lra.
    - intros H. destruct (H _ I1) as [F1 V1]. destruct (H _ I2) as [F2 V2].
      unfold finite, val in *. split; apply dlt_false; auto; try apply fin_360.
      + rewrite d2r_opp, d2r_360; lra.
      + rewrite d2r_360; lra.
  Qed.

  Lemma positive_iff x : notnan x -> (dle x (dofZ 0) = false <-> positive_number x).
  Proof.
    intros Hn. unfold positive_number. split.
    - intros H. apply dle_total in H; auto.
      destruct (dfin_cases x) as [F|[N|[s ->]]]; [left| |].
      + split; auto. apply dlt_iff in H; [|apply fin_0|auto]. rewrite d2r_0 in H; exact H.
      + unfold notnan in Hn; congruence.
      + destruct s; auto. rewrite dlt_fin_ninf in H; discriminate.
    - intros [[F H]| ->].
      + apply dle_false; [auto|apply fin_0|]. rewrite d2r_0; exact H.
      + apply dle_inf_fin; apply fin_0.
  Qed.
  Lemma min_positive l :
    l <> [] -> (forall x, In x l -> notnan x) ->
    (dle (t_min L l) (dofZ 0) = false <-> forall x, In x l -> positive_number x).
  Proof.
    intros Hl Hn. destruct (Hmin l Hl Hn) as [I1 Hb]. split.
    - intros H x Hx. apply positive_iff; [apply Hn; auto|].
      destruct (dle x (dofZ 0)) eqn:E; auto.
      rewrite (dle_trans _ _ _ (Hb x Hx) E) in H; discriminate.
    - intros H. apply positive_iff; [apply Hn; auto|auto].
  Qed.


  Lemma check_azimuth_step t phi :
    err t = None -> has_array t PHI phi -> 1 <= arr_size t ->
    step_ok (check_azimuth_angle L) t (forall x, In x phi -> angle_ok x).
  Proof.
    intros He [Ha [Hlen Hn]] Hs. unfold step_ok, check_azimuth_angle.
    rewrite guarded_clean by auto. rewrite Ha. rewrite aprefix_all by auto. cbn [bind].
    assert (Hne : phi <> []) by (apply nonempty_len; lia).
    assert (HA := angle_range phi Hne Hn).
    destruct (HL phi Hne Hn) as [I1 [I2 _]].
    destruct (t_minmax L phi) as [mn mx] eqn:Em; simpl in HA, I1, I2 |- *. unfold sgt; simpl.
    rewrite (Hn _ I1), (Hn _ I2). simpl.
    destruct (dinf mn || dinf mx)%bool eqn:Ei.
    { apply fail_step. intros H. apply orb_true_iff in Ei.
      destruct (H _ I1) as [F1 _], (H _ I2) as [F2 _].
      apply dfinite_not_inf in F1. apply dfinite_not_inf in F2. destruct Ei; congruence. }
    destruct (dlt mn (dneg (dofZ 360))) eqn:E1.
    { apply fail_step. intros H. apply HA in H. destruct H; congruence. }
    destruct (dlt (dofZ 360) mx) eqn:E2.
    { apply fail_step. intros H. apply HA in H. destruct H; congruence. }
    apply ok_step; auto. apply HA; auto.
  Qed.
  Lemma check_opening_step t b :
    err t = None -> has_array t BDEG b -> 1 <= arr_size t ->
    step_ok (check_opening_angle L) t (forall x, In x b -> angle_ok x).
  Proof.
    intros He [Ha [Hlen Hn]] Hs. unfold step_ok, check_opening_angle.
    rewrite guarded_clean by auto. rewrite Ha. rewrite aprefix_all by auto. cbn [bind].
    assert (Hne : b <> []) by (apply nonempty_len; lia).
    assert (HA := angle_range b Hne Hn).
    destruct (t_minmax L b) as [mn mx] eqn:Em; simpl in HA |- *. unfold sgt; simpl.
    destruct (dlt mn (dneg (dofZ 360))) eqn:E1.
    { apply fail_step. intros H. apply HA in H. destruct H; congruence. }
    destruct (dlt (dofZ 360) mx) eqn:E2.
    { apply fail_step. intros H. apply HA in H. destruct H; congruence. }
    apply ok_step; auto. apply HA; auto.
  Qed.
  Lemma check_distance_step t d :
    err t = None -> has_array t DKM d -> 1 <= arr_size t ->
    step_ok (check_ring_distance L) t (forall x, In x d -> positive_number x).
  Proof.
    intros He [Ha [Hlen Hn]] Hs. unfold step_ok, check_ring_distance.
    rewrite guarded_clean by auto. rewrite Ha. rewrite aprefix_all by auto. cbn [bind].
    assert (Hne : d <> []) by (apply nonempty_len; lia).
    assert (HA := min_positive d Hne Hn).
    change (sle (t_min L d) s0) with (dle (t_min L d) (dofZ 0)).
    destruct (dle (t_min L d) (dofZ 0)) eqn:E.
    - apply fail_step. intros H; apply HA in H; discriminate.
    - apply ok_step; auto. apply HA; auto.
  Qed.
  Lemma check_radius_step t d :
    err t = None -> has_array t RHO d -> 1 <= arr_size t ->
    step_ok (check_ring_radius L) t (forall x, In x d -> positive_number x).
  Proof.
    intros He [Ha [Hlen Hn]] Hs. unfold step_ok, check_ring_radius.
    rewrite guarded_clean by auto. rewrite Ha. rewrite aprefix_all by auto. cbn [bind].
    assert (Hne : d <> []) by (apply nonempty_len; lia).
    assert (HA := min_positive d Hne Hn).
    change (sle (t_min L d) s0) with (dle (t_min L d) (dofZ 0)).
    destruct (dle (t_min L d) (dofZ 0)) eqn:E.
    - apply fail_step. intros H; apply HA in H; discriminate.
    - apply ok_step; auto. apply HA; auto.
  Qed.
  Lemma notnan_199_mul x : finite x -> dnan (dmul (dfrac 199 100) (dabs x)) = false.
  Proof.
    intros F. unfold dmul. assert (Ff : is_finite (dfrac 199 100) = true) by (vm_compute; reflexivity).
    assert (Fx : is_finite (dabs x) = true) by (unfold dabs; rewrite is_finite_Babs; exact F).
    assert (H := Bmult_correct dprec demax _ _ mode_NE (dfrac 199 100) (dabs x)).
    destruct (Rlt_bool _ _) in H.
    - destruct H as [_ [H _]]. rewrite Ff, Fx in H. simpl in H. apply dfinite_not_nan; auto.
    - destruct (Bmult mode_NE (dfrac 199 100) (dabs x)); auto; discriminate.
  Qed.
  Lemma check_displacement_step (t : dtau) :
    err t = None -> notnan (reso t) ->
    step_ok (check_displacement (S:=dbl_scalar)) t
      (finite (dx t) /\ val (dx t) <> 0%R /\
       dle (dmul (dfrac 199 100) (dabs (dx t))) (reso t) = true).
  Proof.
    intros He Hr. unfold step_ok, check_displacement. rewrite guarded_clean by auto.
    cbn [snan sinf seqb slt smul sabs sfrac dbl_scalar].
    destruct (dnan (dx t)) eqn:E1.
    { apply fail_step. intros [F _]. apply dfinite_iff in F. destruct F; congruence. }
    destruct (dinf (dx t)) eqn:E2.
    { apply fail_step. intros [F _]. apply dfinite_iff in F. destruct F; congruence. }
    assert (F : dfinite (dx t) = true) by (apply dfinite_iff; auto).
    change (s0 (S:=dbl_scalar)) with (dofZ 0).
    destruct (deq (dx t) (dofZ 0)) eqn:E3.
    { apply deq_iff in E3; [|auto|apply fin_0]. rewrite d2r_0 in E3.
      apply fail_step. unfold val; tauto. }
    apply deq_false in E3; [|auto|apply fin_0]. rewrite d2r_0 in E3.
    destruct (dlt (reso t) (dmul (dfrac 199 100) (dabs (dx t)))) eqn:E4.
    - apply dlt_not_dle in E4. apply fail_step. intros [_ [_ H]]; congruence.
    - apply ok_step; auto. split; auto. split; auto.
      apply dlt_false_dle; auto. apply notnan_199_mul; auto.
  Qed.

  Lemma check_geometry_exact (t : dtau) phi b d r :
    clean t -> 1 <= arr_size t ->
    has_array t PHI phi -> has_array t BDEG b -> has_array t DKM d -> has_array t RHO r ->
    notnan (reso t) ->
    exists t', check_geometry L t = Ok t' /\ same_data t t' /\
               (clean t' <-> geometry_ok phi b d r t).
  Proof.
    intros He Hs H1 H2 H3 H4 Hr.
    assert (G : step_ok (fun t => do t1 <- check_azimuth_angle L t;
      do t2 <- check_displacement t1; do t3 <- check_opening_angle L t2;
      do t4 <- check_ring_distance L t3; check_ring_radius L t4) t
      ((forall x, In x phi -> angle_ok x) /\
       (finite (dx t) /\ val (dx t) <> 0%R /\
          dle (dmul (dfrac 199 100) (dabs (dx t))) (reso t) = true) /\
       (forall x, In x b -> angle_ok x) /\
       (forall x, In x d -> positive_number x) /\
       (forall x, In x r -> positive_number x))).
    { apply step_seq; [apply check_azimuth_step; auto| |].
      2:{ intros t' m Em. unfold check_displacement, check_opening_angle, check_ring_distance, check_ring_radius.
          do 4 (rewrite (guarded_err t' m) by exact Em; cbn [bind]; try reflexivity). }
      intros t1 (Sa & _ & _ & _ & Sdx & _ & _ & _ & _ & Sreso & _ & _ & _ & _ & _ & _ & _ & Ssz & _) E1 _.
      unfold has_array in *.
      rewrite <- Sdx, <- Sreso in *. rewrite <- Sa, <- Ssz in *. clear Sa Sdx Sreso Ssz.
      apply step_seq; [apply check_displacement_step; auto| |].
      2:{ intros t' m Em. unfold check_displacement, check_opening_angle, check_ring_distance, check_ring_radius.
          do 3 (rewrite (guarded_err t' m) by exact Em; cbn [bind]; try reflexivity). }
      intros t2 (Sa & _ & _ & _ & _ & _ & _ & _ & _ & _ & _ & _ & _ & _ & _ & _ & _ & Ssz & _) E2 _.
      rewrite <- Sa, <- Ssz in *. clear Sa Ssz.
      apply step_seq; [apply check_opening_step; unfold has_array; auto| |].
      2:{ intros t' m Em. unfold check_displacement, check_opening_angle, check_ring_distance, check_ring_radius.
          do 2 (rewrite (guarded_err t' m) by exact Em; cbn [bind]; try reflexivity). }
      intros t3 (Sa & _ & _ & _ & _ & _ & _ & _ & _ & _ & _ & _ & _ & _ & _ & _ & _ & Ssz & _) E3 _.
      rewrite <- Sa, <- Ssz in *. clear Sa Ssz.
      apply step_seq; [apply check_distance_step; unfold has_array; auto| |].
      2:{ intros t' m Em. apply (guarded_err t' m); exact Em. }
      intros t4 (Sa & _ & _ & _ & _ & _ & _ & _ & _ & _ & _ & _ & _ & _ & _ & _ & _ & Ssz & _) E4 _.
      rewrite <- Sa, <- Ssz in *. clear Sa Ssz.
      apply check_radius_step; unfold has_array; auto. }
    destruct G as [t' [E [Sd H]]]. exists t'. split.
    - unfold check_geometry. rewrite guarded_clean by exact He. exact E.
    - split; auto. unfold clean. rewrite H. unfold geometry_ok. tauto.
  Qed.
End Geometry.

(** NaN cases (refutations for C02). *)
Lemma opening_nan_accepted (L : dlib) (t : dtau) (b : list double) :
  nan_law L -> clean t -> arr t BDEG = Some b -> zlen b = arr_size t -> b <> [] ->
  (forall x, In x b -> dnan x = true) ->
  check_opening_angle L t = Ok t.
Proof.
  intros HN Hc Ha Hlen Hne Hn. unfold check_opening_angle. rewrite guarded_clean by exact Hc.
  rewrite Ha, aprefix_all by auto. cbn [bind].
  destruct (HN b Hne Hn) as (H1 & H2 & _).
  destruct (t_minmax L b) as [mn mx]; simpl in H1, H2. unfold sgt; simpl.
  assert (A : dlt mn (dneg (dofZ 360)) = false).
  { destruct H1 as [H1|H1]; [|subst; vm_compute; reflexivity].
    destruct mn; try discriminate. reflexivity. }
  assert (B : dlt (dofZ 360) mx = false).
  { destruct H2 as [H2|H2]; [|subst; vm_compute; reflexivity].
    destruct mx; try discriminate. unfold dlt. vm_compute. reflexivity. }
  rewrite A, B. reflexivity.
Qed.
Lemma displacement_nan_accepted (t : dtau) :
  clean t -> dnan (reso t) = true -> finite (dx t) -> val (dx t) <> 0%R ->
  check_displacement t = Ok t.
Proof.
  intros Hc Hr F H0. unfold check_displacement. rewrite guarded_clean by exact Hc.
  cbn [snan sinf seqb slt smul sabs sfrac dbl_scalar].
  destruct (proj1 (dfinite_iff _) F) as [E1 E2]. rewrite E1, E2.
  change (s0 (S:=dbl_scalar)) with (dofZ 0).
  destruct (deq (dx t) (dofZ 0)) eqn:E3.
  { apply deq_iff in E3; [|exact F|apply fin_0]. rewrite d2r_0 in E3. contradiction. }
  change (car dbl_scalar) with double in *. destruct (reso t); try discriminate. reflexivity.
Qed.
