(** * Proof_Dlp2: proofs of C72, interpolation and the profile. *)
From Coq Require Import List ZArith Bool Reals Lia Lra Sorted.
From Verif Require Import Base Model_Time Model_Chord Model_Free Model_Frame Model_Resample Model_Dlp Spec_Dlp Proof_Chord Proof_Free Proof_Free2 Proof_Frame Proof_Dlp.
Import ListNotations.
Open Scope R_scope.

(** ** Interpolation. *)
Lemma np_first : forall x y l, StronglySorted (fun p q => fst p < fst q) ((x, y) :: l) -> np_interp ((x, y) :: l) x = y.
Proof.
  intros x y l S. cbn. destruct l as [|(x1, y1) l]; [reflexivity|]. rewrite (proj2 (ltb_false x x)) by lra.
  inversion S as [|? ? _ F]; subst. inversion F; subst. cbn in *. rewrite (proj2 (ltb_true x x1)) by assumption. field. lra.
Qed.
Lemma np_step : forall x0 y0 x1 y1 l x, np_interp ((x0, y0) :: (x1, y1) :: l) x =
  if ltb x x0 then y0 else if ltb x x1 then (y1 - y0) / (x1 - x0) * (x - x0) + y0 else np_interp ((x1, y1) :: l) x.
Proof. reflexivity. Qed.
Section Interp.
  Context {A : Type}.
  Variables t f : A -> R.
  Let ps (xs : list A) := map (fun a => (t a, f a)) xs.
  Lemma np_at : forall xs a b w, timed t xs -> neighbours a b xs -> 0 <= w <= 1 ->
    np_interp (ps xs) ((1 - w) * t a + w * t b) = (1 - w) * f a + w * f b.
  Proof.
    intros xs a b w S (l1 & l2 & ->) Hw. unfold ps.
    assert (Sp : forall l, timed t l -> StronglySorted (fun p q : R * R => fst p < fst q) (map (fun a => (t a, f a)) l)).
    { intros l Sl. eapply sorted_map; [|exact Sl]. intros x y H. exact H. }
    induction l1 as [|c l1 IH].
    - cbn [app map]. assert (Lt : t a < t b) by (inversion S as [|? ? _ F]; subst; inversion F; subst; assumption).
      assert (P : 0 <= w * (t b - t a)) by (apply Rmult_le_pos; lra). assert (P' : 0 <= (1 - w) * (t b - t a)) by (apply Rmult_le_pos; lra).
      destruct (Req_dec w 1) as [->|D].
      + replace ((1 - 1) * t a + 1 * t b) with (t b) by ring. rewrite np_step, (proj2 (ltb_false (t b) (t a))) by lra. rewrite (proj2 (ltb_false (t b) (t b))) by lra.
        transitivity (f b); [|ring]. apply np_first. inversion S; subst. apply (Sp (b :: l2)). assumption.
      + assert (P2 : 0 < (1 - w) * (t b - t a)) by (apply Rmult_lt_0_compat; lra).
        rewrite np_step, (proj2 (ltb_false _ (t a))) by lra. rewrite (proj2 (ltb_true _ (t b))) by lra. field. lra.
    - inversion S as [|? ? S' F]; subst. rewrite Forall_forall in F. cbn [app map]. destruct (sorted_mid _ _ _ _ S') as (I1 & I2 & _).
      assert (Lt : t a < t b) by (apply I2; left; reflexivity). assert (P : 0 <= w * (t b - t a)) by (apply Rmult_le_pos; lra).
      assert (Lc : t c < t a) by (apply F, in_or_app; right; left; reflexivity). specialize (IH S').
      destruct l1 as [|d l1].
      + cbn [app map] in *. rewrite np_step, (proj2 (ltb_false _ (t c))) by lra. rewrite (proj2 (ltb_false _ (t a))) by lra. exact IH.
      + cbn [app map] in *. assert (Ld : t d < t a) by (apply I1; left; reflexivity).
        rewrite np_step.
        rewrite (proj2 (ltb_false _ (t c))) by lra. rewrite (proj2 (ltb_false _ (t d))) by lra. exact IH.
  Qed.
  Lemma line_pair : forall xs x, (2 <= length xs)%nat -> timed t xs -> (exists a, In a xs /\ t a <= x) -> (exists b, In b xs /\ x <= t b) ->
    exists a b w, neighbours a b xs /\ 0 <= w <= 1 /\ x = (1 - w) * t a + w * t b /\ line (ps xs) x = (1 - w) * f a + w * f b.
  Proof.
    intros xs x N S (a0 & Ha0 & La) (b0 & Hb0 & Lb).
    assert (X : StronglySorted (fun p q : R * R => fst p < fst q) (ps xs)) by (unfold ps; eapply sorted_map; [|exact S]; intros u v H; exact H).
    assert (N' : (2 <= length (ps xs))%nat) by (unfold ps; rewrite map_length; exact N).
    assert (W : within (ps xs) x).
    { apply within_of; [exact X|exact N'| |]; [exists (t a0, f a0)|exists (t b0, f b0)]; (split; [unfold ps; apply (in_map (fun a => (t a, f a))); assumption|cbn; assumption]). }
    destruct (interval (ps xs) X N' x W) as (i & E & Bi & _ & Ii). unfold ps in *. rewrite map_length in *.
    destruct (nth_error xs (i - 1)) as [a|] eqn:Ea; [|apply nth_error_None in Ea; lia]. destruct (nth_error xs i) as [b|] eqn:Eb; [|apply nth_error_None in Eb; lia].
    assert (Na : forall k c, nth_error xs k = Some c -> nth k (map (fun a => (t a, f a)) xs) (0, 0) = (t c, f c)).
    { intros k c Hc. apply nth_error_nth. rewrite nth_error_map, Hc. reflexivity. }
    rewrite (Na _ _ Ea), (Na _ _ Eb) in *. cbn [fst snd] in *.
    assert (Nb : neighbours a b xs).
    { apply nth_error_split in Ea. destruct Ea as (l1 & l2 & -> & El). rewrite nth_error_app2 in Eb by lia. replace (i - length l1)%nat with 1%nat in Eb by lia. cbn in Eb.
      destruct l2 as [|c l2]; [discriminate|]. cbn in Eb. injection Eb as ->. exists l1, l2. reflexivity. }
    assert (Lt : t a < t b) by (destruct Nb as (l1 & l2 & ->); destruct (sorted_mid _ _ _ _ S) as (_ & I2 & _); apply I2; left; reflexivity).
    exists a, b, ((x - t a) / (t b - t a)). split; [exact Nb|]. split; [|split].
    - split; [apply Rmult_le_pos; [lra|left; apply Rinv_0_lt_compat; lra]|]. apply (Rmult_le_reg_r (t b - t a)); [lra|]. unfold Rdiv. rewrite Rmult_assoc, Rinv_l by lra. lra.
    - field. lra.
    - rewrite E. field. lra.
  Qed.
End Interp.
Lemma neighbours_rev : forall {A} (a b : A) xs, neighbours a b (rev xs) -> neighbours b a xs.
Proof.
  intros A a b xs (l1 & l2 & E). exists (rev l2), (rev l1). rewrite <- (rev_involutive xs), E, rev_app_distr. cbn. rewrite <- !app_assoc. reflexivity.
Qed.
Lemma timed_rev : forall {A} (t : A -> R) xs, StronglySorted (fun x y => t y < t x) xs -> timed t (rev xs).
Proof. intros A t xs S. apply sorted_rev in S. exact S. Qed.
Lemma find_pair : forall {A} (r f : A -> R) xs x v, (2 <= length xs)%nat ->
  (StronglySorted (fun a b => r a < r b) xs \/ StronglySorted (fun a b => r b < r a) xs) ->
  interp1d_bounded (map (fun a => (r a, f a)) xs) x = Returns v ->
  exists a b w, neighbours a b xs /\ 0 <= w <= 1 /\ x = (1 - w) * r a + w * r b /\ v = (1 - w) * f a + w * f b.
Proof.
  intros A r f xs x v N M. unfold interp1d_bounded. rewrite map_map. cbn [fst].
  destruct (ltb x (minimum (map (fun a => r a) xs)) || ltb (maximum (map (fun a => r a) xs)) x)%bool eqn:B; [discriminate|]. intro H. injection H as H.
  apply orb_false_iff in B. rewrite !ltb_false in B. destruct B as (B1 & B2).
  assert (La : exists a, In a xs /\ r a <= x).
  { destruct xs as [|a l]; [cbn in N; lia|]. cbn [map minimum] in B1. destruct (lmin_in (map (fun a => r a) l) (r a)) as (I & _).
    change (r a :: map (fun a => r a) l) with (map (fun a => r a) (a :: l)) in I. apply in_map_iff in I. destruct I as (c & Ec & Hc). exists c. split; [exact Hc|lra]. }
  assert (Lb : exists b, In b xs /\ x <= r b).
  { destruct xs as [|a l]; [cbn in N; lia|]. cbn [map maximum] in B2. destruct (lmax_in (map (fun a => r a) l) (r a)) as (I & _).
    change (r a :: map (fun a => r a) l) with (map (fun a => r a) (a :: l)) in I. apply in_map_iff in I. destruct I as (c & Ec & Hc). exists c. split; [exact Hc|lra]. }
  change (interp1d (map (fun a => (r a, f a)) xs) x) with (line (sorted_pairs (map (fun a => (r a, f a)) xs)) x) in H.
  destruct M as [M|M].
  - rewrite sorted_up in H; [|eapply sorted_map; [|exact M]; intros u w K; exact K].
    destruct (line_pair r f xs x N M La Lb) as (a & b & w & P1 & P2 & P3 & P4). exists a, b, w. rewrite <- H. tauto.
  - rewrite sorted_down, <- map_rev in H; [|eapply sorted_map; [|exact M]; intros u w K; exact K].
    destruct La as (a0 & Ha & La). destruct Lb as (b0 & Hb & Lb).
    destruct (line_pair r f (rev xs) x) as (a & b & w & P1 & P2 & P3 & P4).
    + rewrite rev_length. exact N.
    + apply timed_rev, M.
    + exists a0. rewrite <- in_rev. tauto.
    + exists b0. rewrite <- in_rev. tauto.
    + exists b, a, (1 - w). split; [apply neighbours_rev, P1|]. split; [lra|]. rewrite <- H, P4. split; [lra|]. ring.
Qed.

(** ** The threshold. *)
Theorem thresh_sign : forall noise res calpha rho_dot B p_free, 0 < noise -> 0 < res -> 0 < calpha -> rho_dot <> 0 -> 0 < Rabs B < 180 -> 0 < p_free ->
  (0 < tau_thresh noise res calpha rho_dot B p_free <-> calpha / 2 * (Rabs rho_dot / res) * noise < p_free) /\
  exp (- tau_thresh noise res calpha rho_dot B p_free / sin (Rabs (B * (PI / 180)))) * p_free = calpha / 2 * (Rabs rho_dot / res) * noise.
Proof.
  intros n d c v B f Hn Hd Hc Hv HB Hf. unfold tau_thresh.
  assert (Va : 0 < Rabs v) by (apply Rabs_pos_lt, Hv).
  assert (Ev : Rabs (v / d) = Rabs v / d). { unfold Rdiv. rewrite Rabs_mult, (Rabs_right (/ d)); [reflexivity|]. left. apply Rinv_0_lt_compat, Hd. }
  rewrite Ev. set (x := 1 / 2 * c * (Rabs v / d) / (f / n)).
  assert (Ex : x * f = c / 2 * (Rabs v / d) * n) by (unfold x; field; repeat split; lra).
  assert (Px : 0 < x).
  { unfold x. apply Rmult_lt_0_compat; [apply Rmult_lt_0_compat; [lra|apply Rmult_lt_0_compat; [lra|apply Rinv_0_lt_compat; lra]]|]. apply Rinv_0_lt_compat.
    apply Rmult_lt_0_compat; [lra|apply Rinv_0_lt_compat; lra]. }
  assert (Ps : 0 < sin (Rabs (B * (PI / 180)))).
  { pose proof PI_RGT_0 as Pp. rewrite Rabs_mult, (Rabs_right (PI / 180)) by lra. apply sin_gt_0.
    - apply Rmult_lt_0_compat; lra.
    - replace PI with (180 * (PI / 180)) at 2 by field. apply Rmult_lt_compat_r; lra. }
  set (s := sin (Rabs (B * (PI / 180)))) in *. split.
  - rewrite <- Ex. assert (L : ln x < 0 <-> x < 1).
    { split; intro K.
      - destruct (Rlt_le_dec x 1) as [C|C]; [exact C|]. exfalso. destruct (Rle_lt_or_eq_dec _ _ C) as [D|D]; [pose proof (ln_increasing 1 x ltac:(lra) D) as Q; rewrite ln_1 in Q; lra|].
        rewrite <- D, ln_1 in K. lra.
      - pose proof (ln_increasing x 1 Px K) as Q. rewrite ln_1 in Q. exact Q. }
    split; intro K.
    + assert (Q : ln x < 0). { destruct (Rlt_le_dec (ln x) 0) as [C|C]; [exact C|]. assert (0 <= s * ln x) by (apply Rmult_le_pos; lra). lra. }
      apply L in Q. assert (x * f < 1 * f) by (apply Rmult_lt_compat_r; lra). lra.
    + assert (Q : x < 1). { apply (Rmult_lt_reg_r f); lra. } apply L in Q. assert (0 < s * - ln x) by (apply Rmult_lt_0_compat; lra). lra.
  - rewrite <- Ex. replace (- (- s * ln x) / s) with (ln x) by (field; lra). rewrite exp_ln by exact Px. reflexivity.
Qed.

(** ** One direction. *)
Lemma filter_those : forall {A} (P : A -> bool) l, those (fun x => P x = true) l (filter P l).
Proof. induction l as [|x l IH]; cbn; [constructor|]. destruct (P x) eqn:E; [apply th_keep|apply th_drop]; congruence || exact IH. Qed.
Theorem direction_ok : forall d geo xs ys, one_direction d geo xs = Returns ys ->
  let dot := fun x => np_interp (map (fun g => (g_t g, g_dot g)) geo) (m_t x) in
  let mixed := (exists x, In x xs /\ dot x < 0) /\ exists x, In x xs /\ 0 < dot x in
  (~ mixed /\ ys = xs) \/ (mixed /\ d = INGRESS /\ those (fun x => dot x <= 0) xs ys) \/ (mixed /\ d = EGRESS /\ those (fun x => 0 <= dot x) xs ys).
Proof.
  intros d geo xs ys H dot mixed. unfold one_direction in H. cbv zeta in H. change (fun x => ltb (np_interp (map (fun g => (g_t g, g_dot g)) geo) (m_t x)) 0) with (fun x => ltb (dot x) 0) in H.
  change (fun x => ltb 0 (np_interp (map (fun g => (g_t g, g_dot g)) geo) (m_t x))) with (fun x => ltb 0 (dot x)) in H.
  assert (M : (existsb (fun x => ltb (dot x) 0) xs && existsb (fun x => ltb 0 (dot x)) xs)%bool = true <-> mixed).
  { rewrite andb_true_iff, !existsb_exists. unfold mixed. split; intros ((x & Hx & Px) & (y & Hy & Py)); (split; [exists x|exists y]); rewrite ?ltb_true in *; tauto. }
  destruct (existsb (fun x => ltb (dot x) 0) xs && existsb (fun x => ltb 0 (dot x)) xs)%bool.
  - assert (m : mixed) by (apply M; reflexivity). destruct d; try discriminate; injection H as <-; right; [left|right]; (split; [exact m|split; [reflexivity|]]);
      (eapply those_ext; [|apply filter_those]); intros x _; cbn; rewrite negb_true_iff, ltb_false; tauto.
  - injection H as <-. left. split; [|reflexivity]. intro K. apply M in K. discriminate.
Qed.
Lemma each_ok : forall {A B} (f : A -> py B) l r, each f l = Returns r -> Forall2 (fun a b => f a = Returns b) l r.
Proof.
  intros A B f. induction l as [|a l IH]; intros r H; cbn in H; [injection H as <-; constructor|].
  destruct (f a) as [b| |] eqn:E; cbn in H; try discriminate. destruct (each f l) as [bs| |]; cbn in H; try discriminate. injection H as <-. constructor; [exact E|apply IH; reflexivity].
Qed.
Lemma Forall2_in : forall {A B} (P : A -> B -> Prop) l r b, Forall2 P l r -> In b r -> exists a, In a l /\ P a b.
Proof. intros A B P l r b F. induction F as [|x y l r H F IH]; intros []; [subst; exists x; cbn; tauto|]. destruct (IH H0) as (a & Ha & Pa). exists a. cbn. tauto. Qed.

(** ** The profile. *)
Section Prof.
  Variable spline : list (R * R) -> R -> R.
  Variable taps : nat -> Z -> R.
  Theorem profile_ok : forall noise raw geo cal d dr lo hi out,
    timed g_t geo -> timed c_t cal -> one_way geo -> (2 <= length geo)%nat -> (2 <= length cal)%nat ->
    let rad := spline (map (fun g => (g_t g, g_rho g)) geo) in
    (StronglySorted (fun a b => rad (c_t a) < rad (c_t b)) cal \/ StronglySorted (fun a b => rad (c_t b) < rad (c_t a)) cal) ->
    profile spline taps noise raw geo cal d dr lo hi = Returns out ->
    exists kept radii I Q ys, trim geo raw = Returns kept /\
      resample_IQ taps (map (fun x => rad (r_t x)) kept) (map r_I kept) (map r_Q kept) dr = Returns (radii, I, Q) /\
      in_range fst lo hi (combine radii (combine I Q)) = Returns ys /\
      ((forall p, In p out -> p_dot p <= 0) \/ (forall p, In p out -> 0 <= p_dot p)) /\
      forall p, In p out ->
        (exists a b w, neighbours a b geo /\ between a b w p) /\
        (exists i q a b w, In (p_rho p, (i, q)) ys /\ neighbours a b cal /\ 0 <= w <= 1 /\ p_rho p = (1 - w) * rad (c_t a) + w * rad (c_t b) /\
           0 <= p_norm p /\ p_norm p = (i * i + q * q) / ((1 - w) * c_free a + w * c_free b) /\
           ((i <> 0 \/ q <> 0) -> exists r, 0 < r /\ r * r = i * i + q * q /\ i = r * cos (p_phase p) /\ q = r * sin (p_phase p))) /\
        (sin (p_B p) <> 0 -> 0 < p_norm p -> p_norm p = exp (- p_tau p / sin (p_B p))) /\
        (forall a b w, neighbours a b cal -> 0 <= w <= 1 -> p_t p = (1 - w) * c_t a + w * c_t b ->
           p_sky p = (1 - w) * c_sky a + w * c_sky b /\
           forall Ta Tb, threshold_of noise (round3 (Rabs (nth 1 radii 0 - nth 0 radii 0))) geo a Ta ->
             threshold_of noise (round3 (Rabs (nth 1 radii 0 - nth 0 radii 0))) geo b Tb -> p_thresh p = (1 - w) * Ta + w * Tb).
  Proof.
    intros noise raw geo cal d dr lo hi out Sg Sc Wg Ng Nc rad Wc. unfold profile. cbv zeta.
    destruct (trim geo raw) as [kept| |] eqn:Et; cbn [pybind]; try discriminate. fold rad.
    destruct (resample_IQ _ _ _ _ _) as [((radii, I), Q)| |] eqn:Er; cbn [pybind]; try discriminate.
    destruct radii as [|r1 [|r2 rs]] eqn:Ed; try discriminate. rewrite <- Ed in *.
    destruct (in_range _ _ _ _) as [ys| |] eqn:Ei; cbn [pybind]; try discriminate.
    destruct (each _ ys) as [zs| |] eqn:Ee; cbn [pybind]; try discriminate.
    destruct (existsb _ zs) eqn:Ex; try discriminate.
    destruct (one_direction d geo zs) as [ks| |] eqn:Eo; cbn [pybind]; try discriminate. intro H. injection H as <-.
    exists kept, radii, I, Q, ys. split; [reflexivity|]. split; [exact Er|]. split; [exact Ei|].
    assert (Sub : forall x, In x ks -> In x zs).
    { intros x Hx. destruct (direction_ok _ _ _ _ Eo) as [(_ & ->)|[(_ & _ & T)|(_ & _ & T)]]; [exact Hx| |]; apply (those_in _ _ _ T) in Hx; tauto. }
    split.
    - set (dot := fun x => np_interp (map (fun g => (g_t g, g_dot g)) geo) (m_t x)).
      assert (K : (forall x, In x ks -> dot x <= 0) \/ (forall x, In x ks -> 0 <= dot x)).
      { destruct (direction_ok _ _ _ _ Eo) as [(Nm & ->)|[(_ & _ & T)|(_ & _ & T)]].
        - destruct (existsb (fun x => ltb 0 (dot x)) zs) eqn:E1.
          + right. intros x Hx. destruct (Rle_lt_dec 0 (dot x)) as [C|C]; [exact C|]. exfalso. apply Nm. split; [exists x; tauto|].
            apply existsb_exists in E1. destruct E1 as (y & Hy & Py). apply ltb_true in Py. exists y. tauto.
          + left. intros x Hx. destruct (Rle_lt_dec (dot x) 0) as [C|C]; [exact C|]. exfalso.
            assert (existsb (fun x => ltb 0 (dot x)) zs = true) by (apply existsb_exists; exists x; rewrite ltb_true; tauto). congruence.
        - left. intros x Hx. apply (those_in _ _ _ T) in Hx. tauto.
        - right. intros x Hx. apply (those_in _ _ _ T) in Hx. tauto. }
      destruct K as [K|K]; [left|right]; intros p Hp; apply in_map_iff in Hp; destruct Hp as (x & <- & Hx); cbn; apply K, Hx.
    - intros p Hp. apply in_map_iff in Hp. destruct Hp as (x & <- & Hx). apply Sub in Hx.
      assert (Pn : 0 <= m_norm x).
      { destruct (Rle_lt_dec 0 (m_norm x)) as [C|C]; [exact C|]. exfalso.
        assert (existsb (fun x => ltb (m_norm x) 0) zs = true) by (apply existsb_exists; exists x; rewrite ltb_true; tauto). congruence. }
      destruct (Forall2_in _ _ _ _ (each_ok _ _ _ Ee) Hx) as ((r & (i & q)) & Hy & Ey). unfold resampled in Ey.
      destruct (interp1d_bounded (map (fun g => (g_rho g, g_t g)) geo) r) as [t| |] eqn:E1; cbn [pybind] in Ey; try discriminate.
      destruct (interp1d_bounded (map (fun c => (spline (map (fun g => (g_t g, g_rho g)) geo) (c_t c), c_free c)) cal) r) as [fr| |] eqn:E2; cbn [pybind] in Ey; try discriminate.
      injection Ey as Ey.
      destruct (find_pair g_rho g_t geo r t Ng Wg E1) as (a & b & w & A1 & A2 & A3 & A4).
      destruct (find_pair (fun c => rad (c_t c)) c_free cal r fr Nc Wc E2) as (a' & b' & w' & C1 & C2 & C3 & C4).
      assert (At : forall f : gsmp -> R, np_interp (map (fun g => (g_t g, f g)) geo) (m_t x) = (1 - w) * f a + w * f b).
      { intro f. rewrite <- Ey. cbn [m_t]. rewrite A4. apply (np_at g_t f); assumption. }
      split; [|split; [|split]].
      + exists a, b, w. split; [exact A1|]. unfold between, attributes. cbn. split; [exact A2|]. split; [rewrite <- Ey; exact A3|]. split; [rewrite <- Ey; exact A4|].
        split; [apply At|]. split; [rewrite At; ring|]. intro c. apply (At (fun g => g_col g c)).
      + exists i, q, a', b', w'. unfold attributes. cbn. rewrite <- Ey. cbn. rewrite <- Ey in Pn. cbn in Pn.
        split; [exact Hy|]. split; [exact C1|]. split; [exact C2|]. split; [exact C3|]. split; [exact Pn|]. split; [rewrite C4; reflexivity|].
        intro Nz. destruct (atan2_polar i q Nz) as (_ & P). exact P.
      + unfold attributes. cbn. intros Hs Hn. set (s := sin _) in *. replace (- (- s * ln (m_norm x)) / s) with (ln (m_norm x)) by (field; exact Hs). rewrite exp_ln by exact Hn. reflexivity.
      + intros ca cb u U1 U2 U3. unfold attributes in *. cbn [p_t p_sky p_thresh] in *. rewrite U3. split; [apply (np_at c_t c_sky); assumption|].
        intros Ta Tb TA TB. rewrite Ed in TA, TB. cbn [nth] in TA, TB. unfold thresholds. set (res := round3 (Rabs (r2 - r1))) in *.
        assert (Th : forall c T, threshold_of noise res geo c T -> tau_thresh noise res (241 / 100) (np_interp (map (fun g => (g_t g, g_dot g)) geo) (c_t c))
                          (np_interp (map (fun g => (g_t g, g_B g)) geo) (c_t c)) (c_free c) = T).
        { intros c T (g & h & v & V1 & V2 & V3 & ->). rewrite V3. rewrite (np_at g_t g_dot), (np_at g_t g_B) by assumption. reflexivity. }
        rewrite <- (Th _ _ TA), <- (Th _ _ TB).
        apply (np_at c_t (fun c => tau_thresh noise res (241 / 100) (np_interp (map (fun g => (g_t g, g_dot g)) geo) (c_t c))
                          (np_interp (map (fun g => (g_t g, g_B g)) geo) (c_t c)) (c_free c))); assumption.
  Qed.
End Prof.

(** ** Chords. *)
Lemma changes_first : forall l i c cs m, changes i l = c :: cs -> In m (changes i l) -> (c <= m)%nat.
Proof.
  induction l as [|x l IH]; intros i c cs m E H; [discriminate|]. destruct l as [|y l]; [discriminate|]. change (changes i (x :: y :: l)) with (if Z.eqb (y - x) 0 then changes (S i) (y :: l) else i :: changes (S i) (y :: l)) in E, H.
  destruct (Z.eqb (y - x) 0) eqn:D.
  - exact (IH _ _ _ _ E H).
  - injection E as <- E. destruct H as [<-|H]; [lia|]. apply changes_in in H. lia.
Qed.
Theorem chord_ok : forall geo raw cal d1 g1 r1 c1 d2 g2 r2 c2, timed g_t geo -> timed r_t raw -> timed c_t cal ->
  chord_parts geo raw cal = Returns ((d1, g1, r1, c1), (d2, g2, r2, c2)) ->
  exists a b, neighbours a b geo /\ sign (g_dot a) <> sign (g_dot b) /\
    (forall x, In x geo -> g_t x <= g_t a -> sign (g_dot x) = sign (g_dot a)) /\
    those (fun x => g_t x < g_t b - 1) geo g1 /\ those (fun x => r_t x < g_t b - 1) raw r1 /\ those (fun x => c_t x < g_t b - 1) cal c1 /\
    those (fun x => g_t b + 1 <= g_t x) geo g2 /\ those (fun x => g_t b + 1 <= r_t x) raw r2 /\ those (fun x => g_t b + 1 <= c_t x) cal c2 /\
    direction_of g1 = Returns d1 /\ direction_of g2 = Returns d2.
Proof.
  intros geo raw cal d1 g1 r1 c1 d2 g2 r2 c2 Sg Sr Sc. unfold chord_parts.
  destruct (changes 0 (map sign (map g_dot geo))) as [|c cs] eqn:Ec; [discriminate|].
  destruct (nth_error geo (c + 1)) as [b|] eqn:Eb; [|discriminate].
  destruct (part g_t (g_t b - 1) geo) as [i1|] eqn:E1; [|discriminate]. destruct (part r_t (g_t b - 1) raw) as [i2|] eqn:E2; [|discriminate].
  destruct (part c_t (g_t b - 1) cal) as [i3|] eqn:E3; [|discriminate]. destruct (part g_t (g_t b + 1) geo) as [j1|] eqn:F1; [|discriminate].
  destruct (part r_t (g_t b + 1) raw) as [j2|] eqn:F2; [|discriminate]. destruct (part c_t (g_t b + 1) cal) as [j3|] eqn:F3; [|discriminate].
  destruct (direction_of (firstn i1 geo)) as [e1| |] eqn:D1; cbn [pybind]; try discriminate.
  destruct (direction_of (skipn j1 geo)) as [e2| |] eqn:D2; cbn [pybind]; try discriminate.
  intro H. injection H as <- <- <- <- <- <- <- <-.
  assert (Ic : In c (changes 0 (map sign (map g_dot geo)))) by (rewrite Ec; left; reflexivity).
  apply changes_in in Ic. rewrite Nat.sub_0_r, !map_length in Ic. destruct Ic as (_ & Lc & Dc).
  destruct (nth_error geo c) as [a|] eqn:Ea; [|apply nth_error_None in Ea; lia].
  assert (Nk : forall k x, nth_error geo k = Some x -> nth k (map sign (map g_dot geo)) 0%Z = sign (g_dot x)).
  { intros k x Hx. apply nth_error_nth. rewrite !nth_error_map, Hx. reflexivity. }
  replace (c + 1)%nat with (S c) in Eb by lia. rewrite (Nk _ _ Ea), (Nk _ _ Eb) in Dc.
  exists a, b. split; [|split; [congruence|split]].
  - apply nth_error_split in Ea. destruct Ea as (l1 & l2 & -> & <-). rewrite nth_error_app2 in Eb by lia.
    replace (S (length l1) - length l1)%nat with 1%nat in Eb by lia. cbn in Eb. destruct l2 as [|z l2]; [discriminate|]. cbn in Eb. injection Eb as ->. exists l1, l2. reflexivity.
  - intros x Hx Lx. apply In_nth_error in Hx. destruct Hx as (k & Hk).
    assert (Kc : (k <= c)%nat). { destruct (le_lt_dec k c) as [C|C]; [exact C|exfalso]. pose proof (sorted_nth _ geo c k a x Sg C Ea Hk) as Q. cbn in Q. lra. }
    assert (No : forall m, (m < c)%nat -> nth (S m) (map sign (map g_dot geo)) 0%Z = nth m (map sign (map g_dot geo)) 0%Z).
    { intros m Hm. destruct (Z.eq_dec (nth (S m) (map sign (map g_dot geo)) 0%Z) (nth m (map sign (map g_dot geo)) 0%Z)) as [E|E]; [exact E|exfalso].
      assert (Im : In m (changes 0 (map sign (map g_dot geo)))) by (apply changes_in; rewrite Nat.sub_0_r, !map_length; repeat split; [lia|lia|exact E]).
      pose proof (changes_first (map sign (map g_dot geo)) 0 c cs m Ec Im). lia. }
    rewrite <- (Nk _ _ Hk), <- (Nk _ _ Ea). clear - No Kc. induction c as [|c IH]; [replace k with 0%nat by lia; reflexivity|].
    destruct (Nat.eq_dec k (S c)) as [->|D]; [reflexivity|]. rewrite No by lia. apply IH; [lia|]. intros m Hm. apply No. lia.
  - destruct (cut _ _ _ _ Sg E1) as (A1 & _ & _). destruct (cut _ _ _ _ Sr E2) as (A2 & _ & _). destruct (cut _ _ _ _ Sc E3) as (A3 & _ & _).
    destruct (cut _ _ _ _ Sg F1) as (_ & B1 & _). destruct (cut _ _ _ _ Sr F2) as (_ & B2 & _). destruct (cut _ _ _ _ Sc F3) as (_ & B3 & _). tauto.
Qed.
Theorem heads_ok : forall geo raw cal d1 g1 r1 c1 d2 g2 r2 c2, chord_parts geo raw cal = Returns ((d1, g1, r1, c1), (d2, g2, r2, c2)) -> heads d1 g1 /\ heads d2 g2.
Proof.
  assert (K : forall g d, direction_of g = Returns d -> heads d g).
  { intros [|a [|b l]] d E; try discriminate. cbn [direction_of] in E. injection E as <-. exists a, b, l. split; [reflexivity|]. destruct (ltb (g_rho b - g_rho a) 0) eqn:L; [apply ltb_true in L; left; split; [reflexivity|lra]|apply ltb_false in L; right; split; [reflexivity|lra]]. }
  intros geo raw cal d1 g1 r1 c1 d2 g2 r2 c2. unfold chord_parts.
  destruct (changes 0 (map sign (map g_dot geo))) as [|c cs]; [discriminate|].
  destruct (nth_error geo (c + 1)) as [b|]; [|discriminate].
  destruct (part g_t (g_t b - 1) geo) as [i1|]; [|discriminate]. destruct (part r_t (g_t b - 1) raw) as [i2|]; [|discriminate].
  destruct (part c_t (g_t b - 1) cal) as [i3|]; [|discriminate]. destruct (part g_t (g_t b + 1) geo) as [j1|]; [|discriminate].
  destruct (part r_t (g_t b + 1) raw) as [j2|]; [|discriminate]. destruct (part c_t (g_t b + 1) cal) as [j3|]; [|discriminate].
  destruct (direction_of (firstn i1 geo)) as [e1| |] eqn:D1; cbn [pybind]; try discriminate.
  destruct (direction_of (skipn j1 geo)) as [e2| |] eqn:D2; cbn [pybind]; try discriminate.
  intro H. injection H as <- <- <- <- <- <- <- <-. split; apply K; assumption.
Qed.
