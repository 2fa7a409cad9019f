(** * Ref_Sky: the theorems with the values of the specification, and concrete cases. *)
From Coq Require Import String List ZArith Bool Reals Lra Lia Sorting.Sorted.
From Verif Require Import Base Model_Time Model_Chord Model_Frame Model_Resample Model_Sky Spec_Sky Proof_Chord Proof_Frame Proof_Sky Proof_Sky2.
Import ListNotations.
Open Scope R_scope.

Lemma masses_ok : GM_SSB = masses.
Proof. unfold GM_SSB, masses. repeat (apply f_equal2; [apply f_equal2; [reflexivity|lra]|]). reflexivity. Qed.
Theorem clock_is : forall N et b p v q, state N b et = Some (p, v) -> (forall m, In m masses -> exists w, state N (fst m) et = Some (q (fst m), w)) -> derpt N et b = Returns (slowness (clight N) p v q).
Proof.
  intros N et b p v q E H. rewrite <- masses_ok in H. rewrite (clock_ok N et b p v q E) by (intros body gm I; exact (H (body, gm) I)).
  unfold slowness. rewrite <- masses_ok. f_equal. lra.
Qed.
Theorem light_rate_is : forall N sc rs p1 v1 p2 v2 lt d t,
  (forall s, state N sc s = Some (p1 s, v1 s)) -> (forall s, state N rs s = Some (p2 s, v2 s)) ->
  clight N <> 0 -> moves p1 v1 -> moves p2 v2 -> travels (clight N) 9.8509818970128e-6 p1 p2 lt -> derivable_pt_lim lt t d ->
  let t1 := t - lt t in
  let a := p1 t1 in let b := p2 t in let D := vnorm (vsub b a) in
  vnorm a <> 0 -> vnorm b <> 0 -> D <> 0 -> D < vnorm a + vnorm b ->
  (let r := vdot (vhat a) (v1 t1) in let w := - vdot (vhat (vsub b a)) (v1 t1) in
   ((r + w) / (vnorm a + vnorm b + D) - (r - w) / (vnorm a + vnorm b - D)) * 9.8509818970128e-6 + w / clight N + 1 <> 0) ->
  derlt N sc t1 rs t = Returns d.
Proof.
  intros N sc rs p1 v1 p2 v2 lt d t S1 S2 C M1 M2 Tr Dl t1 a b D A B DD Tri W. unfold derlt. rewrite S1, S2. cbn [orelse]. f_equal.
  assert (K : 9.8509818970128e-6 = LTfac) by (unfold LTfac; lra). rewrite K in Tr, W.
  exact (light_rate_ok (clight N) p1 v1 p2 v2 lt d t C M1 M2 Tr Dl A B DD Tri W).
Qed.
Lemma turn_is : forall bands turn, TURNR bands = Some turn -> In (bands, turn) ratios \/ In bands ["S-K"; "K-S"; "K-X"]%string /\ turn = 0.
Proof.
  intros bands turn E. unfold TURNR in E.
  repeat match type of E with context [String.eqb bands ?s] => destruct (String.eqb_spec bands s); [subst bands; assert (K := f_equal (fun o => match o with Some x => x | None => 0 end) E); cbv beta iota in K; subst turn; clear E;
    first [left; unfold ratios; solve [repeat (first [left; reflexivity|right])]|right; split; [solve [repeat (first [left; reflexivity|right])]|unfold Rdiv; ring]]|] end.
  discriminate.
Qed.
Theorem two_way_is : forall N track sc_name dsn ul suffix bands f ets RF sc rs ts, track <> 1%Z -> code N sc_name = Some sc -> code N dsn = Some rs ->
  (String.length suffix = 2%nat -> code N ul = Some ts) -> (String.length suffix <> 2%nat -> ts = rs) ->
  calc_f_sky_recon N track sc_name dsn ul suffix bands f ets = Returns RF ->
  Forall2 (fun et F => exists etsc etts A12 A23 B1 B3, sent N et rs sc = Some etsc /\ sent N etsc sc ts = Some etts /\ derlt N sc etsc rs et = Returns A23 /\ derlt N ts etts sc etsc = Returns A12 /\
    derpt N etts ts = Returns B1 /\ derpt N et rs = Returns B3 /\
    (B3 <> 1 -> (exists turn, In (bands, turn) ratios /\ F = f * turn * (1 - A12) * (1 - A23) * ((1 - B1) / (1 - B3))) \/ In bands ["S-K"; "K-S"; "K-X"]%string /\ F = 0)) ets RF.
Proof.
  intros N track sc_name dsn ul suffix bands f ets RF sc rs ts T1 T2 T3 T4 T5 T6. eapply Forall2_imp; [|exact (recon_two_way N track sc_name dsn ul suffix bands f ets RF sc rs ts T1 T2 T3 T4 T5 T6)]. cbv beta. intros et F (etsc & etts & A12 & A23 & B1 & B3 & turn & P1 & P2 & P3 & P4 & P5 & P6 & P7 & P8). exists etsc, etts, A12, A23, B1, B3. repeat (split; [assumption|]). intros B. specialize (P8 B). destruct (turn_is _ _ P7) as [I|(I & ->)]; [left; exists turn; auto|right; split; [exact I|rewrite P8; ring]].
Qed.
Theorem received : forall N sc_name dsn ul suffix bands f ets sc rs lt d B2 B3, code N sc_name = Some sc -> code N dsn = Some rs ->
  (forall t, In t ets -> sent N t rs sc = Some (t - lt t) /\ derlt N sc (t - lt t) rs t = Returns (d t) /\ derpt N (t - lt t) sc = Returns (B2 t) /\ derpt N t rs = Returns (B3 t) /\ B3 t <> 1) ->
  calc_f_sky_recon N 1 sc_name dsn ul suffix bands f ets = Returns (map (fun t => f * (1 - d t) * ((1 - B2 t) / (1 - B3 t))) ets).
Proof.
  intros N sc_name dsn ul suffix bands f ets sc rs lt d B2 B3 E1 E2 H. unfold calc_f_sky_recon. rewrite E1, E2. cbn [orelse Z.eqb Pos.eqb]. clear E1 E2.
  induction ets as [|t ets IH]; [reflexivity|]. cbn [each map]. destruct (H t (or_introl eq_refl)) as (K1 & K2 & K3 & K4 & K5). unfold one_way at 1. rewrite K1. cbn [orelse]. rewrite K2, K4, K3. cbn [pybind]. rewrite IH by (intros s I; apply H; right; exact I). cbn [pybind]. f_equal. f_equal. field. lra.
Qed.

Theorem frequency : forall N sc_name dsn ul suffix bands f ets sc rs p1 v1 p2 v2 q lt d, code N sc_name = Some sc -> code N dsn = Some rs ->
  (forall s, state N sc s = Some (p1 s, v1 s)) -> (forall s, state N rs s = Some (p2 s, v2 s)) -> (forall m s, In m masses -> exists w, state N (fst m) s = Some (q s (fst m), w)) ->
  (forall t, sent N t rs sc = Some (t - lt t)) ->
  clight N <> 0 -> moves p1 v1 -> moves p2 v2 -> travels (clight N) 9.8509818970128e-6 p1 p2 lt -> (forall t, derivable_pt_lim lt t (d t)) ->
  (forall t, In t ets -> clear_path (clight N) 9.8509818970128e-6 (p1 (t - lt t)) (v1 (t - lt t)) (p2 t) /\ slowness (clight N) (p2 t) (v2 t) (q t) <> 1) ->
  calc_f_sky_recon N 1 sc_name dsn ul suffix bands f ets = Returns (map (fun t => let t1 := t - lt t in
    f * (1 - d t) * ((1 - slowness (clight N) (p1 t1) (v1 t1) (q t1)) / (1 - slowness (clight N) (p2 t) (v2 t) (q t)))) ets).
Proof.
  intros N sc_name dsn ul suffix bands f ets sc rs p1 v1 p2 v2 q lt d E1 E2 S1 S2 Q Se C M1 M2 Tr Dl H. cbv zeta.
  apply (received N sc_name dsn ul suffix bands f ets sc rs lt d (fun t => slowness (clight N) (p1 (t - lt t)) (v1 (t - lt t)) (q (t - lt t))) (fun t => slowness (clight N) (p2 t) (v2 t) (q t)) E1 E2).
  intros t I. destruct (H t I) as ((A & B & D & Tri & W) & Sl). split; [apply Se|]. split; [exact (light_rate_is N sc rs p1 v1 p2 v2 lt (d t) t S1 S2 C M1 M2 Tr (Dl t) A B D Tri W)|].
  split; [apply (clock_is N (t - lt t) sc _ _ _ (S1 _)); intros m J; apply Q, J|]. split; [apply (clock_is N t rs _ _ _ (S2 _)); intros m J; apply Q, J|exact Sl].
Qed.

(** ** A spacecraft at rest at 1 km of the barycentre and a station that leaves it. *)
Definition ex_p1 (t : R) : vec := (1, 0, 0).
Definition ex_p2 (t : R) : vec := (2 + exp t, 0, 0).
Definition ex_v2 (t : R) : vec := (exp t, 0, 0).
Definition ex_lt (t : R) : R := (1 + exp t) / 10 + 9.8509818970128e-6 * ln (2 + exp t).
Definition ex_naif : naif_sky :=
  {| state b t := Some (if (b =? -82)%Z then (ex_p1 t, (0, 0, 0)) else if (b =? 399043)%Z then (ex_p2 t, ex_v2 t) else ((0, 4, 0), (0, 0, 0)));
     sent t r s := Some (t - (if (r =? 399043)%Z then ex_lt t else 1));
     code n := (if String.eqb n "Cassini" then Some (-82) else if String.eqb n "DSS-43" then Some 399043 else None)%Z;
     clight := 10 |}.
Lemma norm_x : forall x, 0 <= x -> vnorm (x, 0, 0) = x.
Proof. intros x H. unfold vnorm, vdot. replace (x * x + 0 * 0 + 0 * 0) with (x * x) by ring. apply sqrt_square, H. Qed.
Lemma ex_moves : moves ex_p1 (fun _ => (0, 0, 0)) /\ moves ex_p2 ex_v2.
Proof.
  split; intros t; unfold px, py_, pz; cbn [fst snd ex_p1 ex_p2 ex_v2]; repeat split; try apply derivable_pt_lim_const.
  replace (exp t) with (0 + exp t) at 1 by ring. exact (derivable_pt_lim_plus _ _ _ _ _ (derivable_pt_lim_const 2 t) (derivable_pt_lim_exp t)).
Qed.
Lemma ex_dist : forall t, vsub (ex_p2 t) (ex_p1 t) = (1 + exp t, 0, 0).
Proof. intros t. unfold ex_p1, ex_p2, vsub, vadd, vscl. apply f_equal2; [apply f_equal2|]; ring. Qed.
Lemma ex_travels : travels 10 9.8509818970128e-6 ex_p1 ex_p2 ex_lt.
Proof.
  intros t a b. subst a b. change (ex_p1 (t - ex_lt t)) with (ex_p1 t). rewrite ex_dist. pose proof (exp_pos t). unfold ex_p1, ex_p2. rewrite !norm_x by lra. unfold ex_lt. f_equal. f_equal. f_equal. field. lra.
Qed.
Lemma ex_rate : forall t, derivable_pt_lim ex_lt t (exp t / 10 + 9.8509818970128e-6 * (exp t / (2 + exp t))).
Proof.
  intros t. pose proof (exp_pos t) as X.
  assert (E : derivable_pt_lim (fun t => 2 + exp t) t (exp t)).
  { replace (exp t) with (0 + exp t) at 1 by ring. exact (derivable_pt_lim_plus _ _ _ _ _ (derivable_pt_lim_const 2 t) (derivable_pt_lim_exp t)). }
  assert (L : derivable_pt_lim (fun t => ln (2 + exp t)) t (exp t / (2 + exp t))).
  { replace (exp t / (2 + exp t)) with (/ (2 + exp t) * exp t) by (field; lra). apply (derivable_pt_lim_comp (fun t => 2 + exp t) ln); [exact E|]. apply derivable_pt_lim_ln. lra. }
  pose proof (derivable_pt_lim_plus _ _ _ _ _ (derivable_pt_lim_scal _ (1 / 10) t _ E) (derivable_pt_lim_scal _ 9.8509818970128e-6 t _ L)) as P.
  pose proof (derivable_pt_lim_plus _ _ _ _ _ (derivable_pt_lim_const (- (1 / 10)) t) P) as Q.
  apply (lim_ext (plus_fct (fct_cte (- (1 / 10))) (plus_fct (mult_real_fct (1 / 10) (fun t => 2 + exp t)) (mult_real_fct 9.8509818970128e-6 (fun t => ln (2 + exp t)))))).
  - intros s. unfold plus_fct, fct_cte, mult_real_fct, ex_lt. field.
  - replace (exp t / 10 + 9.8509818970128e-6 * (exp t / (2 + exp t))) with (0 + (1 / 10 * exp t + 9.8509818970128e-6 * (exp t / (2 + exp t)))) by (field; lra). exact Q.
Qed.
Lemma ex_clear : forall t, clear_path 10 9.8509818970128e-6 (ex_p1 (t - ex_lt t)) (0, 0, 0) (ex_p2 t).
Proof.
  intros t. pose proof (exp_pos t) as P. unfold clear_path. cbv zeta. change (ex_p1 (t - ex_lt t)) with (ex_p1 t). rewrite ex_dist. unfold ex_p1, ex_p2. rewrite !norm_x by lra. repeat (split; [lra|]).
  assert (Z : forall u, vdot u (0, 0, 0) = 0) by (intros ((x, y), z); unfold vdot; ring). rewrite !Z, Ropp_0. unfold Rdiv. rewrite !Rplus_0_r, Rminus_0_r, !Rmult_0_l, Rminus_0_r, Rmult_0_l. lra.
Qed.
Lemma ex_slow : slowness 10 (ex_p2 0) (ex_v2 0) (fun _ => (0, 4, 0)) <> 1.
Proof.
  unfold slowness, ex_p2, ex_v2. rewrite exp_0. assert (D : vnorm (vsub (0, 4, 0) (2 + 1, 0, 0)) = 5).
  { unfold vnorm, vdot, vsub, vadd, vscl. match goal with |- sqrt ?x = _ => replace x with (5 * 5) by ring end. apply sqrt_square. lra. }
  unfold masses. cbn [fold_right fst snd]. rewrite D, norm_x by lra. lra.
Qed.
Theorem ex_frequency : let t1 := 0 - ex_lt 0 in calc_f_sky_recon ex_naif 1 "Cassini" "DSS-43" "" "" "" 8400 [0] =
  Returns [8400 * (9 / 10 - 9.8509818970128e-6 / 3) * ((1 - slowness 10 (1, 0, 0) (0, 0, 0) (fun _ => (0, 4, 0))) / (1 - slowness 10 (3, 0, 0) (1, 0, 0) (fun _ => (0, 4, 0))))].
Proof.
  destruct ex_moves as (M1 & M2).
  rewrite (frequency ex_naif "Cassini" "DSS-43" "" "" "" 8400 [0] (-82) 399043 ex_p1 (fun _ => (0, 0, 0)) ex_p2 ex_v2 (fun _ _ => (0, 4, 0)) ex_lt (fun t => exp t / 10 + 9.8509818970128e-6 * (exp t / (2 + exp t))));
    try reflexivity; try assumption; try (exact ex_travels); try (exact ex_rate).
  - cbn [map clight ex_naif]. unfold ex_p1, ex_p2, ex_v2. rewrite exp_0. replace (2 + 1) with 3 by ring. f_equal. f_equal. replace (1 - (1 / 10 + 9.8509818970128e-6 * (1 / 3))) with (9 / 10 - 9.8509818970128e-6 / 3) by field. reflexivity.
  - intros m s I. exists (0, 0, 0). assert (K : (fst m =? -82)%Z = false /\ (fst m =? 399043)%Z = false) by (unfold masses in I; repeat (destruct I as [<-|I]; [split; reflexivity|]); destruct I). destruct K as (K1 & K2). cbn [state ex_naif]. rewrite K1, K2. reflexivity.
  - cbn [clight ex_naif]. lra.
  - intros t [<-|[]]. split; [apply ex_clear|exact ex_slow].
Qed.

(** ** Splines. *)
Definition ref_spl (l : list (R * R)) : option (R -> R) :=
  match l with
  | (a, fa) :: (b, fb) :: (c, fc) :: (d, fd) :: _ => Some (fun x =>
      fa * ((x - b) * (x - c) * (x - d) / ((a - b) * (a - c) * (a - d))) + fb * ((x - a) * (x - c) * (x - d) / ((b - a) * (b - c) * (b - d)))
      + fc * ((x - a) * (x - b) * (x - d) / ((c - a) * (c - b) * (c - d))) + fd * ((x - a) * (x - b) * (x - c) / ((d - a) * (d - b) * (d - c))))
  | _ => None
  end.
Lemma ref_spl_ok : reproduces_cubics ref_spl.
Proof.
  intros xs a b c d So L. destruct xs as [|x1 [|x2 [|x3 [|x4 l]]]]; cbn in L; try lia. cbn [map ref_spl]. eexists. split; [reflexivity|].
  apply StronglySorted_inv in So. destruct So as (S1 & F1). apply StronglySorted_inv in S1. destruct S1 as (S2 & F2). apply StronglySorted_inv in S2. destruct S2 as (S3 & F3).
  rewrite Forall_forall in F1, F2, F3. pose proof (F1 x2 (or_introl eq_refl)). pose proof (F1 x3 (or_intror (or_introl eq_refl))). pose proof (F1 x4 (or_intror (or_intror (or_introl eq_refl)))).
  pose proof (F2 x3 (or_introl eq_refl)). pose proof (F2 x4 (or_intror (or_introl eq_refl))). pose proof (F3 x4 (or_introl eq_refl)).
  intros x. unfold cubic. field. repeat split; lra.
Qed.
Theorem tone_ok : forall spl spm IQ f_spm t0 a A theta, reproduces_cubics spl -> StronglySorted Rlt f_spm -> (4 <= length f_spm)%nat -> hd_error f_spm = Some t0 -> t0 + 4 / 100 <= last f_spm 0 ->
  IQ = map (fun t => signal A (2 * PI * a * t + theta)) spm ->
  exists psi, correct_IQ spl spm IQ f_spm (map (fun _ => a) f_spm) = Returns (map (fun _ => signal A psi) spm).
Proof.
  intros spl spm IQ f_spm t0 a A theta Sp So L4 Hd La E.
  destruct (drift_ok spl spm IQ f_spm t0 a 0 Sp So L4 Hd La) as (out & O1 & O2 & O3); [subst; rewrite map_length; reflexivity|].
  exists (theta + 2 * PI * a * t0 - 2 * PI * (a / 100)). rewrite (map_ext (fun _ => a) (fun t => a + 0 * (t - t0))) by (intros; ring). rewrite O1. f_equal. subst IQ. rewrite map_length in O2.
  apply nth_ext with (d := signal 0 0) (d' := signal 0 0); [rewrite O2, map_length; reflexivity|]. intros k Hk. rewrite O2 in Hk.
  destruct (nth_error spm k) as [t|] eqn:T; [|apply nth_error_None in T; lia].
  specialize (O3 k t A (theta + 2 * PI * a * t0) T). rewrite nth_error_map, T in O3. cbn [option_map] in O3.
  assert (Q : Some (signal A (2 * PI * a * t + theta)) = Some (signal A (theta + 2 * PI * a * t0 + 2 * PI * (a * (t - t0) + 0 * (t - t0) ^ 2 / 2)))) by (f_equal; f_equal; field).
  specialize (O3 Q). apply nth_error_nth with (d := signal 0 0) in O3. rewrite O3.
  assert (T' : nth_error (map (fun _ : R => signal A (theta + 2 * PI * a * t0 - 2 * PI * (a / 100))) spm) k = Some (signal A (theta + 2 * PI * a * t0 - 2 * PI * (a / 100)))) by (rewrite nth_error_map, T; reflexivity).
  apply nth_error_nth with (d := signal 0 0) in T'. rewrite T'. f_equal. field.
Qed.
(** Offsets that rise by 100 Hz/s. *)
Definition ex_f_spm : list R := [0; 10; 20; 30].
Lemma ex_f_sorted : StronglySorted Rlt ex_f_spm.
Proof. unfold ex_f_spm. constructor; [constructor; [constructor; [constructor; [constructor|constructor]|]|]|]; repeat (apply Forall_cons; [lra|]); apply Forall_nil. Qed.
Theorem drift_left : forall spl, reproduces_cubics spl -> exists spm f_spm off, StronglySorted Rlt f_spm /\
  correct_IQ spl spm (map (fun t => signal 1 (2 * PI * (50 * t ^ 2))) spm) f_spm (map off f_spm) = Returns [(1, 0); (-1, 0)] /\ spm = [0; 1] /\ f_spm = [0; 10; 20; 30] /\ off = (fun t => 100 * t).
Proof.
  intros spl Sp. exists [0; 1], ex_f_spm, (fun t => 100 * t). split; [exact ex_f_sorted|]. split; [|repeat split].
  destruct (drift_ok spl [0; 1] (map (fun t => signal 1 (2 * PI * (50 * t ^ 2))) [0; 1]) ex_f_spm 0 0 100 Sp ex_f_sorted) as (out & O1 & O2 & O3); [cbn; lia|reflexivity|cbn; lra|reflexivity|].
  rewrite (map_ext (fun t => 0 + 100 * (t - 0)) (fun t => 100 * t)) in O1 by (intros; ring). rewrite O1. f_equal.
  destruct out as [|z0 [|z1 [|]]]; cbn in O2; try lia.
  pose proof (O3 0%nat 0 1 0 eq_refl) as P0. pose proof (O3 1%nat 1 1 0 eq_refl) as P1. cbn [map nth_error] in P0, P1.
  assert (Q0 : Some z0 = Some (signal 1 (0 - 2 * PI * (0 / 100 + 100 * (0 - 0) / 200)))) by (apply P0; f_equal; f_equal; field).
  assert (Q1 : Some z1 = Some (signal 1 (0 - 2 * PI * (0 / 100 + 100 * (1 - 0) / 200)))) by (apply P1; f_equal; f_equal; field).
  injection Q0 as ->. injection Q1 as ->. f_equal; [|f_equal].
  - unfold signal. replace (0 - 2 * PI * (0 / 100 + 100 * (0 - 0) / 200)) with 0 by field. rewrite cos_0, sin_0. f_equal; ring.
  - unfold signal. replace (0 - 2 * PI * (0 / 100 + 100 * (1 - 0) / 200)) with (- PI) by field. rewrite cos_neg, sin_neg, cos_PI, sin_PI. f_equal; ring.
Qed.
Theorem no_band : exists N f RF, 0 < f /\ calc_f_sky_recon N 2 "Cassini" "DSS-43" "DSS-43" "43" "S-K" f [0] = Returns RF /\ RF = [0].
Proof.
  exists ex_naif, 2000. 
  assert (K : forall et b, exists p v, derpt ex_naif et b = Returns (slowness 10 p v (fun _ => (0, 4, 0)))).
  { intros et b. destruct (state ex_naif b et) as [(p, v)|] eqn:E; [|discriminate E]. exists p, v. apply (clock_is ex_naif et b p v _ E). intros m I. exists (0, 0, 0).
    assert (K : (fst m =? -82)%Z = false /\ (fst m =? 399043)%Z = false) by (unfold masses in I; repeat (destruct I as [<-|I]; [split; reflexivity|]); destruct I). destruct K as (K1 & K2). cbn [state ex_naif]. rewrite K1, K2. reflexivity. }
  assert (T : exists F, two_way ex_naif (-82) 399043 399043 "S-K" 2000 0 = Returns F /\ F = 0).
  { unfold two_way. change (sent ex_naif 0 399043 (-82)) with (Some (0 - ex_lt 0)). cbn [orelse]. set (a := 0 - ex_lt 0). change (sent ex_naif a (-82) 399043) with (Some (a - 1)).
    unfold derlt. change (state ex_naif (-82) a) with (Some (ex_p1 a, (0, 0, 0))). change (state ex_naif 399043 0) with (Some (ex_p2 0, ex_v2 0)). change (state ex_naif 399043 (a - 1)) with (Some (ex_p2 (a - 1), ex_v2 (a - 1))). cbn [orelse pybind].
    destruct (K 0 399043%Z) as (p & v & ->). destruct (K (a - 1) 399043%Z) as (p' & v' & ->). cbn [pybind]. change (TURNR "S-K") with (Some (0 / 221)). cbn [orelse]. eexists. split; [reflexivity|]. cbv zeta. unfold Rdiv at 1 2. ring_simplify. unfold Rdiv. ring. }
  destruct T as (F & T & ->). exists [0]. split; [lra|]. split; [|reflexivity]. unfold calc_f_sky_recon. change (code ex_naif "Cassini") with (Some (-82)%Z). change (code ex_naif "DSS-43") with (Some 399043%Z). cbn [orelse Z.eqb Pos.eqb String.length Nat.eqb each]. rewrite T. reflexivity.
Qed.
