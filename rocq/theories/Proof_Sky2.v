(** * Proof_Sky2: frequencies, and the corrected signal. *)
From Coq Require Import String List ZArith Bool Reals Lra Lia Sorting.Sorted.
From Flocq Require Import Core.
From Verif Require Import Base Model_Time Model_Chord Model_Frame Model_Resample Model_Sky Spec_Sky Proof_Chord Proof_Frame.
Import ListNotations.
Open Scope R_scope.

Lemma each_inv : forall {A B} (f : A -> py B) l bs, each f l = Returns bs -> Forall2 (fun a b => f a = Returns b) l bs.
Proof.
  intros A B f l. induction l as [|a l IH]; intros bs E; cbn [each] in E; [injection E as <-; constructor|].
  destruct (f a) as [b| |] eqn:Fa; try discriminate. cbn [pybind] in E. destruct (each f l) as [bs'| |] eqn:El; try discriminate. cbn [pybind] in E. injection E as <-. constructor; [exact Fa|apply IH; reflexivity].
Qed.
Lemma Forall2_imp : forall {A B} (P Q : A -> B -> Prop) l l', (forall a b, P a b -> Q a b) -> Forall2 P l l' -> Forall2 Q l l'.
Proof. intros A B P Q l l' H F. induction F; constructor; auto. Qed.
Lemma Forall2_self : forall {A B} (P : A -> B -> Prop) l l', Forall2 P l l' -> Forall2 (fun a b => In a l /\ P a b) l l'.
Proof. intros A B P l l' F. induction F as [|a b l l' H F IH]; constructor; [split; [left; reflexivity|exact H]|]. eapply Forall2_imp; [|exact IH]. intros x y (I & J). split; [right; exact I|exact J]. Qed.

Theorem one_way_ok : forall N sc rs f et F, one_way N sc rs f et = Returns F ->
  exists etsc A B2 B3, sent N et rs sc = Some etsc /\ derlt N sc etsc rs et = Returns A /\ derpt N etsc sc = Returns B2 /\ derpt N et rs = Returns B3 /\
    (B3 <> 1 -> F = f * (1 - A) * ((1 - B2) / (1 - B3))).
Proof.
  intros N sc rs f et F E. unfold one_way in E. destruct (sent N et rs sc) as [etsc|]; [|discriminate]. cbn [orelse] in E.
  destruct (derlt N sc etsc rs et) as [A| |] eqn:E1; try discriminate. cbn [pybind] in E. destruct (derpt N et rs) as [B3| |] eqn:E2; try discriminate. cbn [pybind] in E. destruct (derpt N etsc sc) as [B2| |] eqn:E3; try discriminate. cbn [pybind] in E. injection E as <-.
  exists etsc, A, B2, B3. repeat split; auto. intros H. field. lra.
Qed.
Theorem two_way_ok : forall N sc rs ts bands f et F, two_way N sc rs ts bands f et = Returns F ->
  exists etsc etts A12 A23 B1 B3 turn, sent N et rs sc = Some etsc /\ sent N etsc sc ts = Some etts /\ derlt N sc etsc rs et = Returns A23 /\ derlt N ts etts sc etsc = Returns A12 /\
    derpt N etts ts = Returns B1 /\ derpt N et rs = Returns B3 /\ TURNR bands = Some turn /\ (B3 <> 1 -> F = f * turn * (1 - A12) * (1 - A23) * ((1 - B1) / (1 - B3))).
Proof.
  intros N sc rs ts bands f et F E. unfold two_way in E. destruct (sent N et rs sc) as [etsc|]; [|discriminate]. cbn [orelse] in E.
  destruct (derlt N sc etsc rs et) as [A23| |] eqn:E1; try discriminate. cbn [pybind] in E. destruct (sent N etsc sc ts) as [etts|] eqn:E0; [|discriminate]. cbn [orelse] in E.
  destruct (derlt N ts etts sc etsc) as [A12| |] eqn:E2; try discriminate. cbn [pybind] in E. destruct (derpt N et rs) as [B3| |] eqn:E3; try discriminate. cbn [pybind] in E. destruct (derpt N etts ts) as [B1| |] eqn:E4; try discriminate. cbn [pybind] in E.
  destruct (TURNR bands) as [turn|]; [|discriminate]. cbn [orelse] in E. injection E as <-. exists etsc, etts, A12, A23, B1, B3, turn. repeat split; auto. intros H. field. lra.
Qed.
Theorem recon_one_way : forall N sc_name dsn ul suffix bands f ets RF sc rs, code N sc_name = Some sc -> code N dsn = Some rs ->
  calc_f_sky_recon N 1 sc_name dsn ul suffix bands f ets = Returns RF ->
  Forall2 (fun et F => exists etsc A B2 B3, sent N et rs sc = Some etsc /\ derlt N sc etsc rs et = Returns A /\ derpt N etsc sc = Returns B2 /\ derpt N et rs = Returns B3 /\
    (B3 <> 1 -> F = f * (1 - A) * ((1 - B2) / (1 - B3)))) ets RF.
Proof. intros N sc_name dsn ul suffix bands f ets RF sc rs E1 E2 E. unfold calc_f_sky_recon in E. rewrite E1, E2 in E. cbn [orelse Z.eqb Pos.eqb] in E. apply each_inv in E. eapply Forall2_imp; [|exact E]. intros a b H. apply one_way_ok, H. Qed.
Theorem recon_two_way : forall N track sc_name dsn ul suffix bands f ets RF sc rs ts, track <> 1%Z -> code N sc_name = Some sc -> code N dsn = Some rs ->
  (String.length suffix = 2%nat -> code N ul = Some ts) -> (String.length suffix <> 2%nat -> ts = rs) ->
  calc_f_sky_recon N track sc_name dsn ul suffix bands f ets = Returns RF ->
  Forall2 (fun et F => exists etsc etts A12 A23 B1 B3 turn, sent N et rs sc = Some etsc /\ sent N etsc sc ts = Some etts /\ derlt N sc etsc rs et = Returns A23 /\ derlt N ts etts sc etsc = Returns A12 /\
    derpt N etts ts = Returns B1 /\ derpt N et rs = Returns B3 /\ TURNR bands = Some turn /\ (B3 <> 1 -> F = f * turn * (1 - A12) * (1 - A23) * ((1 - B1) / (1 - B3)))) ets RF.
Proof.
  intros N track sc_name dsn ul suffix bands f ets RF sc rs ts Nt E1 E2 U1 U2 E. unfold calc_f_sky_recon in E. rewrite E1, E2 in E. cbn [orelse] in E. rewrite (proj2 (Z.eqb_neq track 1) Nt) in E.
  destruct (String.length suffix =? 2)%nat eqn:L; [apply Nat.eqb_eq in L; rewrite (U1 L) in E|apply Nat.eqb_neq in L; rewrite (U2 L)]; cbn [orelse] in E; apply each_inv in E; (eapply Forall2_imp; [|exact E]; intros a b H; apply two_way_ok, H).
Qed.
Theorem clock_ok : forall N et b p v q, state N b et = Some (p, v) -> (forall body gm, In (body, gm) GM_SSB -> exists w, state N body et = Some (q body, w)) ->
  derpt N et b = Returns ((fold_right (fun x a => snd x / vnorm (vsub (q (fst x)) p) + a) 0 GM_SSB + vnorm v ^ 2 / 2) / clight N ^ 2 - 1550520 / 10 ^ 14).
Proof.
  intros N et b p v q E H. unfold derpt. rewrite E. cbn [orelse fst snd].
  assert (K : forall l, (forall body gm, In (body, gm) l -> exists w, state N body et = Some (q body, w)) -> potential N et p l = Returns (fold_right (fun x a => snd x / vnorm (vsub (q (fst x)) p) + a) 0 l)).
  { clear H E. induction l as [|(body, gm) l IH]; intros H; [reflexivity|]. cbn [potential]. destruct (H body gm (or_introl eq_refl)) as (w & Ew). rewrite Ew. cbn [orelse fst]. rewrite IH by (intros b' g' I; apply (H b' g'); right; exact I). reflexivity. }
  rewrite (K _ H). cbn [pybind]. f_equal. set (x := fold_right _ _ _). replace (clight N ^ 2) with (clight N * clight N) by ring. replace (vnorm v ^ 2) with (vdot (snd (p, v)) (snd (p, v))) by (cbn [snd]; rewrite <- (vnorm_sq v); ring). cbn [fst snd]. unfold Rdiv. rewrite !Rmult_1_l, (Rmult_comm (/ 2)). reflexivity.
Qed.

(** ** The corrected signal. *)
Lemma rotated_power : forall phi z, power (rotated phi z) = power z.
Proof.
  intros phi (i, q). unfold power, rotated. cbn [fst snd]. pose proof (sin2_cos2 phi) as P. unfold Rsqr in P.
  replace ((i * cos phi + q * sin phi) ^ 2 + (q * cos phi - i * sin phi) ^ 2) with ((i ^ 2 + q ^ 2) * (sin phi * sin phi + cos phi * cos phi)) by ring. rewrite P. ring.
Qed.
Lemma rotated_signal : forall phi A psi, rotated phi (signal A psi) = signal A (psi - phi).
Proof. intros phi A psi. unfold rotated, signal. cbn [fst snd]. rewrite cos_minus, sin_minus. f_equal; ring. Qed.
Lemma combine_nth' : forall {A B} (l : list A) (l' : list B) k a b, nth_error l k = Some a -> nth_error l' k = Some b -> nth_error (combine l l') k = Some (a, b).
Proof. intros A B l. induction l as [|x l IH]; intros l' k a b E E'; [destruct k; discriminate|]. destruct l' as [|y l']; [destruct k; discriminate|]. destruct k; [cbn in *; congruence|]. cbn in *. apply IH; assumption. Qed.
Theorem power_ok : forall spl spm IQ f_spm f_off out, correct_IQ spl spm IQ f_spm f_off = Returns out -> map power out = map power IQ.
Proof.
  intros spl spm IQ f_spm f_off out E. unfold correct_IQ in E. destruct f_spm as [|t0 l]; [discriminate|]. cbv zeta in E. destruct (spl _) as [off|]; [|discriminate]. cbn [orelse] in E. destruct (spl _) as [phi|]; [|discriminate]. cbn [orelse] in E.
  destruct (_ =? _)%nat eqn:L; [|discriminate]. apply Nat.eqb_eq in L. injection E as <-. rewrite map_map. clear - L. revert IQ L. induction spm as [|t spm IH]; intros [|z IQ] L; try discriminate; [reflexivity|]. cbn [combine map fst snd]. rewrite rotated_power. f_equal. apply IH. cbn in L. lia.
Qed.
Lemma cumsum_line : forall A B n i s, cumsum s (map (fun k => A + B * INR k) (seq i n)) = map (fun k => s + A * (INR k - INR i + 1) + B * ((INR k * (INR k + 1) - INR i * (INR i - 1)) / 2)) (seq i n).
Proof.
  intros A B n. induction n as [|n IH]; intros i s; [reflexivity|]. cbn [seq map cumsum]. f_equal; [field|]. rewrite IH. apply map_ext. intros k. rewrite S_INR. field.
Qed.
Lemma sorted_step : forall t0 n i, StronglySorted Rlt (map (fun k => t0 + 1 / 100 * INR k) (seq i n)).
Proof. intros t0 n. induction n as [|n IH]; intros i; [constructor|]. cbn [seq map]. constructor; [apply IH|]. apply Forall_forall. intros y Hy. apply in_map_iff in Hy. destruct Hy as (k & <- & Hk). apply in_seq in Hk. assert (INR i < INR k) by (apply lt_INR; lia). lra. Qed.
Lemma combine_map : forall {A B} (f : A -> B) l, combine l (map f l) = map (fun x => (x, f x)) l.
Proof. intros A B f l. induction l as [|a l IH]; [reflexivity|]. cbn. rewrite IH. reflexivity. Qed.
Theorem drift_ok : forall spl spm IQ f_spm t0 a b, reproduces_cubics spl -> StronglySorted Rlt f_spm -> (4 <= length f_spm)%nat -> hd_error f_spm = Some t0 -> t0 + 4 / 100 <= last f_spm 0 ->
  length spm = length IQ ->
  exists out, correct_IQ spl spm IQ f_spm (map (fun t => a + b * (t - t0)) f_spm) = Returns out /\ length out = length IQ /\
    forall k t A theta, nth_error spm k = Some t -> nth_error IQ k = Some (signal A (theta + 2 * PI * (a * (t - t0) + b * (t - t0) ^ 2 / 2))) ->
      nth_error out k = Some (signal A (theta - 2 * PI * (a / 100 + b * (t - t0) / 200))).
Proof.
  intros spl spm IQ f_spm t0 a b Sp So L4 Hd La Le. unfold correct_IQ. destruct f_spm as [|t l]; [discriminate|]. cbn [hd_error] in Hd. injection Hd as ->. cbv zeta.
  rewrite combine_map. destruct (Sp (t0 :: l) (a - b * t0) b 0 0 So L4) as (off & E1 & G1).
  replace (map (fun x => (x, a + b * (x - t0))) (t0 :: l)) with (map (fun x => (x, cubic (a - b * t0) b 0 0 x)) (t0 :: l)) by (apply map_ext; intros x; unfold cubic; f_equal; ring).
  rewrite E1. cbn [orelse]. set (npts := Z.to_nat _).
  assert (P4 : (4 <= npts)%nat).
  { unfold npts, pyround. assert (4 <= ZnearestE (((last (t0 :: l) 0 - t0) / (1 / 100))%R))%Z; [|lia]. eapply Z.le_trans; [|apply Znearest_ge_floor]. apply Zfloor_lub. apply (Rmult_le_reg_r (1 / 100)); [lra|]. unfold Rdiv at 2. rewrite Rmult_assoc, Rinv_l by lra. lra. }
  set (ip := map (fun k => t0 + 1 / 100 * INR k) (seq 0 npts)).
  set (al := 2 * PI * (a * (1 / 100 - t0) + b * (t0 ^ 2 - t0 / 100) / 2)). set (be := 2 * PI * (a + b * (1 / 100 - 2 * t0) / 2)). set (ga := 2 * PI * b / 2).
  assert (D : map (fun x => x * (1 / 100) * (2 * PI)) (cumsum 0 (map off ip)) = map (cubic al be ga 0) ip).
  { unfold ip. rewrite map_map. rewrite (map_ext (fun x => off (t0 + 1 / 100 * INR x)) (fun k => a + b / 100 * INR k)) by (intros k; rewrite G1; unfold cubic; field).
    rewrite cumsum_line, !map_map. apply map_ext. intros k. unfold cubic, al, be, ga. cbn [INR]. field. }
  rewrite D, combine_map. destruct (Sp ip al be ga 0 (sorted_step _ _ _)) as (phi & E2 & G2); [unfold ip; rewrite map_length, seq_length; exact P4|]. rewrite E2. cbn [orelse]. rewrite Le, Nat.eqb_refl.
  eexists. split; [reflexivity|]. split; [rewrite map_length, combine_length; lia|]. intros k t A theta T Z. rewrite nth_error_map, (combine_nth' _ _ _ _ _ T Z). cbn [option_map fst snd]. rewrite rotated_signal. f_equal. f_equal. rewrite G2. unfold cubic, al, be, ga. field.
Qed.
