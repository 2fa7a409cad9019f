(** * Proof_Offset: the strongest frequency. *)
From Coq Require Import String List ZArith Bool Reals Lra Lia Sorting.Sorted.
From Flocq Require Import Core.
From Verif Require Import Base Model_Time Model_Chord Model_Frame Model_Sky Model_Offset Spec_Sky Spec_Offset Proof_Chord Proof_Sky2.
Import ListNotations.
Open Scope R_scope.

Lemma total_ext : forall n g h, (forall k, (k < n)%nat -> g k = h k) -> total n g = total n h.
Proof. induction n as [|n IH]; intros g h H; [reflexivity|]. cbn [total]. rewrite (IH g h) by (intros; apply H; lia). rewrite H by lia. reflexivity. Qed.
Lemma total_shift : forall n g, total (S n) g = g 0%nat + total n (fun k => g (S k)).
Proof. induction n as [|n IH]; intros g; [cbn; ring|]. change (total (S (S n)) g) with (total (S n) g + g (S n)). rewrite IH. cbn [total]. ring. Qed.
Lemma total_list : forall {A} (g : A -> R) d l, fold_right (fun a s => g a + s) 0 l = total (length l) (fun k => g (nth k l d)).
Proof. intros A g d l. induction l as [|a l IH]; [reflexivity|]. cbn [fold_right length]. rewrite total_shift, IH. reflexivity. Qed.
Lemma total_scal : forall n g x, total n (fun k => g k * x) = total n g * x.
Proof. intros n g x. induction n as [|n IH]; [cbn; ring|]. cbn [total]. rewrite IH. ring. Qed.
Lemma hann_weight : forall n k, weight n k = hann n k.
Proof. intros n k. unfold weight, hann. replace (2 * PI * INR k / (INR n - 1)) with (2 * (PI * INR k / (INR n - 1))) by (unfold Rdiv; ring). rewrite cos_2a_sin. field. Qed.
Lemma weighted_length : forall IQ, length (weighted IQ) = length IQ.
Proof. intros IQ. unfold weighted. rewrite map_length, combine_length, seq_length. lia. Qed.
Lemma nth_combine : forall {A B} (l : list A) (l' : list B) k a b, length l = length l' -> nth k (combine l l') (a, b) = (nth k l a, nth k l' b).
Proof. intros. apply combine_nth. assumption. Qed.
Lemma weighted_nth : forall IQ k, (k < length IQ)%nat -> nth k (weighted IQ) (0, 0) = (hann (length IQ) k * fst (nth k IQ (0, 0)), hann (length IQ) k * snd (nth k IQ (0, 0))).
Proof.
  intros IQ k Hk. unfold weighted.
  set (F := fun kz : nat * (R * R) => _). rewrite (nth_indep _ (0, 0) (F (0%nat, (0, 0)))) by (rewrite map_length, combine_length, seq_length; lia).
  rewrite map_nth, nth_combine by (rewrite seq_length; reflexivity). unfold F. cbn [fst snd]. rewrite seq_nth by exact Hk. rewrite Nat.add_0_l, hann_weight. reflexivity.
Qed.
Lemma power_spectrum : forall time IQ f, length time = length IQ -> power_at time (weighted IQ) f = spectrum (length IQ) (fun k => nth k time 0) (fun k => nth k IQ (0, 0)) f.
Proof.
  intros time IQ f L. unfold power_at, spectrum. cbv zeta. rewrite weighted_length.
  assert (K : forall l : list (R * (R * R)), fold_right (fun tz s => (fst (rotated (2 * PI * fst tz * f) (snd tz)) + fst s, snd (rotated (2 * PI * fst tz * f) (snd tz)) + snd s)) (0, 0) l =
    (fold_right (fun tz s => fst (rotated (2 * PI * fst tz * f) (snd tz)) + s) 0 l, fold_right (fun tz s => snd (rotated (2 * PI * fst tz * f) (snd tz)) + s) 0 l)).
  { induction l as [|a l IH]; [reflexivity|]. cbn [fold_right]. rewrite IH. reflexivity. }
  unfold transform. cbv zeta. rewrite K. cbn [fst snd]. rewrite !(total_list _ (0, (0, 0))). rewrite combine_length, weighted_length, L, Nat.min_id.
  f_equal. f_equal; (f_equal; apply total_ext; intros k Hk; rewrite nth_combine by (rewrite weighted_length; exact L); cbn [fst snd]; rewrite weighted_nth by exact Hk; unfold rotated; cbn [fst snd]; replace (2 * PI * nth k time 0 * f) with (2 * PI * f * nth k time 0) by ring; ring).
Qed.
Lemma best_in : forall {A} (p : A -> R) l cur, In (best p cur l) (cur :: l).
Proof. intros A p l. induction l as [|x l IH]; intros cur; [left; reflexivity|]. cbn [best]. destruct (IH (if ltb (p cur) (p x) then x else cur)) as [E|I]; [|right; right; exact I]. rewrite <- E. destruct (ltb (p cur) (p x)); [right; left; reflexivity|left; reflexivity]. Qed.
Lemma best_max : forall {A} (p : A -> R) l cur y, In y (cur :: l) -> p y <= p (best p cur l).
Proof.
  intros A p l. induction l as [|x l IH]; intros cur y I; [destruct I as [->|[]]; apply Rle_refl|]. cbn [best]. set (c := if ltb (p cur) (p x) then x else cur).
  assert (C : p cur <= p c /\ p x <= p c) by (unfold c; destruct (ltb (p cur) (p x)) eqn:E; [apply ltb_true in E|apply ltb_false in E]; split; lra).
  pose proof (IH c c (or_introl eq_refl)). destruct I as [->|[->|I]]; [lra|lra|apply IH; right; exact I].
Qed.
Lemma argbest_spec : forall {A} (p : A -> R) l r, argbest p l = Returns r -> In r l /\ forall y, In y l -> p y <= p r.
Proof. intros A p [|x l] r E; [discriminate|]. injection E as <-. split; [apply best_in|apply best_max]. Qed.
Lemma argbest_some : forall {A} (p : A -> R) l x, In x l -> exists r, argbest p l = Returns r.
Proof. intros A p [|y l] x I; [destruct I|]. eexists. reflexivity. Qed.
Lemma in_bins : forall n m, In m (bins n) <-> bin n m.
Proof.
  intros n m. unfold bins, bin. rewrite in_app_iff, !in_map_iff.
  pose proof (Nat.div_mod_eq (n + 1) 2) as D1. pose proof (Nat.mod_upper_bound (n + 1) 2 ltac:(lia)). pose proof (Nat.div_mod_eq n 2) as D2. pose proof (Nat.mod_upper_bound n 2 ltac:(lia)). split.
  - intros [(k & <- & I)|(k & <- & I)]; apply in_seq in I; lia.
  - intros Hb. destruct (Z_lt_le_dec m 0) as [N|P]; [right; exists (Z.to_nat (m + Z.of_nat (n / 2))); split; [lia|apply in_seq; lia]|left; exists (Z.to_nat m); split; [lia|apply in_seq; lia]].
Qed.
Lemma arange_grid : forall f, arange (f - 2 / 10) (f + 2 / 10 + 1 / 1000) (1 / 1000) = map (fun j => f - 2 / 10 + INR j / 1000) (seq 0 401).
Proof.
  intros f. unfold arange. replace ((f + 2 / 10 + 1 / 1000 - (f - 2 / 10)) / (1 / 1000)) with (IZR 401) by field. rewrite Zceil_IZR. change (Z.to_nat 401) with 401%nat. apply map_ext. intros j. field.
Qed.
Theorem peak_ok : forall dt time IQ, length time = length IQ -> (0 < length IQ)%nat ->
  let n := length IQ in let z := fun k => nth k IQ (0, 0) in let P := spectrum n (fun k => nth k time 0) z in let Q := spectrum n INR z in
  exists m j, bin n m /\ (forall m', bin n m' -> Q (IZR m' / INR n) <= Q (IZR m / INR n)) /\
    let grid := fun j => IZR m / (INR n * dt) - 2 / 10 + INR j / 1000 in
    (j <= 400)%nat /\ find_peak_freq dt time IQ = Returns (grid j) /\ forall i, (i <= 400)%nat -> P (grid i) <= P (grid j).
Proof.
  intros dt time IQ L N n z P Q. unfold find_peak_freq. cbv zeta. rewrite weighted_length. fold n.
  destruct (argbest (fun m => power_at (map INR (seq 0 n)) (weighted IQ) (IZR m / INR n)) (bins n)) as [m| |] eqn:E1.
  2,3: exfalso; assert (I : In 0%Z (bins n)) by (apply in_bins; unfold bin; lia); destruct (bins n); [exact I|discriminate E1].
  apply argbest_spec in E1. destruct E1 as (I1 & M1). cbn [pybind]. rewrite arange_grid.
  set (G := map _ (seq 0 401)). assert (I0 : In (IZR m / (INR n * dt) - 2 / 10 + INR 0 / 1000) G) by (unfold G; apply in_map_iff; exists 0%nat; split; [reflexivity|apply in_seq; lia]).
  destruct (argbest_some (power_at time (weighted IQ)) G _ I0) as (r & E2). rewrite E2.
  pose proof (argbest_spec _ _ _ E2) as (I2 & M2). unfold G in I2. apply in_map_iff in I2. destruct I2 as (j & <- & J). apply in_seq in J.
  exists m, j. split; [apply in_bins, I1|]. split.
  - intros m' B. specialize (M1 m' (proj2 (in_bins n m') B)). cbv beta in M1. rewrite !power_spectrum in M1 by (rewrite map_length, seq_length; reflexivity).
    assert (K : forall f, spectrum (length IQ) (fun k => nth k (map INR (seq 0 n)) 0) z f = Q f).
    { intros f. unfold Q, spectrum. fold n. f_equal. f_equal; (f_equal; apply total_ext; intros k Hk; assert (NT : nth k (map INR (seq 0 n)) 0 = INR k) by (change 0 with (INR 0); rewrite map_nth, seq_nth by exact Hk; reflexivity); rewrite !NT; reflexivity). }
    unfold z in K. rewrite !K in M1. exact M1.
  - split; [lia|]. split; [reflexivity|]. intros i Hi. assert (I : In (IZR m / (INR n * dt) - 2 / 10 + INR i / 1000) G) by (unfold G; apply in_map_iff; exists i; split; [reflexivity|apply in_seq; lia]).
    specialize (M2 _ I). rewrite !power_spectrum in M2 by exact L. exact M2.
Qed.

(** ** Tones. *)
Lemma hann_pos : forall n k, (0 < k)%nat -> (k + 1 < n)%nat -> 0 < hann n k.
Proof.
  intros n k A B. unfold hann. assert (N : 0 < INR n - 1) by (rewrite <- (INR_IZR_INZ 1) || idtac; apply lt_INR in B; rewrite plus_INR in B; cbn [INR] in B; pose proof (pos_INR k); lra).
  apply pow_lt. apply lt_INR in A, B. rewrite plus_INR in B. cbn [INR] in A, B. pose proof PI_RGT_0 as Pi.
  apply sin_gt_0; [apply Rmult_lt_0_compat; [apply Rmult_lt_0_compat; lra|apply Rinv_0_lt_compat; lra]|].
  apply (Rmult_lt_reg_r (INR n - 1)); [exact N|]. unfold Rdiv. rewrite Rmult_assoc, Rinv_l by lra. rewrite Rmult_1_r. apply Rmult_lt_compat_l; lra.
Qed.
Lemma hann_ge0 : forall n k, 0 <= hann n k.
Proof. intros. unfold hann. apply pow2_ge_0. Qed.
Lemma total_le : forall n (w psi : nat -> R) ux uy, (forall k, 0 <= w k) -> ux * ux + uy * uy = 1 ->
  total n (fun k => w k * cos (psi k)) * ux + total n (fun k => w k * sin (psi k)) * uy <= total n w /\
  forall a, (a < n)%nat -> total n (fun k => w k * cos (psi k)) * ux + total n (fun k => w k * sin (psi k)) * uy <= total n w - w a * (1 - (cos (psi a) * ux + sin (psi a) * uy)).
Proof.
  intros n w psi ux uy W U. assert (T : forall k, cos (psi k) * ux + sin (psi k) * uy <= 1).
  { intros k. pose proof (sin2_cos2 (psi k)) as S2. unfold Rsqr in S2. pose proof (pow2_ge_0 (cos (psi k) - ux)). pose proof (pow2_ge_0 (sin (psi k) - uy)). nra. }
  induction n as [|n (IH & IHa)]; [cbn; split; [lra|intros; lia]|]. cbn [total]. specialize (T n). specialize (W n).
  assert (S1 : w n * (cos (psi n) * ux + sin (psi n) * uy) <= w n) by nra.
  split; [nra|]. intros a Ha. destruct (Nat.eq_dec a n) as [->|Ne]; [nra|]. specialize (IHa a ltac:(lia)). nra.
Qed.
Lemma total_pos : forall n w, (forall k, 0 <= w k) -> 0 <= total n w /\ forall a, (a < n)%nat -> w a <= total n w.
Proof. intros n w W. induction n as [|n (IH & IHa)]; [cbn; split; [lra|intros; lia]|]. cbn [total]. pose proof (W n). split; [lra|]. intros a Ha. destruct (Nat.eq_dec a n) as [->|]; [lra|]. specialize (IHa a ltac:(lia)). lra. Qed.
Lemma coherent : forall n (w psi : nat -> R), (forall k, 0 <= w k) ->
  total n (fun k => w k * cos (psi k)) ^ 2 + total n (fun k => w k * sin (psi k)) ^ 2 <= total n w ^ 2 /\
  forall a b, (a < n)%nat -> (b < n)%nat -> 0 < w a -> 0 < w b -> cos (psi a - psi b) <> 1 ->
    total n (fun k => w k * cos (psi k)) ^ 2 + total n (fun k => w k * sin (psi k)) ^ 2 < total n w ^ 2.
Proof.
  intros n w psi W. set (X := total n (fun k => w k * cos (psi k))). set (Y := total n (fun k => w k * sin (psi k))). set (T := total n w). destruct (total_pos n w W) as (T0 & Ta). fold T in T0, Ta.
  set (P := sqrt (X ^ 2 + Y ^ 2)). assert (S0 : 0 <= X ^ 2 + Y ^ 2) by (pose proof (pow2_ge_0 X); pose proof (pow2_ge_0 Y); lra).
  assert (P2 : P * P = X ^ 2 + Y ^ 2) by (apply sqrt_sqrt; exact S0). pose proof (sqrt_pos (X ^ 2 + Y ^ 2)) as P0. fold P in P0.
  destruct (Req_dec P 0) as [Z|NZ].
  - rewrite Z in P2. split; [rewrite <- P2; pose proof (pow2_ge_0 T); lra|]. intros a b Ha _ Wa _ _. specialize (Ta a Ha). rewrite <- P2. nra.
  - assert (U : X / P * (X / P) + Y / P * (Y / P) = 1) by (replace (X / P * (X / P) + Y / P * (Y / P)) with ((X ^ 2 + Y ^ 2) / (P * P)) by (field; exact NZ); rewrite <- P2; field; exact NZ).
    destruct (total_le n w psi (X / P) (Y / P) W U) as (L & La). fold X Y T in L, La.
    assert (E : X * (X / P) + Y * (Y / P) = P) by (replace (X * (X / P) + Y * (Y / P)) with ((X ^ 2 + Y ^ 2) / P) by (field; exact NZ); rewrite <- P2; field; exact NZ).
    rewrite E in L, La. split; [rewrite <- P2; nra|]. intros a b Ha Hb Wa Wb C. rewrite <- P2. pose proof (La a Ha) as A. pose proof (La b Hb) as B.
    set (ux := X / P) in *. set (uy := Y / P) in *. 
    assert (Pt : P < T); [|nra]. destruct (Rlt_le_dec P T) as [|Ge]; [assumption|exfalso]. assert (PT : P = T) by lra.
    pose proof (sin2_cos2 (psi a)) as Sa. pose proof (sin2_cos2 (psi b)) as Sb. unfold Rsqr in Sa, Sb.
    assert (Ga : 0 <= 1 - (cos (psi a) * ux + sin (psi a) * uy)) by (pose proof (pow2_ge_0 (cos (psi a) - ux)); pose proof (pow2_ge_0 (sin (psi a) - uy)); nra).
    assert (Gb : 0 <= 1 - (cos (psi b) * ux + sin (psi b) * uy)) by (pose proof (pow2_ge_0 (cos (psi b) - ux)); pose proof (pow2_ge_0 (sin (psi b) - uy)); nra).
    assert (Da : 1 - (cos (psi a) * ux + sin (psi a) * uy) = 0) by nra. assert (Db : 1 - (cos (psi b) * ux + sin (psi b) * uy) = 0) by nra.
    assert (Qa : (cos (psi a) - ux) ^ 2 + (sin (psi a) - uy) ^ 2 = 0) by nra. assert (Qb : (cos (psi b) - ux) ^ 2 + (sin (psi b) - uy) ^ 2 = 0) by nra.
    assert (Z0 : forall x y, x ^ 2 + y ^ 2 = 0 -> x = 0 /\ y = 0) by (intros x y H; pose proof (pow2_ge_0 x); pose proof (pow2_ge_0 y); split; apply Rsqr_0_uniq; unfold Rsqr; nra).
    destruct (Z0 _ _ Qa) as (A1 & A2). destruct (Z0 _ _ Qb) as (B1 & B2). apply C. rewrite cos_minus. replace (cos (psi a)) with ux by lra. replace (cos (psi b)) with ux by lra. replace (sin (psi a)) with uy by lra. replace (sin (psi b)) with uy by lra. exact U.
Qed.
Lemma cos_one : forall x, cos x = 1 -> exists k, x = 2 * PI * IZR k.
Proof. intros x H. assert (S : sin (x / 2) = 0). { pose proof (cos_2a_sin (x / 2)) as E. replace (2 * (x / 2)) with x in E by field. rewrite H in E. apply Rsqr_0_uniq. unfold Rsqr. lra. } apply sin_eq_0_0 in S. destruct S as (k & K). exists k. lra. Qed.
(** The spectrum of a tone, sampled evenly, of frequency [f0]. *)
Lemma tone_spectrum : forall n (t th : nat -> R) A f, spectrum n t (fun k => signal A (th k)) f =
  A ^ 2 * (total n (fun k => hann n k * cos (th k - 2 * PI * f * t k)) ^ 2 + total n (fun k => hann n k * sin (th k - 2 * PI * f * t k)) ^ 2) / INR n ^ 2.
Proof.
  intros n t th A f. unfold spectrum. f_equal.
  assert (K : forall g h, (forall k, g k = A * h k) -> total n g = A * total n h) by (intros g h H; clear - H; induction n as [|n IH]; [cbn; ring|]; cbn [total]; rewrite IH, H; ring).
  rewrite (K (fun k => hann n k * (fst (signal A (th k)) * cos (2 * PI * f * t k) + snd (signal A (th k)) * sin (2 * PI * f * t k))) (fun k => hann n k * cos (th k - 2 * PI * f * t k))) by (intros k; unfold signal; cbn [fst snd]; rewrite cos_minus; ring).
  rewrite (K (fun k => hann n k * (snd (signal A (th k)) * cos (2 * PI * f * t k) - fst (signal A (th k)) * sin (2 * PI * f * t k))) (fun k => hann n k * sin (th k - 2 * PI * f * t k))) by (intros k; unfold signal; cbn [fst snd]; rewrite sin_minus; ring). ring.
Qed.
Theorem strongest : forall n A (t th : nat -> R) f0 c f s, (4 <= n)%nat -> A <> 0 -> (forall k, (k < n)%nat -> th k - 2 * PI * f0 * t k = c) -> (forall k, t k = t 0%nat + s * INR k) ->
  (forall i : Z, (f0 - f) * s <> IZR i) -> spectrum n t (fun k => signal A (th k)) f < spectrum n t (fun k => signal A (th k)) f0.
Proof.
  intros n A t th f0 c f s N HA C T NI. rewrite !tone_spectrum.
  rewrite (total_ext n (fun k => hann n k * cos (th k - 2 * PI * f0 * t k)) (fun k => hann n k * cos c)) by (intros k Hk; rewrite C by exact Hk; reflexivity).
  rewrite (total_ext n (fun k => hann n k * sin (th k - 2 * PI * f0 * t k)) (fun k => hann n k * sin c)) by (intros k Hk; rewrite C by exact Hk; reflexivity).
  rewrite !total_scal.
  pose proof (sin2_cos2 c) as P. unfold Rsqr in P. replace ((total n (hann n) * cos c) ^ 2 + (total n (hann n) * sin c) ^ 2) with (total n (hann n) ^ 2 * (sin c * sin c + cos c * cos c)) by ring. rewrite P, Rmult_1_r.
  destruct (coherent n (hann n) (fun k => th k - 2 * PI * f * t k) (hann_ge0 n)) as (_ & S1). specialize (S1 2%nat 1%nat ltac:(lia) ltac:(lia) (hann_pos n 2 ltac:(lia) ltac:(lia)) (hann_pos n 1 ltac:(lia) ltac:(lia))).
  assert (A2 : 0 < A ^ 2) by (pose proof (pow2_ge_0 A); assert (A ^ 2 <> 0) by (apply pow_nonzero; exact HA); lra).
  assert (N2 : 0 < / INR n ^ 2) by (apply Rinv_0_lt_compat, pow_lt, lt_0_INR; lia).
  unfold Rdiv. apply Rmult_lt_compat_r; [exact N2|]. apply Rmult_lt_compat_l; [exact A2|]. apply S1. intros E. apply cos_one in E. destruct E as (i & E).
  pose proof (C 2%nat ltac:(lia)) as C2. pose proof (C 1%nat ltac:(lia)) as C1. rewrite (T 2%nat) in E, C2. rewrite (T 1%nat) in E, C1. cbn [INR] in *.
  apply (NI i). apply (Rmult_eq_reg_l (2 * PI)); [|pose proof PI_RGT_0; lra]. lra.
Qed.
