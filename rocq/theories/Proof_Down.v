(** * Proof_Down: lemmas for C80. *)
From Coq Require Import List ZArith Bool Reals Lra Lia.
From Flocq Require Import Core.
From Verif Require Import Base Model_Time Model_Chord Model_Resample Spec_Resample Proof_Chord Proof_Resample Proof_Resample2 Model_Down Spec_Down.
Import ListNotations.
Open Scope R_scope.

Lemma evenly_length : forall t0 dt n, length (evenly t0 dt n) = n.
Proof. intros. unfold evenly. rewrite map_length, seq_length. reflexivity. Qed.
Lemma evenly_last : forall t0 dt n, (1 <= n)%nat -> last (evenly t0 dt n) 0 = t0 + dt * INR (n - 1).
Proof. intros t0 dt n H. destruct n as [|n]; [lia|]. unfold evenly. rewrite seq_S, map_app. cbn [map Nat.add]. rewrite last_last. do 3 f_equal. lia. Qed.
Lemma count_ceil : forall n q, (1 <= q)%nat -> (1 <= n)%nat -> count n q ((n + q - 1) / q).
Proof.
  intros n q Q N. unfold count. pose proof (Nat.mul_div_le (n + q - 1) q ltac:(lia)). pose proof (Nat.mul_succ_div_gt (n + q - 1) q ltac:(lia)). set (m := ((n + q - 1) / q)%nat) in *. destruct m as [|m]; [lia|]. replace (S m - 1)%nat with m by lia. nia.
Qed.
Lemma factor_round : forall dt_down dt, (1 <= pyround (dt_down / dt))%Z -> factor dt_down dt (Z.to_nat (pyround (dt_down / dt))).
Proof. intros d dt H. split; [lia|]. rewrite INR_IZR_INZ, Z2Nat.id by lia. pose proof (round_half (d / dt)) as K. apply Rabs_le. lra. Qed.
Lemma combine_len : forall {A B} (a : list A) (b : list B), length b = length a -> length (combine a b) = length a.
Proof. intros. rewrite combine_length. lia. Qed.
Lemma down_form : forall taps t0 dt n I Q dt_down, (2 <= n)%nat -> 0 < dt -> length I = n -> length Q = n ->
  match downsample_IQ taps (evenly t0 dt n) I Q dt_down with
  | Returns (times, p) => exists q m, factor dt_down dt q /\ count n q m /\ length p = m /\ times = linspace t0 (t0 + dt * INR (n - 1)) m /\
      forall k, (k < m)%nat -> nth k p 0 = nth k (resample_poly taps I q) 0 ^ 2 + nth k (resample_poly taps Q q) 0 ^ 2
  | Raises => dt_down / dt <= 1 / 2
  | Exits => False end.
Proof.
  intros taps t0 dt n I Q dt_down N D LI LQ. unfold downsample_IQ. assert (La := evenly_last t0 dt n ltac:(lia)). destruct n as [|[|n]]; [lia|lia|]. rewrite La.
  assert (E : evenly t0 dt (S (S n)) = t0 + dt * INR 0 :: t0 + dt * INR 1 :: map (fun k => t0 + dt * INR k) (seq 2 n)) by reflexivity. rewrite E. clear E La.
  replace (t0 + dt * INR 1 - (t0 + dt * INR 0)) with dt by (cbn [INR]; lra). replace (t0 + dt * INR 0) with t0 by (cbn [INR]; lra).
  destruct (eqb dt 0) eqn:Z; [apply eqb_true in Z; lra|]. destruct (pyround (dt_down / dt) <? 1)%Z eqn:H.
  - apply Z.ltb_lt in H. pose proof (round_half (dt_down / dt)) as K. set (z := pyround _) in *. assert (IZR z <= 0) by (apply IZR_le; lia). lra.
  - apply Z.ltb_ge in H. assert (F := factor_round dt_down dt H). set (q := Z.to_nat (pyround (dt_down / dt))) in *. destruct F as [F1 F2].
    assert (LL : length (resample_poly taps Q q) = length (resample_poly taps I q)) by (rewrite !poly_length, LI, LQ by exact F1; reflexivity).
    exists q, ((S (S n) + q - 1) / q)%nat. assert (Lp : length (map (fun z => fst z ^ 2 + snd z ^ 2) (combine (resample_poly taps I q) (resample_poly taps Q q))) = ((S (S n) + q - 1) / q)%nat).
    { rewrite map_length, combine_len by exact LL. rewrite poly_length, LI by exact F1. reflexivity. }
    split; [split; assumption|]. split; [apply count_ceil; lia|]. split; [exact Lp|]. split; [rewrite Lp; reflexivity|].
    intros k K. rewrite (nth_indep _ 0 ((fun z => fst z ^ 2 + snd z ^ 2) (0, 0))) by (rewrite Lp; exact K). rewrite (map_nth (fun z => fst z ^ 2 + snd z ^ 2)). rewrite combine_nth by (symmetry; exact LL). reflexivity.
Qed.
Lemma late : forall t0 dt n q m k, 0 < dt -> (1 <= q)%nat -> count n q m -> (2 <= m)%nat -> (k < m)%nat ->
  let t := nth k (linspace t0 (t0 + dt * INR (n - 1)) m) 0 in
  t = t0 + dt * INR (q * k) + dt * INR k * INR (n - 1 - q * (m - 1)) / INR (m - 1) /\ t0 + dt * INR (q * k) <= t <= t0 + dt * INR (q * k) + dt * INR (q - 1).
Proof.
  intros t0 dt n q m k D Q [C1 C2] M K t. assert (Mp : 0 < INR (m - 1)) by (apply lt_0_INR; lia).
  assert (E : t = t0 + dt * INR (q * k) + dt * INR k * INR (n - 1 - q * (m - 1)) / INR (m - 1)).
  { unfold t, linspace. rewrite nth_map_seq by exact K. rewrite (minus_INR (n - 1)) by lia. rewrite !mult_INR. field. lra. }
  split; [exact E|]. rewrite E. set (r := (n - 1 - q * (m - 1))%nat). assert (R : (r <= q - 1)%nat) by (unfold r; destruct m as [|m]; [lia|]; replace (S m - 1)%nat with m in * by lia; nia). apply le_INR in R.
  assert (Kp := pos_INR k). assert (Rp := pos_INR r). assert (Kl : INR k <= INR (m - 1)) by (apply le_INR; lia).
  assert (F : 0 <= INR k / INR (m - 1) <= 1). { split; [apply Rmult_le_pos; [exact Kp|left; apply Rinv_0_lt_compat, Mp]|apply (Rmult_le_reg_r (INR (m - 1))); [exact Mp|]]. unfold Rdiv. rewrite Rmult_assoc, Rinv_l by lra. lra. }
  replace (dt * INR k * INR r / INR (m - 1)) with (dt * (INR k / INR (m - 1) * INR r)) by (field; lra).
  assert (0 <= INR k / INR (m - 1) * INR r <= INR (q - 1)) by nra. split; nra.
Qed.
Lemma times_ok : forall taps t0 dt n I Q dt_down times p, (2 <= n)%nat -> 0 < dt -> length I = n -> length Q = n ->
  downsample_IQ taps (evenly t0 dt n) I Q dt_down = Returns (times, p) ->
  exists q m, factor dt_down dt q /\ count n q m /\ length times = m /\ length p = m /\
    ((2 <= m)%nat -> forall k, (k < m)%nat ->
      nth k times 0 = t0 + dt * INR (q * k) + dt * INR k * INR (n - 1 - q * (m - 1)) / INR (m - 1) /\
      t0 + dt * INR (q * k) <= nth k times 0 <= t0 + dt * INR (q * k) + dt * INR (q - 1)).
Proof.
  intros taps t0 dt n I Q dt_down times p N D LI LQ E. assert (H := down_form taps t0 dt n I Q dt_down N D LI LQ). rewrite E in H. destruct H as (q & m & F & C & L & -> & _).
  exists q, m. split; [exact F|]. split; [exact C|]. split; [unfold linspace; rewrite map_length, seq_length; reflexivity|]. split; [exact L|]. intros M k K. apply late; auto. apply F.
Qed.
Lemma line_nth : forall a b t0 dt n k, (k < n)%nat -> nth k (line_of a b (evenly t0 dt n)) 0 = (a + b * t0) + b * dt * INR k.
Proof. intros a b t0 dt n k K. unfold line_of, evenly. rewrite map_map, nth_map_seq by exact K. lra. Qed.
Lemma line_length : forall a b t0 dt n, length (line_of a b (evenly t0 dt n)) = n.
Proof. intros. unfold line_of. rewrite map_length. apply evenly_length. Qed.
Lemma values_ok : forall taps t0 dt n a b c d dt_down times p, proper taps -> (2 <= n)%nat -> 0 < dt ->
  downsample_IQ taps (evenly t0 dt n) (line_of a b (evenly t0 dt n)) (line_of c d (evenly t0 dt n)) dt_down = Returns (times, p) ->
  exists q, factor dt_down dt q /\ forall k, (10 <= k)%nat -> (k + 10 < length p)%nat ->
    exists t, t = t0 + dt * INR (q * k) /\ nth k p 0 = (a + b * t) ^ 2 + (c + d * t) ^ 2.
Proof.
  intros taps t0 dt n a b c d dt_down times p T N D E. assert (H := down_form taps t0 dt n _ _ dt_down N D (line_length a b t0 dt n) (line_length c d t0 dt n)). rewrite E in H. destruct H as (q & m & F & C & L & _ & V).
  exists q. split; [exact F|]. intros k K1 K2. rewrite L in K2. eexists. split; [reflexivity|]. rewrite V by lia. destruct F as [F _].
  assert (M : m = ((n + q - 1) / q)%nat). { pose proof (count_ceil n q F ltac:(lia)) as C'. unfold count in C, C'. destruct m as [|m]; [lia|]. destruct ((n + q - 1) / q)%nat as [|m']; [lia|]. replace (S m - 1)%nat with m in C by lia. replace (S m' - 1)%nat with m' in C' by lia. f_equal. destruct (Nat.lt_trichotomy m m') as [X|[X|X]]; [|exact X|]; nia. }
  rewrite (poly_line taps _ q (a + b * t0) (b * dt) k T F), (poly_line taps _ q (c + d * t0) (d * dt) k T F).
  - rewrite mult_INR. f_equal; f_equal; lra.
  - rewrite line_length. intros i Hi. apply line_nth, Hi.
  - exact K1.
  - rewrite poly_length, line_length by exact F. lia.
  - rewrite line_length. intros i Hi. apply line_nth, Hi.
  - exact K1.
  - rewrite poly_length, line_length by exact F. lia.
Qed.
Lemma raises_ok : forall taps t0 dt n I Q dt_down, (2 <= n)%nat -> 0 < dt -> length I = n -> length Q = n ->
  (downsample_IQ taps (evenly t0 dt n) I Q dt_down = Raises <-> dt_down <= dt / 2) /\ downsample_IQ taps (evenly t0 dt n) I Q dt_down <> Exits.
Proof.
  intros taps t0 dt n I Q dt_down N D LI LQ. assert (H := down_form taps t0 dt n I Q dt_down N D LI LQ).
  assert (S : dt_down / dt <= 1 / 2 <-> dt_down <= dt / 2).
  { split; intros X; [replace dt_down with (dt_down / dt * dt) by (field; lra); nra|apply (Rmult_le_reg_r dt); [exact D|]; replace (dt_down / dt * dt) with dt_down by (field; lra); lra]. }
  destruct (downsample_IQ taps (evenly t0 dt n) I Q dt_down) as [[times p]| |] eqn:E; [|split; [tauto|discriminate]|destruct H].
  split; [|discriminate]. split; [discriminate|]. intros X. exfalso. apply S in X.
  unfold downsample_IQ in E. destruct n as [|[|n]]; [lia|lia|]. unfold evenly in E. cbn [seq map] in E. 
  replace (t0 + dt * INR 1 - (t0 + dt * INR 0)) with dt in E by (cbn [INR]; lra). destruct (eqb dt 0); [discriminate|]. destruct (pyround (dt_down / dt) <? 1)%Z eqn:Y; [discriminate|]. apply Z.ltb_ge in Y.
  assert (M : (pyround (dt_down / dt) <= pyround (1 / 2))%Z) by (unfold pyround; apply (@Zrnd_le _ (valid_rnd_N _)), X).
  assert (Z : pyround (1 / 2) = 0%Z).
  { unfold pyround, Znearest. replace (Zfloor (1 / 2)) with 0%Z by (symmetry; apply Zfloor_imp; cbn [Z.add]; lra). rewrite Rcompare_Eq by lra. reflexivity. }
  lia.
Qed.
Lemma late_refuted : forall taps, proper taps -> exists times p, downsample_IQ taps (evenly 0 1 50) (line_of 0 1 (evenly 0 1 50)) (line_of 0 0 (evenly 0 1 50)) 2 = Returns (times, p) /\
  nth 12 times 0 = 24 + 1 / 2 /\ nth 12 p 0 = 24 ^ 2.
Proof.
  intros taps T. destruct (raises_ok taps 0 1 50 (line_of 0 1 (evenly 0 1 50)) (line_of 0 0 (evenly 0 1 50)) 2 ltac:(lia) ltac:(lra) (line_length _ _ _ _ _) (line_length _ _ _ _ _)) as [R X].
  destruct (downsample_IQ taps (evenly 0 1 50) (line_of 0 1 (evenly 0 1 50)) (line_of 0 0 (evenly 0 1 50)) 2) as [[times p]| |] eqn:E; [|exfalso; assert (2 <= 1 / 2) by (apply R; reflexivity); lra|congruence].
  exists times, p. split; [reflexivity|]. destruct (times_ok taps 0 1 50%nat _ _ 2 times p ltac:(lia) ltac:(lra) (line_length _ _ _ _ _) (line_length _ _ _ _ _) E) as (q & m & F & C & _ & Lp & V).
  assert (Fq : forall q, factor 2 1 q -> q = 2%nat). { clear. intros q [_ F]. apply Rabs_le_inv in F. destruct q as [|[|[|q]]]; [cbn [INR] in F; lra|cbn [INR] in F; lra|reflexivity|rewrite !S_INR in F; pose proof (pos_INR q); lra]. }
  apply Fq in F. subst q. assert (H : m = 25%nat) by (unfold count in C; lia). rewrite <- Lp in *. split.
  - destruct (V ltac:(rewrite H; lia) 12%nat ltac:(rewrite H; lia)) as [-> _]. rewrite H. change (2 * 12)%nat with 24%nat. change (50 - 1 - 2 * (25 - 1))%nat with 1%nat. change (25 - 1)%nat with 24%nat. rewrite !INR_IZR_INZ. cbn [Z.of_nat Pos.of_succ_nat Pos.succ]. lra.
  - destruct (values_ok taps 0 1 50%nat 0 1 0 0 2 times p T ltac:(lia) ltac:(lra) E) as (q & F & W). apply Fq in F. subst q. destruct (W 12%nat ltac:(lia) ltac:(lia)) as (t & -> & ->). change (2 * 12)%nat with 24%nat. rewrite !INR_IZR_INZ. cbn [Z.of_nat Pos.of_succ_nat Pos.succ]. lra.
Qed.
