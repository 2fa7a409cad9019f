(** * Proof_Order: lemmas for C81. *)
From Coq Require Import List ZArith Bool Reals Lra Lia.
From Verif Require Import Base Model_Time Model_Chord Proof_Chord Model_Order Spec_Order.
Import ListNotations.
Open Scope R_scope.

Lemma horner : forall c s x, fold_left (fun s a => s * x + a) c s = s * x ^ length c + value c x.
Proof. induction c as [|a c IH]; intros s x; cbn [fold_left length value pow]; [lra|]. rewrite IH. ring. Qed.
Lemma polyval_value : forall c x, polyval c x = value c x.
Proof. intros c x. unfold polyval. rewrite horner. ring. Qed.
Lemma sqsum_distance : forall c data, sqsum c data = distance c data.
Proof. intros c. induction data as [|d data IH]; unfold sqsum, distance in *; cbn [map fold_right]; [reflexivity|]. rewrite <- IH, polyval_value. reflexivity. Qed.
Lemma distance_pos : forall c data, 0 <= distance c data.
Proof. intros c. induction data as [|d data IH]; unfold distance in *; cbn [fold_right]; [lra|]. pose proof (pow2_ge_0 (value c (fst d) - snd d)). lra. Qed.
Lemma distance_zero : forall c data, (forall d, In d data -> value c (fst d) = snd d) -> distance c data = 0.
Proof. intros c. induction data as [|d data IH]; intros H; unfold distance in *; cbn [fold_right]; [reflexivity|]. rewrite IH by (intros e E; apply H; right; exact E). rewrite H by (left; reflexivity). ring. Qed.

(** ** Interpolation *)
Lemma value_app : forall c a x, value (c ++ [a]) x = value c x * x + a.
Proof. induction c as [|b c IH]; intros a x; cbn [app value length pow]; [ring|]. rewrite IH, app_length. cbn [length]. rewrite Nat.add_1_r. cbn [pow]. ring. Qed.
Fixpoint plus (a b : list R) : list R := match a, b with x :: a', y :: b' => (x + y) :: plus a' b' | _, _ => [] end.
Lemma plus_length : forall a b, length a = length b -> length (plus a b) = length a.
Proof. induction a as [|x a IH]; intros [|y b] L; cbn in *; try lia. rewrite IH; lia. Qed.
Lemma plus_value : forall a b x, length a = length b -> value (plus a b) x = value a x + value b x.
Proof. induction a as [|y a IH]; intros [|z b] x L; cbn [plus value length] in *; try lia; [ring|]. rewrite IH, plus_length by lia. replace (length b) with (length a) by lia. ring. Qed.
Lemma scale_value : forall k a x, value (map (Rmult k) a) x = k * value a x.
Proof. intros k. induction a as [|y a IH]; intros x; cbn [map value]; [ring|]. rewrite IH, map_length. ring. Qed.
Lemma vanishing : forall xs : list R, exists c, length c = S (length xs) /\ (forall x, In x xs -> value c x = 0) /\ (forall x, ~ In x xs -> value c x <> 0).
Proof.
  induction xs as [|a xs (c & L & Z & N)].
  - exists [1]. repeat split; cbn; [intros x []|intros x _; lra].
  - assert (V : forall x, value (plus (c ++ [0]) (0 :: map (Rmult (- a)) c)) x = value c x * (x - a)).
    { intros x. rewrite plus_value by (rewrite app_length; cbn [length]; rewrite map_length; lia). rewrite value_app. cbn [value]. rewrite scale_value. ring. }
    exists (plus (c ++ [0]) (0 :: map (Rmult (- a)) c)). split; [rewrite plus_length; rewrite app_length; cbn [length]; rewrite ?map_length; lia|]. split.
    + intros x [-> | H]; rewrite V; [ring|]. rewrite Z by exact H. ring.
    + intros x H. rewrite V. intros E. apply Rmult_integral in E. destruct E as [E|E]; [apply (N x); [intros I; apply H; right; exact I|exact E]|]. apply H. left. lra.
Qed.
Lemma pad : forall m c x, value (repeat 0 m ++ c) x = value c x.
Proof. induction m as [|m IH]; intros c x; cbn [repeat app value]; [reflexivity|]. rewrite IH. ring. Qed.
Lemma interpolate : forall data, NoDup (map fst data) -> exists c, length c = length data /\ forall d, In d data -> value c (fst d) = snd d.
Proof.
  induction data as [|[t y] data IH]; intros N; [exists []; split; [reflexivity|intros d []]|]. cbn [map fst] in N. inversion N as [|? ? N1 N2]; subst. destruct (IH N2) as (c & L & H).
  destruct (vanishing (map fst data)) as (v & Lv & Z & NZ). rewrite map_length in Lv. specialize (NZ t N1).
  exists (plus (0 :: c) (map (Rmult ((y - value c t) / value v t)) v)).
  assert (V : forall x, value (plus (0 :: c) (map (Rmult ((y - value c t) / value v t)) v)) x = value c x + (y - value c t) / value v t * value v x).
  { intros x. rewrite plus_value by (cbn [length]; rewrite map_length; lia). rewrite scale_value. cbn [value]. ring. }
  split; [rewrite plus_length; cbn [length]; rewrite ?map_length; lia|]. intros d [<- | I]; rewrite V; cbn [fst snd]; [field; exact NZ|].
  rewrite (Z (fst d)) by (apply in_map, I). rewrite H by exact I. ring.
Qed.
Lemma least_unique : forall data k a b, least data k a -> least data k b -> a = b.
Proof. intros data k a b [(c & L & <-) A] [(d & M & <-) B]. apply Rle_antisym; auto. Qed.
Lemma least_zero : forall data k s c, least data k s -> (length c <= S k)%nat -> (forall d, In d data -> value c (fst d) = snd d) -> s = 0.
Proof.
  intros data k s c [(c' & _ & <-) B] L H. apply Rle_antisym; [|apply distance_pos]. rewrite <- (distance_zero (repeat 0 (S k - length c) ++ c) data); [|intros d D; rewrite pad; auto].
  apply B. rewrite app_length, repeat_length. lia.
Qed.

(** ** The test *)
Section Fit.
  Variable fit : list (R * R) -> nat -> list R.
  Variable data : list (R * R).
  Hypothesis LS : least_squares fit data.
  Hypothesis Dis : NoDup (map fst data).
  Lemma better_ok : forall k, better fit data k = true <-> significant data k.
  Proof.
    intros k. destruct (LS k) as [L1 S1]. destruct (LS (k + 1)%nat) as [L2 S2]. unfold better. rewrite !sqsum_distance, L1, L2. rewrite Nat.add_1_r in *.
    set (s1 := distance (fit data k) data) in *. set (s2 := distance (fit data (S k)) data) in *. set (n := length data) in *.
    assert (Sg : significant data k <-> (k + 2 < n)%nat /\ s2 < (s1 - s2) * INR (n - (k + 2))).
    { split; [intros (a & b & A & B & H)|intros H; exists s1, s2; auto]. rewrite (least_unique _ _ _ _ S1 A), (least_unique _ _ _ _ S2 B). exact H. }
    rewrite Sg. unfold exceeds. replace (Z.of_nat n - Z.of_nat (S k) - (Z.of_nat n - Z.of_nat (S (S k))))%Z with 1%Z by lia. replace ((s1 - s2) / 1) with (s1 - s2) by field.
    assert (P2 : 0 <= s2) by apply distance_pos.
    destruct (Z.eqb_spec (Z.of_nat n - Z.of_nat (S (S k))) 0) as [E|E]; [split; [discriminate|lia]|].
    destruct (Nat.lt_ge_cases (k + 2) n) as [K|K].
    - assert (D : IZR (Z.of_nat n - Z.of_nat (S (S k))) = INR (n - (k + 2))) by (rewrite INR_IZR_INZ; f_equal; lia). rewrite D.
      assert (Dp : 0 < INR (n - (k + 2))) by (apply lt_0_INR; lia). set (f := INR (n - (k + 2))) in *.
      destruct (eqb s2 0) eqn:Z.
      + apply eqb_true in Z. rewrite ltb_true, Z. split; [intros H; split; [exact K|lra]|intros [_ H]; lra].
      + assert (Z' : s2 <> 0) by (intros Q; apply eqb_true in Q; congruence). rewrite ltb_true.
        replace ((s1 - s2) / (s2 / f)) with ((s1 - s2) * f / s2) by (field; split; lra). assert (0 < s2) by lra. split.
        * intros H0. split; [exact K|]. apply (Rmult_lt_compat_r s2) in H0; [|lra]. unfold Rdiv in H0. rewrite Rmult_assoc, Rinv_l in H0 by lra. lra.
        * intros [_ H0]. apply (Rmult_lt_reg_r s2); [lra|]. unfold Rdiv. rewrite Rmult_assoc, Rinv_l by lra. lra.
    - destruct (interpolate data Dis) as (c & Lc & I). fold n in Lc.
      assert (Z1 : s1 = 0) by (apply (least_zero data k s1 c S1); [lia|exact I]). assert (Z2 : s2 = 0) by (apply (least_zero data (S k) s2 c S2); [lia|exact I]).
      rewrite Z1, Z2. replace (eqb 0 0) with true by (symmetry; apply eqb_true; reflexivity). rewrite Rminus_0_r, Rmult_0_l, ltb_true. split; [lra|lia].
  Qed.
  Lemma search_ok : forall left p, (1 <= p)%nat -> (forall j, (1 <= j < p)%nat -> significant data j) ->
    exists k, search fit data left p = k /\ (p - 1 + Nat.min left 1 <= k <= p + left - 1)%nat /\ (forall j, (1 <= j < k)%nat -> significant data j) /\ (k = p + left - 1 \/ ~ significant data k)%nat.
  Proof.
    induction left as [|left IH]; intros p P H; cbn [search].
    - exists (p - 1)%nat. split; [reflexivity|]. split; [lia|]. split; [intros j J; apply H; lia|left; lia].
    - destruct (better fit data p) eqn:B.
      + apply better_ok in B. destruct (IH (p + 1)%nat ltac:(lia)) as (k & E & R & A & C).
        * intros j J. destruct (Nat.eq_dec j p) as [->|N]; [exact B|apply H; lia].
        * exists k. split; [exact E|]. split; [lia|]. split; [exact A|]. destruct C as [C|C]; [left; lia|right; exact C].
      + exists p. split; [reflexivity|]. split; [lia|]. split; [exact H|]. right. intros S. apply better_ok in S. congruence.
  Qed.
End Fit.
Lemma order_ok : forall fit data, least_squares fit data -> data <> [] -> NoDup (map fst data) ->
  exists k, calc_poly_order fit data = Returns k /\ (1 <= k <= 9)%nat /\ (k = 1 \/ k + 2 <= length data)%nat /\
    (forall j, (1 <= j < k)%nat -> significant data j) /\ (k = 9%nat \/ ~ significant data k).
Proof.
  intros fit data LS N D. unfold calc_poly_order. set (n := length data). set (m0 := if (n <? 9)%nat then (n - 1)%nat else 9%nat). set (m := if (m0 <? 1)%nat then 1%nat else m0).
  assert (M : (1 <= m <= 9 /\ (m = 9 \/ n <= m + 1))%nat) by (assert (M0 : (m0 <= 9 /\ (m0 = 9 \/ n <= m0 + 1))%nat) by (unfold m0; destruct (Nat.ltb_spec n 9); lia); unfold m; destruct (Nat.ltb_spec m0 1); lia).
  clearbody m. clear m0. destruct (search_ok fit data LS D m 1 ltac:(lia) ltac:(intros; lia)) as (k & E & R & A & C).
  assert (K : (1 <= k)%nat) by lia.
  exists k. split; [destruct data; [congruence|f_equal; exact E]|]. split; [lia|]. split.
  - destruct (Nat.eq_dec k 1) as [->|K1]; [left; reflexivity|right]. destruct (A (k - 1)%nat ltac:(lia)) as (a & b & _ & _ & L & _). fold n in L. unfold n in *. lia.
  - split; [exact A|]. destruct C as [C|C]; [|right; exact C]. destruct (Nat.eq_dec k 9) as [->|K9]; [left; reflexivity|right]. intros (a & b & _ & _ & L & _). fold n in L. lia.
Qed.
Lemma exact_ok : forall fit data c d, least_squares fit data -> data <> [] -> NoDup (map fst data) -> (1 <= d)%nat -> length c = S d -> (forall p, In p data -> value c (fst p) = snd p) ->
  exists k, calc_poly_order fit data = Returns k /\ (k <= d)%nat.
Proof.
  intros fit data c d LS N D D1 L H. destruct (order_ok fit data LS N D) as (k & E & _ & _ & A & _). exists k. split; [exact E|].
  destruct (Nat.le_gt_cases k d) as [K|K]; [exact K|]. exfalso. destruct (A d ltac:(lia)) as (s1 & s2 & S1 & S2 & _ & F).
  rewrite (least_zero data d s1 c S1 ltac:(lia) H) in F. rewrite (least_zero data (S d) s2 c S2 ltac:(lia) H) in F. lra.
Qed.
Definition cubic : list (R * R) := [(-2, -8); (-1, -1); (0, 0); (1, 1); (2, 8)].
Lemma cubic_distinct : NoDup (map fst cubic).
Proof. cbn [map fst cubic]. repeat constructor; cbn [In]; intros H; repeat (destruct H as [H|H]; [lra|]); exact H. Qed.
Lemma cubic_refuted : forall fit, least_squares fit cubic -> calc_poly_order fit cubic = Returns 1%nat /\ least cubic 3 0 /\ forall s, least cubic 1 s -> 0 < s.
Proof.
  intros fit LS. split; [|split].
  - destruct (order_ok fit cubic LS ltac:(discriminate) cubic_distinct) as (k & E & K & _ & A & _). rewrite E. f_equal. destruct (Nat.eq_dec k 1) as [H|H]; [exact H|]. exfalso.
    destruct (A 1%nat ltac:(lia)) as (s1 & s2 & [_ M1] & [(c & L & <-) M2] & _ & F). destruct c as [|a [|b [|e [|? ?]]]]; try discriminate. specialize (M1 [b; 0] eq_refl).
    assert (P := distance_pos [a; b; e] cubic). change (INR (length cubic - (1 + 2))) with (1 + 1) in F.
    assert (X : distance [a; b; e] cubic = distance [b; 0] cubic + (2 * (4 * a + e) ^ 2 + 2 * (a + e) ^ 2 + e ^ 2)) by (unfold distance, cubic; cbn [fold_right value length pow fst snd]; ring).
    assert (0 <= 2 * (4 * a + e) ^ 2 + 2 * (a + e) ^ 2 + e ^ 2) by (pose proof (pow2_ge_0 (4 * a + e)); pose proof (pow2_ge_0 (a + e)); pose proof (pow2_ge_0 e); lra). lra.
  - split; [exists [1; 0; 0; 0]; split; [reflexivity|unfold distance, cubic; cbn [fold_right value length pow fst snd]; ring]|intros; apply distance_pos].
  - intros s [(c & L & <-) _]. destruct c as [|a [|b [|? ?]]]; try discriminate. 
    assert (X : distance [a; b] cubic = 10 * (a - 34 / 10) ^ 2 + 5 * b ^ 2 + (130 - 1156 / 10)) by (unfold distance, cubic; cbn [fold_right value length pow fst snd]; field).
    rewrite X. pose proof (pow2_ge_0 (a - 34 / 10)). pose proof (pow2_ge_0 b). lra.
Qed.
(** Five points of a parabola. *)
Definition square : list (R * R) := [(-2, 4); (-1, 1); (0, 0); (1, 1); (2, 4)].
Definition square_fit (_ : list (R * R)) (k : nat) : list R := match k with O => [2] | S O => [0; 2] | S (S j) => repeat 0 j ++ [1; 0; 0] end.
Lemma square_fits : least_squares square_fit square.
Proof.
  assert (D0 : distance [2] square = 14) by (unfold distance, square; cbn [fold_right value length pow fst snd]; ring).
  assert (D1 : distance [0; 2] square = 14) by (unfold distance, square; cbn [fold_right value length pow fst snd]; ring).
  intros k. split; [destruct k as [|[|k]]; [reflexivity|reflexivity|]; cbn [square_fit]; rewrite app_length, repeat_length; cbn [length]; lia|].
  split; [exists (square_fit square k); split; [destruct k as [|[|k]]; [reflexivity|reflexivity|]; cbn [square_fit]; rewrite app_length, repeat_length; cbn [length]; lia|reflexivity]|].
  intros c L. destruct k as [|[|k]]; cbn [square_fit].
  - destruct c as [|b [|? ?]]; try discriminate. rewrite D0. replace (distance [b] square) with (5 * (b - 2) ^ 2 + 14) by (unfold distance, square; cbn [fold_right value length pow fst snd]; ring). pose proof (pow2_ge_0 (b - 2)). lra.
  - destruct c as [|a [|b [|? ?]]]; try discriminate. rewrite D1. replace (distance [a; b] square) with (10 * a ^ 2 + 5 * (b - 2) ^ 2 + 14) by (unfold distance, square; cbn [fold_right value length pow fst snd]; ring). pose proof (pow2_ge_0 (b - 2)). pose proof (pow2_ge_0 a). lra.
  - rewrite distance_zero; [apply distance_pos|]. intros d H. rewrite pad. cbn [square In] in H. cbn [value length pow]. repeat (destruct H as [<- | H]; [cbn [fst snd]; ring|]). destruct H.
Qed.
Lemma square_distinct : NoDup (map fst square).
Proof. exact cubic_distinct. Qed.
Lemma square_order : calc_poly_order square_fit square = Returns 2%nat.
Proof.
  destruct (order_ok square_fit square square_fits ltac:(discriminate) square_distinct) as (k & E & K & _ & A & C). rewrite E. f_equal.
  destruct (exact_ok square_fit square [1; 0; 0] 2 square_fits ltac:(discriminate) square_distinct ltac:(lia) eq_refl) as (k' & E' & L).
  { intros d H. cbn [square In] in H. cbn [value length pow]. repeat (destruct H as [<- | H]; [cbn [fst snd]; ring|]). destruct H. }
  rewrite E in E'. injection E' as <-. destruct (Nat.eq_dec k 1) as [->|N]; [|lia]. exfalso. destruct C as [C|C]; [discriminate|]. apply C.
  exists 14, 0. split; [|split; [|split]].
  - destruct (square_fits 1%nat) as [_ H]. replace 14 with (distance (square_fit square 1) square); [exact H|]. unfold distance, square; cbn [fold_right value length pow fst snd square_fit]; ring.
  - destruct (square_fits 2%nat) as [_ H]. replace 0 with (distance (square_fit square 2) square); [exact H|]. unfold distance, square; cbn [fold_right value length pow fst snd square_fit repeat app]; ring.
  - cbn; lia.
  - change (INR (length square - (1 + 2))) with (1 + 1). lra.
Qed.
