(** * Proof_Free2: proofs of C69, the regions in time. *)
From Coq Require Import List ZArith Bool Reals Lra Lia Arith Sorted.
From Verif Require Import Base Model_Time Model_Chord Model_Free Spec_Chord Spec_Free Proof_Chord Proof_Free.
Import ListNotations.
Open Scope R_scope.

(** ** Interpolation in sorted points. *)
Definition line (s : list (R * R)) (x : R) : R :=
  let i := Nat.max 1 (Nat.min (searchsorted (map fst s) x) (length s - 1)) in
  let lo := nth (i - 1) s (0, 0) in
  let hi := nth i s (0, 0) in
  (snd hi - snd lo) / (fst hi - fst lo) * (x - fst lo) + snd lo.
Lemma sorted_nth' : forall {A} (P : A -> A -> Prop) (d : A) l i j, StronglySorted P l -> (i < j < length l)%nat -> P (nth i l d) (nth j l d).
Proof.
  intros A P d l i j S H. apply (sorted_nth P l i j _ _ S (proj1 H)); apply nth_error_nth'; lia.
Qed.
Lemma searched : forall l x, StronglySorted Rlt l -> (searchsorted l x <= length l)%nat /\
  forall j, (j < length l)%nat -> ((j < searchsorted l x)%nat <-> nth j l 0 < x).
Proof.
  unfold searchsorted. intros l x S. induction S as [|a l S IH F]; [cbn; split; [lia|intros; lia]|]. destruct IH as (I1 & I2). rewrite Forall_forall in F.
  cbn [filter]. destruct (ltb a x) eqn:L.
  - apply ltb_true in L. cbn [length]. split; [lia|]. intros [|j] H; [cbn; split; [intro; exact L|intro; lia]|].
    cbn [nth]. rewrite <- I2 by lia. lia.
  - apply ltb_false in L. assert (Z : filter (fun y => ltb y x) l = []).
    { destruct (filter (fun y => ltb y x) l) as [|b r] eqn:E; [reflexivity|]. assert (K : In b (filter (fun y => ltb y x) l)) by (rewrite E; left; reflexivity).
      apply filter_In in K. destruct K as (K1 & K2). apply ltb_true in K2. specialize (F b K1). lra. }
    rewrite Z. cbn [length]. split; [lia|]. intros j H. split; [lia|]. intro K. exfalso. destruct j as [|j]; cbn [nth] in K; [lra|].
    assert (a < nth j l 0) by (apply F, nth_In; cbn in H; lia). lra.
Qed.

Lemma sorted_map : forall {A B} (P : A -> A -> Prop) (Q : B -> B -> Prop) (h : A -> B) l, (forall x y, P x y -> Q (h x) (h y)) ->
  StronglySorted P l -> StronglySorted Q (map h l).
Proof.
  intros A B P Q h l H S. induction S as [|a l S IH F]; [constructor|]. cbn. constructor; [exact IH|]. rewrite Forall_forall in *.
  intros y Hy. apply in_map_iff in Hy. destruct Hy as (x & <- & Hx). apply H, F, Hx.
Qed.

Section Line.
  Variable s : list (R * R).
  Hypothesis X : StronglySorted (fun p q => fst p < fst q) s.
  Hypothesis Y : StronglySorted (fun p q => snd p < snd q) s.
  Hypothesis N : (2 <= length s)%nat.
  Let f (j : nat) := fst (nth j s (0, 0)).
  Let g (j : nat) := snd (nth j s (0, 0)).
  Let k (x : R) := searchsorted (map fst s) x.
  Lemma f_up : forall i j, (i < j < length s)%nat -> f i < f j.
  Proof. intros i j H. exact (sorted_nth' _ (0, 0) s i j X H). Qed.
  Lemma g_up : forall i j, (i < j < length s)%nat -> g i < g j.
  Proof. intros i j H. exact (sorted_nth' _ (0, 0) s i j Y H). Qed.
  Lemma g_le : forall i j, (i <= j < length s)%nat -> g i <= g j.
  Proof. intros i j H. destruct (Nat.eq_dec i j) as [->|D]; [lra|]. left. apply g_up. lia. Qed.
  Lemma k_spec : forall x, (k x <= length s)%nat /\ forall j, (j < length s)%nat -> ((j < k x)%nat <-> f j < x).
  Proof.
    intro x. assert (S : StronglySorted Rlt (map fst s)).
    { apply sorted_map with (P := fun p q => fst p < fst q); [intros p q H; exact H|exact X]. }
    destruct (searched (map fst s) x S) as (K1 & K2). rewrite map_length in *. split; [exact K1|].
    intros j H. specialize (K2 j H). change 0 with (fst (0, 0)) in K2 at 1. rewrite map_nth in K2. exact K2.
  Qed.
  Definition within (x : R) : Prop := f 0%nat <= x <= f (length s - 1)%nat.
  (** The interval of a number. *)
  Lemma interval : forall x, within x -> exists i, line s x = (g i - g (i - 1)) / (f i - f (i - 1)) * (x - f (i - 1)) + g (i - 1) /\
    (1 <= i < length s)%nat /\ i = Nat.max 1 (k x) /\ f (i - 1) <= x <= f i.
  Proof.
    intros x (L & H). destruct (k_spec x) as (K1 & K2). assert (K : (k x <= length s - 1)%nat).
    { destruct (le_lt_dec (k x) (length s - 1)) as [E|E]; [exact E|]. exfalso. pose proof (proj1 (K2 (length s - 1)%nat ltac:(lia)) ltac:(lia)). lra. }
    exists (Nat.max 1 (k x)). split; [unfold line; fold (k x); rewrite (Nat.min_l _ _ K); reflexivity|]. split; [lia|]. split; [reflexivity|].
    destruct (k x) as [|i] eqn:E.
    - cbn [Nat.max Nat.sub]. split; [exact L|]. destruct (Rlt_le_dec (f 1%nat) x) as [C|C]; [|exact C].
      apply (K2 1%nat ltac:(lia)) in C. lia.
    - replace (Nat.max 1 (S i)) with (S i) by lia. replace (S i - 1)%nat with i by lia. split.
      + left. apply K2; lia.
      + destruct (Rlt_le_dec (f (S i)) x) as [C|C]; [|exact C]. apply (K2 (S i) ltac:(lia)) in C. lia.
  Qed.
  Lemma line_le : forall a b c d x, a < b -> c < d -> a <= x <= b -> (d - c) / (b - a) * (x - a) + c <= d.
  Proof.
    intros a b c d x H K J. assert (E : d - ((d - c) / (b - a) * (x - a) + c) = (d - c) / (b - a) * (b - x)) by (field; lra).
    assert (0 <= (d - c) / (b - a) * (b - x)); [|lra]. apply Rmult_le_pos; [|lra]. left. apply Rmult_lt_0_compat; [lra|]. apply Rinv_0_lt_compat. lra.
  Qed.
  Lemma slope : forall a b c d, a < b -> c < d -> 0 < (d - c) / (b - a).
  Proof. intros. apply Rmult_lt_0_compat; [lra|]. apply Rinv_0_lt_compat. lra. Qed.
  Lemma line_up : forall x y, within x -> within y -> x < y -> line s x < line s y.
  Proof.
    intros x y Wx Wy L. destruct (interval x Wx) as (i & Ex & Bi & Ki & Ix). destruct (interval y Wy) as (j & Ey & Bj & Kj & Iy).
    rewrite Ex, Ey. clear Ex Ey.
    pose proof (f_up (i - 1) i ltac:(lia)) as Fi. pose proof (g_up (i - 1) i ltac:(lia)) as Gi.
    pose proof (f_up (j - 1) j ltac:(lia)) as Fj. pose proof (g_up (j - 1) j ltac:(lia)) as Gj.
    destruct (k_spec x) as (Kx1 & Kx2). destruct (k_spec y) as (Ky1 & Ky2).
    assert (O : (k x <= k y)%nat).
    { destruct (le_lt_dec (k x) (k y)) as [E|E]; [exact E|]. exfalso. pose proof (proj1 (Kx2 (k y) ltac:(lia)) E) as C.
      assert (y <= f (k y)); [|lra]. destruct (Rlt_le_dec (f (k y)) y) as [D|D]; [|exact D]. apply (Ky2 (k y) ltac:(lia)) in D. lia. }
    destruct (Nat.eq_dec i j) as [->|D].
    - pose proof (slope _ _ _ _ Fj Gj) as S. nra.
    - pose proof (line_le _ _ _ _ x Fi Gi Ix) as U. pose proof (g_le i (j - 1) ltac:(lia)) as V.
      assert (f (j - 1) < y) by (apply Ky2; lia). pose proof (slope _ _ _ _ Fj Gj) as S.
      assert (0 < (g j - g (j - 1)) / (f j - f (j - 1)) * (y - f (j - 1))) by (apply Rmult_lt_0_compat; lra). lra.
  Qed.
  Lemma line_at : forall j, (j < length s)%nat -> line s (f j) = g j.
  Proof.
    intros j H. assert (W : within (f j)).
    { split; [destruct (Nat.eq_dec j 0) as [->|D]; [lra|left; apply f_up; lia]|].
      destruct (Nat.eq_dec j (length s - 1)) as [->|D]; [lra|left; apply f_up; lia]. }
    destruct (interval (f j) W) as (i & E & Bi & Ki & Ii). rewrite E. pose proof (f_up (i - 1) i ltac:(lia)) as Fi.
    assert (O : (j = i \/ j = i - 1)%nat).
    { destruct (le_lt_dec j (i - 2)) as [C|C]; [|destruct (le_lt_dec j i) as [C'|C']; [lia|]].
      - destruct (Nat.eq_dec j (i - 1)) as [|D]; [tauto|]. exfalso. pose proof (f_up j (i - 1) ltac:(lia)). lra.
      - exfalso. pose proof (f_up i j ltac:(lia)). lra. }
    destruct O as [->| ->]; field; lra.
  Qed.
  Lemma within_of : forall x, (exists p, In p s /\ fst p <= x) -> (exists q, In q s /\ x <= fst q) -> within x.
  Proof.
    intros x (p & Hp & P) (q & Hq & Q). apply (In_nth _ _ (0, 0)) in Hp, Hq. destruct Hp as (i & Hi & <-). destruct Hq as (j & Hj & <-).
    fold (f i) in P. fold (f j) in Q. split.
    - destruct (Nat.eq_dec i 0) as [->|D]; [exact P|]. pose proof (f_up 0 i ltac:(lia)). lra.
    - destruct (Nat.eq_dec j (length s - 1)) as [->|D]; [exact Q|]. pose proof (f_up j (length s - 1) ltac:(lia)). lra.
  Qed.
  Definition inside (x : R) : Prop := (exists p, In p s /\ fst p <= x) /\ (exists q, In q s /\ x <= fst q).
  Lemma line_strict : forall x y, inside x -> inside y -> (x < y <-> line s x < line s y).
  Proof.
    intros x y (X1 & X2) (Y1 & Y2). pose proof (within_of x X1 X2) as Wx. pose proof (within_of y Y1 Y2) as Wy. split; [apply line_up; assumption|].
    intro L. destruct (Rtotal_order x y) as [C|[->|C]]; [exact C|lra|]. pose proof (line_up y x Wy Wx C). lra.
  Qed.
  Lemma line_point : forall p, In p s -> line s (fst p) = snd p.
  Proof. intros p H. apply (In_nth _ _ (0, 0)) in H. destruct H as (j & Hj & <-). apply line_at. exact Hj. Qed.
End Line.

(** ** Falling values. *)
Definition flip (p : R * R) : R * R := (fst p, - snd p).
Lemma line_flip : forall s x, line (map flip s) x = - line s x.
Proof.
  intros s x. unfold line. rewrite map_map, map_length. change (map (fun x0 => fst (flip x0)) s) with (map fst s).
  set (i := Nat.max _ _).
  assert (M : forall j, nth j (map flip s) (0, 0) = flip (nth j s (0, 0))).
  { intro j. rewrite <- (map_nth flip). unfold flip. cbn. rewrite Ropp_0. reflexivity. }
  rewrite !M. unfold flip. cbn [fst snd]. unfold Rdiv. ring.
Qed.

(** ** Sorting. *)
Lemma insert_first : forall p l, (forall q, In q l -> fst p < fst q) -> insert_pair p l = p :: l.
Proof.
  intros p [|q l] H; [reflexivity|]. cbn. rewrite (proj2 (ltb_false (fst q) (fst p))); [reflexivity|]. left. apply H. left. reflexivity.
Qed.
Lemma insert_last : forall p l, (forall q, In q l -> fst q < fst p) -> insert_pair p l = l ++ [p].
Proof.
  intros p. induction l as [|q l IH]; intro H; [reflexivity|]. cbn. rewrite (proj2 (ltb_true (fst q) (fst p))) by (apply H; left; reflexivity).
  f_equal. apply IH. intros r Hr. apply H. right. exact Hr.
Qed.
Lemma sorted_up : forall l, StronglySorted (fun p q => fst p < fst q) l -> sorted_pairs l = l.
Proof.
  intros l S. induction S as [|a l S IH F]; [reflexivity|]. unfold sorted_pairs in *. cbn [fold_right]. rewrite IH. apply insert_first.
  rewrite Forall_forall in F. exact F.
Qed.
Lemma sorted_down : forall l, StronglySorted (fun p q => fst q < fst p) l -> sorted_pairs l = rev l.
Proof.
  intros l S. induction S as [|a l S IH F]; [reflexivity|]. unfold sorted_pairs in *. cbn [fold_right rev]. rewrite IH. apply insert_last.
  rewrite Forall_forall in F. intros q H. apply F. apply in_rev. exact H.
Qed.
Lemma sorted_rev : forall {A} (P : A -> A -> Prop) l, StronglySorted P l -> StronglySorted (fun x y => P y x) (rev l).
Proof.
  intros A P l S. induction S as [|a l S IH F]; [constructor|]. cbn. apply sorted_app; [exact IH|repeat constructor|].
  intros x y Hx [<-|[]]. rewrite Forall_forall in F. apply F. apply in_rev. exact Hx.
Qed.
(** ** The interpolation of the code. *)
Definition point (x : smp) : R * R := (s_rho x, s_oet x).
Definition covered (xs : list smp) (r : R) : Prop := (exists x, In x xs /\ s_rho x <= r) /\ (exists x, In x xs /\ r <= s_rho x).
Lemma up_points : forall xs x, (2 <= length xs)%nat -> rising s_rho xs -> in_time s_oet xs -> In x xs -> interp1d (map point xs) (s_rho x) = s_oet x.
Proof.
  intros xs x N Ri Ti H. unfold interp1d. rewrite sorted_up by (eapply sorted_map; [|exact Ri]; intros; assumption).
  apply (line_point (map point xs)) with (p := point x).
  - eapply sorted_map; [|exact Ri]. intros; assumption.
  - rewrite map_length. exact N.
  - apply in_map. exact H.
Qed.
Lemma up_strict : forall xs a b, (2 <= length xs)%nat -> rising s_rho xs -> in_time s_oet xs -> covered xs a -> covered xs b ->
  (a < b <-> interp1d (map point xs) a < interp1d (map point xs) b).
Proof.
  intros xs a b N Ri Ti Ca Cb. unfold interp1d. rewrite sorted_up by (eapply sorted_map; [|exact Ri]; intros; assumption).
  assert (C : forall r, covered xs r -> inside (map point xs) r).
  { intros r ((x & Hx & Lx) & (y & Hy & Ly)). split; [exists (point x)|exists (point y)]; split; try (apply in_map; assumption); assumption. }
  apply (line_strict (map point xs)); try (apply C; assumption).
  - eapply sorted_map; [|exact Ri]. intros; assumption.
  - eapply sorted_map; [|exact Ti]. intros; assumption.
  - rewrite map_length. exact N.
Qed.
Section Down.
  Variable xs : list smp.
  Hypothesis N : (2 <= length xs)%nat.
  Hypothesis Fa : falling s_rho xs.
  Hypothesis Ti : in_time s_oet xs.
  Let s := map flip (rev (map point xs)).
  Lemma down_is : forall r, interp1d (map point xs) r = - line s r.
  Proof.
    intro r. unfold s. rewrite line_flip, Ropp_involutive. unfold interp1d.
    rewrite sorted_down by (eapply sorted_map; [|exact Fa]; intros; assumption). reflexivity.
  Qed.
  Lemma down_X : StronglySorted (fun p q => fst p < fst q) s.
  Proof.
    unfold s. apply sorted_map with (P := fun p q => fst p < fst q); [intros x y H; exact H|].
    apply (sorted_rev (fun p q : R * R => fst q < fst p)). eapply sorted_map; [|exact Fa]. intros; assumption.
  Qed.
  Lemma down_Y : StronglySorted (fun p q => snd p < snd q) s.
  Proof.
    unfold s. apply sorted_map with (P := fun p q => snd q < snd p); [intros x y H; cbn; lra|].
    apply (sorted_rev (fun p q : R * R => snd p < snd q)). eapply sorted_map; [|exact Ti]. intros; assumption.
  Qed.
  Lemma down_N : (2 <= length s)%nat.
  Proof. unfold s. rewrite map_length, rev_length, map_length. exact N. Qed.
  Lemma down_In : forall x, In x xs -> In (flip (point x)) s.
  Proof. intros x H. unfold s. apply in_map. apply -> in_rev. apply in_map. exact H. Qed.
  Lemma down_points : forall x, In x xs -> interp1d (map point xs) (s_rho x) = s_oet x.
  Proof.
    intros x H. rewrite down_is. pose proof (line_point s down_X down_N _ (down_In x H)) as L. cbn in L. rewrite L. lra.
  Qed.
  Lemma down_strict : forall a b, covered xs a -> covered xs b -> (a < b <-> interp1d (map point xs) b < interp1d (map point xs) a).
  Proof.
    intros a b Ca Cb. rewrite !down_is.
    assert (C : forall r, covered xs r -> inside s r).
    { intros r ((x & Hx & Lx) & (y & Hy & Ly)).
      split; [exists (flip (point x))|exists (flip (point y))]; split; try (apply down_In; assumption); assumption. }
    rewrite (line_strict s down_X down_Y down_N a b (C a Ca) (C b Cb)). lra.
  Qed.
End Down.
