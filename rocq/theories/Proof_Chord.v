(** * Proof_Chord: proofs of C68. *)
From Coq Require Import List ZArith Bool Reals Lra Lia Arith Sorted.
From Verif Require Import Base Model_Time Model_Chord Spec_Chord.
Import ListNotations.
Open Scope R_scope.

Lemma ltb_true : forall x y, ltb x y = true <-> x < y.
Proof. intros x y. unfold ltb. destruct (Rlt_dec x y); split; intro; try reflexivity; try assumption; try discriminate; contradiction. Qed.
Lemma ltb_false : forall x y, ltb x y = false <-> y <= x.
Proof. intros x y. unfold ltb. destruct (Rlt_dec x y); split; intro; try reflexivity; try discriminate; lra. Qed.
Lemma eqb_true : forall x y, eqb x y = true <-> x = y.
Proof. intros x y. unfold eqb. destruct (Req_EM_T x y); split; intro; try reflexivity; try assumption; try discriminate; contradiction. Qed.
Lemma mem_in : forall x l, mem x l = true <-> In x l.
Proof.
  intros x l. unfold mem. rewrite existsb_exists. split.
  - intros (y & H & E). apply eqb_true in E. subst y. exact H.
  - intro H. exists x. split; [exact H|]. apply eqb_true. reflexivity.
Qed.
Lemma sign_neg : forall x, x < 0 -> sign x = (-1)%Z.
Proof. intros x H. unfold sign. apply ltb_true in H. rewrite H. reflexivity. Qed.
Lemma sign_pos : forall x, 0 < x -> sign x = 1%Z.
Proof.
  intros x H. unfold sign. destruct (ltb x 0) eqn:E; [apply ltb_true in E; lra|]. apply ltb_true in H. rewrite H. reflexivity.
Qed.
Lemma sign_zero : sign 0 = 0%Z.
Proof. unfold sign. destruct (ltb 0 0) eqn:E; [apply ltb_true in E; lra|]. reflexivity. Qed.
Lemma sign_div : forall x d, 0 < d -> sign (x / d) = sign x.
Proof.
  intros x d D. assert (I : 0 < / d) by (apply Rinv_0_lt_compat; exact D). unfold Rdiv.
  destruct (Rtotal_order x 0) as [H|[->|H]].
  - rewrite !sign_neg; [reflexivity|exact H|nra].
  - rewrite Rmult_0_l. reflexivity.
  - rewrite !sign_pos; [reflexivity|exact H|nra].
Qed.
(** ** The changes of sign. *)
Lemma changes_in : forall l i k, In k (changes i l) <-> (i <= k)%nat /\ (S (k - i) < length l)%nat /\ nth (S (k - i)) l 0%Z <> nth (k - i) l 0%Z.
Proof.
  induction l as [|x l IH]; intros i k; [cbn; lia|].
  destruct l as [|y l]; [cbn; lia|]. change (changes i (x :: y :: l)) with
    (if Z.eqb (y - x) 0 then changes (S i) (y :: l) else i :: changes (S i) (y :: l)).
  assert (E : In k (changes (S i) (y :: l)) <-> (S i <= k)%nat /\ (S (k - i) < length (x :: y :: l))%nat /\
    nth (S (k - i)) (x :: y :: l) 0%Z <> nth (k - i) (x :: y :: l) 0%Z).
  { rewrite IH. split; intros (A & B & C).
    - split; [exact A|]. replace (k - i)%nat with (S (k - S i)) by lia. split; [cbn [length] in *; lia|exact C].
    - split; [exact A|]. replace (k - i)%nat with (S (k - S i)) in B, C by lia. split; [cbn [length] in *; lia|exact C]. }
  destruct (Z.eqb_spec (y - x) 0) as [L|L].
  - rewrite E. split.
    + intros (A & B & C). split; [lia|split; assumption].
    + intros (A & B & C). destruct (Nat.eq_dec i k) as [->|K].
      * rewrite Nat.sub_diag in C. cbn in C. lia.
      * split; [lia|]. split; assumption.
  - cbn [In]. rewrite E. split.
    + intros [<-|(A & B & C)]; [|split; [lia|split; assumption]]. rewrite Nat.sub_diag. cbn. split; [lia|]. split; [lia|lia].
    + intros (A & B & C). destruct (Nat.eq_dec i k) as [->|K]; [left; reflexivity|right]. split; [lia|]. split; assumption.
Qed.
Lemma changes_nodup : forall l i, NoDup (changes i l).
Proof.
  induction l as [|x l IH]; intro i; [constructor|]. destruct l as [|y l]; [constructor|].
  change (changes i (x :: y :: l)) with (if Z.eqb (y - x) 0 then changes (S i) (y :: l) else i :: changes (S i) (y :: l)).
  destruct (Z.eqb (y - x) 0); [apply IH|]. constructor; [|apply IH]. rewrite changes_in. lia.
Qed.
Lemma only_one : forall (l : list nat) k, NoDup l -> (forall j, In j l <-> j = k) -> l = [k].
Proof.
  intros [|a l] k N H; [exfalso; apply (proj2 (H k) eq_refl)|].
  assert (a = k) by (apply H; left; reflexivity). subst a. destruct l as [|b l]; [reflexivity|].
  assert (b = k) by (apply H; right; left; reflexivity). subst b. inversion N as [|? ? K _]; subst. exfalso. apply K. left. reflexivity.
Qed.
Lemma change_once : forall l k a b, (S k < length l)%nat -> a <> b ->
  (forall j, (j <= k)%nat -> nth j l 0%Z = a) -> (forall j, (k < j < length l)%nat -> nth j l 0%Z = b) -> changes 0 l = [k].
Proof.
  intros l k a b L D Ha Hb. apply only_one; [apply changes_nodup|]. intro j. rewrite changes_in, Nat.sub_0_r. split.
  - intros (_ & J & N). destruct (lt_eq_lt_dec j k) as [[H| ->]|H]; [|reflexivity|].
    + rewrite !Ha in N by lia. congruence.
    + rewrite !Hb in N by lia. congruence.
  - intros ->. split; [lia|]. split; [exact L|]. rewrite (Ha k) by lia. rewrite (Hb (S k)) by lia. congruence.
Qed.
Lemma change_twice : forall l j k, j <> k -> In j (changes 0 l) -> In k (changes 0 l) -> exists a b c, changes 0 l = a :: b :: c.
Proof.
  intros l j k D J K. destruct (changes 0 l) as [|a [|b c]]; [destruct J|exfalso|].
  - destruct J as [->|[]], K as [->|[]]. congruence.
  - eauto.
Qed.
(** ** The gradient. *)
Lemma gradient_length : forall l dt, length (gradient l dt) = length l.
Proof. intros l dt. unfold gradient. rewrite map_length, seq_length. reflexivity. Qed.
Lemma gradient_sign : forall l dt i, 0 < dt -> (i < length l)%nat -> nth i (map sign (gradient l dt)) 0%Z =
  sign (if (i =? 0)%nat then nth 1 l 0 - nth 0 l 0
        else if (i =? length l - 1)%nat then nth (length l - 1) l 0 - nth (length l - 2) l 0
        else nth (i + 1) l 0 - nth (i - 1) l 0).
Proof.
  intros l dt i D H. rewrite nth_indep with (d' := sign 0) by (rewrite map_length, gradient_length; exact H).
  rewrite map_nth. unfold gradient.
  set (g := fun i : nat => _).
  rewrite nth_indep with (d' := g O) by (rewrite map_length, seq_length; exact H). rewrite map_nth, seq_nth by exact H.
  rewrite Nat.add_0_l. unfold g.
  destruct (i =? 0)%nat; [apply sign_div; exact D|]. destruct (i =? length l - 1)%nat; [apply sign_div; exact D|].
  apply sign_div. lra.
Qed.
(** ** Lists. *)
Lemma sorted_nth : forall {A} (P : A -> A -> Prop) xs i j x y, StronglySorted P xs -> (i < j)%nat ->
  nth_error xs i = Some x -> nth_error xs j = Some y -> P x y.
Proof.
  intros A P xs. induction xs as [|a xs IH]; intros i j x y S L X Y; [destruct i; discriminate|].
  apply StronglySorted_inv in S. destruct S as (S & F). destruct j as [|j]; [lia|]. destruct i as [|i].
  - cbn in X, Y. injection X as <-. rewrite Forall_forall in F. apply F. eapply nth_error_In. exact Y.
  - cbn in X, Y. eapply IH; [exact S| |exact X|exact Y]. lia.
Qed.
Lemma nth_error_firstn' : forall {A} (xs : list A) n i, (i < n)%nat -> nth_error (firstn n xs) i = nth_error xs i.
Proof.
  intros A xs. induction xs as [|a xs IH]; intros n i H; [rewrite firstn_nil; reflexivity|].
  destruct n as [|n]; [lia|]. destruct i as [|i]; [reflexivity|]. cbn. apply IH. lia.
Qed.
Lemma nth_error_skipn' : forall {A} (xs : list A) n i, nth_error (skipn n xs) i = nth_error xs (n + i).
Proof.
  intros A xs. induction xs as [|a xs IH]; intros n i; [rewrite skipn_nil; destruct i, n; reflexivity|].
  destruct n as [|n]; [reflexivity|]. cbn. apply IH.
Qed.
Lemma sorted_filter : forall {A} (P : A -> A -> Prop) f xs, StronglySorted P xs -> StronglySorted P (filter f xs).
Proof.
  intros A P f xs S. induction S as [|a xs S IH F]; [constructor|]. cbn. destruct (f a); [|exact IH].
  constructor; [exact IH|]. rewrite Forall_forall in *. intros y H. apply filter_In in H. apply F. apply H.
Qed.
Lemma sorted_skipn : forall {A} (P : A -> A -> Prop) n xs, StronglySorted P xs -> StronglySorted P (skipn n xs).
Proof.
  intros A P. induction n as [|n IH]; intros xs S; [exact S|]. destruct xs as [|a xs]; [exact S|].
  apply StronglySorted_inv in S. apply IH. apply S.
Qed.
Lemma filter_frees : forall {A} (t : A -> R) atmos xs, frees t atmos xs (remove_blocked t xs atmos).
Proof.
  intros A t atmos. induction xs as [|x xs IH]; [constructor|]. unfold remove_blocked in *. cbn [filter].
  destruct (mem (t x) atmos) eqn:E; cbn [negb].
  - apply fr_drop; [|exact IH]. intro F. apply F. apply mem_in. exact E.
  - apply fr_keep; [|exact IH]. intro F. apply mem_in in F. congruence.
Qed.
Lemma blocked_app : forall {A} (t : A -> R) xs ys atmos, remove_blocked t (xs ++ ys) atmos = remove_blocked t xs atmos ++ remove_blocked t ys atmos.
Proof. intros. apply filter_app. Qed.
Lemma skipn_add : forall {A} n m (xs : list A), skipn n (skipn m xs) = skipn (n + m) xs.
Proof.
  intros A n m. revert n. induction m as [|m IH]; intros n xs; [rewrite Nat.add_0_r; reflexivity|].
  destruct xs as [|a xs]; [rewrite !skipn_nil; reflexivity|]. rewrite Nat.add_succ_r. cbn. apply IH.
Qed.
Lemma filter_le : forall {A} (f : A -> bool) xs, (length (filter f xs) <= length xs)%nat.
Proof. intros A f. induction xs as [|a xs IH]; [cbn; lia|]. cbn. destruct (f a); cbn; lia. Qed.
Lemma filter_all : forall {A} (f : A -> bool) xs, length (filter f xs) = length xs <-> forall x, In x xs -> f x = true.
Proof.
  intros A f xs. induction xs as [|a xs IH]; [cbn; tauto|]. cbn [filter]. destruct (f a) eqn:E.
  - cbn [length]. split.
    + intros H x [<-|K]; [exact E|]. apply IH; [lia|exact K].
    + intro H. f_equal. apply IH. intros x K. apply H. right. exact K.
  - cbn [length]. split.
    + intro H. pose proof (filter_le f xs). lia.
    + intro H. rewrite H in E by (left; reflexivity). discriminate.
Qed.

Section Proofs.
  Context {A : Type}.
  Variables t rho : A -> R.
  Lemma step_first_spec : forall xs x y, nth_error xs 0 = Some x -> nth_error xs 1 = Some y -> step_first rho xs = Some (rho y - rho x).
  Proof. intros [|a [|b xs]] x y H K; try discriminate. cbn in H, K. injection H as ->. injection K as ->. reflexivity. Qed.
  Lemma step_last_spec : forall xs x y, (2 <= length xs)%nat -> nth_error xs (length xs - 2) = Some x -> nth_error xs (length xs - 1) = Some y ->
    step_last rho xs = Some (rho y - rho x).
  Proof.
    intros xs x y L X Y. unfold step_last.
    assert (R : exists a b l, rev xs = b :: a :: l).
    { destruct (rev xs) as [|b [|a l]] eqn:E; [| |eauto]; apply (f_equal (@length A)) in E; rewrite rev_length in E; cbn in E; lia. }
    destruct R as (a & b & l & E). rewrite E. assert (X' : xs = rev l ++ [a; b]).
    { rewrite <- (rev_involutive xs), E. cbn. rewrite <- app_assoc. reflexivity. }
    assert (N : length xs = (length (rev l) + 2)%nat) by (rewrite X', app_length; reflexivity).
    replace (length xs - 2)%nat with (length (rev l)) in X by lia. replace (length xs - 1)%nat with (length (rev l) + 1)%nat in Y by lia.
    rewrite X' in X, Y. rewrite nth_error_app2 in X, Y by lia. rewrite Nat.sub_diag in X.
    replace (length (rev l) + 1 - length (rev l))%nat with 1%nat in Y by lia. cbn in X, Y. congruence.
  Qed.
  Lemma nth_some : forall (xs : list A) i, (i < length xs)%nat -> exists x, nth_error xs i = Some x.
  Proof. intros xs i H. destruct (nth_error xs i) as [x|] eqn:E; [eauto|]. apply nth_error_None in E. lia. Qed.
  Lemma nth_rho : forall (xs : list A) i x, nth_error xs i = Some x -> nth i (map rho xs) 0 = rho x.
  Proof. intros xs i x H. apply nth_error_nth. apply map_nth_error. exact H. Qed.

  Lemma goes_in : forall xs dt atmos, (2 <= length xs)%nat -> falling rho xs -> directions t rho xs dt atmos = Returns (INGRESS, xs, None).
  Proof.
    intros xs dt atmos L F. unfold directions, get_profile_dir.
    destruct (nth_some xs 0 ltac:(lia)) as (x0 & E0). destruct (nth_some xs 1 ltac:(lia)) as (x1 & E1).
    destruct (nth_some xs (length xs - 2) ltac:(lia)) as (y0 & F0). destruct (nth_some xs (length xs - 1) ltac:(lia)) as (y1 & F1).
    rewrite (step_first_spec _ _ _ E0 E1), (step_last_spec _ _ _ L F0 F1).
    assert (rho x1 < rho x0) by (eapply (sorted_nth _ xs 0 1 x0 x1 F); [lia|assumption..]).
    assert (rho y1 < rho y0) by (eapply (sorted_nth _ xs (length xs - 2) (length xs - 1) y0 y1 F); [lia|assumption..]).
    rewrite (proj2 (ltb_true (rho x1 - rho x0) 0)), (proj2 (ltb_true (rho y1 - rho y0) 0)) by lra. reflexivity.
  Qed.
  Lemma goes_out : forall xs dt atmos, (2 <= length xs)%nat -> rising rho xs -> directions t rho xs dt atmos = Returns (EGRESS, xs, None).
  Proof.
    intros xs dt atmos L F. unfold directions, get_profile_dir.
    destruct (nth_some xs 0 ltac:(lia)) as (x0 & E0). destruct (nth_some xs 1 ltac:(lia)) as (x1 & E1).
    destruct (nth_some xs (length xs - 2) ltac:(lia)) as (y0 & F0). destruct (nth_some xs (length xs - 1) ltac:(lia)) as (y1 & F1).
    rewrite (step_first_spec _ _ _ E0 E1), (step_last_spec _ _ _ L F0 F1).
    assert (rho x0 < rho x1) by (eapply (sorted_nth _ xs 0 1 x0 x1 F); [lia|assumption..]).
    assert (rho y0 < rho y1) by (eapply (sorted_nth _ xs (length xs - 2) (length xs - 1) y0 y1 F); [lia|assumption..]).
    rewrite (proj2 (ltb_false (rho x1 - rho x0) 0)) by lra.
    rewrite (proj2 (ltb_true 0 (rho x1 - rho x0))), (proj2 (ltb_true 0 (rho y1 - rho y0))) by lra. reflexivity.
  Qed.

  (** ** A chord. *)
  Lemma valley_falls : forall xs m i j x y, valley rho xs m -> (i < j <= m)%nat -> nth_error xs i = Some x -> nth_error xs j = Some y -> rho y < rho x.
  Proof.
    intros xs m i j x y (_ & _ & F & _) H X Y. eapply (sorted_nth _ _ i j x y F); [lia| |]; rewrite nth_error_firstn' by lia; assumption.
  Qed.
  Lemma valley_rises : forall xs m i j x y, valley rho xs m -> (m <= i < j)%nat -> nth_error xs i = Some x -> nth_error xs j = Some y -> rho x < rho y.
  Proof.
    intros xs m i j x y (_ & _ & _ & F) H X Y. eapply (sorted_nth _ _ (i - m) (j - m) x y F); [lia| |]; rewrite nth_error_skipn';
      [replace (m + (i - m))%nat with i by lia|replace (m + (j - m))%nat with j by lia]; assumption.
  Qed.
  Lemma valley_signs : forall xs m dt a b c i, valley rho xs m -> 0 < dt -> around xs m a b c -> (i < length xs)%nat ->
    nth i (map sign (gradient (map rho xs) dt)) 0%Z =
    if (i <? m)%nat then (-1)%Z else if (i =? m)%nat then sign (rho c - rho a) else 1%Z.
  Proof.
    intros xs m dt a b c i V D (Na & Nb & Nc) H. rewrite gradient_sign by (rewrite ?map_length; assumption). rewrite map_length.
    pose proof V as (M0 & M1 & _ & _).
    destruct (Nat.eqb_spec i 0) as [->|I0].
    - destruct (nth_some xs 0 ltac:(lia)) as (x0 & E0). destruct (nth_some xs 1 ltac:(lia)) as (x1 & E1).
      rewrite (nth_rho _ _ _ E0), (nth_rho _ _ _ E1). destruct (Nat.ltb_spec 0 m); [|lia].
      apply sign_neg. pose proof (valley_falls xs m 0 1 x0 x1 V ltac:(lia) E0 E1). lra.
    - destruct (Nat.eqb_spec i (length xs - 1)) as [->|I1].
      + destruct (nth_some xs (length xs - 2) ltac:(lia)) as (y0 & F0). destruct (nth_some xs (length xs - 1) ltac:(lia)) as (y1 & F1).
        rewrite (nth_rho _ _ _ F0), (nth_rho _ _ _ F1). destruct (Nat.ltb_spec (length xs - 1) m); [lia|].
        destruct (Nat.eqb_spec (length xs - 1) m); [lia|]. apply sign_pos.
        pose proof (valley_rises xs m (length xs - 2) (length xs - 1) y0 y1 V ltac:(lia) F0 F1). lra.
      + destruct (nth_some xs (i + 1) ltac:(lia)) as (y1 & F1). destruct (nth_some xs (i - 1) ltac:(lia)) as (y0 & F0).
        rewrite (nth_rho _ _ _ F0), (nth_rho _ _ _ F1). destruct (Nat.ltb_spec i m) as [L|L].
        * apply sign_neg. pose proof (valley_falls xs m (i - 1) (i + 1) y0 y1 V ltac:(lia) F0 F1). lra.
        * destruct (Nat.eqb_spec i m) as [->|K]; [rewrite Na in F0; rewrite Nc in F1; congruence|].
          apply sign_pos. pose proof (valley_rises xs m (i - 1) (i + 1) y0 y1 V ltac:(lia) F0 F1). lra.
  Qed.
  Lemma signs_length : forall (xs : list A) dt, length (map sign (gradient (map rho xs) dt)) = length xs.
  Proof. intros. rewrite map_length, gradient_length, map_length. reflexivity. Qed.
  Lemma chord_index : forall xs m dt a b c, valley rho xs m -> 0 < dt -> around xs m a b c ->
    (rho a < rho c -> get_chord_ind (gradient (map rho xs) dt) = At (m + 1)) /\
    (rho c < rho a -> get_chord_ind (gradient (map rho xs) dt) = At (m + 2)) /\
    (rho a = rho c -> get_chord_ind (gradient (map rho xs) dt) = Several).
  Proof.
    intros xs m dt a b c V D N. pose proof V as (M0 & M1 & _). pose proof (valley_signs xs m dt a b c) as Sg.
    pose proof (signs_length xs dt) as Ls. unfold get_chord_ind. split; [|split]; intro H.
    - rewrite (change_once _ (m - 1) (-1)%Z 1%Z).
      + f_equal. lia.
      + rewrite Ls. lia.
      + discriminate.
      + intros j J. rewrite Sg by (assumption || lia). destruct (Nat.ltb_spec j m); [reflexivity|lia].
      + intros j J. rewrite Ls in J. rewrite Sg by (assumption || lia). destruct (Nat.ltb_spec j m); [lia|].
        destruct (j =? m)%nat; [|reflexivity]. apply sign_pos. lra.
    - rewrite (change_once _ m (-1)%Z 1%Z).
      + reflexivity.
      + rewrite Ls. lia.
      + discriminate.
      + intros j J. rewrite Sg by (assumption || lia). destruct (Nat.ltb_spec j m); [reflexivity|].
        destruct (Nat.eqb_spec j m); [|lia]. apply sign_neg. lra.
      + intros j J. rewrite Ls in J. rewrite Sg by (assumption || lia). destruct (Nat.ltb_spec j m); [lia|].
        destruct (Nat.eqb_spec j m); [lia|reflexivity].
    - destruct (change_twice (map sign (gradient (map rho xs) dt)) (m - 1) m) as (u & v & w & E).
      + lia.
      + apply changes_in. rewrite Nat.sub_0_r. split; [lia|]. split; [rewrite Ls; lia|].
        replace (S (m - 1)) with m by lia. rewrite !Sg by (assumption || lia). rewrite Nat.ltb_irrefl, Nat.eqb_refl.
        destruct (Nat.ltb_spec (m - 1) m); [|lia]. replace (rho c - rho a) with 0 by lra. rewrite sign_zero. discriminate.
      + apply changes_in. rewrite Nat.sub_0_r. split; [lia|]. split; [rewrite Ls; lia|].
        rewrite !Sg by (assumption || lia). rewrite Nat.ltb_irrefl, Nat.eqb_refl.
        destruct (Nat.ltb_spec (S m) m); [lia|]. destruct (Nat.eqb_spec (S m) m); [lia|].
        replace (rho c - rho a) with 0 by lra. rewrite sign_zero. discriminate.
      + rewrite E. reflexivity.
  Qed.
  Lemma valley_steps : forall xs m, valley rho xs m -> exists d1 d2, step_first rho xs = Some d1 /\ step_last rho xs = Some d2 /\ d1 < 0 /\ 0 < d2.
  Proof.
    intros xs m V. pose proof V as (M0 & M1 & _).
    destruct (nth_some xs 0 ltac:(lia)) as (x0 & E0). destruct (nth_some xs 1 ltac:(lia)) as (x1 & E1).
    destruct (nth_some xs (length xs - 2) ltac:(lia)) as (y0 & F0). destruct (nth_some xs (length xs - 1) ltac:(lia)) as (y1 & F1).
    exists (rho x1 - rho x0), (rho y1 - rho y0). split; [apply step_first_spec; assumption|]. split; [apply step_last_spec; assumption || lia|].
    pose proof (valley_falls xs m 0 1 x0 x1 V ltac:(lia) E0 E1).
    pose proof (valley_rises xs m (length xs - 2) (length xs - 1) y0 y1 V ltac:(lia) F0 F1). lra.
  Qed.
  Lemma valley_dir : forall xs m dt atmos, valley rho xs m ->
    get_profile_dir t rho xs (gradient (map rho xs) dt) atmos = verify_chord t rho xs (gradient (map rho xs) dt) atmos.
  Proof.
    intros xs m dt atmos V. destruct (valley_steps xs m V) as (d1 & d2 & E1 & E2 & H1 & H2). unfold get_profile_dir. rewrite E1, E2.
    rewrite (proj2 (ltb_true d1 0) H1), (proj2 (ltb_false d2 0)), (proj2 (ltb_false 0 d1)) by lra. reflexivity.
  Qed.
  (** What is asked of the sample at the split and of the two parts. *)
  Lemma both_parts : forall xs m dt atmos ind x, valley rho xs m ->
    get_chord_ind (gradient (map rho xs) dt) = At ind -> nth_error xs ind = Some x -> rho x <= 170000 ->
    (exists y, In y (firstn ind xs) /\ free t atmos y) -> (exists y, In y (skipn ind xs) /\ free t atmos y) ->
    directions t rho xs dt atmos = Returns (BOTH, xs, Some (remove_blocked t (firstn ind xs) atmos, remove_blocked t (skipn ind xs) atmos)).
  Proof.
    intros xs m dt atmos ind x V G X B (y1 & I1 & F1) (y2 & I2 & F2). unfold directions.
    rewrite (valley_dir xs m dt atmos V). unfold verify_chord. rewrite G, X, (proj2 (ltb_false 170000 (rho x)) B). cbn [andb].
    assert (N : forall l y, In y l -> free t atmos y -> (length (filter (fun y => mem (t y) atmos) l) =? length l)%nat = false).
    { intros l y Iy Fy. apply Nat.eqb_neq. intro K. rewrite filter_all in K. specialize (K y Iy). apply mem_in in K. apply Fy. exact K. }
    rewrite (N _ y1 I1 F1), (N _ y2 I2 F2). unfold split_chord_arr.
    destruct (valley_steps xs m V) as (d1 & d2 & E1 & E2 & H1 & H2). rewrite E1, E2.
    rewrite (proj2 (ltb_true d1 0) H1), (proj2 (ltb_false d2 0)), (proj2 (ltb_false 0 d1)) by lra. reflexivity.
  Qed.
  Lemma chord_exact : forall xs m dt atmos a b c, valley rho xs m -> 0 < dt -> around xs m a b c -> rho a < rho c -> rho c <= 170000 ->
    (exists y, In y (firstn (m + 1) xs) /\ free t atmos y) -> (exists y, In y (skipn (m + 1) xs) /\ free t atmos y) ->
    exists ing egr, directions t rho xs dt atmos = Returns (BOTH, xs, Some (ing, egr)) /\
      frees t atmos xs (ing ++ egr) /\ falling rho ing /\ rising rho egr.
  Proof.
    intros xs m dt atmos a b c V D N L B F1 F2. destruct (chord_index xs m dt a b c V D N) as (G & _ & _). specialize (G L).
    eexists _, _. split; [eapply both_parts; eauto; apply N|]. split; [|split].
    - rewrite <- blocked_app, firstn_skipn. apply filter_frees.
    - apply sorted_filter. destruct V as (_ & _ & F & _). rewrite Nat.add_1_r. exact F.
    - apply sorted_filter. destruct V as (_ & _ & _ & F).
      replace (skipn (m + 1) xs) with (skipn 1 (skipn m xs)); [apply sorted_skipn; exact F|].
      rewrite skipn_add. f_equal. lia.
  Qed.
  Lemma chord_late : forall xs m dt a b c x, valley rho xs m -> 0 < dt -> around xs m a b c -> rho c < rho a ->
    nth_error xs (m + 2) = Some x -> rho x <= 170000 ->
    exists ing egr, directions t rho xs dt [] = Returns (BOTH, xs, Some (ing, egr)) /\ ing ++ egr = xs /\ In b ing /\ In c ing /\ ~ falling rho ing.
  Proof.
    intros xs m dt a b c x V D N L X B. destruct (chord_index xs m dt a b c V D N) as (_ & G & _). specialize (G L).
    pose proof N as (Na & Nb & Nc).
    assert (R : forall l : list A, remove_blocked t l [] = l) by (induction l as [|y l IH]; [reflexivity|unfold remove_blocked in *; cbn in *; rewrite IH; reflexivity]).
    assert (Ib : nth_error (firstn (m + 2) xs) m = Some b) by (rewrite nth_error_firstn' by lia; exact Nb).
    assert (Ic : nth_error (firstn (m + 2) xs) (m + 1) = Some c) by (rewrite nth_error_firstn' by lia; exact Nc).
    exists (firstn (m + 2) xs), (skipn (m + 2) xs). split; [|split; [apply firstn_skipn|split; [|split]]].
    - rewrite (both_parts xs m dt [] (m + 2) x V G X B); [rewrite !R; reflexivity| |].
      + exists b. split; [eapply nth_error_In; exact Ib|intros []].
      + exists x. split; [|intros []]. apply nth_error_In with (n := O). rewrite nth_error_skipn', Nat.add_0_r. exact X.
    - eapply nth_error_In; exact Ib.
    - eapply nth_error_In; exact Ic.
    - intro F. pose proof (sorted_nth _ _ m (m + 1) b c F ltac:(lia) Ib Ic) as K. cbn in K.
      pose proof (valley_rises xs m m (m + 1) b c V ltac:(lia) Nb Nc). lra.
  Qed.
  Lemma chord_even : forall xs m dt atmos a b c, valley rho xs m -> 0 < dt -> around xs m a b c -> rho a = rho c ->
    directions t rho xs dt atmos = Raises.
  Proof.
    intros xs m dt atmos a b c V D N L. destruct (chord_index xs m dt a b c V D N) as (_ & _ & G). specialize (G L).
    unfold directions. rewrite (valley_dir xs m dt atmos V). unfold verify_chord. rewrite G. reflexivity.
  Qed.
  Lemma chord_end : forall xs m dt atmos a b c, valley rho xs m -> 0 < dt -> around xs m a b c -> rho c < rho a -> length xs = (m + 2)%nat ->
    directions t rho xs dt atmos = Raises.
  Proof.
    intros xs m dt atmos a b c V D N L E. destruct (chord_index xs m dt a b c V D N) as (_ & G & _). specialize (G L).
    unfold directions. rewrite (valley_dir xs m dt atmos V). unfold verify_chord. rewrite G.
    rewrite (proj2 (nth_error_None xs (m + 2))) by lia. reflexivity.
  Qed.
  (** ** The parts of any split. *)
  Lemma chord_far : forall xs m dt atmos a b c, valley rho xs m -> 0 < dt -> around xs m a b c -> rho a < rho c -> 170000 < rho c ->
    directions t rho xs dt atmos = Raises.
  Proof.
    intros xs m dt atmos a b c V D Ar L F. unfold directions. rewrite (valley_dir xs m dt atmos V). unfold verify_chord.
    rewrite (proj1 (chord_index xs m dt a b c V D Ar) L). destruct Ar as (_ & _ & Hc). rewrite Hc.
    rewrite (proj2 (ltb_true 170000 (rho c)) F).
    assert (B : forallb (fun y => ltb 170000 (rho y)) (skipn (m + 1) xs) = true).
    { apply forallb_forall. intros y Hy. apply ltb_true. apply In_nth_error in Hy. destruct Hy as (i & Hi). rewrite nth_error_skipn' in Hi.
      destruct i as [|i]; [rewrite Nat.add_0_r, Hc in Hi; injection Hi as <-; exact F|].
      pose proof (valley_rises xs m (m + 1) (m + 1 + S i) c y V ltac:(lia) Hc Hi). lra. }
    rewrite B. reflexivity.
  Qed.
  Lemma split_parts : forall xs atmos ind ing egr,
    split_chord_arr t rho xs atmos ind INGRESS = Returns ing -> split_chord_arr t rho xs atmos ind EGRESS = Returns egr ->
    exists d, step_first rho xs = Some d /\ (d < 0 -> frees t atmos xs (ing ++ egr)) /\ (0 <= d -> frees t atmos xs (egr ++ ing)).
  Proof.
    intros xs atmos ind ing egr I E. unfold split_chord_arr in *. destruct (step_first rho xs) as [d|]; [|discriminate].
    destruct (step_last rho xs) as [d2|]; [|discriminate].
    destruct ((ltb d 0 && ltb d2 0) || (ltb 0 d && ltb 0 d2))%bool; [discriminate|].
    injection I as <-. injection E as <-. exists d. split; [reflexivity|]. split; intro H.
    - rewrite (proj2 (ltb_true d 0) H), <- blocked_app, firstn_skipn. apply filter_frees.
    - rewrite (proj2 (ltb_false d 0) H), <- blocked_app, firstn_skipn. apply filter_frees.
  Qed.
  (** ** A half behind the atmosphere. *)
  Lemma lmin_first : forall l x, (forall y, In y l -> x < y) -> lmin x l = x.
  Proof.
    unfold lmin. induction l as [|y l IH]; intros x H; [reflexivity|]. cbn [fold_left].
    assert (x < y) by (apply H; left; reflexivity). rewrite (proj2 (ltb_false y x)) by lra. apply IH. intros z Hz. apply H. right. exact Hz.
  Qed.
  Lemma lmax_last : forall l x z, StronglySorted Rlt (x :: l) -> nth_error (x :: l) (length l) = Some z -> lmax x l = z.
  Proof.
    unfold lmax. induction l as [|y l IH]; intros x z S H; [cbn in H; injection H as <-; reflexivity|]. cbn [fold_left].
    apply StronglySorted_inv in S. destruct S as (S & F). rewrite Forall_forall in F.
    rewrite (proj2 (ltb_true x y)) by (apply F; left; reflexivity). apply IH; [exact S|exact H].
  Qed.
  Lemma find_at : forall xs i j x, in_time t xs -> nth_error xs j = Some x -> find_time t i (t x) xs = Some (i + j)%nat.
  Proof.
    induction xs as [|a xs IH]; intros i j x S H; [destruct j; discriminate|].
    apply StronglySorted_inv in S. destruct S as (S & F). rewrite Forall_forall in F. cbn [find_time]. destruct j as [|j].
    - cbn in H. injection H as ->. rewrite (proj2 (eqb_true (t x) (t x)) eq_refl). f_equal. lia.
    - cbn in H. assert (t a < t x) by (apply F; eapply nth_error_In; exact H).
      destruct (eqb (t a) (t x)) eqn:E; [apply eqb_true in E; lra|]. rewrite (IH (Datatypes.S i) j x S H). f_equal. lia.
  Qed.
  Lemma in_time_map : forall xs, in_time t xs -> StronglySorted Rlt (map t xs).
  Proof.
    intros xs S. induction S as [|a xs S IH F]; [constructor|]. cbn. constructor; [exact IH|].
    rewrite Forall_forall in *. intros y H. apply in_map_iff in H. destruct H as (x & <- & H). apply F. exact H.
  Qed.
  Lemma remove_run : forall xs i n, in_time t xs -> (0 < n)%nat -> (i + n <= length xs)%nat ->
    remove_atmos_values t xs (map t (firstn n (skipn i xs))) = Returns (firstn i xs ++ skipn (i + n) xs).
  Proof.
    intros xs i n S N L.
    assert (Ss : in_time t (firstn n (skipn i xs))).
    { assert (K : forall m l, in_time t l -> in_time t (firstn m l)).
      { induction m as [|m IH]; intros l Sl; [constructor|]. destruct l as [|a l]; [constructor|].
        apply StronglySorted_inv in Sl. destruct Sl as (Sl & F). cbn. constructor; [apply IH; exact Sl|].
        rewrite Forall_forall in *. intros y H. apply F. rewrite <- (firstn_skipn m l). apply in_or_app. left. exact H. }
      apply K. apply sorted_skipn. exact S. }
    assert (Ln : length (firstn n (skipn i xs)) = n) by (rewrite firstn_length, skipn_length; lia).
    destruct (nth_some xs i ltac:(lia)) as (x & X). destruct (nth_some xs (i + n - 1) ltac:(lia)) as (z & Z).
    assert (X' : nth_error (firstn n (skipn i xs)) 0 = Some x) by (rewrite nth_error_firstn', nth_error_skipn', Nat.add_0_r by lia; exact X).
    assert (Z' : nth_error (firstn n (skipn i xs)) (n - 1) = Some z).
    { rewrite nth_error_firstn', nth_error_skipn' by lia. replace (i + (n - 1))%nat with (i + n - 1)%nat by lia. exact Z. }
    set (l := firstn n (skipn i xs)) in *. destruct l as [|a l]; [cbn in Ln; lia|]. cbn in X'. injection X' as ->.
    unfold remove_atmos_values. cbn [map]. pose proof (in_time_map _ Ss) as Sm. cbn [map] in Sm.
    rewrite lmin_first; [|intros y H; apply StronglySorted_inv in Sm; destruct Sm as (_ & F); rewrite Forall_forall in F; apply F; exact H].
    rewrite (lmax_last (map t l) (t x) (t z)); [|exact Sm|].
    - rewrite (find_at xs 0 i x S X), (find_at xs 0 (i + n - 1) z S Z). cbn [Nat.add].
      destruct (Nat.ltb_spec (i + n - 1) i); [lia|]. replace (i + n - 1 + 1)%nat with (i + n)%nat by lia. reflexivity.
    - rewrite map_length. change (t x :: map t l) with (map t (x :: l)). apply map_nth_error. cbn in Ln.
      replace (length l) with (n - 1)%nat by lia. exact Z'.
  Qed.
  Lemma split_beyond : forall xs m dt atmos ind x, valley rho xs m ->
    get_chord_ind (gradient (map rho xs) dt) = At ind -> nth_error xs ind = Some x -> rho x <= 170000 ->
    directions t rho xs dt atmos =
    match (let blocked := fun l => length (filter (fun y => mem (t y) atmos) l) in
              if (blocked (firstn ind xs) =? length (firstn ind xs))%nat
              then match remove_atmos_values t xs atmos with
                   | Returns ys => Returns (EGRESS, ys) | Raises => Raises | Exits => Exits end
              else if (blocked (skipn ind xs) =? length (skipn ind xs))%nat
              then match remove_atmos_values t xs atmos with
                   | Returns ys => Returns (INGRESS, ys) | Raises => Raises | Exits => Exits end
              else Returns (BOTH, xs)) with
    | Returns (BOTH, ys) =>
            match split_chord_arr t rho ys atmos ind INGRESS, split_chord_arr t rho ys atmos ind EGRESS with
            | Returns a, Returns b => Returns (BOTH, ys, Some (a, b))
            | _, _ => Raises
            end
    | Returns (d, ys) => Returns (d, ys, None)
    | Raises => Raises
    | Exits => Exits
    end.
  Proof.
    intros xs m dt atmos ind x V G X B. unfold directions. rewrite (valley_dir xs m dt atmos V). unfold verify_chord.
    rewrite G, X, (proj2 (ltb_false 170000 (rho x)) B). cbn [andb]. reflexivity.
  Qed.
  Lemma firstn_in : forall (xs : list A) m n y, (m <= n)%nat -> In y (firstn m xs) -> In y (firstn n xs).
  Proof.
    intros xs m n y L H. replace (firstn m xs) with (firstn m (firstn n xs)) in H by (rewrite firstn_firstn; f_equal; lia).
    rewrite <- (firstn_skipn m (firstn n xs)). apply in_or_app. left. exact H.
  Qed.
  Lemma blocked_ingress : forall xs m dt k a b c, valley rho xs m -> 0 < dt -> around xs m a b c -> rho a < rho c -> rho c <= 170000 ->
    in_time t xs -> (m < k <= length xs)%nat ->
    directions t rho xs dt (map t (firstn k xs)) = Returns (EGRESS, skipn k xs, None).
  Proof.
    intros xs m dt k a b c V D N L B T K. destruct (chord_index xs m dt a b c V D N) as (G & _ & _). specialize (G L).
    rewrite (split_beyond xs m dt _ (m + 1) c V G); [|apply N|exact B]. cbv beta zeta.
    assert (F : length (filter (fun y => mem (t y) (map t (firstn k xs))) (firstn (m + 1) xs)) = length (firstn (m + 1) xs)).
    { apply filter_all. intros y Hy. apply mem_in. apply in_map. eapply firstn_in; [|exact Hy]. lia. }
    rewrite F, Nat.eqb_refl. pose proof (remove_run xs 0 k T ltac:(lia) ltac:(lia)) as Rr. cbn [skipn firstn app Nat.add] in Rr.
    rewrite Rr. reflexivity.
  Qed.
  Lemma blocked_egress : forall xs m dt k a b c, valley rho xs m -> 0 < dt -> around xs m a b c -> rho a < rho c -> rho c <= 170000 ->
    in_time t xs -> (0 < k <= m + 1)%nat ->
    directions t rho xs dt (map t (skipn k xs)) = Returns (INGRESS, firstn k xs, None).
  Proof.
    intros xs m dt k a b c V D N L B T K. destruct (chord_index xs m dt a b c V D N) as (G & _ & _). specialize (G L).
    pose proof V as (M0 & M1 & _).
    rewrite (split_beyond xs m dt _ (m + 1) c V G); [|apply N|exact B]. cbv beta zeta.
    assert (F : length (filter (fun y => mem (t y) (map t (skipn k xs))) (skipn (m + 1) xs)) = length (skipn (m + 1) xs)).
    { apply filter_all. intros y Hy. apply mem_in. apply in_map. replace (m + 1)%nat with (m + 1 - k + k)%nat in Hy by lia.
      rewrite <- skipn_add in Hy. rewrite <- (firstn_skipn (m + 1 - k) (skipn k xs)). apply in_or_app. right. exact Hy. }
    assert (F1 : (length (filter (fun y => mem (t y) (map t (skipn k xs))) (firstn (m + 1) xs)) =? length (firstn (m + 1) xs))%nat = false).
    { apply Nat.eqb_neq. intro E. rewrite filter_all in E. destruct (nth_some xs 0 ltac:(lia)) as (x0 & X0).
      assert (I0 : In x0 (firstn (m + 1) xs)) by (apply nth_error_In with (n := O); rewrite nth_error_firstn' by lia; exact X0).
      specialize (E x0 I0). apply mem_in in E. apply in_map_iff in E. destruct E as (y & Ey & Hy).
      apply In_nth_error in Hy. destruct Hy as (j & Hj). rewrite nth_error_skipn' in Hj.
      pose proof (sorted_nth _ xs 0 (k + j) x0 y T ltac:(lia) X0 Hj). cbn in H. lra. }
    rewrite F, F1, Nat.eqb_refl. pose proof (remove_run xs k (length xs - k) T ltac:(lia) ltac:(lia)) as Rr.
    rewrite firstn_all2 in Rr by (rewrite skipn_length; lia). replace (k + (length xs - k))%nat with (length xs) in Rr by lia.
    rewrite skipn_all, app_nil_r in Rr. rewrite Rr. reflexivity.
  Qed.
End Proofs.
