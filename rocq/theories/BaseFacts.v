(** * BaseFacts: lemmas about the vocabulary of Base.v. *)
From Coq Require Import List ZArith Lia Bool.
From Verif Require Import Base.
Import ListNotations.
Open Scope Z_scope.

Lemma bind_ok {A B} (m : res A) (f : A -> res B) b :
  bind m f = Ok b -> exists a, m = Ok a /\ f a = Ok b.
Proof. destruct m; simpl; [eauto | discriminate]. Qed.
Lemma bind_ub {A B} (m : res A) (f : A -> res B) u :
  bind m f = UB u -> m = UB u \/ exists a, m = Ok a /\ f a = UB u.
Proof. destruct m; simpl; intros; [right; eauto | left; congruence]. Qed.
Lemma bind_assoc {A B C} (m : res A) (f : A -> res B) (g : B -> res C) :
  bind (bind m f) g = bind m (fun x => bind (f x) g).
Proof. destruct m; reflexivity. Qed.
Lemma bind_ret {A} (m : res A) : bind m (fun x => Ok x) = m.
Proof. destruct m; reflexivity. Qed.
Lemma bind_ext {A B} (m : res A) (f g : A -> res B) :
  (forall a, m = Ok a -> f a = g a) -> bind m f = bind m g.
Proof. destruct m; simpl; auto. Qed.

(** Inversion of a successful computation. *)
Ltac inv_ok H :=
  match type of H with
  | bind _ _ = Ok _ =>
      let a := fresh "v" in let H1 := fresh "E" in
      apply bind_ok in H; destruct H as [a [H1 H]]; cbv beta in H; inv_ok H
  | _ => idtac
  end.

(** ** Lists and arrays *)
Lemma zlen_nonneg {A} (l : list A) : 0 <= zlen l.
Proof. unfold zlen; lia. Qed.
Lemma zlen_nil {A} : zlen (@nil A) = 0.
Proof. reflexivity. Qed.
Lemma zlen_cons {A} (a : A) l : zlen (a :: l) = zlen l + 1.
Proof. unfold zlen; simpl length; lia. Qed.
Lemma zlen_app {A} (l m : list A) : zlen (l ++ m) = zlen l + zlen m.
Proof. unfold zlen; rewrite app_length; lia. Qed.
Lemma zlen_map {A B} (f : A -> B) l : zlen (map f l) = zlen l.
Proof. unfold zlen; rewrite map_length; reflexivity. Qed.
Lemma zlen_rev {A} (l : list A) : zlen (rev l) = zlen l.
Proof. unfold zlen; rewrite rev_length; reflexivity. Qed.
Lemma zlen_repeat {A} (a : A) n : 0 <= n -> zlen (repeat a (Z.to_nat n)) = n.
Proof. intros; unfold zlen; rewrite repeat_length; lia. Qed.
Lemma zlen_firstn {A} (l : list A) n :
  0 <= n <= zlen l -> zlen (firstn (Z.to_nat n) l) = n.
Proof. unfold zlen; intros; rewrite firstn_length; lia. Qed.
Lemma zlen_skipn {A} (l : list A) n :
  0 <= n <= zlen l -> zlen (skipn (Z.to_nat n) l) = zlen l - n.
Proof. unfold zlen; intros; rewrite skipn_length; lia. Qed.

Lemma lset_length {A} (l : list A) i x : length (lset l i x) = length l.
Proof. revert i; induction l; destruct i; simpl; auto. Qed.
Lemma lset_same {A} (l : list A) i x :
  (i < length l)%nat -> nth_error (lset l i x) i = Some x.
Proof.
  revert i; induction l; destruct i; simpl; intros; try lia; auto.
  apply IHl; lia.
Qed.
Lemma lset_other {A} (l : list A) i j x :
  i <> j -> nth_error (lset l i x) j = nth_error l j.
Proof.
  revert i j; induction l; destruct i, j; simpl; intros; auto; try congruence.
Qed.

Lemma aread_ok {A} (l : list A) i a :
  aread l i = Ok a <-> 0 <= i < zlen l /\ nth_error l (Z.to_nat i) = Some a.
Proof.
  unfold aread, zlen. split.
  - destruct (Z.ltb_spec i 0); [discriminate|].
    destruct (Z.leb_spec (Z.of_nat (length l)) i); [discriminate|].
    destruct (nth_error l (Z.to_nat i)); [|discriminate].
    intros E; inversion E; subst; split; [lia | reflexivity].
  - intros [H1 H2].
    destruct (Z.ltb_spec i 0); [lia|].
    destruct (Z.leb_spec (Z.of_nat (length l)) i); [lia|].
    rewrite H2; reflexivity.
Qed.
Lemma aread_in {A} (l : list A) i :
  0 <= i < zlen l -> exists a, aread l i = Ok a.
Proof.
  intros H. destruct (nth_error l (Z.to_nat i)) eqn:E.
  - exists a. apply aread_ok; auto.
  - apply nth_error_None in E. unfold zlen in H. lia.
Qed.
Lemma aread_out {A} (l : list A) i :
  ~ (0 <= i < zlen l) -> aread l i = UB OutOfBounds.
Proof.
  unfold aread; intros.
  destruct (Z.ltb_spec i 0); auto.
  destruct (Z.leb_spec (zlen l) i); auto. lia.
Qed.
Lemma aread_cases {A} (l : list A) i :
  (0 <= i < zlen l /\ exists a, aread l i = Ok a) \/
  (~ (0 <= i < zlen l) /\ aread l i = UB OutOfBounds).
Proof.
  destruct (Z_lt_dec i 0); [right|destruct (Z_lt_dec i (zlen l)); [left|right]].
  - split; [lia | apply aread_out; lia].
  - split; [lia | apply aread_in; lia].
  - split; [lia | apply aread_out; lia].
Qed.
Lemma aread_nth {A} (l : list A) i d :
  0 <= i < zlen l -> aread l i = Ok (nth (Z.to_nat i) l d).
Proof.
  intros H; apply aread_ok; split; auto.
  apply nth_error_nth'; unfold zlen in H; lia.
Qed.
Lemma aread_In {A} (l : list A) i a : aread l i = Ok a -> In a l.
Proof. intros H; apply aread_ok in H. destruct H as [_ H]. eapply nth_error_In; eauto. Qed.
Lemma In_aread {A} (l : list A) a : In a l -> exists i, aread l i = Ok a.
Proof.
  intros H; apply In_nth_error in H; destruct H as [n H].
  exists (Z.of_nat n). apply aread_ok. rewrite Nat2Z.id. split; auto.
  assert (n < length l)%nat by (apply nth_error_Some; congruence). unfold zlen; lia.
Qed.
Lemma aread_ext {A} (l m : list A) :
  zlen l = zlen m -> (forall i, 0 <= i < zlen l -> aread l i = aread m i) -> l = m.
Proof.
  unfold zlen; revert m; induction l as [|a l IH]; destruct m as [|b m]; simpl length;
    intros HL H; try lia; auto.
  assert (E0 := H 0 ltac:(lia)). cbn in E0. inversion E0; subst.
  f_equal. apply IH; [lia|].
  intros i Hi. specialize (H (i + 1) ltac:(lia)).
  unfold aread in *. unfold zlen in *. simpl length in H.
  replace (Z.to_nat (i+1)) with (S (Z.to_nat i)) in H by lia. simpl nth_error in H.
  destruct (Z.ltb_spec (i+1) 0), (Z.ltb_spec i 0); try lia.
  destruct (Z.leb_spec (Z.of_nat (S (length l))) (i+1)), (Z.leb_spec (Z.of_nat (length l)) i),
    (Z.leb_spec (Z.of_nat (S (length m))) (i+1)), (Z.leb_spec (Z.of_nat (length m)) i); try lia; auto.
Qed.
Lemma aread_app1 {A} (l m : list A) i :
  i < zlen l -> aread (l ++ m) i = aread l i.
Proof.
  intros H. unfold aread. destruct (Z.ltb_spec i 0); auto.
  assert (Hn := zlen_nonneg m).
  rewrite zlen_app. destruct (Z.leb_spec (zlen l + zlen m) i); try lia.
  destruct (Z.leb_spec (zlen l) i); try lia.
  rewrite nth_error_app1; auto. unfold zlen in *; lia.
Qed.
Lemma aread_app2 {A} (l m : list A) i :
  zlen l <= i -> aread (l ++ m) i = aread m (i - zlen l).
Proof.
  intros H. assert (Hn := zlen_nonneg l). unfold aread.
  destruct (Z.ltb_spec i 0); try lia. destruct (Z.ltb_spec (i - zlen l) 0); try lia.
  rewrite zlen_app.
  destruct (Z.leb_spec (zlen l + zlen m) i), (Z.leb_spec (zlen m) (i - zlen l)); try lia; auto.
  rewrite nth_error_app2 by (unfold zlen in *; lia).
  replace (Z.to_nat i - length l)%nat with (Z.to_nat (i - zlen l)); auto.
  unfold zlen in *; lia.
Qed.
Lemma aread_map {A B} (f : A -> B) (l : list A) i :
  aread (map f l) i = (do a <- aread l i; Ok (f a)).
Proof.
  destruct (aread_cases l i) as [[Hi [a Ha]]|[Hi Ha]]; rewrite Ha; simpl.
  - apply aread_ok in Ha. apply aread_ok. rewrite zlen_map; split; [tauto|].
    apply map_nth_error; tauto.
  - apply aread_out. rewrite zlen_map; auto.
Qed.
Lemma aread_rev {A} (l : list A) i :
  aread (rev l) i = aread l (zlen l - 1 - i).
Proof.
  destruct (aread_cases (rev l) i) as [[Hi [a Ha]]|[Hi Ha]]; rewrite Ha; rewrite zlen_rev in Hi.
  - symmetry. apply aread_ok in Ha. destruct Ha as [_ Ha].
    apply aread_ok. split; [lia|].
    unfold zlen in *.
    rewrite (nth_error_nth' _ a) by lia.
    rewrite (nth_error_nth' _ a) in Ha by (rewrite rev_length; lia).
    rewrite rev_nth in Ha by lia. rewrite <- Ha. do 2 f_equal. lia.
  - symmetry; apply aread_out; lia.
Qed.
Lemma aread_skipn {A} (l : list A) n i :
  0 <= n -> 0 <= i -> aread (skipn (Z.to_nat n) l) i = aread l (n + i).
Proof.
  intros Hn Hi. destruct (Z_le_dec n (zlen l)).
  - assert (E := firstn_skipn (Z.to_nat n) l). rewrite <- E at 2.
    rewrite aread_app2; rewrite zlen_firstn by (split; lia || auto); [|lia].
    f_equal; lia.
  - rewrite skipn_all2 by (unfold zlen in *; lia).
    rewrite !aread_out; auto; unfold zlen in *; simpl in *; lia.
Qed.
Lemma aread_firstn {A} (l : list A) n i :
  i < n -> aread (firstn (Z.to_nat n) l) i = aread l i.
Proof.
  intros H. destruct (Z_lt_dec i 0).
  - rewrite !aread_out; auto; lia.
  - destruct (Z_le_dec n (zlen l)).
    + rewrite <- (firstn_skipn (Z.to_nat n) l) at 2.
      rewrite aread_app1; auto. rewrite zlen_firstn; lia.
    + rewrite firstn_all2; auto. unfold zlen in *; lia.
Qed.
Lemma aread_repeat {A} (x : A) n i :
  0 <= i < n -> aread (repeat x (Z.to_nat n)) i = Ok x.
Proof.
  intros H. apply aread_ok. rewrite zlen_repeat by lia. split; auto.
  rewrite (nth_error_nth' _ x) by (rewrite repeat_length; lia).
  rewrite nth_repeat. reflexivity.
Qed.

Lemma awrite_ok {A} (l l' : list A) i x :
  awrite l i x = Ok l' ->
  0 <= i < zlen l /\ zlen l' = zlen l /\ aread l' i = Ok x /\
  (forall j, j <> i -> aread l' j = aread l j).
Proof.
  unfold awrite.
  destruct (Z.leb_spec 0 i); simpl; [|discriminate].
  destruct (Z.ltb_spec i (zlen l)); [|discriminate].
  intros E; inversion E; subst.
  assert (HL : zlen (lset l (Z.to_nat i) x) = zlen l)
    by (unfold zlen; rewrite lset_length; auto).
  repeat split; auto.
  - apply aread_ok. rewrite HL. split; [lia|]. apply lset_same. unfold zlen in *; lia.
  - intros j Hj. unfold aread. rewrite HL.
    destruct (Z.ltb_spec j 0); auto. rewrite lset_other; auto. lia.
Qed.
Lemma awrite_in {A} (l : list A) i x :
  0 <= i < zlen l -> exists l', awrite l i x = Ok l'.
Proof.
  intros; unfold awrite.
  destruct (Z.leb_spec 0 i); simpl; [|lia].
  destruct (Z.ltb_spec i (zlen l)); [|lia]. eauto.
Qed.
Lemma awrite_out {A} (l : list A) i x :
  ~ (0 <= i < zlen l) -> awrite l i x = UB OutOfBounds.
Proof.
  intros; unfold awrite.
  destruct (Z.leb_spec 0 i); simpl; auto.
  destruct (Z.ltb_spec i (zlen l)); auto. lia.
Qed.

Lemma deref_ok {A} (p : option A) a : deref p = Ok a -> p = Some a.
Proof. destruct p; simpl; congruence. Qed.

Lemma aprefix_ok {A} (l p : list A) n :
  aprefix l n = Ok p -> 0 <= n <= zlen l /\ p = firstn (Z.to_nat n) l.
Proof.
  unfold aprefix. destruct (Z.leb_spec 0 n), (Z.leb_spec n (zlen l)); simpl; try discriminate.
  intros E; inversion E; split; auto.
Qed.
Lemma aprefix_in {A} (l : list A) n :
  0 <= n <= zlen l -> aprefix l n = Ok (firstn (Z.to_nat n) l).
Proof.
  intros; unfold aprefix. destruct (Z.leb_spec 0 n), (Z.leb_spec n (zlen l)); simpl; try lia; auto.
Qed.
Lemma aprefix_all {A} (l : list A) n : n = zlen l -> aprefix l n = Ok l.
Proof.
  intros ->. rewrite aprefix_in; [|split; [apply zlen_nonneg | lia]].
  f_equal. apply firstn_all2. unfold zlen; lia.
Qed.

(** ** Loops *)
(** The same loop by recursion on the number of iterations. *)
Fixpoint for_nat {S} (n : nat) (lo : Z) (body : Z -> S -> res S) (s : S) : res S :=
  match n with
  | O => Ok s
  | Datatypes.S m => do s1 <- body lo s; for_nat m (lo + 1) body s1
  end.
Lemma for_nat_add {S} (a b : nat) lo (body : Z -> S -> res S) s :
  for_nat (a + b) lo body s =
  (do s1 <- for_nat a lo body s; for_nat b (lo + Z.of_nat a) body s1).
Proof.
  revert lo s; induction a; intros; simpl.
  - rewrite Z.add_0_r; reflexivity.
  - rewrite bind_assoc. apply bind_ext. intros s1 _. rewrite IHa.
    replace (lo + 1 + Z.of_nat a) with (lo + Z.pos (Pos.of_succ_nat a)) by lia. reflexivity.
Qed.
Lemma for_pos_nat {S} p lo (body : Z -> S -> res S) s :
  for_pos p lo body s = for_nat (Pos.to_nat p) lo body s.
Proof.
  revert lo s; induction p; intros.
  - replace (Pos.to_nat p~1) with (Datatypes.S (Pos.to_nat p + Pos.to_nat p)) by lia.
    simpl. apply bind_ext; intros s1 _. rewrite for_nat_add, IHp.
    apply bind_ext; intros s2 _. rewrite IHp. rewrite positive_nat_Z. reflexivity.
  - replace (Pos.to_nat p~0) with (Pos.to_nat p + Pos.to_nat p)%nat by lia.
    simpl. rewrite for_nat_add, IHp. apply bind_ext; intros s2 _.
    rewrite IHp, positive_nat_Z. reflexivity.
  - simpl. destruct (body lo s); reflexivity.
Qed.
Lemma for_range_nat {S} lo cnt (body : Z -> S -> res S) s :
  for_range lo cnt body s = for_nat (Z.to_nat cnt) lo body s.
Proof. destruct cnt; simpl; auto. apply for_pos_nat. Qed.

Lemma for_range_0 {S} lo cnt (body : Z -> S -> res S) s :
  cnt <= 0 -> for_range lo cnt body s = Ok s.
Proof. destruct cnt; simpl; auto; lia. Qed.
Lemma for_range_step {S} lo cnt (body : Z -> S -> res S) s :
  0 < cnt ->
  for_range lo cnt body s = (do s1 <- body lo s; for_range (lo + 1) (cnt - 1) body s1).
Proof.
  intros. rewrite for_range_nat.
  replace (Z.to_nat cnt) with (Datatypes.S (Z.to_nat (cnt - 1))) by lia.
  simpl. apply bind_ext; intros. rewrite for_range_nat. reflexivity.
Qed.
Lemma for_range_add {S} lo a b (body : Z -> S -> res S) s :
  0 <= a -> 0 <= b ->
  for_range lo (a + b) body s =
  (do s1 <- for_range lo a body s; for_range (lo + a) b body s1).
Proof.
  intros. rewrite !for_range_nat. rewrite Z2Nat.inj_add by lia.
  rewrite for_nat_add, Z2Nat.id by lia. apply bind_ext; intros. rewrite for_range_nat; auto.
Qed.
Lemma for_range_last {S} lo cnt (body : Z -> S -> res S) s :
  0 < cnt ->
  for_range lo cnt body s = (do s1 <- for_range lo (cnt - 1) body s; body (lo + cnt - 1) s1).
Proof.
  intros. replace cnt with ((cnt - 1) + 1) at 1 by lia.
  rewrite for_range_add by lia. apply bind_ext; intros.
  rewrite for_range_step by lia.
  replace (lo + (cnt - 1)) with (lo + cnt - 1) by lia.
  destruct (body (lo + cnt - 1) a); simpl; auto.
Qed.

(** Total correctness: an invariant under which no iteration is undefined. *)
Lemma for_range_total {S} (P : Z -> S -> Prop) lo cnt body s :
  0 <= cnt -> P lo s ->
  (forall i s, lo <= i < lo + cnt -> P i s -> exists s', body i s = Ok s' /\ P (i + 1) s') ->
  exists s', for_range lo cnt body s = Ok s' /\ P (lo + cnt) s'.
Proof.
  intros Hc H0 Hstep. rewrite for_range_nat.
  rewrite <- (Z2Nat.id cnt) in Hstep |- * by lia. rewrite Nat2Z.id.
  remember (Z.to_nat cnt) as n; clear Heqn Hc cnt.
  revert lo s H0 Hstep; induction n; intros; simpl.
  - exists s; split; auto. rewrite Z.add_0_r; auto.
  - destruct (Hstep lo s ltac:(lia) H0) as [s1 [E1 H1]]. rewrite E1; simpl.
    destruct (IHn (lo + 1) s1 H1) as [s' [E' H']].
    { intros; apply Hstep; auto; lia. }
    exists s'; split; auto. replace (lo + Z.pos (Pos.of_succ_nat n)) with (lo + 1 + Z.of_nat n) by lia; auto.
Qed.
(** Partial correctness. *)
Lemma for_range_partial {S} (P : Z -> S -> Prop) lo cnt body s s' :
  0 <= cnt -> P lo s ->
  (forall i s s', lo <= i < lo + cnt -> P i s -> body i s = Ok s' -> P (i + 1) s') ->
  for_range lo cnt body s = Ok s' -> P (lo + cnt) s'.
Proof.
  intros Hc H0 Hstep. rewrite for_range_nat.
  rewrite <- (Z2Nat.id cnt) in Hstep |- * by lia. rewrite Nat2Z.id.
  remember (Z.to_nat cnt) as n; clear Heqn Hc cnt.
  revert lo s H0 Hstep; induction n; intros lo s H0 Hstep; simpl.
  - intros E; inversion E; subst. rewrite Z.add_0_r; auto.
  - intros E; apply bind_ok in E; destruct E as [s1 [E1 E]].
    replace (lo + Z.pos (Pos.of_succ_nat n)) with (lo + 1 + Z.of_nat n) by lia.
    eapply IHn; [| |exact E].
    + eapply Hstep; eauto; lia.
    + intros; eapply Hstep; eauto; lia.
Qed.
Lemma for_range_ext {S} lo cnt (b1 b2 : Z -> S -> res S) s :
  (forall i s, lo <= i < lo + cnt -> b1 i s = b2 i s) ->
  for_range lo cnt b1 s = for_range lo cnt b2 s.
Proof.
  intros H. destruct (Z_le_dec cnt 0).
  - rewrite !for_range_0; auto.
  - rewrite !for_range_nat. rewrite <- (Z2Nat.id cnt) in H by lia.
    remember (Z.to_nat cnt) as m; clear Heqm n.
    revert lo s H; induction m; intros; simpl; auto.
    rewrite H by lia. apply bind_ext; intros. apply IHm. intros; apply H; lia.
Qed.

(** ** Tabulation *)
Lemma tabulate_total {A} n (f : Z -> res A) :
  0 <= n -> (forall i, 0 <= i < n -> exists a, f i = Ok a) ->
  exists l, tabulate n f = Ok l.
Proof.
  unfold tabulate; intros Hn H.
  assert (G : forall k i, 0 <= i -> i + Z.of_nat k <= n -> exists l, tab_from k i f = Ok l).
  { induction k; intros i H1 H2; simpl; eauto.
    destruct (H i ltac:(lia)) as [a Ha]. rewrite Ha; simpl.
    destruct (IHk (i + 1) ltac:(lia) ltac:(lia)) as [l Hl]. rewrite Hl; simpl; eauto. }
  apply G; lia.
Qed.
Lemma tab_from_ok {A} k i (f : Z -> res A) l :
  tab_from k i f = Ok l ->
  length l = k /\ forall j, 0 <= j < Z.of_nat k -> aread l j = f (i + j).
Proof.
  revert i l; induction k; intros i l; simpl.
  - intros E; inversion E; subst. split; auto; intros; lia.
  - intros E. inv_ok E. inversion E; subst.
    destruct (IHk _ _ E1) as [HL Hr]. split; [simpl; auto|].
    intros j Hj. destruct (Z.eq_dec j 0) as [->|].
    + rewrite Z.add_0_r, E0. reflexivity.
    + change (v :: v0) with ([v] ++ v0). rewrite aread_app2 by (cbn; lia).
      rewrite Hr by (cbn; lia). f_equal. cbn; lia.
Qed.
Lemma tabulate_ok {A} n (f : Z -> res A) l :
  0 <= n -> tabulate n f = Ok l ->
  zlen l = n /\ forall j, 0 <= j < n -> aread l j = f j.
Proof.
  unfold tabulate; intros Hn H. apply tab_from_ok in H. destruct H as [HL H].
  split; [unfold zlen; lia|]. intros; apply (H j); lia.
Qed.
Lemma tabulate_ext {A} n (f g : Z -> res A) :
  (forall i, 0 <= i < n -> f i = g i) -> tabulate n f = tabulate n g.
Proof.
  unfold tabulate. intros H.
  assert (G : forall k i, 0 <= i -> i + Z.of_nat k <= n -> tab_from k i f = tab_from k i g).
  { induction k; intros; simpl; auto. rewrite H by lia.
    apply bind_ext; intros. rewrite IHk by lia. reflexivity. }
  destruct (Z_le_dec n 0).
  - replace (Z.to_nat n) with O by lia. reflexivity.
  - apply G; lia.
Qed.

(** ** Scans *)
Lemma scan_list_ok {A} (p : A -> bool) l i n :
  scan_list p l i = Ok n ->
  i <= n < i + zlen l /\
  (forall j a, i <= j < n -> aread l (j - i) = Ok a -> p a = true) /\
  (exists a, aread l (n - i) = Ok a /\ p a = false).
Proof.
  revert i; induction l as [|x r IH]; intros i; simpl; [discriminate|].
  destruct (p x) eqn:Ep.
  - intros H. apply IH in H. destruct H as [H1 [H2 [a [H3 H4]]]].
    rewrite zlen_cons. split; [lia|]. split.
    + intros j b Hj Hb. destruct (Z.eq_dec j i) as [->|].
      * rewrite Z.sub_diag in Hb. cbn in Hb. congruence.
      * apply (H2 j b); [lia|]. change (x :: r) with ([x] ++ r) in Hb.
        rewrite aread_app2 in Hb by (cbn; lia). rewrite <- Hb. f_equal. cbn; lia.
    + exists a; split; auto. change (x :: r) with ([x] ++ r).
      rewrite aread_app2 by (cbn; lia). rewrite <- H3. f_equal. cbn; lia.
  - intros E; inversion E; subst. rewrite zlen_cons. assert (Hn := zlen_nonneg r).
    split; [lia|]. split; [intros; lia|].
    exists x. rewrite Z.sub_diag. split; auto.
Qed.
Lemma scan_list_total {A} (p : A -> bool) l i :
  (exists a, In a l /\ p a = false) -> exists n, scan_list p l i = Ok n.
Proof.
  revert i; induction l as [|x r IH]; intros i [a [Ha Hp]]; simpl; [destruct Ha|].
  destruct (p x) eqn:Ep; eauto.
  apply IH. destruct Ha as [->|Ha]; [congruence|eauto].
Qed.
Lemma scan_ok {A} (p : A -> bool) l i n :
  scan p l i = Ok n ->
  0 <= i <= n /\ n < zlen l /\
  (forall j a, i <= j < n -> aread l j = Ok a -> p a = true) /\
  (exists a, aread l n = Ok a /\ p a = false).
Proof.
  unfold scan. destruct (Z.ltb_spec i 0); [discriminate|].
  intros H1. apply scan_list_ok in H1. destruct H1 as [H1 [H2 [a [H3 H4]]]].
  destruct (Z_le_dec i (zlen l)).
  - rewrite zlen_skipn in H1 by lia. repeat split; try lia.
    + intros j b Hj Hb. apply (H2 j b); [lia|].
      rewrite aread_skipn by lia. rewrite <- Hb; f_equal; lia.
    + exists a; split; auto. rewrite aread_skipn in H3 by lia. rewrite <- H3; f_equal; lia.
  - rewrite skipn_all2 in H1 by (unfold zlen in *; lia). rewrite zlen_nil in H1. lia.
Qed.
Lemma scan_total {A} (p : A -> bool) l i j a :
  0 <= i <= j -> aread l j = Ok a -> p a = false -> exists n, scan p l i = Ok n.
Proof.
  intros H1 H2 H3. unfold scan. destruct (Z.ltb_spec i 0); [lia|].
  apply scan_list_total. exists a; split; auto.
  apply (aread_In _ (j - i)). rewrite aread_skipn by lia. rewrite <- H2; f_equal; lia.
Qed.

(** ** where *)
Lemma where_from_In {A} (p : A -> bool) l i n :
  In n (where_from p l i) <-> exists a, i <= n /\ aread l (n - i) = Ok a /\ p a = true.
Proof.
  revert i; induction l as [|x r IH]; intros i; simpl.
  - split; [tauto|]. intros [a [_ [H _]]]. apply aread_ok in H. cbn in H. lia.
  - assert (G : In n (where_from p r (i + 1)) <->
      exists a, i < n /\ aread (x :: r) (n - i) = Ok a /\ p a = true).
    { rewrite IH. split; intros [a [H1 [H2 H3]]]; exists a; (split; [lia|]); split; auto.
      - change (x :: r) with ([x] ++ r). rewrite aread_app2 by (cbn; lia).
        rewrite <- H2; f_equal; cbn; lia.
      - change (x :: r) with ([x] ++ r) in H2. rewrite aread_app2 in H2 by (cbn; lia).
        rewrite <- H2; f_equal; cbn; lia. }
    destruct (p x) eqn:Ep; simpl; rewrite G; split.
    + intros [->|[a [H1 H2]]]; [exists x; rewrite Z.sub_diag; repeat split; auto; lia|].
      exists a; split; [lia|auto].
    + intros [a [H1 H2]]. destruct (Z.eq_dec i n); [left; auto|right; exists a; split; [lia|auto]].
    + intros [a [H1 H2]]; exists a; split; [lia|auto].
    + intros [a [H1 [H2 H3]]]. exists a. split; auto.
      destruct (Z.eq_dec i n) as [->|]; [|lia].
      rewrite Z.sub_diag in H2. cbn in H2. congruence.
Qed.
Lemma where_In {A} (p : A -> bool) l n :
  In n (where_ p l) <-> 0 <= n /\ exists a, aread l n = Ok a /\ p a = true.
Proof.
  unfold where_. rewrite where_from_In. rewrite Z.sub_0_r. firstorder.
Qed.
Lemma where_from_sorted {A} (p : A -> bool) l i :
  forall j k, 0 <= j < k -> forall a b,
    aread (where_from p l i) j = Ok a -> aread (where_from p l i) k = Ok b -> a < b.
Proof.
  revert i; induction l as [|x r IH]; intros i j k Hjk a b; simpl.
  - intros H; apply aread_ok in H; cbn in H; lia.
  - destruct (p x); [|apply IH; auto].
    intros Ha Hb.
    change (i :: where_from p r (i+1)) with ([i] ++ where_from p r (i+1)) in Ha, Hb.
    rewrite aread_app2 in Hb by (cbn; lia).
    assert (Hib : i < b).
    { apply aread_In in Hb. apply where_from_In in Hb. destruct Hb as [? [? _]]; lia. }
    destruct (Z.eq_dec j 0) as [->|].
    + cbn in Ha. congruence.
    + rewrite aread_app2 in Ha by (cbn; lia).
      eapply IH; [|exact Ha|exact Hb]. cbn; lia.
Qed.
Lemma where_sorted {A} (p : A -> bool) l j k a b :
  0 <= j < k -> aread (where_ p l) j = Ok a -> aread (where_ p l) k = Ok b -> a < b.
Proof. unfold where_; intros; eapply where_from_sorted; eauto. Qed.
Lemma where_from_length {A} (p : A -> bool) l i : zlen (where_from p l i) <= zlen l.
Proof.
  revert i; induction l as [|x r IH]; intros; simpl; [unfold zlen; simpl; lia|].
  specialize (IH (i + 1)). rewrite zlen_cons. destruct (p x); [rewrite zlen_cons|]; lia.
Qed.
Lemma where_length {A} (p : A -> bool) l : zlen (where_ p l) <= zlen l.
Proof. apply where_from_length. Qed.

Lemma need_ok ok cnt u : need ok cnt = Ok u -> ok = true \/ cnt <= 0.
Proof. unfold need; destruct ok; simpl; auto. destruct (Z.leb_spec cnt 0); auto; discriminate. Qed.
Lemma need_true cnt : need true cnt = Ok tt.
Proof. reflexivity. Qed.

Lemma wrap64_id z : 0 <= z < two64 -> wrap64 z = z.
Proof. intros; apply Z.mod_small; auto. Qed.
Lemma wrap64_range z : 0 <= wrap64 z < two64.
Proof. apply Z.mod_pos_bound; reflexivity. Qed.
