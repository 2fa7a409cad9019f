(** * Proof_Jump: lemmas for C82. *)
From Coq Require Import List ZArith Bool Reals Lra Lia Sorted FinFun.
From Verif Require Import Base Model_Time Model_Chord Proof_Chord Model_Jump Spec_Jump.
Import ListNotations.
Open Scope R_scope.

Lemma item_sampled : forall f n i, (i < n)%nat -> item (sampled f n) i = f i.
Proof. intros f n i H. unfold item, sampled. rewrite (nth_indep _ 0 (f O)) by (rewrite map_length, seq_length; exact H). rewrite map_nth, seq_nth by exact H. reflexivity. Qed.
Lemma sampled_length : forall f n, length (sampled f n) = n.
Proof. intros. unfold sampled. rewrite map_length, seq_length. reflexivity. Qed.
Lemma diff_length : forall x f n, (2 <= n)%nat -> length (map Rabs (centdiff2 x (sampled f n))) = n.
Proof. intros x f n N. rewrite map_length. unfold centdiff2. cbn [length]. rewrite app_length, map_length, seq_length, sampled_length. cbn [length]. lia. Qed.
Lemma diff_item : forall x f n i, (2 <= n)%nat -> (i < n)%nat -> item (map Rabs (centdiff2 (sampled x n) (sampled f n))) i = bend x f n i.
Proof.
  intros x f n i N I. unfold item. rewrite (nth_indep _ 0 (Rabs 0)) by (rewrite diff_length; assumption). rewrite (map_nth Rabs). unfold bend, centdiff2.
  destruct (le_lt_dec i 0) as [H|H]; [replace i with 0%nat by lia; cbn [nth]; apply Rabs_R0|].
  destruct i as [|i]; [lia|]. cbn [nth]. rewrite sampled_length. destruct (le_lt_dec (n - 1) (S i)) as [H1|H1].
  - rewrite app_nth2 by (rewrite map_length, seq_length; lia). rewrite map_length, seq_length. replace (i - (n - 2))%nat with 0%nat by lia. cbn [nth]. apply Rabs_R0.
  - rewrite app_nth1 by (rewrite map_length, seq_length; lia).
    set (F := fun i => (item (sampled f n) (i + 2) - 2 * item (sampled f n) (i + 1) + item (sampled f n) i) / ((item (sampled x n) (i + 1) - item (sampled x n) i) * (item (sampled x n) (i + 2) - item (sampled x n) (i + 1)))).
    rewrite (nth_indep (map F (seq 0 (n - 2))) 0 (F 0%nat)) by (rewrite map_length, seq_length; lia).
    rewrite (map_nth F), seq_nth by lia. unfold F. cbn [Nat.add]. rewrite !item_sampled by lia. replace (S i - 1)%nat with i by lia. replace (S i + 1)%nat with (i + 2)%nat by lia. replace (S i) with (i + 1)%nat by lia. try replace (S (i + 1)) with (i + 2)%nat by lia. reflexivity.
Qed.
Lemma fold_max : forall l a, (fold_left Rmax l a = a \/ In (fold_left Rmax l a) l) /\ a <= fold_left Rmax l a /\ (forall y, In y l -> y <= fold_left Rmax l a).
Proof.
  induction l as [|z l IH]; intros a; cbn [fold_left]; [split; [left; reflexivity|split; [lra|intros y []]]|]. destruct (IH (Rmax a z)) as (A & B & C). pose proof (Rmax_l a z). pose proof (Rmax_r a z). split.
  - destruct A as [A|A]; [|right; right; exact A]. rewrite A. unfold Rmax. destruct (Rle_dec a z); [right; left; reflexivity|left; reflexivity].
  - split; [lra|]. intros y [-> | Y]; [lra|auto].
Qed.
Lemma bend_pos : forall x f n i, 0 <= bend x f n i.
Proof. intros. unfold bend. destruct (le_lt_dec i 0); [lra|]. destruct (le_lt_dec (n - 1) i); [lra|]. apply Rabs_pos. Qed.
Lemma candidates_ok : forall x f n, (2 <= n)%nat -> exists l, candidates (sampled x n) (sampled f n) = map Z.of_nat l /\ StronglySorted lt l /\ forall d, In d l <-> sharp x f n d.
Proof.
  intros x f n N. unfold candidates, argrelmax. set (a := map Rabs (centdiff2 (sampled x n) (sampled f n))). eexists. split; [reflexivity|].
  assert (La : length a = n) by (apply diff_length, N). assert (Ia : forall i, (i < n)%nat -> item a i = bend x f n i) by (intros; apply diff_item; assumption). rewrite La.
  split.
  - assert (SS : forall (P : nat -> bool) l, StronglySorted lt l -> StronglySorted lt (filter P l)).
    { clear. intros P l H. induction H as [|b l H IH F]; cbn [filter]; [constructor|]. destruct (P b); [|exact IH]. constructor; [exact IH|]. rewrite Forall_forall in *. intros y Y. apply filter_In in Y. apply F, Y. }
    apply SS, SS. generalize (n - 2)%nat as k. clear. intros k. generalize 1%nat as s. induction k as [|k IH]; intros s; cbn [seq]; constructor; [apply IH|]. apply Forall_forall. intros y Y. apply in_seq in Y. lia.
  - intros d. rewrite !filter_In, in_seq, andb_true_iff, !ltb_true. unfold sharp. destruct (fold_max a 0) as (A & B & C). set (M := fold_left Rmax a 0) in *.
    split.
    + intros [[H1 [H2 H3]] H4]. rewrite !Ia in * by lia. repeat split; try lia; try lra. intros j J. assert (bend x f n j <= M) by (rewrite <- Ia by exact J; apply C; unfold item; apply nth_In; lia). lra.
    + intros (H1 & H2 & H3 & H4). rewrite !Ia by lia. repeat split; try lia; try lra. destruct A as [A|A].
      * rewrite A. pose proof (bend_pos x f n (d - 1)). lra.
      * apply In_nth with (d := 0) in A. destruct A as (j & J & E). change (nth j a 0) with (item a j) in E. rewrite Ia in E by lia. rewrite <- E. specialize (H4 j ltac:(lia)). lra.
Qed.
Lemma remove_app : forall r a b, ~ In r a -> remove_value r (a ++ r :: b) = a ++ b.
Proof. intros r. induction a as [|x a IH]; intros b N; cbn [app remove_value]; [rewrite Z.eqb_refl; reflexivity|]. destruct (Z.eqb_spec x r) as [->|_]; [exfalso; apply N; left; reflexivity|]. f_equal. apply IH. intros H. apply N. right. exact H. Qed.
(** The loops, with the part [done] of the list that is kept already; [cur] may be gone from it. *)
Lemma loop_ok : forall f rho df l done cur, NoDup (done ++ l ++ [(-1)%Z]) -> ~ In cur l ->
  exists kept, fold_left (fun l r => remove_value r l) (flagged f rho df (cur :: l ++ [(-1)%Z])) (done ++ l ++ [(-1)%Z]) = done ++ kept ++ [(-1)%Z] /\ (forall d, In d kept -> In d l) /\ (StronglySorted Z.lt l -> StronglySorted Z.lt kept) /\
  (forall a p c q b, cur :: l ++ [(-1)%Z] = a ++ p :: c :: q :: b -> (In c kept <-> spurious f rho df p c q = false)).
Proof.
  intros f rho df.
  induction l as [|c0 l IH]; intros done cur N NI.
- exists []. cbn [app flagged fold_left]. split; [reflexivity|]. split; [intros d []|]. split; [intros _; constructor|]. intros a p c q b E. exfalso. apply (f_equal (@length Z)) in E. rewrite app_length in E. cbn [length] in E. lia.
- assert (exists next rest, l ++ [(-1)%Z] = next :: rest) as (next & rest & El) by (destruct l as [|y l]; [exists (-1)%Z, []; reflexivity|exists y, (l ++ [(-1)%Z]); reflexivity]).
  assert (Fl : flagged f rho df (cur :: (c0 :: l) ++ [(-1)%Z]) = if spurious f rho df cur c0 next then c0 :: flagged f rho df (c0 :: l ++ [(-1)%Z]) else flagged f rho df (c0 :: l ++ [(-1)%Z])) by (cbn [app]; rewrite El; reflexivity).
  rewrite Fl. clear Fl. cbn [app] in N.
  assert (N0 : ~ In c0 (done ++ l ++ [(-1)%Z])) by (apply NoDup_remove_2 in N; exact N). assert (N1 : NoDup (done ++ l ++ [(-1)%Z])) by (apply NoDup_remove_1 in N; exact N).
  assert (Nl : ~ In c0 l) by (intros H; apply N0, in_or_app; right; apply in_or_app; left; exact H).
  assert (Uniq : forall a p c q b, cur :: (c0 :: l) ++ [(-1)%Z] = a ++ p :: c :: q :: b -> (p = cur /\ c = c0 /\ q = next) \/ exists a', c0 :: l ++ [(-1)%Z] = a' ++ p :: c :: q :: b).
  { intros a p c q b E. cbn [app] in E. destruct a as [|a0 a]; cbn [app] in E; [left; injection E as E0 E1 E2|right; injection E as E0 E; exists a; exact E]. try rewrite El in E2. injection E2 as E2 _. subst. auto. }
  assert (Mid : forall a p c q b, c0 :: l ++ [(-1)%Z] = a ++ p :: c :: q :: b -> In c l).
  { intros a p c q b E. assert (In c (l ++ [(-1)%Z]) /\ exists u v w, l ++ [(-1)%Z] = u ++ c :: v :: w) as [_ (u & v & w & E2)].
    { destruct a as [|a0 a]; cbn [app] in E; injection E as _ E; rewrite E; [split; [left; reflexivity|exists [], q, b; reflexivity]|]. split; [apply in_or_app; right; right; left; reflexivity|exists (a ++ [p]), q, b; rewrite <- app_assoc; reflexivity]. }
    destruct (exists_last (l := v :: w) ltac:(discriminate)) as (w' & z & Ew). rewrite Ew in E2. change (u ++ c :: w' ++ [z]) with (u ++ (c :: w') ++ [z]) in E2. rewrite app_assoc in E2. apply app_inj_tail in E2. destruct E2 as [-> _]. apply in_or_app. right. left. reflexivity. }
  destruct (spurious f rho df cur c0 next) eqn:S.
  + cbn [fold_left app]. rewrite remove_app by (intros H; apply N0, in_or_app; left; exact H). destruct (IH done c0 N1 Nl) as (kept & E & I & O & K). exists kept. split; [exact E|]. split; [intros d D; right; auto|]. split; [intros SS; apply O; inversion SS; assumption|].
    intros a p c q b Eq. destruct (Uniq _ _ _ _ _ Eq) as [(-> & -> & ->)|(a' & Eq')]; [|exact (K _ _ _ _ _ Eq')]. rewrite S. split; [intros H; exfalso; apply Nl, I, H|discriminate].
  + destruct (IH (done ++ [c0]) c0) as (kept & E & I & O & K); [rewrite <- app_assoc; exact N|exact Nl|]. rewrite <- !app_assoc in E. cbn [app] in E. exists (c0 :: kept). split; [exact E|]. split; [intros d [-> | D]; [left; reflexivity|right; auto]|]. split; [intros SS; inversion SS as [|? ? SS' FF]; constructor; [auto|]; rewrite Forall_forall in *; intros d D; apply FF, I, D|].
    intros a p c q b Eq. destruct (Uniq _ _ _ _ _ Eq) as [(-> & -> & ->)|(a' & Eq')]; [rewrite S; split; [reflexivity|left; reflexivity]|]. rewrite <- (K _ _ _ _ _ Eq'). split; [intros [<- | H]; [exfalso; apply Nl, (Mid _ _ _ _ _ Eq')|exact H]|right; assumption].
Qed.

Lemma sorted_split : forall (a : list nat) d b, StronglySorted lt (a ++ d :: b) -> (forall j, In j a -> (j < d)%nat) /\ (forall j, In j b -> (d < j)%nat) /\ StronglySorted lt a /\ StronglySorted lt b.
Proof.
  induction a as [|x a IH]; intros d b S; cbn [app] in S; inversion S as [|? ? S' F]; subst.
  - rewrite Forall_forall in F. split; [intros j []|]. split; [exact F|]. split; [constructor|exact S'].
  - destruct (IH d b S') as (A & B & C & D). rewrite Forall_forall in F. split; [intros j [<- | J]; [apply F, in_or_app; right; left; reflexivity|auto]|]. split; [exact B|]. split; [|exact D]. constructor; [exact C|]. apply Forall_forall. intros j J. apply F, in_or_app. left. exact J.
Qed.
Lemma sorted_last : forall (a : list nat) p, StronglySorted lt (a ++ [p]) -> forall j, In j (a ++ [p]) -> (j <= p)%nat.
Proof. intros a p S j J. destruct (sorted_split _ _ _ S) as (A & _). apply in_app_or in J. destruct J as [J|[<- | []]]; [apply A in J; lia|lia]. Qed.
Lemma ltb_false : forall a b, ltb a b = false <-> b <= a.
Proof. intros a b. pose proof (ltb_true a b) as T. destruct (ltb a b); split; intros H; try discriminate; try reflexivity; [exfalso; assert (a < b) by (apply T; reflexivity); lra|]. destruct (Rle_lt_dec b a) as [L|L]; [exact L|apply T in L; discriminate]. Qed.
Lemma spurious_false : forall f rho df n p c q, (0 < c < n - 1)%nat ->
  (spurious (sampled f n) (sampled rho n) df p (Z.of_nat c) q = false <->
   (10 <= slice_length (Z.of_nat n) p (Z.of_nat c))%Z /\ (10 <= slice_length (Z.of_nat n) (Z.of_nat c) q)%Z /\
   (df <= Rabs (f c - f (c - 1)%nat) \/ df <= Rabs (f (c + 1)%nat - f c) \/ df <= Rabs (f (c + 1)%nat - f (c - 1)%nat)) /\ (rho c <= 91000 \/ 119000 <= rho c)).
Proof.
  intros f rho df n p c q C. unfold spurious. rewrite sampled_length, Nat2Z.id, !item_sampled by lia. rewrite !orb_false_iff, !andb_false_iff, !ltb_false, !Z.ltb_ge. tauto.
Qed.
Theorem disconts_ok : forall x f rho df n, (2 <= n)%nat ->
  exists l, get_disconts (sampled x n) (sampled f n) (sampled rho n) df = 0%Z :: map Z.of_nat l ++ [(-1)%Z] /\ StronglySorted lt l /\ forall d, In d l <-> sharp x f n d /\ genuine x f rho df n d.
Proof.
  intros x f rho df n N. destruct (candidates_ok x f n N) as (L & E & S & M). unfold get_disconts. rewrite E. cbn [app].
  assert (Pos : forall d, In d L -> (0 < d < n - 1)%nat) by (intros d D; apply M in D; apply D).
  assert (ND : NoDup ([0%Z] ++ map Z.of_nat L ++ [(-1)%Z])).
  { assert (NL : NoDup L) by (clear - S; induction S as [|a l S IH F]; constructor; [rewrite Forall_forall in F; intros H; apply F in H; lia|exact IH]).
    cbn [app]. constructor.
    - rewrite in_app_iff, in_map_iff. intros [(d & Ed & D)|[H|[]]]; [apply Pos in D; lia|discriminate].
    - apply NoDup_Add with (a := (-1)%Z) (l := map Z.of_nat L); [rewrite <- (app_nil_r (map Z.of_nat L)) at 1; apply Add_app|]. split; [apply Injective_map_NoDup; [intros a b; apply Nat2Z.inj|exact NL]|]. rewrite in_map_iff. intros (d & Ed & _). lia. }
  destruct (loop_ok (sampled f n) (sampled rho n) df (map Z.of_nat L) [0%Z] 0%Z ND) as (kept & Ek & I & O & K).
  { rewrite in_map_iff. intros (d & Ed & D). apply Pos in D. lia. }
  cbn [app] in Ek. rewrite Ek. exists (map Z.to_nat kept).
  assert (Kp : forall z, In z kept -> exists d, z = Z.of_nat d /\ In d L) by (intros z Z; apply I in Z; apply in_map_iff in Z; destruct Z as (d & <- & D); exists d; auto).
  split.
  { f_equal. f_equal. rewrite map_map. rewrite <- (map_id kept) at 1. apply map_ext_in. intros z Z. destruct (Kp z Z) as (d & -> & _). rewrite Nat2Z.id. reflexivity. }
  split.
  { assert (SK : StronglySorted Z.lt kept).
    { apply O. clear - S. induction S as [|a l S IH F]; cbn [map]; constructor; [exact IH|]. rewrite Forall_forall in *. intros z Z. apply in_map_iff in Z. destruct Z as (d & <- & D). apply F in D. lia. }
    clear - SK Kp. induction SK as [|a l SK IH F]; cbn [map]; constructor; [apply IH; intros z Z; apply Kp; right; exact Z|]. rewrite Forall_forall in *. intros d D. apply in_map_iff in D. destruct D as (z & <- & Z). destruct (Kp a ltac:(left; reflexivity)) as (da & -> & _). destruct (Kp z ltac:(right; exact Z)) as (dz & -> & _). specialize (F _ Z). lia. }
  intros d. assert (Ik : In d (map Z.to_nat kept) <-> In (Z.of_nat d) kept).
  { rewrite in_map_iff. split; [intros (z & Ez & Z); destruct (Kp z Z) as (e & -> & _); rewrite Nat2Z.id in Ez; subst; exact Z|intros H; exists (Z.of_nat d); split; [apply Nat2Z.id|exact H]]. }
  rewrite Ik, <- M. clear Ik.
  assert (Main : In d L -> (In (Z.of_nat d) kept <-> genuine x f rho df n d)).
  { intros D. pose proof (Pos d D) as Pd. destruct (in_split _ _ D) as (A & B & EL). rewrite EL in S. destruct (sorted_split _ _ _ S) as (SA & SB & SSA & SSB).
    assert (HA : exists a p, 0%Z :: map Z.of_nat A = a ++ [p] /\ ((A = [] /\ p = 0%Z) \/ exists e, p = Z.of_nat e /\ In e A /\ forall j, In j A -> (j <= e)%nat)).
    { destruct A as [|e0 A0]; [exists [], 0%Z; split; [reflexivity|left; auto]|]. destruct (exists_last (l := e0 :: A0) ltac:(discriminate)) as (A' & e & EA). rewrite EA in *. exists (0%Z :: map Z.of_nat A'), (Z.of_nat e). rewrite map_app. split; [reflexivity|]. right. exists e. split; [reflexivity|]. split; [apply in_or_app; right; left; reflexivity|apply sorted_last, SSA]. }
    assert (HB : exists q b, map Z.of_nat B ++ [(-1)%Z] = q :: b /\ ((B = [] /\ q = (-1)%Z) \/ exists e, q = Z.of_nat e /\ In e B /\ forall j, In j B -> (e <= j)%nat)).
    { destruct B as [|e B]; [exists (-1)%Z, []; split; [reflexivity|left; auto]|]. exists (Z.of_nat e), (map Z.of_nat B ++ [(-1)%Z]). split; [reflexivity|]. right. exists e. split; [reflexivity|]. split; [left; reflexivity|]. inversion SSB as [|? ? _ F]; subst. rewrite Forall_forall in F. intros j [<- | J]; [lia|apply F in J; lia]. }
    destruct HA as (a & p & Ea & HA), HB as (q & b & Eb & HB).
    assert (Eq : 0%Z :: map Z.of_nat L ++ [(-1)%Z] = a ++ p :: Z.of_nat d :: q :: b).
    { rewrite EL, map_app. cbn [map]. rewrite <- app_assoc. cbn [app]. rewrite Eb. rewrite app_comm_cons, Ea, <- app_assoc. reflexivity. }
    rewrite (K _ _ _ _ _ Eq), spurious_false by exact Pd. unfold genuine.
    assert (Oth : (forall j, sharp x f n j -> j <> d -> (d + 10 <= j \/ j + 10 <= d)%nat) <-> (forall j, In j A -> (j + 10 <= d)%nat) /\ (forall j, In j B -> (d + 10 <= j)%nat)).
    { split.
      - intros H. split; intros j J; [pose proof (SA j J)|pose proof (SB j J)]; (assert (sharp x f n j) by (apply M; rewrite EL; apply in_or_app; cbn [In]; auto)); destruct (H j ltac:(assumption) ltac:(lia)); lia.
      - intros [H1 H2] j J Nj. apply M in J. rewrite EL in J. apply in_app_or in J. destruct J as [J|[J|J]]; [right; auto|congruence|left; auto]. }
    rewrite Oth. unfold slice_length.
    assert (D1 : (Z.of_nat d <? 0)%Z = false) by (apply Z.ltb_ge; lia). rewrite D1.
    assert (P1 : (10 <= Z.max 0 (Z.of_nat d - p))%Z <-> (10 <= d)%nat /\ (forall j, In j A -> (j + 10 <= d)%nat)).
    { destruct HA as [(-> & ->)|(e & -> & In_e & Le)]; [split; [intros H; split; [lia|intros j []]|intros [H _]; lia]|]. split; [intros H; split; [lia|intros j J; apply Le in J; lia]|intros [_ H]; apply H in In_e; lia]. }
    assert (Q1 : (10 <= Z.max 0 ((if (q <? 0)%Z then Z.of_nat n + q else q) - Z.of_nat d))%Z <-> (d + 11 <= n)%nat /\ (forall j, In j B -> (d + 10 <= j)%nat)).
    { destruct HB as [(-> & ->)|(e & -> & In_e & Le)]; [cbn; split; [intros H; split; [lia|intros j []]|intros [H _]; lia]|].
      assert (Q0 : (Z.of_nat e <? 0)%Z = false) by (apply Z.ltb_ge; lia). rewrite Q0. assert (Pe : (0 < e < n - 1)%nat) by (apply Pos; rewrite EL; apply in_or_app; right; right; exact In_e).
      split; [intros H; split; [lia|intros j J; apply Le in J; lia]|intros [_ H]; apply H in In_e; lia]. }
    rewrite P1, Q1. tauto. }
  split.
  - intros H. assert (D : In d L) by (destruct (Kp _ H) as (e & Ee & De); apply Nat2Z.inj in Ee; subst; exact De). split; [exact D|apply Main; assumption].
  - intros [D G]. apply Main; assumption.
Qed.
(** Two sharp bends within ten samples: neither is kept. *)
Theorem pair_ok : forall x f rho df n d e, (2 <= n)%nat -> sharp x f n d -> sharp x f n e -> (d < e < d + 10)%nat ->
  ~ In (Z.of_nat d) (get_disconts (sampled x n) (sampled f n) (sampled rho n) df) /\ ~ In (Z.of_nat e) (get_disconts (sampled x n) (sampled f n) (sampled rho n) df).
Proof.
  intros x f rho df n d e N D E DE. destruct (disconts_ok x f rho df n N) as (l & El & _ & M). rewrite El.
  assert (G : forall i, In (Z.of_nat i) (0%Z :: map Z.of_nat l ++ [(-1)%Z]) -> (0 < i)%nat -> genuine x f rho df n i).
  { intros i [H|H] P; [lia|]. apply in_app_or in H. destruct H as [H|[H|[]]]; [|lia]. apply in_map_iff in H. destruct H as (j & Ej & J). apply Nat2Z.inj in Ej. subst. apply M in J. apply J. }
  split; intros H; apply G in H; try (destruct D as [D0 _]; lia); destruct H as (_ & _ & H & _); [specialize (H e E)|specialize (H d D)]; lia.
Qed.
(** A step between evenly spaced samples bends equally at both sides, so it is not found. *)
Definition clock (i : nat) : R := INR i.
Definition step (m : nat) (a b : R) (i : nat) : R := if le_lt_dec m i then b else a.
Lemma step_bend : forall m a b n i, (0 < i < n - 1)%nat -> bend clock (step m a b) n i = if Nat.eq_dec (i + 1) m then Rabs (b - a) else if Nat.eq_dec i m then Rabs (b - a) else 0.
Proof.
  intros m a b n i I. unfold bend. destruct (le_lt_dec i 0); [lia|]. destruct (le_lt_dec (n - 1) i); [lia|].
  assert (C : (clock i - clock (i - 1)) * (clock (i + 1) - clock i) = 1) by (unfold clock; rewrite minus_INR, plus_INR by lia; cbn [INR]; ring). rewrite C. unfold Rdiv. rewrite Rinv_1, Rmult_1_r. unfold step.
  destruct (Nat.eq_dec (i + 1) m) as [E|E]; [|destruct (Nat.eq_dec i m) as [E1|E1]]; destruct (le_lt_dec m (i + 1)), (le_lt_dec m i), (le_lt_dec m (i - 1)); try lia.
  - f_equal; ring.
  - rewrite <- Rabs_Ropp. f_equal; ring.
  - rewrite <- Rabs_R0. f_equal; ring.
  - rewrite <- Rabs_R0. f_equal; ring.
Qed.
Theorem step_refuted : forall m a b rho df n, (2 <= m)%nat -> (m + 2 <= n)%nat -> get_disconts (sampled clock n) (sampled (step m a b) n) (sampled rho n) df = [0%Z; (-1)%Z].
Proof.
  intros m a b rho df n M N. destruct (disconts_ok clock (step m a b) rho df n ltac:(lia)) as (l & -> & _ & H). destruct l as [|d l]; [reflexivity|exfalso].
  destruct (H d) as [H0 _]. destruct (H0 ltac:(left; reflexivity)) as [(P & L & R & _) _]. clear H H0. pose proof (bend_pos clock (step m a b) n (d - 1)) as B1.
  rewrite (step_bend m a b n d P) in *.
  destruct (Nat.eq_dec (d + 1) m) as [E|E].
  - rewrite step_bend in R by lia. destruct (Nat.eq_dec (d + 1 + 1) m); [lia|]. destruct (Nat.eq_dec (d + 1) m); [lra|lia].
  - destruct (Nat.eq_dec d m) as [E1|E1]; [|lra]. rewrite step_bend in L by lia. destruct (Nat.eq_dec (d - 1 + 1) m); [lra|lia].
Qed.
(** A kink is found. *)
Definition kink (i : nat) : R := if le_lt_dec i 12 then 0 else INR i - 12.
Lemma kink_bend : forall i, (i < 25)%nat -> bend clock kink 25 i = if Nat.eq_dec i 12 then 1 else 0.
Proof.
  intros i I. unfold bend. destruct (le_lt_dec i 0); [destruct (Nat.eq_dec i 12); [lia|reflexivity]|]. destruct (le_lt_dec (25 - 1) i); [destruct (Nat.eq_dec i 12); [lia|reflexivity]|].
  assert (C : (clock i - clock (i - 1)) * (clock (i + 1) - clock i) = 1) by (unfold clock; rewrite minus_INR, plus_INR by lia; cbn [INR]; ring). rewrite C. unfold Rdiv. rewrite Rinv_1, Rmult_1_r. unfold kink. rewrite plus_INR, minus_INR by lia. change (INR 1) with 1.
  destruct (Nat.eq_dec i 12) as [E|E].
  - subst i. destruct (le_lt_dec (12 + 1) 12); [lia|]. destruct (le_lt_dec 12 12); [|lia]. destruct (le_lt_dec (12 - 1) 12); [|lia]. replace (INR 12) with 12 by (cbn; lra). rewrite Rabs_pos_eq; lra.
  - destruct (le_lt_dec (i + 1) 12), (le_lt_dec i 12), (le_lt_dec (i - 1) 12); try lia.
    + rewrite <- Rabs_R0. f_equal; lra.
    + assert (Ei : i = 13%nat) by lia. subst i. replace (INR 13) with 13 by (cbn; lra). match goal with |- Rabs ?a = _ => replace a with 0 by lra end. apply Rabs_R0.
    + rewrite <- Rabs_R0. f_equal; lra.
Qed.
Lemma kink_sharp : forall i, sharp clock kink 25 i <-> i = 12%nat.
Proof.
  intros i. split.
  - intros (P & L & _). pose proof (bend_pos clock kink 25 (i - 1)). rewrite (kink_bend i) in L by lia. destruct (Nat.eq_dec i 12); [assumption|lra].
  - intros ->. split; [lia|]. rewrite !kink_bend by lia. cbn. split; [lra|]. split; [lra|]. intros j J. rewrite kink_bend by exact J. destruct (Nat.eq_dec j 12); lra.
Qed.
Lemma kink_found : get_disconts (sampled clock 25) (sampled kink 25) (sampled (fun _ => 80000) 25) (1 / 10) = [0%Z; 12%Z; (-1)%Z].
Proof.
  destruct (disconts_ok clock kink (fun _ => 80000) (1 / 10) 25 ltac:(lia)) as (l & -> & S & H).
  assert (G : In 12%nat l).
  { apply H. split; [apply kink_sharp; reflexivity|]. split; [lia|]. split; [lia|]. split; [intros j J; apply kink_sharp in J; lia|]. split; [|left; lra]. right. left. unfold kink. destruct (le_lt_dec (12 + 1) 12); [lia|]. destruct (le_lt_dec 12 12); [|lia]. replace (INR (12 + 1)) with 13 by (cbn; lra). rewrite Rabs_pos_eq; lra. }
  assert (A : forall d, In d l -> d = 12%nat) by (intros d D; apply H in D; apply kink_sharp, D).
  destruct l as [|d l]; [destruct G|]. pose proof (A d ltac:(left; reflexivity)). subst d. destruct l as [|d l]; [reflexivity|exfalso]. pose proof (A d ltac:(right; left; reflexivity)). subst d. inversion S as [|? ? _ F]. inversion F. lia.
Qed.
(** A ramp between two levels has a sharp bend at either end. *)
Definition ramp (i : nat) : R := if le_lt_dec i 10 then 0 else if le_lt_dec i 13 then INR i - 10 else 3.
Lemma ramp_bend : forall i, (i < 25)%nat -> bend clock ramp 25 i = if Nat.eq_dec i 10 then 1 else if Nat.eq_dec i 13 then 1 else 0.
Proof.
  intros i I. unfold bend.
  assert (C : (0 < i)%nat -> (clock i - clock (i - 1)) * (clock (i + 1) - clock i) = 1) by (intros P; unfold clock; rewrite minus_INR, plus_INR by lia; cbn [INR]; ring).
  destruct (le_lt_dec i 0); [destruct (Nat.eq_dec i 10); [lia|]; destruct (Nat.eq_dec i 13); [lia|reflexivity]|]. destruct (le_lt_dec (25 - 1) i); [destruct (Nat.eq_dec i 10); [lia|]; destruct (Nat.eq_dec i 13); [lia|reflexivity]|].
  rewrite C by lia. clear C. unfold Rdiv. rewrite Rinv_1, Rmult_1_r. unfold ramp.
  do 25 (destruct i as [|i]; [try lia; cbn; (match goal with |- Rabs ?a = 0 => replace a with 0 by lra; apply Rabs_R0 | |- Rabs ?a = 1 => first [replace a with 1 by lra; apply Rabs_R1 | replace a with (- (1)) by lra; rewrite Rabs_Ropp; apply Rabs_R1] end)|]). lia.
Qed.
Lemma ramp_sharp : sharp clock ramp 25 10 /\ sharp clock ramp 25 13.
Proof.
  split; (split; [lia|]); rewrite !ramp_bend by lia; cbn; (split; [lra|]); (split; [lra|]); intros j J; rewrite ramp_bend by exact J; destruct (Nat.eq_dec j 10), (Nat.eq_dec j 13); lra.
Qed.
