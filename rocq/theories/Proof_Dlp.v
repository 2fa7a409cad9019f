(** * Proof_Dlp: proofs of C72, cuts and ranges. *)
From Coq Require Import List ZArith Bool Reals Lia Lra Sorted.
From Verif Require Import Base Model_Time Model_Chord Model_Free Model_Dlp Spec_Dlp Proof_Chord Proof_Free Proof_Free2.
Import ListNotations.
Open Scope R_scope.

(** ** Lists. *)
Lemma those_all : forall {A} (P : A -> Prop) l, (forall x, In x l -> P x) -> those P l l.
Proof. induction l as [|x l IH]; intro H; constructor; [apply H; left; reflexivity|apply IH; intros; apply H; right; assumption]. Qed.
Lemma those_none : forall {A} (P : A -> Prop) l l' r, (forall x, In x l -> ~ P x) -> those P l' r -> those P (l ++ l') r.
Proof. induction l as [|x l IH]; intros l' r H T; [exact T|]. cbn. apply th_drop; [apply H; left; reflexivity|apply IH; [intros; apply H; right; assumption|exact T]]. Qed.
Lemma those_app : forall {A} (P : A -> Prop) l r l' r', those P l r -> those P l' r' -> those P (l ++ l') (r ++ r').
Proof. intros A P l r l' r' T T'. induction T; cbn; [exact T'|apply th_keep|apply th_drop]; assumption. Qed.
Lemma those_nil : forall {A} (P : A -> Prop) l, (forall x, In x l -> ~ P x) -> those P l [].
Proof. intros A P l H. rewrite <- (app_nil_r l). apply those_none; [exact H|constructor]. Qed.
Lemma those_ext : forall {A} (P Q : A -> Prop) l r, (forall x, In x l -> (P x <-> Q x)) -> those P l r -> those Q l r.
Proof.
  intros A P Q l r H T. induction T; [constructor| |]; (apply th_keep || apply th_drop); try (apply IHT; intros; apply H; right; assumption).
  - apply (H x); [left; reflexivity|assumption].
  - intro K. apply H0. apply (H x); [left; reflexivity|exact K].
Qed.
Lemma those_in : forall {A} (P : A -> Prop) l r, those P l r -> forall x, In x r <-> In x l /\ P x.
Proof.
  intros A P l r T. induction T as [|y l r Py T IH|y l r Py T IH]; intro x.
  - split; [intros []|intros ([] & _)].
  - cbn. rewrite IH. split; [intros [<-|(H & K)]; tauto|intros ([<-|H] & K); tauto].
  - cbn. rewrite IH. split; [intros (H & K); tauto|intros ([<-|H] & K); tauto].
Qed.
Lemma index_spec : forall {A} (P : A -> bool) l i k, index_where P i l = Some k ->
  exists l1 x l2, l = l1 ++ x :: l2 /\ k = (i + length l1)%nat /\ P x = true /\ forall y, In y l1 -> P y = false.
Proof.
  intros A P. induction l as [|x l IH]; intros i k H; [discriminate|]. cbn in H. destruct (P x) eqn:E.
  - injection H as <-. exists [], x, l. cbn. repeat split; [lia|exact E|intros y []].
  - apply IH in H. destruct H as (l1 & y & l2 & -> & -> & Py & F). exists (x :: l1), y, l2. cbn. repeat split; [lia|exact Py|].
    intros z [<-|Hz]; [exact E|apply F, Hz].
Qed.
Lemma index_none : forall {A} (P : A -> bool) l i, index_where P i l = None <-> forall y, In y l -> P y = false.
Proof.
  intros A P. induction l as [|x l IH]; intro i; cbn; [tauto|]. destruct (P x) eqn:E.
  - split; [discriminate|]. intro H. rewrite (H x) in E by tauto. discriminate.
  - rewrite IH. split; [intros H y [<-|Hy]; [exact E|apply H, Hy]|intros H y Hy; apply H; right; exact Hy].
Qed.
Lemma sorted_mid : forall {A} (P : A -> A -> Prop) l1 x l2, StronglySorted P (l1 ++ x :: l2) ->
  (forall y, In y l1 -> P y x) /\ (forall y, In y l2 -> P x y) /\ forall y z, In y l1 -> In z l2 -> P y z.
Proof.
  intros A P. induction l1 as [|a l1 IH]; intros x l2 S; cbn in S; inversion S as [|? ? S' F]; subst; rewrite Forall_forall in F.
  - split; [intros y []|]. split; [exact F|intros y z []].
  - destruct (IH x l2 S') as (I1 & I2 & I3). split.
    + intros y [<-|Hy]; [apply F, in_or_app; right; left; reflexivity|apply I1, Hy].
    + split; [exact I2|]. intros y z [<-|Hy] Hz; [apply F, in_or_app; right; right; exact Hz|apply I3; assumption].
Qed.
(** ** Cuts at a time. *)
Section Cut.
  Context {A : Type}.
  Variable t : A -> R.
  Lemma cut : forall v (xs : list A) j, timed t xs -> part t v xs = Some j ->
    those (fun x => t x < v) xs (firstn j xs) /\ those (fun x => v <= t x) xs (skipn j xs) /\
    exists l1 x l2, xs = l1 ++ x :: l2 /\ j = length l1 /\ t x = v.
  Proof.
    intros v xs j S H. apply index_spec in H. destruct H as (l1 & x & l2 & -> & -> & E & _). apply eqb_true in E.
    destruct (sorted_mid _ _ _ _ S) as (I1 & I2 & _). cbn [Nat.add]. rewrite firstn_app, Nat.sub_diag, firstn_all, firstn_O, app_nil_r.
    rewrite skipn_app, Nat.sub_diag, skipn_all. cbn [skipn app].
    split; [|split].
    - rewrite <- (app_nil_r l1) at 2. apply those_app; [apply those_all; intros y Hy; specialize (I1 y Hy); lra|].
      apply those_nil. intros y [<-|Hy]; [lra|]. specialize (I2 y Hy). lra.
    - apply those_none; [intros y Hy; specialize (I1 y Hy); lra|]. apply those_all. intros y [<-|Hy]; [lra|]. specialize (I2 y Hy). lra.
    - exists l1, x, l2. tauto.
  Qed.
End Cut.

(** ** Trimming. *)
Lemma timed_map : forall {A} (t : A -> R) xs, timed t xs -> StronglySorted Rlt (map t xs).
Proof. intros A t xs S. eapply sorted_map; [|exact S]. intros x y H. exact H. Qed.
Lemma min_sorted : forall x l, StronglySorted Rlt (x :: l) -> minimum (x :: l) = x.
Proof.
  intros x l S. cbn. inversion S as [|? ? _ F]; subst. rewrite Forall_forall in F. destruct (lmin_in l x) as (I & J).
  destruct I as [I|I]; [symmetry; exact I|]. specialize (F _ I). specialize (J x (or_introl eq_refl)). lra.
Qed.
Lemma max_sorted : forall l x, StronglySorted Rlt (l ++ [x]) -> maximum (l ++ [x]) = x.
Proof.
  intros l x S. destruct (sorted_mid _ _ _ _ S) as (I1 & _). assert (K : forall m, l ++ [x] = m -> (forall y, In y m -> y <= x) -> In x m -> maximum m = x).
  { intros m _ H K. destruct m as [|y m]; [destruct K|]. cbn. destruct (lmax_in m y) as (I & J). specialize (H _ I). specialize (J _ K). lra. }
  apply (K _ eq_refl); [|apply in_or_app; right; left; reflexivity]. intros y Hy. apply in_app_or in Hy. destruct Hy as [Hy|[<-|[]]]; [left; apply I1, Hy|lra].
Qed.
Theorem trim_ok : forall geo raw out first final, timed g_t geo -> timed r_t raw -> hd_error geo = Some first -> hd_error (rev geo) = Some final ->
  trim geo raw = Returns out ->
  ((out = raw /\ forall x, In x raw -> g_t first <= r_t x <= g_t final) \/
   ((exists x, In x raw /\ ~ g_t first <= r_t x <= g_t final) /\ those (fun x => g_t first <= r_t x < g_t final) raw out)) /\
  trim geo out = Returns out.
Proof.
  intros geo raw out first final Sg Sr Hf Hl. pose proof (timed_map _ _ Sg) as Sm. unfold trim.
  destruct geo as [|g0 gs] eqn:Eg; [discriminate|]. cbn in Hf. injection Hf as ->. rewrite <- Eg in *.
  assert (Mi : minimum (map g_t geo) = g_t first) by (rewrite Eg in *; cbn [map] in *; apply min_sorted, Sm).
  assert (El : exists l, geo = l ++ [final]).
  { destruct (rev geo) as [|z zs] eqn:Er; [discriminate|]. cbn in Hl. injection Hl as ->. exists (rev zs). rewrite <- (rev_involutive geo), Er. reflexivity. }
  destruct El as (l & El).
  assert (Ma : maximum (map g_t geo) = g_t final) by (rewrite El in *; rewrite map_app in *; cbn [map] in *; apply max_sorted, Sm).
  assert (La : last (map g_t geo) 0 = g_t final) by (rewrite El, map_app; cbn [map]; apply last_last).
  rewrite Mi, Ma, La.
  assert (Le : g_t first <= g_t final).
  { clear - Sg El Eg. rewrite Eg in El. destruct l as [|a l]; cbn in El; injection El as E1 E2; [subst; lra|]. left. rewrite Eg, E2 in Sg. inversion Sg as [|? ? _ F]; subst. rewrite Forall_forall in F.
    apply F. apply in_or_app. right. left. reflexivity. }
  set (out_of := fun x => (ltb (g_t final) (r_t x) || ltb (r_t x) (g_t first))%bool).
  assert (O : forall x, out_of x = false <-> g_t first <= r_t x <= g_t final).
  { intro x. unfold out_of. rewrite orb_false_iff, !ltb_false. tauto. }
  assert (Ok : forall o : list rsmp, (forall x, In x o -> g_t first <= r_t x <= g_t final) -> existsb out_of o = false).
  { intros o H. apply not_true_is_false. intro K. apply existsb_exists in K. destruct K as (x & Hx & Px). rewrite (proj2 (O x) (H x Hx)) in Px. discriminate. }
  destruct (existsb out_of raw) eqn:Ex.
  - destruct (index_where (fun x => eqb (r_t x) (g_t first)) 0 raw) as [i1|] eqn:E1; [|discriminate].
    destruct (index_where (fun x => eqb (r_t x) (g_t final)) 0 raw) as [i2|] eqn:E2; [|discriminate].
    intro H. injection H as H.
    destruct (cut r_t (g_t first) raw i1 Sr E1) as (_ & _ & l1 & x1 & l2 & Er1 & Ei1 & T1).
    destruct (cut r_t (g_t final) raw i2 Sr E2) as (_ & _ & m1 & x2 & m2 & Er2 & Ei2 & T2).
    assert (T : those (fun x => g_t first <= r_t x < g_t final) raw out).
    { rewrite <- H. unfold slice. rewrite <- skipn_firstn_comm. rewrite Er2, Ei2, firstn_app, Nat.sub_diag, firstn_all, firstn_O, app_nil_r.
      pose proof Sr as Sr'. rewrite Er2 in Sr'. destruct (sorted_mid _ _ _ _ Sr') as (J1 & J2 & _).
      rewrite <- (app_nil_r (skipn i1 m1)). apply those_app; [|apply those_nil; intros y [<-|Hy]; [lra|specialize (J2 y Hy); lra]].
      destruct (le_lt_dec (length m1) i1) as [C|C].
      - rewrite skipn_all2 by exact C. apply those_nil. intros y Hy K. specialize (J1 y Hy).
        assert (In y l1).
        { assert (E : m1 = firstn (length m1) l1 \/ True) by tauto. clear E.
          assert (Em : firstn (length m1) raw = m1) by (rewrite Er2, firstn_app, Nat.sub_diag, firstn_all, firstn_O, app_nil_r; reflexivity).
          rewrite <- Em in Hy. rewrite Er1, firstn_app in Hy. replace (length m1 - length l1)%nat with 0%nat in Hy by lia. rewrite firstn_O, app_nil_r in Hy.
          rewrite <- (firstn_skipn (length m1) l1). apply in_or_app. left. exact Hy. }
        pose proof Sr as Sr2. rewrite Er1 in Sr2. destruct (sorted_mid _ _ _ _ Sr2) as (K1 & _). specialize (K1 y H0). lra.
      - assert (P1 : part r_t (g_t first) m1 = Some i1).
        { assert (Em : m1 = l1 ++ x1 :: firstn (length m1 - S (length l1)) l2).
          { transitivity (firstn (length m1) raw); [rewrite Er2, firstn_app, Nat.sub_diag, firstn_all, firstn_O, app_nil_r; reflexivity|].
            rewrite Er1, firstn_app, firstn_all2 by lia. f_equal. replace (length m1 - length l1)%nat with (S (length m1 - S (length l1))) by lia. reflexivity. }
          pose proof Sr as Sr2. rewrite Er1 in Sr2. destruct (sorted_mid _ _ _ _ Sr2) as (K1 & _).
          rewrite Em. generalize (firstn (length m1 - S (length l1)) l2). intro tl. unfold part. clear - T1 Ei1 K1. revert K1. subst i1. replace (length l1) with (0 + length l1)%nat by lia. generalize 0%nat.
          induction l1 as [|a l1 IH]; intros n K1; cbn.
          - rewrite (proj2 (eqb_true _ _) T1). f_equal. lia.
          - assert (eqb (r_t a) (g_t first) = false) as ->. { apply not_true_is_false. intro E. apply eqb_true in E. specialize (K1 a (or_introl eq_refl)). lra. }
            rewrite (IH (S n)) by (intros; apply K1; right; assumption). f_equal. lia. }
        assert (Sm1 : timed r_t m1). { rewrite Er2 in Sr. clear - Sr. induction m1 as [|a m1 IH]; [constructor|]. cbn in Sr. inversion Sr as [|? ? S F]; subst. constructor; [apply IH, S|].
          rewrite Forall_forall in *. intros y Hy. apply F. apply in_or_app. left. exact Hy. }
        destruct (cut r_t (g_t first) m1 i1 Sm1 P1) as (_ & C2 & _). eapply those_ext; [|exact C2]. intros y Hy. specialize (J1 y Hy). cbn. lra. }
    split.
    + right. split; [|exact T]. apply existsb_exists in Ex. destruct Ex as (x & Hx & Px). exists x. split; [exact Hx|]. intro K. rewrite (proj2 (O x) K) in Px. discriminate.
    + rewrite (Ok out); [reflexivity|]. intros x Hx. apply (those_in _ _ _ T) in Hx. lra.
  - intro H. injection H as <-. split.
    + left. split; [reflexivity|]. intros x Hx. apply O. apply not_true_is_false. intro K. assert (existsb out_of raw = true) by (apply existsb_exists; exists x; tauto). congruence.
    + rewrite Ex. reflexivity.
Qed.

(** ** The range. *)
Lemma closer_up : forall a b v, a < b -> Rabs (b - v) <= Rabs (a - v) -> (a + b) / 2 <= v.
Proof. intros a b v L H. unfold Rabs in H. destruct (Rcase_abs (b - v)), (Rcase_abs (a - v)); lra. Qed.
Lemma closer_down : forall a b v, a < b -> Rabs (a - v) <= Rabs (b - v) -> v <= (a + b) / 2.
Proof. intros a b v L H. unfold Rabs in H. destruct (Rcase_abs (b - v)), (Rcase_abs (a - v)); lra. Qed.
Lemma nearest_spec : forall radii v, radii <> [] -> exists i, nearest_index radii v = Some i /\ (i < length radii)%nat /\
  forall k, (k < length radii)%nat -> Rabs (nth i radii 0 - v) <= Rabs (nth k radii 0 - v).
Proof.
  intros radii v N. unfold nearest_index. set (m := minimum _).
  assert (M : In m (map (fun x => Rabs (x - v)) radii) /\ forall y, In y (map (fun x => Rabs (x - v)) radii) -> m <= y).
  { unfold m. destruct radii as [|r l]; [congruence|]. cbn [map minimum]. apply lmin_in. }
  destruct M as (M1 & M2). destruct (index_where (fun x => eqb (Rabs (x - v)) m) 0 radii) as [i|] eqn:E.
  - exists i. split; [reflexivity|]. apply index_spec in E. destruct E as (l1 & x & l2 & -> & -> & P & _). apply eqb_true in P. cbn [Nat.add].
    split; [rewrite app_length; cbn; lia|]. intros k Hk. rewrite nth_middle, P. apply M2. apply (in_map (fun x => Rabs (x - v))). apply nth_In. exact Hk.
  - exfalso. apply in_map_iff in M1. destruct M1 as (x & Ex & Hx). pose proof (proj1 (index_none _ _ _) E x Hx) as F. cbn in F.
    rewrite (proj2 (eqb_true _ _) Ex) in F. discriminate.
Qed.
Theorem range_ok : forall {A} (radius : A -> R) xs lo hi s, 0 <= s -> StronglySorted (fun x y => radius x < radius y) xs ->
  (forall a b, neighbours a b xs -> radius b - radius a <= s) ->
  (in_range radius lo hi xs = Raises <-> forall x, In x xs -> ~ lo < radius x < hi) /\
  forall ys, in_range radius lo hi xs = Returns ys ->
    (exists l1 l2, xs = l1 ++ ys ++ l2) /\ (forall x, In x xs -> lo <= radius x <= hi -> In x ys) /\
    (forall y, In y ys -> lo - s / 2 <= radius y <= hi + s / 2).
Proof.
  intros A radius xs lo hi s Ps Sx G. unfold in_range.
  assert (Ne : forall P, existsb P (map radius xs) = true -> map radius xs <> []) by (intros P H E; rewrite E in H; discriminate).
  destruct (existsb (fun r => (ltb lo r && ltb r hi)%bool) (map radius xs)) eqn:Ex; cbn [negb].
  - pose proof (Ne _ Ex) as N. destruct (nearest_spec (map radius xs) lo N) as (i & Ei & Li & Mi). destruct (nearest_spec (map radius xs) hi N) as (j & Ej & Lj & Mj).
    rewrite Ei, Ej. apply existsb_exists in Ex. destruct Ex as (r & Hr & Pr). apply andb_true_iff in Pr. rewrite !ltb_true in Pr. apply in_map_iff in Hr. destruct Hr as (x & Er & Hx).
    split; [split; [discriminate|]; intro H; exfalso; apply (H x Hx); rewrite Er; exact Pr|].
    intros ys H. injection H as <-. set (f := fun k => nth k (map radius xs) 0) in *. rewrite map_length in *.
    assert (Sf : forall a b, (a < b < length xs)%nat -> f a < f b).
    { intros a b Hab. unfold f. apply (sorted_nth' Rlt 0); [eapply sorted_map; [|exact Sx]; auto|rewrite map_length; exact Hab]. }
    assert (Nf : forall k y, nth_error xs k = Some y -> f k = radius y) by (intros k y E; unfold f; apply nth_rho; exact E).
    assert (Kl : forall k, (k < length xs)%nat -> lo <= f k -> (i <= k)%nat).
    { intros k Hk Hlo. destruct (le_lt_dec i k) as [C|C]; [exact C|exfalso]. pose proof (Sf k i ltac:(lia)) as L. pose proof (closer_up _ _ _ L (Mi k Hk)). lra. }
    assert (Kh : forall k, (k < length xs)%nat -> f k <= hi -> (k <= j)%nat).
    { intros k Hk Hhi. destruct (le_lt_dec k j) as [C|C]; [exact C|exfalso]. pose proof (Sf j k ltac:(lia)) as L. pose proof (closer_down _ _ _ L (Mj k Hk)). lra. }
    apply In_nth_error in Hx. destruct Hx as (kx & Hkx). assert (Lkx : (kx < length xs)%nat) by (apply nth_error_Some; congruence).
    pose proof (Nf _ _ Hkx) as Fx. pose proof (Kl kx Lkx ltac:(lra)) as Ix. pose proof (Kh kx Lkx ltac:(lra)) as Jx.
    assert (Gf : forall k, (S k < length xs)%nat -> f (S k) - f k <= s).
    { intros k Hk. destruct (nth_error xs k) as [a|] eqn:Ea; [|apply nth_error_None in Ea; lia]. destruct (nth_error xs (S k)) as [b|] eqn:Eb; [|apply nth_error_None in Eb; lia].
      rewrite (Nf _ _ Ea), (Nf _ _ Eb). apply G. apply nth_error_split in Ea. destruct Ea as (l1 & l2 & -> & <-). rewrite nth_error_app2 in Eb by lia.
      replace (S (length l1) - length l1)%nat with 1%nat in Eb by lia. cbn in Eb. destruct l2 as [|c l2]; [discriminate|]. cbn in Eb. injection Eb as ->. exists l1, l2. reflexivity. }
    assert (Bl : lo - s / 2 <= f i).
    { destruct (Rle_lt_dec lo (f i)) as [C|C]; [lra|].
      assert (i <> kx) by (intro; subst; lra). pose proof (Gf i ltac:(lia)). pose proof (Sf i (S i) ltac:(lia)) as L.
        pose proof (closer_down _ _ _ L (Mi (S i) ltac:(lia))). lra. }
    assert (Bh : f j <= hi + s / 2).
    { destruct (Rle_lt_dec (f j) hi) as [C|C]; [lra|].
      assert (j <> kx) by (intro; subst; lra). destruct j as [|j]; [lia|]. pose proof (Gf j ltac:(lia)). pose proof (Sf j (S j) ltac:(lia)) as L.
      pose proof (closer_up _ _ _ L (Mj j ltac:(lia))). lra. }
    assert (Ns : forall k y, nth_error (slice i (j + 1) xs) k = Some y <-> (k < j + 1 - i)%nat /\ nth_error xs (i + k) = Some y).
    { intros k y. unfold slice. split.
      - intro H. assert (C : (k < j + 1 - i)%nat).
        { assert ((k < length (firstn (j + 1 - i) (skipn i xs)))%nat) by (apply nth_error_Some; congruence). rewrite firstn_length in H0. lia. }
        rewrite nth_error_firstn' in H by exact C. rewrite nth_error_skipn' in H. tauto.
      - intros (C & H). rewrite nth_error_firstn' by exact C. rewrite nth_error_skipn'. exact H. }
    split; [|split].
    + exists (firstn i xs), (skipn (j + 1 - i) (skipn i xs)). unfold slice. rewrite firstn_skipn, firstn_skipn. reflexivity.
    + intros y Hy Py. apply In_nth_error in Hy. destruct Hy as (k & Hk). assert (Lk : (k < length xs)%nat) by (apply nth_error_Some; congruence).
      pose proof (Nf _ _ Hk) as Fk. pose proof (Kl k Lk ltac:(lra)). pose proof (Kh k Lk ltac:(lra)).
      apply (nth_error_In _ (k - i)). apply Ns. split; [lia|]. replace (i + (k - i))%nat with k by lia. exact Hk.
    + intros y Hy. apply In_nth_error in Hy. destruct Hy as (k & Hk). apply Ns in Hk. destruct Hk as (C & Hk). rewrite <- (Nf _ _ Hk).
      assert (Lk : (i + k < length xs)%nat) by (apply nth_error_Some; congruence).
      split.
      * destruct (Nat.eq_dec k 0) as [->|D]; [rewrite Nat.add_0_r; exact Bl|]. pose proof (Sf i (i + k)%nat ltac:(lia)). lra.
      * destruct (Nat.eq_dec (i + k) j) as [->|D]; [exact Bh|]. pose proof (Sf (i + k)%nat j ltac:(lia)). lra.
  - split; [|discriminate]. split; [intros _|reflexivity]. intros y Hy K.
    assert (existsb (fun r => (ltb lo r && ltb r hi)%bool) (map radius xs) = true); [|congruence].
    apply existsb_exists. exists (radius y). split; [apply in_map, Hy|]. rewrite andb_true_iff, !ltb_true. exact K.
Qed.
