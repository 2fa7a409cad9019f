(** * Proof_Power: lemmas for C78. *)
From Coq Require Import String List ZArith Bool Reals Lra Lia Sorted Permutation.
From Verif Require Import Base Model_Time Model_Chord Model_Frame Model_Mask Spec_Mask Proof_Chord Model_Power Spec_Power.
Import ListNotations.
Open Scope R_scope.

(** ** Sorting *)
Lemma insert_perm : forall x l, Permutation (insert x l) (x :: l).
Proof. induction l as [|y r IH]; cbn [insert]; [auto|]. destruct (ltb y x); [|auto]. rewrite IH. apply perm_swap. Qed.
Lemma insert_sorted : forall x l, Sorted Rle l -> Sorted Rle (insert x l).
Proof.
  induction l as [|y r IH]; intros H; cbn [insert]; [auto|]. destruct (ltb y x) eqn:E.
  - apply ltb_true in E. inversion H; subst. constructor; [auto|]. destruct r as [|z r]; cbn [insert]; [constructor; lra|]. destruct (ltb z x); constructor; [inversion H3; lra|lra].
  - apply ltb_false in E. constructor; [assumption|constructor; assumption].
Qed.
Lemma sort_perm : forall l, Permutation (fold_right insert [] l) l.
Proof. induction l as [|x l IH]; cbn [fold_right]; [auto|]. rewrite insert_perm. auto. Qed.
Lemma sort_sorted : forall l, Sorted Rle (fold_right insert [] l).
Proof. induction l as [|x l IH]; cbn [fold_right]; [constructor|]. apply insert_sorted, IH. Qed.
Lemma sorted_unique : forall a b : list R, StronglySorted Rle a -> StronglySorted Rle b -> Permutation a b -> a = b.
Proof.
  induction a as [|x a IH]; intros b A B P; [symmetry; apply Permutation_nil, P|].
  destruct b as [|y b]; [symmetry in P; apply Permutation_nil in P; discriminate|].
  inversion A as [|? ? A1 A2]; inversion B as [|? ? B1 B2]; subst. rewrite Forall_forall in A2, B2.
  assert (E : x = y).
  { assert (X : In x (y :: b)) by (eapply Permutation_in; [exact P|left; reflexivity]).
    assert (Y : In y (x :: a)) by (eapply Permutation_in; [symmetry; exact P|left; reflexivity]).
    destruct X as [X|X]; [auto|]. destruct Y as [Y|Y]; [auto|]. apply B2 in X. apply A2 in Y. lra. }
  subst. f_equal. apply IH; auto. eapply Permutation_cons_inv. exact P.
Qed.
Lemma median_unique : forall l a b, median l a -> median l b -> a = b.
Proof.
  intros l a b (s & P & S & _ & ->) (t & Q & T & _ & ->).
  assert (s = t) as ->; [|reflexivity]. apply sorted_unique; [apply Sorted_StronglySorted, S; intros x y z; apply Rle_trans|apply Sorted_StronglySorted, T; intros x y z; apply Rle_trans|].
  rewrite P. symmetry. exact Q.
Qed.
Lemma nanmedian_ok : forall l m, nanmedian l = Some m <-> median (numbers l) m.
Proof.
  intros l m.
  assert (A : forall m, nanmedian l = Some m -> median (numbers l) m).
  { clear m. intros m. unfold nanmedian. set (s := fold_right insert [] (numbers l)). destruct (length s) eqn:E; [discriminate|]. intros H. injection H as <-.
    exists s. rewrite E. repeat split; [apply sort_perm|apply sort_sorted|]. intros N. rewrite N in E. discriminate. }
  split; [apply A|]. intros H. destruct (nanmedian l) as [m'|] eqn:E; [f_equal; eapply median_unique; [apply A; reflexivity|exact H]|].
  exfalso. destruct H as (s & P & _ & N & _). unfold nanmedian in E. destruct (length (fold_right insert [] (numbers l))) eqn:L; [|discriminate].
  assert (Q := Permutation_trans P (Permutation_sym (sort_perm (numbers l)))). apply Permutation_length in Q. rewrite L in Q. destruct s; [auto|discriminate].
Qed.

(** ** The powers of a gap *)
Lemma within_true : forall a b s, within a b s = true <-> a <= s <= b.
Proof. intros a b s. unfold within. rewrite andb_true_iff, !negb_true_iff, !ltb_false. reflexivity. Qed.
Lemma gap_powers : forall g u spm pc, u <> 0 -> numbers (pick (within (fst g) (snd g)) spm (map (over (Some u)) pc)) = powers_in g spm pc u.
Proof.
  intros g u spm pc U. revert pc. induction spm as [|s spm IH]; intros [|p pc]; try reflexivity.
  unfold pick, powers_in in *. cbn [map combine filter flat_map fst snd]. rewrite <- IH.
  destruct (within (fst g) (snd g) s) eqn:W.
  - apply within_true in W. unfold numbers at 1. cbn [map snd flat_map]. fold (numbers (map snd (filter (fun s0 => within (fst g) (snd g) (fst s0)) (combine spm (map (over (Some u)) pc))))).
    destruct p as [p|]; cbn [over]; [|reflexivity]. destruct (eqb u 0) eqn:E; [apply eqb_true in E; contradiction|].
    destruct (Rle_dec (fst g) s) as [_|N]; [|lra]. destruct (Rle_dec s (snd g)) as [_|N]; [reflexivity|lra].
  - destruct p as [p|]; [|reflexivity].
    destruct (Rle_dec (fst g) s); [|reflexivity]. destruct (Rle_dec s (snd g)); [|reflexivity].
    assert (within (fst g) (snd g) s = true) by (apply within_true; auto). congruence.
Qed.

(** ** The loop over the gaps *)
Definition good (spm : list R) (norm : list (option R)) (g : R * R) : bool :=
  negb match nanmedian (pick (within (fst g) (snd g)) spm norm) with Some x => ltb x (1 / 2) || ltb (5 / 4) x | None => false end.
Lemma remove_app : forall g a b, (forall h, In h a -> h <> g) -> remove_first g (a ++ g :: b) = a ++ b.
Proof.
  intros g. induction a as [|h a IH]; intros b N; cbn [app remove_first].
  - replace (eqb (fst g) (fst g)) with true by (symmetry; apply eqb_true; reflexivity). replace (eqb (snd g) (snd g)) with true by (symmetry; apply eqb_true; reflexivity). reflexivity.
  - destruct (eqb (fst h) (fst g) && eqb (snd h) (snd g)) eqn:E.
    + apply andb_true_iff in E. destruct E as [E1 E2]. apply eqb_true in E1. apply eqb_true in E2. exfalso. apply (N h (or_introl eq_refl)). destruct h, g. cbn [fst snd] in *. congruence.
    + f_equal. apply IH. intros k K. apply N. right. exact K.
Qed.
Lemma loop_ok : forall spm norm rest pre,
  fold_left (gap_step spm norm) rest (filter (good spm norm) pre ++ rest, map (fun g => nanmedian (pick (within (fst g) (snd g)) spm norm)) (filter (good spm norm) pre)) =
  (filter (good spm norm) (pre ++ rest), map (fun g => nanmedian (pick (within (fst g) (snd g)) spm norm)) (filter (good spm norm) (pre ++ rest))).
Proof.
  intros spm norm. induction rest as [|g rest IH]; intros pre; cbn [fold_left]; [rewrite !app_nil_r; reflexivity|].
  replace (pre ++ g :: rest) with ((pre ++ [g]) ++ rest) by (rewrite <- app_assoc; reflexivity). rewrite <- IH. f_equal.
  unfold gap_step. rewrite !filter_app. cbn [filter].
  destruct (good spm norm g) eqn:G; unfold good in G.
  - apply negb_true_iff in G. rewrite G. rewrite map_app, <- app_assoc. reflexivity.
  - apply negb_false_iff in G. rewrite G. rewrite !app_nil_r. f_equal. apply remove_app. intros h H ->. apply filter_In in H. destruct H as [_ H]. unfold good in H. rewrite G in H. discriminate.
Qed.
Lemma good_stays : forall spm pc u g, u <> 0 -> good spm (map (over (Some u)) pc) g = true <-> stays spm pc u g.
Proof.
  intros spm pc u g U. unfold good, stays. rewrite <- gap_powers by exact U. set (l := pick _ _ _).
  destruct (nanmedian l) as [m|] eqn:E.
  - apply nanmedian_ok in E. rewrite negb_true_iff, orb_false_iff, !ltb_false. split.
    + intros H m' M. rewrite (median_unique _ _ _ M E). lra.
    + intros H. specialize (H m E). lra.
  - split; [intros _ m M; apply nanmedian_ok in M; congruence|reflexivity].
Qed.
Lemma kept_filter : forall {A} (P : A -> Prop) f l, (forall a, f a = true <-> P a) -> kept P l (filter f l).
Proof. intros A P f l H. induction l as [|a l IH]; cbn [filter]; [constructor|]. destruct (f a) eqn:E; constructor; try apply H; auto. intros N. apply H in N. congruence. Qed.

(** ** The unit *)
Lemma pick_in : forall P spm pc p, In p (pick P spm pc) <-> exists i s, sample spm pc i s p /\ P s = true.
Proof.
  intros P spm pc p. unfold pick. rewrite in_map_iff. split.
  - intros ([s q] & <- & H). apply filter_In in H. cbn [fst snd] in *. destruct H as [H1 H2]. apply In_nth_error in H1. destruct H1 as [i H1]. exists i, s. split; [|exact H2].
    revert spm pc H1. induction i as [|i IH]; intros [|a spm] [|b pc] H1; try discriminate; cbn [combine nth_error] in H1; [injection H1 as -> ->; split; reflexivity|apply IH in H1; exact H1].
  - intros (i & s & [A B] & H). exists (s, p). split; [reflexivity|]. apply filter_In. split; [|exact H]. apply nth_error_In with i.
    revert spm pc A B. induction i as [|i IH]; intros [|a spm] [|b pc] A B; try discriminate; cbn [combine nth_error] in *; [congruence|auto].
Qed.
Lemma numbers_in : forall l x, In x (numbers l) <-> In (Some x) l.
Proof. intros l x. unfold numbers. rewrite in_flat_map. split; [intros (o & H & I); destruct o as [y|]; [destruct I as [-> | []]; exact H|destruct I]|intros H; exists (Some x); split; [exact H|left; reflexivity]]. Qed.
Lemma fold_max : forall r x, In (fold_left Rmax r x) (x :: r) /\ (forall y, In y (x :: r) -> y <= fold_left Rmax r x).
Proof.
  induction r as [|z r IH]; intros x; cbn [fold_left]; [split; [left; reflexivity|intros y [-> | []]; lra]|].
  destruct (IH (Rmax x z)) as [A B]. split.
  - destruct A as [A|A]; [|right; right; exact A]. rewrite <- A. unfold Rmax. destruct (Rle_dec x z); [right; left|left]; reflexivity.
  - intros y [-> | [-> | H]]; [eapply Rle_trans; [apply Rmax_l|apply B; left; reflexivity]|eapply Rle_trans; [apply Rmax_r|apply B; left; reflexivity]|apply B; right; exact H].
Qed.
Lemma reference_ok : forall gaps, match reference gaps with Returns P => forall s, P s = true <-> between gaps s | Raises => gaps = [] | Exits => False end.
Proof.
  intros gaps. unfold reference, between, at_.
  destruct gaps as [|g1 [|g2 [|g3 [|g4 gaps]]]].
  - reflexivity.
  - cbn [length Nat.eqb orb nth_error]. intros s. rewrite andb_true_iff, negb_true_iff, ltb_true, ltb_false. split.
    + intros H. left. exists g1. auto.
    + intros [(g & E & H)|[([H|H] & _)|(H & _)]]; [injection E as <-; auto|discriminate|discriminate|lia].
  - cbn [length Nat.eqb orb nth_error Nat.sub]. intros s. split.
    + intros H. right. left. split; [auto|]. exists g1, g2. split; [reflexivity|]. split; [reflexivity|]. destruct (eqb (snd g1) (fst g2)) eqn:E; apply within_true in H; [left; apply eqb_true in E|right; split; [intros N; apply eqb_true in N; congruence|]]; auto.
    + intros [(g & E & H)|[(_ & g & h & A & B & H)|(H & _)]]; [discriminate| |lia]. injection A as <-. injection B as <-. destruct (eqb (snd g1) (fst g2)) eqn:E; apply within_true; destruct H as [[C D]|[C D]]; auto; [apply eqb_true in E; contradiction|apply eqb_true in C; congruence].
  - cbn [length Nat.eqb orb nth_error Nat.sub]. intros s. split.
    + intros H. right. left. split; [auto|]. exists g1, g3. split; [reflexivity|]. split; [reflexivity|]. destruct (eqb (snd g1) (fst g3)) eqn:E; apply within_true in H; [left; apply eqb_true in E|right; split; [intros N; apply eqb_true in N; congruence|]]; auto.
    + intros [(g & E & H)|[(_ & g & h & A & B & H)|(H & _)]]; [discriminate| |lia]. injection A as <-. injection B as <-. destruct (eqb (snd g1) (fst g3)) eqn:E; apply within_true; destruct H as [[C D]|[C D]]; auto; [apply eqb_true in E; contradiction|apply eqb_true in C; congruence].
  - set (l := g1 :: g2 :: g3 :: g4 :: gaps). assert (L : (4 <= length l)%nat) by (cbn [length l]; lia).
    destruct ((length l =? 2) || (length l =? 3))%nat eqn:E2; [apply orb_true_iff in E2; rewrite !Nat.eqb_eq in E2; lia|].
    destruct (length l =? 1)%nat eqn:E1; [apply Nat.eqb_eq in E1; lia|].
    replace (nth_error l 1) with (Some g2) by reflexivity. destruct (nth_error l (length l - 2)) as [h|] eqn:N; [|apply nth_error_None in N; lia].
    intros s. rewrite within_true. split.
    + intros H. right. right. split; [exact L|]. exists g2, h. auto.
    + intros [(g & E & _)|[([E|E] & _)|(_ & g & h' & A & B & H)]]; [discriminate|lia|lia|]. injection A as <-. injection B as <-. exact H.
Qed.

(** ** The mask *)
Lemma unit_cases : forall P spm pc, match nanmax (pick P spm pc) with
  | Raises => forall i s p, sample spm pc i s p -> P s = false
  | Returns (Some u) => largest (fun s => P s = true) spm pc u
  | Returns None => (forall i s p, sample spm pc i s (Some p) -> P s = false) /\ exists i s, sample spm pc i s None /\ P s = true
  | Exits => False end.
Proof.
  intros P spm pc. set (l := pick P spm pc). assert (K := pick_in P spm pc). fold l in K. clearbody l.
  assert (Z : forall p i s, ~ In p l -> sample spm pc i s p -> P s = false).
  { intros p i s N S. destruct (P s) eqn:E; [|reflexivity]. exfalso. apply N, K. exists i, s. auto. }
  unfold nanmax. destruct l as [|a l]; [intros i s p S; apply (Z p i s); auto|].
  destruct (numbers (a :: l)) as [|x r] eqn:E.
  - assert (N : forall p, ~ In (Some p) (a :: l)) by (intros p H; apply numbers_in in H; rewrite E in H; exact H).
    split; [intros i s p S; apply (Z (Some p) i s); [apply N|exact S]|]. destruct a as [a|]; [exfalso; apply (N a); left; reflexivity|]. apply K. left. reflexivity.
  - destruct (fold_max r x) as [A B]. rewrite <- E in A, B. split.
    + apply numbers_in, K in A. exact A.
    + intros i s p S H. apply B, numbers_in, K. exists i, s. auto.
Qed.
Lemma nth_combine : forall {A B C} (f : A * B -> C) (a : list A) (b : list B) d i, length b = length a ->
  forall c, (i < length a)%nat -> (nth i (map f (combine a b)) d = c <-> exists x y, nth_error a i = Some x /\ nth_error b i = Some y /\ f (x, y) = c).
Proof.
  intros A B C f. induction a as [|x a IH]; intros [|y b] d i L c H; cbn [length] in *; try lia. destruct i as [|i]; cbn [combine map nth nth_error].
  - split; [intros E; exists x, y; auto|intros (x' & y' & E1 & E2 & E3); congruence].
  - apply IH; lia.
Qed.
Lemma chosen_ok : forall gaps (med : R * R -> option R) s p, chosen gaps (map med gaps) s p = true <->
  exists g m x, In g gaps /\ fst g <= s <= snd g /\ med g = Some m /\ p = Some x /\ m - 1 / 10 < x < m + 1 / 10.
Proof.
  intros gaps med s p. unfold chosen.
  assert (C : forall gm, In gm (combine gaps (map med gaps)) <-> exists g, In g gaps /\ gm = (g, med g)).
  { intros gm. induction gaps as [|g gaps IH]; cbn [map combine In]; [split; [intros []|intros (g & [] & _)]|]. rewrite IH. split.
    - intros [<- | (h & A & B)]; [exists g; auto|exists h; auto].
    - intros (h & [-> | A] & B); [left; auto|right; exists h; auto]. }
  rewrite existsb_exists. split.
  - intros (gm & I & H). apply C in I. destruct I as (g & I & ->). cbn [fst snd] in H. apply andb_true_iff in H. destruct H as [W H]. apply within_true in W.
    destruct p as [x|]; [|discriminate]. destruct (med g) as [m|] eqn:M; [|discriminate]. apply andb_true_iff in H. rewrite !ltb_true in H. exists g, m, x. auto.
  - intros (g & m & x & I & W & M & -> & H). exists (g, med g). split; [apply C; exists g; auto|]. cbn [fst snd]. rewrite M. apply andb_true_iff. split; [apply within_true, W|]. apply andb_true_iff. rewrite !ltb_true. exact H.
Qed.
Lemma mask_selects : forall gaps spm pc u, u <> 0 -> length pc = length spm ->
  selects (map (fun s => chosen gaps (map (fun g => nanmedian (pick (within (fst g) (snd g)) spm (map (over (Some u)) pc))) gaps) (fst s) (snd s)) (combine spm (map (over (Some u)) pc))) (length spm) (free gaps spm pc u).
Proof.
  intros gaps spm pc u U L. split; [rewrite map_length, combine_length, map_length; lia|]. intros i. destruct (Nat.lt_ge_cases i (length spm)) as [H|H].
  - rewrite nth_combine by (rewrite ?map_length; auto). cbn [fst snd]. split.
    + intros (s & y & A & B & C). split; [exact H|]. apply chosen_ok in C. destruct C as (g & m & x & I & W & M & -> & D). apply nanmedian_ok in M. rewrite gap_powers in M by exact U.
      rewrite nth_error_map in B. destruct (nth_error pc i) as [[p|]|] eqn:P; cbn [option_map over] in B; try discriminate. destruct (eqb u 0) eqn:Z; [discriminate|]. injection B as <-.
      exists s, p, g, m. repeat split; auto; lra.
    + intros (_ & s & p & g & m & [A B] & I & W & M & D). exists s, (Some (p / u)). split; [exact A|]. split.
      * rewrite nth_error_map, B. cbn [option_map over]. destruct (eqb u 0) eqn:Z; [apply eqb_true in Z; contradiction|reflexivity].
      * apply chosen_ok. exists g, m, (p / u). repeat split; try tauto. apply nanmedian_ok. rewrite gap_powers by exact U. exact M.
  - rewrite nth_overflow by (rewrite map_length, combine_length, map_length; lia). split; [discriminate|lia].
Qed.
Definition whole (order : Z) (gaps : list (R * R)) (spm : list R) (pc : list (option R)) (mask : list bool) (gaps' : list (R * R)) (order' : Z) : Prop :=
  (order' = if le_dec (length gaps') 5 then 1%Z else order) /\
  ((exists u, largest (between gaps) spm pc u /\ kept (stays spm pc u) gaps gaps' /\ selects mask (length spm) (free gaps' spm pc u)) \/
   ((forall i s p, sample spm pc i s (Some p) -> ~ between gaps s) /\ gaps' = gaps /\ selects mask (length spm) (fun _ => False))).
Lemma over_none : forall spm pc P, numbers (pick P spm (map (over None) pc)) = [].
Proof.
  intros spm pc P. destruct (numbers (pick P spm (map (over None) pc))) as [|x r] eqn:E; [reflexivity|].
  assert (H : In x (numbers (pick P spm (map (over None) pc)))) by (rewrite E; left; reflexivity). apply numbers_in, pick_in in H. destruct H as (i & s & [_ H] & _). rewrite nth_error_map in H. destruct (nth_error pc i) as [[p|]|]; discriminate.
Qed.
Lemma power_mask : forall order gaps spm pc, length pc = length spm -> (forall p, In (Some p) pc -> 0 < p) ->
  match create_mask order gaps spm pc with
  | Returns (mask, gaps', order') => whole order gaps spm pc mask gaps' order' /\ exists i s p, sample spm pc i s p /\ between gaps s
  | Raises => forall i s p, sample spm pc i s p -> ~ between gaps s
  | Exits => False end.
Proof.
  intros order gaps spm pc L Pos. unfold create_mask. assert (Rf := reference_ok gaps). destruct (reference gaps) as [P| |] eqn:ER; cbn [pybind]; [|subst gaps; intros i s p _ [(g & E & _)|[([E|E] & _)|(E & _)]]; [discriminate|discriminate|discriminate|cbn [length] in E; lia]|exact Rf].
  assert (U := unit_cases P spm pc). destruct (nanmax (pick P spm pc)) as [[u|]| |]; cbn [pybind]; [| |intros i s p S B; apply Rf in B; specialize (U i s p S); congruence|exact U].
  - assert (N : u <> 0). { destruct U as [(i & s & [_ S] & _) _]. apply nth_error_In in S. apply Pos in S. lra. }
    assert (Lp := loop_ok spm (map (over (Some u)) pc) gaps []). cbn [filter map app] in Lp. rewrite Lp.
    destruct U as [(i & s & S & H) Mx]. apply Rf in H. split; [|exists i, s, (Some u); auto].
    split; [destruct (le_dec _ _) as [K|K]; [apply Nat.leb_le in K; rewrite K; reflexivity|apply Nat.leb_nle in K; rewrite K; reflexivity]|]. left. exists u. split; [split; [exists i, s; auto|intros j t p T B; apply Rf in B; eapply Mx; eauto]|].
    split; [apply kept_filter; intros g; apply good_stays, N|]. apply mask_selects; assumption.
  - assert (Lp := loop_ok spm (map (over None) pc) gaps []). cbn [filter map app] in Lp. rewrite Lp.
    destruct U as [U (i & s & S & H)]. apply Rf in H. split; [|exists i, s, None; auto].
    assert (G : filter (good spm (map (over None) pc)) gaps = gaps).
    { clear. induction gaps as [|g gaps IH]; cbn [filter]; [reflexivity|]. unfold good at 1. unfold nanmedian. rewrite over_none. cbn [fold_right length negb]. rewrite IH. reflexivity. }
    rewrite G. split; [destruct (le_dec _ _) as [K|K]; [apply Nat.leb_le in K; rewrite K; reflexivity|apply Nat.leb_nle in K; rewrite K; reflexivity]|]. right. split; [intros j t p T B; apply Rf in B; specialize (U j t p T); congruence|]. split; [reflexivity|].
    split; [rewrite map_length, combine_length, map_length; lia|]. intros j. split; [|intros [_ []]]. intros T. exfalso. destruct (Nat.lt_ge_cases j (length spm)) as [J|J].
    + rewrite nth_combine in T by (rewrite ?map_length; auto). destruct T as (t & y & A & B & C). cbn [fst snd] in C. apply chosen_ok in C. destruct C as (g & m & x & _ & _ & _ & -> & _). rewrite nth_error_map in B. destruct (nth_error pc j) as [[p|]|]; discriminate.
    + rewrite nth_overflow in T by (rewrite map_length, combine_length, map_length; lia). discriminate.
Qed.

Lemma normalise_ok : forall order gaps spm pc, length pc = length spm -> (forall p, In (Some p) pc -> 0 < p) -> forall asks mask used geo, normalise order gaps spm pc = Returns (asks, mask, used, geo) ->
  (gaps = [] /\ asks = true /\ geo = gaps \/ exists m o, create_mask order gaps spm pc = Returns (m, geo, o) /\ (asks = true <-> forall i, nth i m false = false) /\ (asks = false -> mask = m /\ used = geo)) /\
  (asks = true -> selects mask (length spm) (fun _ => True) /\ exists a b, nth_error spm 1 = Some a /\ nth_error spm (length spm - 2) = Some b /\ used = [(a, b)]).
Proof.
  intros order gaps spm pc L Pos asks mask used geo.
  assert (Ev : forall g, everything g spm = Returns (asks, mask, used, geo) -> asks = true /\ geo = g /\ selects mask (length spm) (fun _ => True) /\ exists a b, nth_error spm 1 = Some a /\ nth_error spm (length spm - 2) = Some b /\ used = [(a, b)]).
  { intros g. unfold everything, at_. destruct (nth_error spm 1) as [a|]; [|discriminate]. destruct (length spm <? 2)%nat; [discriminate|]. destruct (nth_error spm (length spm - 2)) as [b|]; [|discriminate]. intros H. injection H as <- <- <- <-. repeat split; eauto.
    - apply map_length.
    - destruct (Nat.lt_ge_cases i (length spm)) as [K|K]; [exact K|]. rewrite nth_overflow in H by (rewrite map_length; exact K). discriminate.
    - intros [K _]. rewrite nth_indep with (d' := true) by (rewrite map_length; exact K). clear. revert i. induction spm as [|s spm IH]; intros [|i]; cbn [map nth]; auto. }
  unfold normalise. destruct gaps as [|g gaps].
  - intros H. apply Ev in H. destruct H as (A & B & C & D). split; [left; auto|]. auto.
  - destruct (create_mask order (g :: gaps) spm pc) as [[[m g'] o]| |]; cbn [pybind]; try discriminate.
    assert (F : forallb negb m = true <-> forall i, nth i m false = false).
    { rewrite forallb_forall. split.
      - intros H i. destruct (nth i m false) eqn:E; [|reflexivity]. destruct (Nat.lt_ge_cases i (length m)) as [K|K]; [|rewrite nth_overflow in E by exact K; discriminate]. assert (I : In true m) by (rewrite <- E; apply nth_In, K). apply H in I. discriminate.
      - intros H b I. apply In_nth with (d := false) in I. destruct I as (i & _ & <-). rewrite H. reflexivity. }
    destruct (forallb negb m) eqn:E.
    + intros H. apply Ev in H. destruct H as (A & B & C & D). split; [|auto]. right. exists m, o. subst. split; [reflexivity|]. split; [split; [intros _; apply F; reflexivity|reflexivity]|discriminate].
    + intros H. injection H as <- <- <- <-. split; [|discriminate]. right. exists m, o. split; [reflexivity|]. split; [split; [discriminate|intros K; apply F in K; discriminate]|auto].
Qed.
