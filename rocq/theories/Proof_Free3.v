(** * Proof_Free3: proofs of C69, the whole function. *)
From Coq Require Import List ZArith Bool Reals Lra Lia Arith Sorted.
From Verif Require Import Base Model_Time Model_Chord Model_Free Spec_Chord Spec_Free Proof_Chord Proof_Free Proof_Free2.
Import ListNotations.
Open Scope R_scope.

Lemma region_covered : forall days xs r, (2 <= length xs)%nat -> In r (get_freespace_km days xs gap_table) ->
  covered xs (fst r) /\ covered xs (snd r) /\ fst r < snd r.
Proof.
  intros days xs r N H. assert (Ne : xs <> []) by (destruct xs; [cbn in N; lia|discriminate]).
  pose proof (minimum_least xs Ne) as L. pose proof (maximum_largest xs Ne) as U.
  destruct (km_inside days xs _ _ r Ne L U H) as (A & B). destruct (km_ascending days xs) as (F & _). rewrite Forall_forall in F. specialize (F r H).
  destruct L as ((x & Hx & Ex) & _). destruct U as ((y & Hy & Ey) & _). split; [|split; [|exact F]].
  - split; [exists x|exists y]; split; try assumption; lra.
  - split; [exists x|exists y]; split; try assumption; lra.
Qed.
Lemma sample_covered : forall xs x, In x xs -> covered xs (s_rho x).
Proof. intros xs x H. split; exists x; (split; [exact H|lra]). Qed.
Lemma Forall2_map_r : forall {A B} (P : A -> B -> Prop) (h : A -> B) l, (forall x, In x l -> P x (h x)) -> Forall2 P l (map h l).
Proof. intros A B P h l. induction l as [|a l IH]; intro H; [constructor|]. cbn. constructor; [apply H; left; reflexivity|]. apply IH. intros x Hx. apply H. right. exact Hx. Qed.
Lemma sorted_map_in : forall {A B} (P : A -> A -> Prop) (Q : B -> B -> Prop) (h : A -> B) l, (forall x y, In x l -> In y l -> P x y -> Q (h x) (h y)) ->
  StronglySorted P l -> StronglySorted Q (map h l).
Proof.
  intros A B P Q h l H S. induction S as [|a l S IH F]; [constructor|]. cbn. constructor.
  - apply IH. intros x y Hx Hy. apply H; right; assumption.
  - rewrite Forall_forall in *. intros y Hy. apply in_map_iff in Hy. destruct Hy as (x & <- & Hx). apply H; [left; reflexivity|right; exact Hx|apply F, Hx].
Qed.
(** Rising radii. *)
Lemma up_regions : forall days xs, (2 <= length xs)%nat -> rising s_rho xs -> in_time s_oet xs ->
  let km := get_freespace_km days xs gap_table in
  Forall2 (same_samples xs) km (spm_regions xs km) /\ ascending (spm_regions xs km).
Proof.
  intros days xs N Ri Ti km. assert (St := fun a b => up_strict xs a b N Ri Ti).
  assert (Le : forall a b, covered xs a -> covered xs b -> (a <= b <-> interp1d (map point xs) a <= interp1d (map point xs) b)).
  { intros a b Ca Cb. pose proof (St b a Cb Ca) as K. split; intro H.
    - destruct (Rlt_le_dec (interp1d (map point xs) b) (interp1d (map point xs) a)) as [D|D]; [|exact D]. apply K in D. lra.
    - destruct (Rlt_le_dec b a) as [D|D]; [|exact D]. apply K in D. lra. }
  unfold spm_regions. change (map (fun x => (s_rho x, s_oet x)) xs) with (map point xs). split; [|split].
  - apply Forall2_map_r. intros r Hr. destruct (region_covered days xs r N Hr) as (C1 & C2 & _). intros x Hx. cbn [fst snd].
    pose proof (sample_covered xs x Hx) as C. rewrite <- (up_points xs x N Ri Ti Hx). split.
    + pose proof (St _ _ C1 C). pose proof (St _ _ C C2). tauto.
    + pose proof (Le _ _ C1 C). pose proof (Le _ _ C C2). tauto.
  - rewrite Forall_forall. intros q Hq. apply in_map_iff in Hq. destruct Hq as (r & <- & Hr). destruct (region_covered days xs r N Hr) as (C1 & C2 & L).
    cbn [fst snd]. exact (proj1 (St _ _ C1 C2) L).
  - destruct (km_ascending days xs) as (_ & S). eapply sorted_map_in; [|exact S]. intros p q Hp Hq (L1 & L2). cbn [fst snd].
    destruct (region_covered days xs p N Hp) as (P1 & P2 & _). destruct (region_covered days xs q N Hq) as (Q1 & Q2 & _).
    split; [exact (proj1 (St _ _ P1 Q1) L1)|exact (proj1 (St _ _ P2 Q2) L2)].
Qed.
Lemma reversed_is : forall l, reversed l = map (fun r => (snd r, fst r)) (rev l).
Proof. intro l. unfold reversed. symmetry. apply map_rev. Qed.
(** Falling radii. *)
Lemma down_regions : forall days xs, (2 <= length xs)%nat -> falling s_rho xs -> in_time s_oet xs ->
  let km := get_freespace_km days xs gap_table in
  Forall2 (same_samples xs) (rev km) (reversed (spm_regions xs km)) /\ ascending (reversed (spm_regions xs km)).
Proof.
  intros days xs N Fa Ti km. assert (St := down_strict xs N Fa Ti).
  assert (Le : forall a b, covered xs a -> covered xs b -> (a <= b <-> interp1d (map point xs) b <= interp1d (map point xs) a)).
  { intros a b Ca Cb. pose proof (St b a Cb Ca) as K. split; intro H.
    - destruct (Rlt_le_dec (interp1d (map point xs) a) (interp1d (map point xs) b)) as [D|D]; [|exact D]. apply K in D. lra.
    - destruct (Rlt_le_dec b a) as [D|D]; [|exact D]. apply K in D. lra. }
  rewrite reversed_is. unfold spm_regions. change (map (fun x => (s_rho x, s_oet x)) xs) with (map point xs).
  rewrite <- map_rev, map_map. cbn [fst snd]. split; [|split].
  - apply Forall2_map_r. intros r Hr. apply in_rev in Hr. destruct (region_covered days xs r N Hr) as (C1 & C2 & _). intros x Hx. cbn [fst snd].
    pose proof (sample_covered xs x Hx) as C. rewrite <- (down_points xs N Fa x Hx). split.
    + pose proof (St _ _ C1 C). pose proof (St _ _ C C2). tauto.
    + pose proof (Le _ _ C1 C). pose proof (Le _ _ C C2). tauto.
  - rewrite Forall_forall. intros q Hq. apply in_map_iff in Hq. destruct Hq as (r & <- & Hr). apply in_rev in Hr.
    destruct (region_covered days xs r N Hr) as (C1 & C2 & L). cbn [fst snd]. exact (proj1 (St _ _ C1 C2) L).
  - destruct (km_ascending days xs) as (_ & S). apply sorted_rev in S. eapply sorted_map_in; [|exact S]. intros p q Hp Hq (L1 & L2). cbn [fst snd].
    apply in_rev in Hp, Hq.
    destruct (region_covered days xs p N Hp) as (P1 & P2 & _). destruct (region_covered days xs q N Hq) as (Q1 & Q2 & _).
    split; [exact (proj1 (St _ _ Q2 P2) L2)|exact (proj1 (St _ _ Q1 P1) L1)].
Qed.

(** ** The function. *)
Lemma frees_unique : forall {A} (t : A -> R) atmos xs out, frees t atmos xs out -> out = remove_blocked t xs atmos.
Proof.
  intros A t atmos xs out F. induction F as [|x l l' K F IH|x l l' K F IH]; [reflexivity| |]; unfold remove_blocked in *; cbn [filter];
    destruct (mem (t x) atmos) eqn:M; cbn [negb].
  - apply mem_in in M. contradiction.
  - f_equal. exact IH.
  - exact IH.
  - exfalso. apply K. intro C. apply mem_in in C. congruence.
Qed.
Section Whole.
  Variable days : R -> R.
  Lemma rising_regions : forall xs atmos out, frees s_oet atmos xs out -> (2 <= length out)%nat -> rising s_rho xs -> in_time s_oet xs ->
    exists spm, get_freespace days gap_table xs atmos None = Returns (One (get_freespace_km days out gap_table), spm) /\
      Forall2 (same_samples out) (get_freespace_km days out gap_table) spm /\ ascending spm.
  Proof.
    intros xs atmos out F N Ri Ti. pose proof (frees_unique _ _ _ _ F) as E.
    assert (R' : rising s_rho out) by (rewrite E; apply sorted_filter; exact Ri). assert (T' : in_time s_oet out) by (rewrite E; apply sorted_filter; exact Ti).
    exists (spm_regions out (get_freespace_km days out gap_table)). split; [|apply up_regions; assumption].
    unfold get_freespace. rewrite <- E. destruct out as [|x [|y out]]; try (cbn in N; lia).
    assert (L : s_rho x < s_rho y) by (apply StronglySorted_inv in R'; destruct R' as (_ & K); inversion K; assumption).
    rewrite (proj2 (ltb_false _ _)) by lra. reflexivity.
  Qed.
  Lemma falling_regions : forall xs atmos out, frees s_oet atmos xs out -> (2 <= length out)%nat -> falling s_rho xs -> in_time s_oet xs ->
    exists spm, get_freespace days gap_table xs atmos None = Returns (One (get_freespace_km days out gap_table), spm) /\
      Forall2 (same_samples out) (rev (get_freespace_km days out gap_table)) spm /\ ascending spm.
  Proof.
    intros xs atmos out F N Fa Ti. pose proof (frees_unique _ _ _ _ F) as E.
    assert (R' : falling s_rho out) by (rewrite E; apply sorted_filter; exact Fa). assert (T' : in_time s_oet out) by (rewrite E; apply sorted_filter; exact Ti).
    exists (reversed (spm_regions out (get_freespace_km days out gap_table))). split; [|apply down_regions; assumption].
    unfold get_freespace. rewrite <- E. destruct out as [|x [|y out]]; try (cbn in N; lia).
    assert (L : s_rho y < s_rho x) by (apply StronglySorted_inv in R'; destruct R' as (_ & K); inversion K; assumption).
    rewrite (proj2 (ltb_true _ _)) by lra. reflexivity.
  Qed.
  Lemma few_samples : forall xs atmos out, frees s_oet atmos xs out -> (length out < 2)%nat -> get_freespace days gap_table xs atmos None = Raises.
  Proof.
    intros xs atmos out F N. unfold get_freespace. rewrite <- (frees_unique _ _ _ _ F). destruct out as [|x [|y out]]; try reflexivity. cbn in N. lia.
  Qed.
  (** Times of regions are times between samples. *)
  Lemma between_up : forall xs r, (2 <= length xs)%nat -> rising s_rho xs -> in_time s_oet xs -> covered xs r ->
    (exists x, In x xs /\ s_oet x <= interp1d (map point xs) r) /\ (exists x, In x xs /\ interp1d (map point xs) r <= s_oet x).
  Proof.
    intros xs r N Ri Ti C. pose proof C as ((x & Hx & Lx) & (y & Hy & Ly)). split; [exists x|exists y]; (split; [assumption|]).
    - rewrite <- (up_points xs x N Ri Ti Hx). destruct Lx as [Lx| <-]; [left|lra]. exact (proj1 (up_strict xs _ _ N Ri Ti (sample_covered xs x Hx) C) Lx).
    - rewrite <- (up_points xs y N Ri Ti Hy). destruct Ly as [Ly| ->]; [left|lra]. exact (proj1 (up_strict xs _ _ N Ri Ti C (sample_covered xs y Hy)) Ly).
  Qed.
  Lemma between_down : forall xs r, (2 <= length xs)%nat -> falling s_rho xs -> in_time s_oet xs -> covered xs r ->
    (exists x, In x xs /\ s_oet x <= interp1d (map point xs) r) /\ (exists x, In x xs /\ interp1d (map point xs) r <= s_oet x).
  Proof.
    intros xs r N Fa Ti C. pose proof C as ((x & Hx & Lx) & (y & Hy & Ly)). split; [exists y|exists x]; (split; [assumption|]).
    - rewrite <- (down_points xs N Fa y Hy). destruct Ly as [Ly| ->]; [left|lra]. exact (proj1 (down_strict xs N Fa Ti _ _ C (sample_covered xs y Hy)) Ly).
    - rewrite <- (down_points xs N Fa x Hx). destruct Lx as [Lx| <-]; [left|lra]. exact (proj1 (down_strict xs N Fa Ti _ _ (sample_covered xs x Hx) C) Lx).
  Qed.
  Lemma chord_regions : forall xs m atmos ing egr, valley s_rho xs m -> in_time s_oet xs ->
    frees s_oet atmos (firstn (m + 1) xs) ing -> frees s_oet atmos (skipn (m + 1) xs) egr -> (2 <= length ing)%nat -> (2 <= length egr)%nat ->
    exists spm_ing spm_egr,
      get_freespace days gap_table xs atmos (Some (m + 1)%nat) =
        Returns (Two (get_freespace_km days ing gap_table) (get_freespace_km days egr gap_table), spm_ing ++ spm_egr) /\
      Forall2 (same_samples ing) (rev (get_freespace_km days ing gap_table)) spm_ing /\
      Forall2 (same_samples egr) (get_freespace_km days egr gap_table) spm_egr /\
      ascending (spm_ing ++ spm_egr).
  Proof.
    intros xs m atmos ing egr V Ti Fi Fe Ni Ne. pose proof (frees_unique _ _ _ _ Fi) as Ei. pose proof (frees_unique _ _ _ _ Fe) as Ee.
    assert (Sp : firstn (m + 1) xs ++ skipn (m + 1) xs = xs) by apply firstn_skipn.
    assert (Tapp : forall (l l' : list smp), in_time s_oet (l ++ l') -> in_time s_oet l /\ in_time s_oet l' /\ forall x y, In x l -> In y l' -> s_oet x < s_oet y).
    { induction l as [|a l IH]; intros l' H; [split; [constructor|]; split; [exact H|intros x y []]|].
      cbn in H. apply StronglySorted_inv in H. destruct H as (H & F). destruct (IH l' H) as (A & B & C). rewrite Forall_forall in F. split; [|split; [exact B|]].
      - constructor; [exact A|]. rewrite Forall_forall. intros y Hy. apply F. apply in_or_app. left. exact Hy.
      - intros x y [<-|Hx] Hy; [apply F; apply in_or_app; right; exact Hy|apply C; assumption]. }
    rewrite <- Sp in Ti. destruct (Tapp _ _ Ti) as (T1 & T2 & T3).
    assert (Ri : falling s_rho ing). { rewrite Ei. apply sorted_filter. destruct V as (_ & _ & F & _). rewrite Nat.add_1_r. exact F. }
    assert (Re : rising s_rho egr).
    { rewrite Ee. apply sorted_filter. destruct V as (_ & _ & _ & F).
      replace (skipn (m + 1) xs) with (skipn 1 (skipn m xs)); [apply sorted_skipn; exact F|]. rewrite skipn_add. f_equal. lia. }
    assert (Ii : in_time s_oet ing) by (rewrite Ei; apply sorted_filter; exact T1).
    assert (Ie : in_time s_oet egr) by (rewrite Ee; apply sorted_filter; exact T2).
    assert (B : forall x y, In x ing -> In y egr -> s_oet x < s_oet y).
    { intros x y Hx Hy. rewrite Ei in Hx. rewrite Ee in Hy. unfold remove_blocked in *. apply filter_In in Hx, Hy. apply T3; tauto. }
    destruct (valley_steps s_rho xs m V) as (d1 & d2 & E1 & E2 & H1 & H2).
    set (ki := get_freespace_km days ing gap_table). set (ke := get_freespace_km days egr gap_table).
    set (si := reversed (spm_regions ing ki)). set (se := spm_regions egr ke).
    destruct (down_regions days ing Ni Ri Ii) as (A1 & (A2 & A3)). destruct (up_regions days egr Ne Re Ie) as (B1 & (B2 & B3)).
    fold ki in A1, A2, A3. fold si in A1, A2, A3. fold ke in B1, B2, B3. fold se in B1, B2, B3.
    assert (C : forall p q, In p si -> In q se -> fst p < fst q /\ snd p < snd q).
    { intros p q Hp Hq. unfold si in Hp. rewrite reversed_is in Hp. apply in_map_iff in Hp. destruct Hp as (p' & <- & Hp). apply in_rev in Hp.
      unfold spm_regions in Hp. change (map (fun x => (s_rho x, s_oet x)) ing) with (map point ing) in Hp.
      apply in_map_iff in Hp. destruct Hp as (r & <- & Hr). destruct (region_covered days ing r Ni Hr) as (C1 & C2 & _).
      unfold se, spm_regions in Hq. change (map (fun x => (s_rho x, s_oet x)) egr) with (map point egr) in Hq.
      apply in_map_iff in Hq. destruct Hq as (w & <- & Hw). destruct (region_covered days egr w Ne Hw) as (D1 & D2 & _). cbn [fst snd].
      destruct (between_down ing _ Ni Ri Ii C1) as (_ & (x1 & X1 & X1')). destruct (between_down ing _ Ni Ri Ii C2) as (_ & (x2 & X2 & X2')).
      destruct (between_up egr _ Ne Re Ie D1) as ((y1 & Y1 & Y1') & _). destruct (between_up egr _ Ne Re Ie D2) as ((y2 & Y2 & Y2') & _).
      pose proof (B x2 y1 X2 Y1). pose proof (B x1 y2 X1 Y2). lra. }
    exists si, se. split; [|split; [exact A1|split; [exact B1|]]].
    - unfold get_freespace, split_chord_arr. rewrite E1, E2. rewrite (proj2 (ltb_true d1 0) H1), (proj2 (ltb_false d2 0)), (proj2 (ltb_false 0 d1)) by lra. cbn [andb orb].
      rewrite <- Ei, <- Ee. clear Ei Ee.
      destruct ing as [|i1 [|i2 ing]]; try (cbn in Ni; lia). destruct egr as [|e1 [|e2 egr]]; try (cbn in Ne; lia).
      fold ki ke. fold si se. f_equal. f_equal. destruct se as [|(e, e') se'] eqn:Es; [reflexivity|]. destruct si as [|(i, i') si'] eqn:Is; [reflexivity|].
      destruct (C (i, i') (e, e')) as (K & _); [left; reflexivity|left; reflexivity|]. cbn in K. rewrite (proj2 (ltb_false e i)) by lra. reflexivity.
    - split; [apply Forall_app; split; assumption|]. apply sorted_app; assumption.
  Qed.
End Whole.
(** ** Two nearest samples. *)
Lemma median_two : forall a b, median [a; b] = (a + b) / 2.
Proof. intros a b. unfold median, sorted. cbn [fold_right insert]. destruct (ltb b a); cbn; lra. Qed.
Lemma nearest_two : forall days xs e g x y l1 l2 l3, xs = l1 ++ x :: l2 ++ y :: l3 -> Rabs (s_rho x - g) = Rabs (s_rho y - g) ->
  (forall z, In z (l1 ++ l2 ++ l3) -> Rabs (s_rho x - g) < Rabs (s_rho z - g)) ->
  radius_at days xs e g = ellipse_radius e ((from_periapse days e x + from_periapse days e y) / 2).
Proof.
  intros days xs e g x y l1 l2 l3 E Q H. unfold radius_at, ellipse_radius. f_equal. f_equal. f_equal. f_equal. unfold anomaly, from_periapse.
  assert (H1 : forall z, In z l1 -> Rabs (s_rho x - g) < Rabs (s_rho z - g)) by (intros z Hz; apply H; apply in_or_app; left; exact Hz).
  assert (H2 : forall z, In z l2 -> Rabs (s_rho x - g) < Rabs (s_rho z - g)) by (intros z Hz; apply H; apply in_or_app; right; apply in_or_app; left; exact Hz).
  assert (H3 : forall z, In z l3 -> Rabs (s_rho x - g) < Rabs (s_rho z - g)) by (intros z Hz; apply H; apply in_or_app; right; apply in_or_app; right; exact Hz).
  assert (M : minimum (map (fun y => Rabs (s_rho y - g)) xs) = Rabs (s_rho x - g)).
  { assert (Ix : In x xs) by (rewrite E; apply in_or_app; right; left; reflexivity). destruct xs as [|z xs]; [destruct Ix|].
    cbn [map minimum]. destruct (lmin_in (map (fun y => Rabs (s_rho y - g)) xs) (Rabs (s_rho z - g))) as (I & J).
    change (Rabs (s_rho z - g) :: map (fun y => Rabs (s_rho y - g)) xs) with (map (fun y => Rabs (s_rho y - g)) (z :: xs)) in *.
    apply Rle_antisym; [apply J; apply (in_map (fun y => Rabs (s_rho y - g))); exact Ix|].
    apply in_map_iff in I. destruct I as (u & Eu & Hu). rewrite <- Eu. rewrite E in Hu. apply in_app_or in Hu.
    destruct Hu as [Hu|[<-|Hu]]; [left; apply H1, Hu|lra|]. apply in_app_or in Hu. destruct Hu as [Hu|[<-|Hu]]; [left; apply H2, Hu|lra|left; apply H3, Hu]. }
  rewrite M. assert (F : filter (fun z => eqb (Rabs (s_rho z - g)) (Rabs (s_rho x - g))) xs = [x; y]).
  { assert (Nn : forall l, (forall z, In z l -> Rabs (s_rho x - g) < Rabs (s_rho z - g)) -> filter (fun z => eqb (Rabs (s_rho z - g)) (Rabs (s_rho x - g))) l = []).
    { induction l as [|u l IH]; intro K; [reflexivity|]. cbn [filter]. destruct (eqb _ _) eqn:P.
      - apply eqb_true in P. specialize (K u (or_introl eq_refl)). lra.
      - apply IH. intros z Hz. apply K. right. exact Hz. }
    rewrite E, filter_app. cbn [filter]. rewrite filter_app. cbn [filter]. rewrite (Nn l1 H1), (Nn l2 H2), (Nn l3 H3), <- Q.
    assert (T : eqb (Rabs (s_rho x - g)) (Rabs (s_rho x - g)) = true) by (apply eqb_true; reflexivity). rewrite T. reflexivity. }
  rewrite F. cbn [map]. rewrite !median_two. field.
Qed.
