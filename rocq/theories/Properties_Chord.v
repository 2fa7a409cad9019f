(** * Properties_Chord: C68, the direction of an occultation and the parts of a chord.

    Vocabulary: Spec_Chord.v; for the last theorem Spec_Time.v. *)
From Coq Require Import List ZArith Bool Reals Lra Lia Sorted.
From Verif Require Import Base Model_Time Spec_Time Model_Chord Spec_Chord Proof_Chord Proof_Chord2 Ref_Time.
Import ListNotations.
Open Scope R_scope.

(** ** C68 *)
(** A radius that only falls, or only rises. *)
Theorem c68_one_way : forall {A} (t rho : A -> R) xs dt atmos, (2 <= length xs)%nat ->
  (falling rho xs -> directions t rho xs dt atmos = Returns (INGRESS, xs, None)) /\
  (rising rho xs -> directions t rho xs dt atmos = Returns (EGRESS, xs, None)).
Proof. intros. split; intro; [apply goes_in|apply goes_out]; assumption. Qed.
Print Assumptions c68_one_way.
(** A chord whose sample after the lowest is higher than the one before: the parts are the
    falling and the rising samples, without those that are blocked. *)
Theorem c68_chord : forall {A} (t rho : A -> R) xs m dt atmos a b c,
  valley rho xs m -> 0 < dt -> around xs m a b c -> rho a < rho c -> rho c <= 170000 ->
  (exists y, In y (firstn (m + 1) xs) /\ free t atmos y) -> (exists y, In y (skipn (m + 1) xs) /\ free t atmos y) ->
  exists ing egr, directions t rho xs dt atmos = Returns (BOTH, xs, Some (ing, egr)) /\
    frees t atmos xs (ing ++ egr) /\ falling rho ing /\ rising rho egr.
Proof. exact @chord_exact. Qed.
Print Assumptions c68_chord.
(** The index of the split, for every chord. *)
Theorem c68_index : forall {A} (rho : A -> R) xs m dt a b c, valley rho xs m -> 0 < dt -> around xs m a b c ->
  (rho a < rho c -> get_chord_ind (gradient (map rho xs) dt) = At (m + 1)) /\
  (rho c < rho a -> get_chord_ind (gradient (map rho xs) dt) = At (m + 2)) /\
  (rho a = rho c -> get_chord_ind (gradient (map rho xs) dt) = Several).
Proof. exact @chord_index. Qed.
Print Assumptions c68_index.
(** Split anywhere, the two parts are the samples that are not blocked. *)
Theorem c68_parts : forall {A} (t rho : A -> R) xs atmos ind ing egr,
  split_chord_arr t rho xs atmos ind INGRESS = Returns ing -> split_chord_arr t rho xs atmos ind EGRESS = Returns egr ->
  exists d, step_first rho xs = Some d /\ (d < 0 -> frees t atmos xs (ing ++ egr)) /\ (0 <= d -> frees t atmos xs (egr ++ ing)).
Proof. exact @split_parts. Qed.
Print Assumptions c68_parts.
(** A chord with one part wholly blocked: the other direction, and the samples after the
    blocked ones, or before them. *)
Theorem c68_blocked_ingress : forall {A} (t rho : A -> R) xs m dt k a b c,
  valley rho xs m -> 0 < dt -> around xs m a b c -> rho a < rho c -> rho c <= 170000 ->
  in_time t xs -> (m < k <= length xs)%nat ->
  directions t rho xs dt (map t (firstn k xs)) = Returns (EGRESS, skipn k xs, None).
Proof. exact @blocked_ingress. Qed.
Print Assumptions c68_blocked_ingress.
Theorem c68_blocked_egress : forall {A} (t rho : A -> R) xs m dt k a b c,
  valley rho xs m -> 0 < dt -> around xs m a b c -> rho a < rho c -> rho c <= 170000 ->
  in_time t xs -> (0 < k <= m + 1)%nat ->
  directions t rho xs dt (map t (skipn k xs)) = Returns (INGRESS, firstn k xs, None).
Proof. exact @blocked_egress. Qed.
Print Assumptions c68_blocked_egress.
(** A chord whose sample after the lowest is below the one before: that sample, which is
    higher than the lowest, is counted to the falling part. *)
Theorem c68_late_refuted : forall {A} (t rho : A -> R) xs m dt a b c x,
  valley rho xs m -> 0 < dt -> around xs m a b c -> rho c < rho a -> nth_error xs (m + 2) = Some x -> rho x <= 170000 ->
  exists ing egr, directions t rho xs dt [] = Returns (BOTH, xs, Some (ing, egr)) /\
    ing ++ egr = xs /\ In b ing /\ In c ing /\ ~ falling rho ing.
Proof. exact @chord_late. Qed.
Print Assumptions c68_late_refuted.
(** If the two are equal, or the lowest sample is the last but one: an exception. *)
Theorem c68_even_refuted : forall {A} (t rho : A -> R) xs m dt atmos a b c,
  valley rho xs m -> 0 < dt -> around xs m a b c -> rho a = rho c -> directions t rho xs dt atmos = Raises.
Proof. exact @chord_even. Qed.
Print Assumptions c68_even_refuted.
Theorem c68_end_refuted : forall {A} (t rho : A -> R) xs m dt atmos a b c,
  valley rho xs m -> 0 < dt -> around xs m a b c -> rho c < rho a -> length xs = (m + 2)%nat -> directions t rho xs dt atmos = Raises.
Proof. exact @chord_end. Qed.
Print Assumptions c68_end_refuted.
(** If the sample after the lowest is above 170000 km: an exception. *)
Theorem c68_far_refuted : forall {A} (t rho : A -> R) xs m dt atmos a b c,
  valley rho xs m -> 0 < dt -> around xs m a b c -> rho a < rho c -> 170000 < rho c -> directions t rho xs dt atmos = Raises.
Proof. exact @chord_far. Qed.
Print Assumptions c68_far_refuted.
(** The blocked times are converted with et_to_spm (C67).  If they go past midnight, the
    last of them is not recognised: the sample stays. *)
Theorem c68_midnight_refuted : forall E epoch, reads E epoch -> forall {A} (t : A -> R) ets out d xs x, in_order ets -> ets <> [] ->
  (1 <= d <= u_doy (E (nth 0 ets 0%R)))%Z -> et_to_spm E ets (Some d) = Returns out ->
  day_of (E (nth (length ets - 1) ets 0)) <> day_of (E (nth 0 ets 0)) ->
  In x xs -> t x = nth (length ets - 1) ets 0 + epoch - midnight (u_year (E (nth 0 ets 0))) d ->
  In x (remove_blocked t xs out).
Proof. exact @night. Qed.
Print Assumptions c68_midnight_refuted.

(** Chords of five samples (time, radius). *)
Definition ex_chord (c : R) : list (R * R) := [(0, 5); (1, 3); (2, 1); (3, c); (4, 6)].
Lemma ex_valley : forall c, 1 < c < 6 -> valley snd (ex_chord c) 2.
Proof.
  intros c H. unfold valley, falling, rising, ex_chord. split; [lia|]. split; [cbn; lia|].
  split; repeat (first [constructor | cbn; lra]).
Qed.
Lemma ex_around : forall c, around (ex_chord c) 2 (1, 3) (2, 1) (3, c).
Proof. intro c. split; [|split]; reflexivity. Qed.
(** The third sample is blocked. *)
Example c68_chord_nonvacuous : exists ing egr,
  directions fst snd (ex_chord 4) 1 [2] = Returns (BOTH, ex_chord 4, Some (ing, egr)) /\
  frees fst [2] (ex_chord 4) (ing ++ egr) /\ falling snd ing /\ rising snd egr.
Proof.
  apply (c68_chord fst snd (ex_chord 4) 2 1 [2] (1, 3) (2, 1) (3, 4)); try (cbn; lra).
  - apply ex_valley. lra.
  - apply ex_around.
  - exists (0, 5). split; [left; reflexivity|]. intros [K|[]]. cbn in K. lra.
  - exists (3, 4). split; [left; reflexivity|]. intros [K|[]]. cbn in K. lra.
Qed.
Example c68_late_nonvacuous : exists ing egr,
  directions fst snd (ex_chord 2) 1 [] = Returns (BOTH, ex_chord 2, Some (ing, egr)) /\
  ing ++ egr = ex_chord 2 /\ In (2, 1) ing /\ In (3, 2) ing /\ ~ falling snd ing.
Proof.
  apply (c68_late_refuted fst snd (ex_chord 2) 2 1 (1, 3) (2, 1) (3, 2) (4, 6)); try (cbn; lra).
  - apply ex_valley. lra.
  - apply ex_around.
  - reflexivity.
Qed.
Example c68_even_nonvacuous : directions fst snd (ex_chord 3) 1 [] = Raises.
Proof.
  apply (c68_even_refuted fst snd (ex_chord 3) 2 1 [] (1, 3) (2, 1) (3, 3)); try (cbn; lra).
  - apply ex_valley. lra.
  - apply ex_around.
Qed.
Lemma ex_in_time : in_time fst (ex_chord 4).
Proof. unfold in_time, ex_chord. repeat (first [constructor | cbn; lra]). Qed.
Example c68_blocked_nonvacuous : directions fst snd (ex_chord 4) 1 [0; 1; 2; 3] = Returns (EGRESS, [(4, 6)], None).
Proof.
  apply (c68_blocked_ingress fst snd (ex_chord 4) 2 1 4 (1, 3) (2, 1) (3, 4)); try (cbn; lra).
  - apply ex_valley. lra.
  - apply ex_around.
  - exact ex_in_time.
  - cbn. lia.
Qed.
(** The last two seconds of the first day of year 1 and the first of the next. *)
Example c68_midnight_nonvacuous : exists out, et_to_spm ex_clock [86398; 86399; 86400] (Some 1%Z) = Returns out /\
  In 86400 (remove_blocked (fun x => x) [86400] out).
Proof.
  assert (A := ex_day 0 86398 ltac:(lra)). assert (B := ex_day 1 0 ltac:(lra)).
  replace (86400 * IZR 0 + 86398) with 86398 in A by lra. replace (86400 * IZR 1 + 0) with 86400 in B by lra.
  destruct (ex_reads 86398) as ((P & _) & _).
  destruct (Proof_Time.date_unique (u_year (ex_clock 86398)) (u_doy (ex_clock 86398)) 1 1) as (Y & Dd).
  - exact P.
  - cbn. lia.
  - destruct A as (A & _). unfold day_of in A. change (days_before 1) with 0%Z. lia.
  - destruct (et_to_spm ex_clock [86398; 86399; 86400] (Some 1%Z)) as [out| |] eqn:E.
    + exists out. split; [reflexivity|].
      apply (c68_midnight_refuted ex_clock 0 ex_reads (fun x => x) [86398; 86399; 86400] out 1%Z [86400] 86400); cbn [nth length Nat.sub].
      * cbn. lra.
      * discriminate.
      * lia.
      * exact E.
      * rewrite (proj1 A), (proj1 B). discriminate.
      * left. reflexivity.
      * rewrite Y. unfold midnight. change (days_before 1 + 1 - 1)%Z with 0%Z. lra.
    + unfold et_to_spm in E. destruct (Z.eqb_spec 1 0); [lia|]. rewrite Dd in E. cbn in E. discriminate.
    + unfold et_to_spm in E. destruct (Z.eqb_spec 1 0); [lia|]. rewrite Dd in E. cbn in E. discriminate.
Qed.
