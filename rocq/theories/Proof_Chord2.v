(** * Proof_Chord2: proofs of C68, blocked samples after midnight. *)
From Coq Require Import List ZArith Bool Reals Lra Lia Arith Sorted.
From Verif Require Import Base Model_Time Spec_Time Proof_Time Proof_Time2 Model_Chord Spec_Chord Proof_Chord.
Import ListNotations.
Open Scope R_scope.

Section Night.
  Variable E : R -> utc.
  Variable epoch : R.
  Hypothesis C : reads E epoch.
  Lemma out_length : forall ets out, et_to_spm E ets None = Returns out -> length out = length ets.
  Proof.
    intros [|e ets] out H; unfold et_to_spm in H; injection H as <-; [reflexivity|].
    rewrite continued_length. cbn [map length]. rewrite map_length. reflexivity.
  Qed.
  Lemma out_up : forall ets out j, in_order ets -> et_to_spm E ets None = Returns out -> (S j < length ets)%nat -> nth j out 0 <= nth (S j) out 0.
  Proof.
    intros ets out j O H L. destruct (steps E epoch C ets out j O H L) as (S1 & S2).
    pose proof (next_day E epoch C _ _ (order_step ets j O L)) as [(D & K)|(D & K)].
    - specialize (S1 D). pose proof (order_step ets j O L). lra.
    - specialize (S2 ltac:(lia)). pose proof (spm_bounds _ (proj1 (C (nth (S j) ets 0)))) as B.
      rewrite (raw_value E epoch C (nth (S j) ets 0)), D, plus_IZR in B. rewrite (raw_value E epoch C (nth j ets 0)) in S2. lra.
  Qed.
  Lemma out_sorted : forall ets out i j, in_order ets -> et_to_spm E ets None = Returns out -> (i <= j < length ets)%nat -> nth i out 0 <= nth j out 0.
  Proof.
    intros ets out i j O H L. replace j with (i + (j - i))%nat in * by lia. induction (j - i)%nat as [|k IH]; [rewrite Nat.add_0_r; lra|].
    pose proof (out_up ets out (i + k) O H ltac:(lia)). replace (i + S k)%nat with (S (i + k)) by lia. specialize (IH ltac:(lia)). lra.
  Qed.
  Lemma last_missed : forall ets out, in_order ets -> et_to_spm E ets None = Returns out -> ets <> [] ->
    day_of (E (nth (length ets - 1) ets 0)) <> day_of (E (nth 0 ets 0)) ->
    forall v, In v out -> v < nth (length ets - 1) ets 0 + epoch - midnight (u_year (E (nth 0 ets 0))) (u_doy (E (nth 0 ets 0))).
  Proof.
    intros ets out O H N D v V. assert (L : (0 < length ets)%nat) by (destruct ets; [congruence|cbn; lia]).
    apply In_nth with (d := 0) in V. destruct V as (i & Hi & <-). rewrite (out_length _ _ H) in Hi.
    pose proof (out_sorted ets out i (length ets - 1) O H ltac:(lia)) as U.
    pose proof (too_small E epoch C ets out (length ets - 1) O H ltac:(lia) D) as T. lra.
  Qed.
  Lemma with_reference : forall ets out d, ets <> [] -> et_to_spm E ets None = Returns out -> (1 <= d <= u_doy (E (nth 0 ets 0%R)))%Z ->
    et_to_spm E ets (Some d) = Returns (map (fun s => s + IZR (u_doy (E (nth 0 ets 0)) - d) * 24 * 60 * 60) out).
  Proof.
    intros [|e ets] out d N H D; [congruence|]. unfold et_to_spm in *. injection H as <-. cbn [nth] in *.
    destruct (Z.eqb_spec d 0); [lia|]. destruct (Z.ltb_spec (u_doy (E e) - d) 0); [lia|]. reflexivity.
  Qed.
  Lemma night : forall {A} (t : A -> R) ets out d xs x, in_order ets -> ets <> [] ->
    (1 <= d <= u_doy (E (nth 0 ets 0%R)))%Z -> et_to_spm E ets (Some d) = Returns out ->
    day_of (E (nth (length ets - 1) ets 0)) <> day_of (E (nth 0 ets 0)) ->
    In x xs -> t x = nth (length ets - 1) ets 0 + epoch - midnight (u_year (E (nth 0 ets 0))) d ->
    In x (remove_blocked t xs out).
  Proof.
    intros A t ets out d xs x O N D H Dd X T. destruct (et_to_spm E ets None) as [o| |] eqn:Ho.
    - rewrite (with_reference ets o d N Ho D) in H. injection H as <-. apply filter_In. split; [exact X|].
      apply negb_true_iff. destruct (mem (t x) _) eqn:M; [|reflexivity]. exfalso. apply mem_in in M. apply in_map_iff in M.
      destruct M as (v & Ev & Hv). pose proof (last_missed ets o O Ho N Dd v Hv) as K. rewrite T in Ev.
      unfold midnight in *. rewrite !minus_IZR, !plus_IZR in *. lra.
    - destruct ets; [congruence|discriminate].
    - destruct ets; [congruence|discriminate].
  Qed.
End Night.
