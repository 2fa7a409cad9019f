(** * Proof_Resample2: proofs of C71, the signal. *)
From Coq Require Import List ZArith Bool Reals Lia Lra Sorted.
From Flocq Require Import Core.
From Verif Require Import Base Model_Time Model_Chord Model_Free Model_Resample Spec_Resample Proof_Chord Proof_Free Proof_Free2 Proof_Resample.
Import ListNotations.
Open Scope R_scope.

(** ** Sums. *)
Lemma fr_app : forall l m, fold_right Rplus 0 (l ++ m) = fold_right Rplus 0 l + fold_right Rplus 0 m.
Proof. induction l as [|x l IH]; intro m; cbn; [lra|]. rewrite IH. lra. Qed.
Lemma sum_S : forall n f, sum_to (S n) f = sum_to n f + f n.
Proof. intros n f. unfold sum_to. rewrite seq_S, map_app, fr_app. cbn. lra. Qed.
Lemma sum_0S : forall n f, sum_to (S n) f = f O + sum_to n (fun m => f (S m)).
Proof. intros n f. unfold sum_to. cbn. rewrite <- seq_shift, map_map. reflexivity. Qed.
Lemma sum_ext : forall n f g, (forall m, (m < n)%nat -> f m = g m) -> sum_to n f = sum_to n g.
Proof. induction n as [|n IH]; intros f g H; [reflexivity|]. rewrite !sum_S, (IH f g), (H n) by (auto; intros; apply H; lia). reflexivity. Qed.
Lemma sum_lin : forall n a b f g, sum_to n (fun m => a * f m + b * g m) = a * sum_to n f + b * sum_to n g.
Proof. induction n as [|n IH]; intros; [unfold sum_to; cbn; lra|]. rewrite !sum_S, IH. lra. Qed.
Lemma sum_turn : forall n f, sum_to n (fun m => f (n - 1 - m)%nat) = sum_to n f.
Proof.
  induction n as [|n IH]; intro f; [reflexivity|]. rewrite sum_0S, sum_S. rewrite <- (IH f). replace (S n - 1 - 0)%nat with n by lia.
  rewrite Rplus_comm. f_equal. apply sum_ext. intros m H. f_equal. lia.
Qed.
Lemma sum_split : forall n k f, sum_to (n + k) f = sum_to n f + sum_to k (fun m => f (n + m)%nat).
Proof.
  intros n. induction k as [|k IH]; intro f; [rewrite Nat.add_0_r; unfold sum_to at 3; cbn; lra|].
  rewrite Nat.add_succ_r, !sum_S, IH. lra.
Qed.
Lemma sum_zero : forall n f, (forall m, (m < n)%nat -> f m = 0) -> sum_to n f = 0.
Proof. induction n as [|n IH]; intros f H; [reflexivity|]. rewrite sum_S, IH, H by (auto; intros; apply H; lia). lra. Qed.

(** ** The filter. *)
Section Filter.
  Variables (taps : nat -> Z -> R) (q : nat).
  Hypothesis T : proper taps.
  Hypothesis Q2 : (2 <= q)%nat.
  Let j (m : nat) : Z := (Z.of_nat m - Z.of_nat (10 * q))%Z.
  Lemma taps_sum : sum_to (2 * (10 * q) + 1) (fun m => taps q (j m)) = 1.
  Proof. destruct (T q Q2) as (H & _). replace (2 * (10 * q) + 1)%nat with (20 * q + 1)%nat by lia. exact H. Qed.
  Lemma taps_odd : sum_to (2 * (10 * q) + 1) (fun m => taps q (j m) * IZR (j m)) = 0.
  Proof.
    destruct (T q Q2) as (_ & H). set (n := (2 * (10 * q) + 1)%nat).
    pose proof (sum_turn n (fun m => taps q (j m) * IZR (j m))) as E. cbn beta in E.
    assert (E2 : sum_to n (fun m => taps q (j (n - 1 - m)) * IZR (j (n - 1 - m))) = - sum_to n (fun m => taps q (j m) * IZR (j m))).
    { replace (- sum_to n (fun m => taps q (j m) * IZR (j m))) with ((-1) * sum_to n (fun m => taps q (j m) * IZR (j m)) + 0 * sum_to n (fun _ => 0)) by lra.
      rewrite <- (sum_lin n (-1) 0 (fun m => taps q (j m) * IZR (j m)) (fun _ => 0)). apply sum_ext. intros m Hm.
      assert (Ej : j (n - 1 - m) = (- j m)%Z) by (unfold j, n in *; lia). rewrite Ej, H, opp_IZR. lra. }
    lra.
  Qed.
  Lemma taps_half : sum_to (10 * q + 1) (fun m => taps q (j m)) = (1 + taps q 0%Z) / 2.
  Proof.
    destruct (T q Q2) as (_ & H). pose proof taps_sum as E.
    replace (2 * (10 * q) + 1)%nat with ((10 * q + 1) + 10 * q)%nat in E by lia. rewrite sum_split in E.
    rewrite <- (sum_turn (10 * q) (fun m => taps q (j (10 * q + 1 + m)))) in E.
    rewrite (sum_ext (10 * q) (fun m => taps q (j (10 * q + 1 + (10 * q - 1 - m)))) (fun m => taps q (j m))) in E.
    2:{ intros m Hm. assert (Ej : j (10 * q + 1 + (10 * q - 1 - m)) = (- j m)%Z) by (unfold j; lia). rewrite Ej. apply H. }
    replace (10 * q + 1)%nat with (S (10 * q)) in * by lia. rewrite sum_S in E |- *. replace (j (10 * q)) with 0%Z in * by (unfold j; lia). lra.
  Qed.
  (** A linear sequence, away from the ends. *)
  Lemma filter_line : forall x A B i, (forall n, (n < length x)%nat -> nth n x 0 = A + B * INR n) ->
    (Z.of_nat (10 * q) <= i)%Z -> (i + Z.of_nat (10 * q) < Z.of_nat (length x))%Z -> filtered taps x q i = A + B * IZR i.
  Proof.
    intros x A B i H L U. unfold filtered. fold j.
    rewrite (sum_ext _ _ (fun m => (A + B * IZR i) * taps q (j m) + (- B) * (taps q (j m) * IZR (j m)))).
    - rewrite (sum_lin _ (A + B * IZR i) (- B) (fun m => taps q (j m)) (fun m => taps q (j m) * IZR (j m))), taps_sum, taps_odd. lra.
    - intros m Hm. cbn zeta. change (Z.of_nat m - Z.of_nat (10 * q))%Z with (j m).
      assert (Ij : (- Z.of_nat (10 * q) <= j m <= Z.of_nat (10 * q))%Z) by (unfold j; lia).
      unfold padded. destruct (i - j m <? 0)%Z eqn:N; [apply Z.ltb_lt in N; lia|]. apply Z.ltb_ge in N.
      rewrite H by lia. rewrite INR_IZR_INZ, Z2Nat.id, minus_IZR by lia. lra.
  Qed.
  Lemma filter_first : forall x c, (10 * q < length x)%nat -> (forall n, (n < length x)%nat -> nth n x 0 = c) ->
    filtered taps x q 0 = c * ((1 + taps q 0%Z) / 2).
  Proof.
    intros x c L H. unfold filtered. replace (2 * (10 * q) + 1)%nat with ((10 * q + 1) + 10 * q)%nat by lia. rewrite sum_split.
    rewrite (sum_zero (10 * q)).
    - rewrite <- taps_half, Rplus_0_r.
      rewrite (sum_ext _ _ (fun m => c * taps q (j m) + 0 * 0)).
      + rewrite (sum_lin _ c 0 (fun m => taps q (j m)) (fun _ => 0)). lra.
      + intros m Hm. cbn zeta. change (Z.of_nat m - Z.of_nat (10 * q))%Z with (j m).
        assert (Ij : (- Z.of_nat (10 * q) <= j m <= 0)%Z) by (unfold j; lia).
        unfold padded. destruct (0 - j m <? 0)%Z eqn:N; [apply Z.ltb_lt in N; lia|]. rewrite H by lia. lra.
    - intros m Hm. cbn zeta. unfold padded. destruct (_ <? 0)%Z eqn:N; [lra|]. apply Z.ltb_ge in N. lia.
  Qed.
End Filter.

Lemma nth_map_seq : forall {A} (f : nat -> A) n k d, (k < n)%nat -> nth k (map f (seq 0 n)) d = f k.
Proof.
  intros A f n k d H. rewrite (nth_indep _ d (f O)) by (rewrite map_length, seq_length; exact H). rewrite map_nth, seq_nth by exact H. reflexivity.
Qed.
Lemma poly_length : forall taps x q, (1 <= q)%nat -> length (resample_poly taps x q) = ((length x + q - 1) / q)%nat.
Proof.
  intros taps x q H. unfold resample_poly. destruct (q =? 1)%nat eqn:E.
  - apply Nat.eqb_eq in E. subst. rewrite Nat.div_1_r. lia.
  - rewrite map_length, seq_length. reflexivity.
Qed.
Lemma poly_line : forall taps x q A B k, proper taps -> (1 <= q)%nat -> (forall n, (n < length x)%nat -> nth n x 0 = A + B * INR n) ->
  (10 <= k)%nat -> (k + 10 < length (resample_poly taps x q))%nat -> nth k (resample_poly taps x q) 0 = A + B * (INR q * INR k).
Proof.
  intros taps x q A B k T Hq H L U. pose proof U as U'. rewrite poly_length in U' by exact Hq.
  assert (K : ((k + 10) * q <= length x - 1)%nat).
  { pose proof (Nat.mul_div_le (length x + q - 1) q ltac:(lia)). set (c := ((length x + q - 1) / q)%nat) in *. nia. }
  assert (K1 : (1 <= length x)%nat). { destruct (length x) eqn:E; [|lia]. rewrite Nat.div_small in U' by lia. lia. }
  unfold resample_poly in *. destruct (q =? 1)%nat eqn:E.
  - apply Nat.eqb_eq in E. subst q. rewrite H by lia. cbn. lra.
  - apply Nat.eqb_neq in E. rewrite map_length, seq_length in U. rewrite nth_map_seq by lia.
    rewrite (filter_line taps q T ltac:(lia) x A B) by (auto; nia). rewrite <- INR_IZR_INZ, mult_INR. lra.
Qed.

(** ** Interpolation of a line. *)
Lemma combine_map : forall (f : R -> R) l, combine l (map f l) = map (fun r => (r, f r)) l.
Proof. induction l as [|x l IH]; cbn; [reflexivity|]. rewrite IH. reflexivity. Qed.
Lemma interp_line : forall a b rho x, ascending_radii rho -> (2 <= length rho)%nat -> interp1d (combine rho (line_of a b rho)) x = a + b * x.
Proof.
  intros a b rho x S L. unfold line_of. rewrite combine_map. unfold interp1d.
  rewrite sorted_up by (eapply sorted_map; [|exact S]; cbn; auto).
  rewrite map_length. set (i := Nat.max 1 _).
  assert (I : (1 <= i <= length rho - 1)%nat) by (unfold i; lia).
  assert (N : forall k, (k < length rho)%nat -> nth k (map (fun r => (r, a + b * r)) rho) (0, 0) = (nth k rho 0, a + b * nth k rho 0)).
  { intros k Hk. rewrite (nth_indep _ (0, 0) ((fun r => (r, a + b * r)) 0)) by (rewrite map_length; exact Hk).
    exact (map_nth (fun r => (r, a + b * r)) rho 0 k). }
  rewrite !N by lia. cbn [fst snd].
  pose proof (sorted_nth' Rlt 0 rho (i - 1) i S ltac:(lia)) as O. field. lra.
Qed.
