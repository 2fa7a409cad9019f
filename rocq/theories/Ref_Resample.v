(** * Ref_Resample: examples and counterexamples of C71. *)
From Coq Require Import List ZArith Bool Reals Lia Lra Sorted.
From Flocq Require Import Core.
From Verif Require Import Base Model_Time Model_Chord Model_Free Model_Resample Spec_Resample Proof_Chord Proof_Free Proof_Free2 Proof_Resample Proof_Resample2 Proof_Resample3.
Import ListNotations.
Open Scope R_scope.

Lemma round_to : forall x z, IZR z - 1 / 2 < x < IZR z + 1 / 2 -> pyround x = z.
Proof. intros x z H. unfold pyround. apply Znearest_imp. apply Rabs_lt. lra. Qed.

(** A filter that copies. *)
Definition copy_taps (q : nat) (j : Z) : R := if (j =? 0)%Z then 1 else 0.
Lemma copy_proper : proper copy_taps.
Proof.
  intros q H. split.
  - change (sum_to (20 * q + 1) (fun m => copy_taps q (Z.of_nat m - Z.of_nat (10 * q))) = 1).
    replace (20 * q + 1)%nat with (10 * q + (1 + 10 * q))%nat by lia. rewrite !sum_split. rewrite (sum_zero (10 * q)), (sum_zero (10 * q)).
    + unfold sum_to. cbn [seq map fold_right]. unfold copy_taps. replace (Z.of_nat (10 * q + 0) - Z.of_nat (10 * q) =? 0)%Z with true by (symmetry; apply Z.eqb_eq; lia). lra.
    + intros m Hm. unfold copy_taps. destruct (_ =? 0)%Z eqn:E; [apply Z.eqb_eq in E; lia|reflexivity].
    + intros m Hm. unfold copy_taps. destruct (_ =? 0)%Z eqn:E; [apply Z.eqb_eq in E; lia|reflexivity].
  - intro j. unfold copy_taps. replace (- j =? 0)%Z with (j =? 0)%Z; [reflexivity|]. destruct (j =? 0)%Z eqn:E; symmetry; [apply Z.eqb_eq in E; apply Z.eqb_eq; lia|apply Z.eqb_neq in E; apply Z.eqb_neq; lia].
Qed.
(** Two hundred samples, a quarter of a kilometre apart. *)
Definition ex_rho : list R := map (fun i => INR i / 4) (seq 0 200).
Lemma seq_sorted : forall n s, StronglySorted lt (seq s n).
Proof. induction n as [|n IH]; intro s; cbn; constructor; [apply IH|]. rewrite Forall_forall. intros x H. apply in_seq in H. lia. Qed.
Lemma ex_rho_ascending : ascending_radii ex_rho.
Proof. unfold ascending_radii, ex_rho. eapply sorted_map; [|apply seq_sorted]. intros x y H. apply lt_INR in H. lra. Qed.
Lemma ex_rho_last : last ex_rho 0 = 199 / 4.
Proof. unfold ex_rho. rewrite (seq_S 199 0), map_app. cbn [map]. rewrite last_last. rewrite INR_IZR_INZ. reflexivity. Qed.
Lemma ex_rho_length : length ex_rho = 200%nat.
Proof. unfold ex_rho. rewrite map_length. apply seq_length. Qed.
Lemma ex_rho_long : forall d, d <= 1 -> long_enough ex_rho d.
Proof. intros d H. unfold long_enough. rewrite ex_rho_length, ex_rho_last. change (hd 0 ex_rho) with (INR 0 / 4). cbn [INR]. split; [lia|lra]. Qed.
Lemma one_metres : in_metres 1. Proof. exists 1000%Z. lra. Qed.
Lemma ex_many : forall taps d, 1 / 4 <= d <= 1 -> exists radii I' Q',
  resample_IQ taps ex_rho (line_of 5 2 ex_rho) (line_of 0 3 ex_rho) d = Returns (radii, I', Q') /\ (40 < length radii)%nat /\
  mean_spacing ex_rho (hd 0 radii) <= 1 / 4.
Proof.
  intros taps d Hd. pose proof (ex_rho_long d ltac:(lra)) as L.
  destruct (resample_rising taps ex_rho (line_of 5 2 ex_rho) (line_of 0 3 ex_rho) d ltac:(lra) ex_rho_ascending L (line_length _ _ _) (line_length _ _ _)) as (q & N & g & Hq & HN & Hg & E1 & E2 & E3 & E4 & P).
  do 3 eexists. split; [exact P|]. rewrite map_length, seq_length, ex_rho_last in *.
  destruct (first_ok (hd 0 ex_rho) d ltac:(lra)) as (F1 & F2 & _). fold (start ex_rho d) in F1, F2. change (hd 0 ex_rho) with (INR 0 / 4) in *. cbn [INR] in F1, F2.
  assert (M : mean_spacing ex_rho (start ex_rho d) <= 1 / 4).
  { unfold mean_spacing. rewrite ex_rho_last, ex_rho_length. replace (INR (200 - 1)) with 199 by (rewrite INR_IZR_INZ; reflexivity). lra. }
  assert (Et : true_step ex_rho d = d). { unfold true_step. fold (start ex_rho d). rewrite (proj2 (ltb_false _ _)); [reflexivity|lra]. }
  rewrite Et in E1. set (n := ((N + q - 1) / q)%nat).
  assert (K2 : (N <= n * q)%nat). { unfold n. pose proof (Nat.mul_succ_div_gt (N + q - 1) q ltac:(lia)). nia. }
  apply le_INR in K2. rewrite mult_INR in K2. pose proof (Rmult_le_compat_l g _ _ ltac:(lra) K2) as K3.
  assert (Q1 : 1 <= INR q) by (apply (le_INR 1); exact Hq).
  assert (G1 : g <= d). { rewrite <- E1. apply Rle_trans with (g * 1); [lra|]. apply Rmult_le_compat_l; lra. }
  assert (Nn : INR n * d <= INR n) by (pose proof (pos_INR n); nra).
  replace (g * (INR n * INR q)) with (INR n * d) in K3 by (rewrite <- E1; ring).
  assert (n40 : (40 < n)%nat) by (apply INR_lt; replace (INR 40) with 40 by (rewrite INR_IZR_INZ; reflexivity); destruct F2; lra).
  split; [exact n40|]. destruct n as [|n]; [lia|]. cbn [seq map hd INR]. replace (start ex_rho d + said_step ex_rho d * 0) with (start ex_rho d) by lra. exact M.
Qed.
Lemma third : 1 / 3 - round3 (1 / 3) = 1 / 3000.
Proof. unfold round3. rewrite (round_to _ 333) by lra. lra. Qed.

(** Data shorter than a kilometre: the radius lies outside. *)
Theorem short : forall taps, exists rho radii I' Q' r, ascending_radii rho /\ (2 <= length rho)%nat /\
  resample_IQ taps rho (line_of 1 0 rho) (line_of 0 0 rho) (1 / 4) = Returns (radii, I', Q') /\ In r radii /\ last rho 0 < r.
Proof.
  intro taps. exists [6 / 10; 7 / 10].
  assert (Fr : first_radius (6 / 10) (1 / 4) = 1).
  { unfold first_radius. rewrite (round_to (6 / 10) 1) by lra.
    assert (forall n, climb n 1 (1 / 4) (6 / 10) = 1). { intros [|n]; [reflexivity|]. cbn. rewrite (proj2 (ltb_false 1 (6 / 10))) by lra. reflexivity. } auto. }
  assert (P : forall v, length v = 2%nat -> exists u, pre_resample [6 / 10; 7 / 10] v (1 / (1 / 4)) = Returns u /\ u_rho u = [1] /\ u_q u = 1%nat /\ length (u_vec u) = 1%nat).
  { intros v Lv. unfold pre_resample. replace (1 / (1 / (1 / 4))) with (1 / 4) by field. rewrite Fr. cbn [length last Nat.leb Nat.sub orb].
    assert (A : Rabs (7 / 10 - 1) = 3 / 10) by (rewrite Rabs_left; lra). rewrite A.
    unfold eqb. destruct (Req_EM_T (3 / 10) 0); [lra|]. cbn [INR].
    rewrite (proj2 (ltb_true (1 / 4) (3 / 10 / 1))) by lra. rewrite (round_to (40 * (3 / 10 / 1)) 12) by lra.
    rewrite (proj2 (ltb_false (12 / 40) (3 / 10 / 1))) by lra.
    rewrite (round_to (1 / (3 / 10 / 1 * (1 / (12 / 40)))) 1) by (replace (1 / (3 / 10 / 1 * (1 / (12 / 40)))) with 1 by field; lra).
    replace (1 / (1 * (1 / (12 / 40)))) with (3 / 10) by field.
    rewrite (round_to (3 / 10 / (3 / 10)) 1) by lra. rewrite Lv. cbn [Nat.eqb negb].
    eexists. split; [reflexivity|]. cbn [u_rho u_q u_vec]. change (Z.to_nat 1) with 1%nat. cbn [seq map INR length]. split; [f_equal; lra|]. split; reflexivity. }
  destruct (P (line_of 1 0 [6 / 10; 7 / 10]) eq_refl) as (u1 & E1 & R1 & Q1 & L1). destruct (P (line_of 0 0 [6 / 10; 7 / 10]) eq_refl) as (u2 & E2 & R2 & Q2 & L2).
  do 3 eexists. exists 1.
  split; [repeat apply SSorted_cons; try apply SSorted_nil; [apply Forall_nil|apply Forall_cons; [lra|apply Forall_nil]]|]. split; [cbn; lia|].
  split.
  - unfold resample_IQ. rewrite (proj2 (ltb_false (7 / 10 - 6 / 10) 0)) by lra. rewrite E1, E2, R2. reflexivity.
  - rewrite Q1. unfold resample_poly. cbn [Nat.eqb]. rewrite L1. cbn [seq map]. split; [left; cbn; lra|cbn; lra].
Qed.
