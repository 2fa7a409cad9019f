(** * Proof_Resample3: proofs of C71, the function. *)
From Coq Require Import List ZArith Bool Reals Lia Lra Sorted.
From Flocq Require Import Core.
From Verif Require Import Base Model_Time Model_Chord Model_Free Model_Resample Spec_Resample Proof_Chord Proof_Free Proof_Free2 Proof_Resample Proof_Resample2.
Import ListNotations.
Open Scope R_scope.

Definition start (rho : list R) (d : R) : R := first_radius (hd 0 rho) d.
Definition on_grid (rho : list R) (d g : R) (N : nat) (v : list R) : list R :=
  map (interp1d (combine rho v)) (map (fun i => start rho d + g * INR i) (seq 0 N)).

Lemma resample_rising : forall taps rho I Q d, 0 < d -> ascending_radii rho -> long_enough rho d -> length I = length rho -> length Q = length rho ->
  exists (q N : nat) (g : R), (1 <= q)%nat /\ (1 <= N)%nat /\ 0 < g /\ g * INR q = true_step rho d /\
    start rho d + g * (INR N - 1) < last rho 0 /\ last rho 0 <= start rho d + g * INR N + g / 2 /\ true_step rho d / mean_spacing rho (start rho d) <= INR q + 1 / 2 /\
    resample_IQ taps rho I Q d =
      Returns (map (fun i => start rho d + said_step rho d * INR i) (seq 0 ((N + q - 1) / q)),
               resample_poly taps (on_grid rho d g N I) q, resample_poly taps (on_grid rho d g N Q) q).
Proof.
  intros taps rho I Q d D S L LI LQ. destruct (pre_ok rho d D L) as (q & N & g & Hq & HN & Hg & E1 & E2 & E3 & E4 & P).
  exists q, N, g. repeat (split; [assumption|]). unfold resample_IQ.
  destruct rho as [|x [|y l]] eqn:Er; [destruct L as (L & _); cbn in L; lia|destruct L as (L & _); cbn in L; lia|]. rewrite <- Er in *.
  assert (Xy : ltb (y - x) 0 = false).
  { apply ltb_false. rewrite Er in S. inversion S as [|? ? _ F]; subst. inversion F; subst. lra. }
  rewrite Xy. rewrite (P I LI), (P Q LQ). cbn [u_rho u_vec u_q u_res]. fold (start rho d).
  destruct N as [|N]; [lia|]. cbn [seq map]. rewrite (poly_length taps _ q Hq).
  fold (seq 0 (1 + N)). cbn [length]. rewrite !map_length, seq_length. f_equal. f_equal.
  f_equal. apply map_ext. intro i. cbn. lra.
Qed.

Lemma step_metres : forall rho d, in_metres d -> said_step rho d = true_step rho d.
Proof. intros rho d M. unfold said_step, true_step. rewrite round3_metres by exact M. reflexivity. Qed.
Lemma true_pos : forall rho d, 0 < d -> long_enough rho d -> 0 < true_step rho d.
Proof. intros rho d D L. pose proof (true_ge rho d). pose proof (ts_pos rho d D L). lra. Qed.

Theorem radii_ok : forall taps rho I Q dr, 0 < dr -> ascending_radii rho -> long_enough rho dr -> length I = length rho -> length Q = length rho ->
  exists r0 s n I' Q', resample_IQ taps rho I Q dr = Returns (map (fun k => r0 + s * INR k) (seq 0 n), I', Q') /\
    (0 < n)%nat /\ length I' = n /\ length Q' = n /\
    hd 0 rho <= r0 /\ (r0 <= hd 0 rho + 1 / 2 \/ r0 < hd 0 rho + dr) /\ (exists (z : Z) (m : nat), r0 = IZR z + INR m * dr) /\
    (mean_spacing rho r0 <= dr -> in_metres s /\ Rabs (s - dr) <= 1 / 2000 /\ (in_metres dr -> s = dr)) /\
    (dr < mean_spacing rho r0 -> mean_spacing rho r0 <= s < mean_spacing rho r0 + 1 / 40 /\ exists z : Z, s = IZR z / 40).
Proof.
  intros taps rho I Q d D S L LI LQ. destruct (resample_rising taps rho I Q d D S L LI LQ) as (q & N & g & Hq & HN & Hg & E1 & E2 & E3 & E4 & P).
  exists (start rho d), (said_step rho d), ((N + q - 1) / q)%nat. do 2 eexists. split; [exact P|].
  assert (Ln : forall v, length (on_grid rho d g N v) = N) by (intro v; unfold on_grid; rewrite !map_length, seq_length; reflexivity).
  split; [apply Nat.div_str_pos; lia|]. rewrite !poly_length, !Ln by exact Hq. split; [reflexivity|]. split; [reflexivity|].
  destruct (first_ok (hd 0 rho) d D) as (F1 & F2 & F3). split; [exact F1|]. split; [exact F2|]. split; [exact F3|].
  unfold said_step. fold (start rho d). split; intro H.
  - rewrite (proj2 (ltb_false d _) H). destruct (round3_near d). split; [assumption|]. split; [assumption|]. intro M. apply round3_metres, M.
  - rewrite (proj2 (ltb_true d _) H). apply coarse_ok.
Qed.

Theorem within_ok : forall taps rho I Q dr, 0 < dr -> in_metres dr -> ascending_radii rho -> long_enough rho dr -> length I = length rho -> length Q = length rho ->
  forall radii I' Q', resample_IQ taps rho I Q dr = Returns (radii, I', Q') ->
    (forall r, In r radii -> hd 0 rho <= r < last rho 0) /\
    exists s, 0 < s /\ (forall k, (k + 1 < length radii)%nat -> nth (k + 1) radii 0 - nth k radii 0 = s) /\ last rho 0 <= last radii 0 + 3 / 2 * s.
Proof.
  intros taps rho I Q d D M S L LI LQ radii I' Q' E.
  destruct (resample_rising taps rho I Q d D S L LI LQ) as (q & N & g & Hq & HN & Hg & E1 & E2 & E3 & E4 & P).
  rewrite E in P. injection P as -> -> ->. rewrite (step_metres rho d M), <- E1.
  destruct (first_ok (hd 0 rho) d D) as (F1 & _ & _). fold (start rho d) in F1. set (r0 := start rho d) in *.
  set (n := ((N + q - 1) / q)%nat). assert (Q1 : 1 <= INR q) by (apply (le_INR 1); exact Hq).
  assert (K : (n * q <= N + q - 1)%nat) by (unfold n; rewrite Nat.mul_comm; apply Nat.mul_div_le; lia).
  assert (K2 : (N <= n * q)%nat). { unfold n. pose proof (Nat.mul_succ_div_gt (N + q - 1) q ltac:(lia)). nia. }
  assert (n1 : (1 <= n)%nat) by nia.
  split.
  - intros r Hr. apply in_map_iff in Hr. destruct Hr as (k & <- & Hk). apply in_seq in Hk.
    assert (Kq : (k * q <= N - 1)%nat) by nia. apply le_INR in Kq. rewrite mult_INR, minus_INR in Kq by lia. cbn [INR] in Kq.
    pose proof (pos_INR k). pose proof (Rmult_le_pos g (INR k * INR q) ltac:(lra) ltac:(apply Rmult_le_pos; lra)).
    pose proof (Rmult_le_compat_l g _ _ ltac:(lra) Kq). lra.
  - exists (g * INR q). split; [apply Rmult_lt_0_compat; lra|]. split.
    + intros k Hk. rewrite map_length, seq_length in Hk. rewrite !nth_map_seq by lia. rewrite plus_INR. cbn [INR]. lra.
    + assert (Hl : last (map (fun i => r0 + g * INR q * INR i) (seq 0 n)) 0 = r0 + g * INR q * INR (n - 1)).
      { destruct n as [|n]; [lia|]. rewrite seq_S, map_app. cbn [map]. rewrite last_last. do 3 f_equal. lia. }
      rewrite Hl, minus_INR by lia. cbn [INR]. apply le_INR in K2. rewrite mult_INR in K2.
      pose proof (Rmult_le_compat_l g _ _ ltac:(lra) K2). pose proof (Rmult_le_compat_l g _ _ ltac:(lra) Q1). lra.
Qed.

Lemma grid_line : forall a b rho d g N n, ascending_radii rho -> (2 <= length rho)%nat -> (n < N)%nat ->
  nth n (on_grid rho d g N (line_of a b rho)) 0 = (a + b * start rho d) + b * g * INR n.
Proof.
  intros a b rho d g N n S L H. unfold on_grid. rewrite map_map. rewrite nth_map_seq by exact H. rewrite interp_line by assumption. lra.
Qed.
Lemma grid_length : forall rho d g N v, length (on_grid rho d g N v) = N.
Proof. intros. unfold on_grid. rewrite !map_length, seq_length. reflexivity. Qed.
Lemma line_length : forall a b rho, length (line_of a b rho) = length rho.
Proof. intros. apply map_length. Qed.

(** What a line gives, at the place where the grid is, which is not always the radius said. *)
Lemma line_there : forall taps a b a' b' rho d radii I' Q', proper taps -> 0 < d -> ascending_radii rho -> long_enough rho d ->
  resample_IQ taps rho (line_of a b rho) (line_of a' b' rho) d = Returns (radii, I', Q') ->
  forall k, (10 <= k)%nat -> (k + 10 < length radii)%nat ->
    nth k radii 0 = start rho d + said_step rho d * INR k /\
    nth k I' 0 = a + b * (start rho d + true_step rho d * INR k) /\ nth k Q' 0 = a' + b' * (start rho d + true_step rho d * INR k).
Proof.
  intros taps a b a' b' rho d radii I' Q' T D S L E k K1 K2.
  destruct (resample_rising taps rho (line_of a b rho) (line_of a' b' rho) d D S L (line_length _ _ _) (line_length _ _ _)) as (q & N & g & Hq & HN & Hg & E1 & E2 & E3 & E4 & P).
  rewrite E in P. injection P as -> -> ->. rewrite map_length, seq_length in K2.
  split; [exact (nth_map_seq (fun i => start rho d + said_step rho d * INR i) ((N + q - 1) / q)%nat k 0 ltac:(lia))|]. rewrite <- E1.
  split; (erewrite poly_line; [|exact T|exact Hq| |exact K1|rewrite poly_length, grid_length by exact Hq; exact K2];
    [|intros n Hn; rewrite grid_length in Hn; apply grid_line; [exact S|exact (proj1 L)|exact Hn]]; lra).
Qed.
Theorem signal_ok : forall taps a b a' b' rho dr radii I' Q', proper taps -> 0 < dr -> in_metres dr -> ascending_radii rho -> long_enough rho dr ->
  resample_IQ taps rho (line_of a b rho) (line_of a' b' rho) dr = Returns (radii, I', Q') ->
  forall k, (10 <= k)%nat -> (k + 10 < length radii)%nat -> nth k I' 0 = a + b * nth k radii 0 /\ nth k Q' 0 = a' + b' * nth k radii 0.
Proof.
  intros taps a b a' b' rho d radii I' Q' T D M S L E k K1 K2. destruct (line_there _ _ _ _ _ _ _ _ _ _ T D S L E k K1 K2) as (R1 & R2 & R3).
  rewrite R1, R2, R3, (step_metres rho d M). split; reflexivity.
Qed.
Theorem drift : forall taps a b a' b' rho dr radii I' Q', proper taps -> 0 < dr -> ascending_radii rho -> long_enough rho dr ->
  resample_IQ taps rho (line_of a b rho) (line_of a' b' rho) dr = Returns (radii, I', Q') -> mean_spacing rho (hd 0 radii) <= dr ->
  forall k, (10 <= k)%nat -> (k + 10 < length radii)%nat ->
    nth k I' 0 = a + b * (nth k radii 0 + (dr - round3 dr) * INR k).
Proof.
  intros taps a b a' b' rho d radii I' Q' T D S L E Me k K1 K2. destruct (line_there _ _ _ _ _ _ _ _ _ _ T D S L E k K1 K2) as (R1 & R2 & _).
  destruct (resample_rising taps rho (line_of a b rho) (line_of a' b' rho) d D S L (line_length _ _ _) (line_length _ _ _)) as (q & N & g & Hq & HN & Hg & E1 & E2 & E3 & E4 & P).
  rewrite E in P. injection P as Pr _ _.
  assert (H0 : hd 0 radii = start rho d).
  { rewrite Pr in *. rewrite map_length, seq_length in K2. destruct ((N + q - 1) / q)%nat; [lia|]. cbn. lra. }
  rewrite H0 in Me. rewrite R1, R2. unfold said_step, true_step. fold (start rho d). rewrite (proj2 (ltb_false d _) Me). lra.
Qed.
(** The first sample of a constant signal. *)
Theorem first_low : forall taps c rho dr radii I' Q', proper taps -> 0 < dr -> ascending_radii rho -> long_enough rho dr ->
  resample_IQ taps rho (line_of c 0 rho) (line_of 0 0 rho) dr = Returns (radii, I', Q') -> (10 < length radii)%nat ->
  3 / 2 * mean_spacing rho (hd 0 radii) < dr -> exists q, (2 <= q)%nat /\ hd 0 I' = c * ((1 + taps q 0%Z) / 2).
Proof.
  intros taps c rho d radii I' Q' T D S L E K Me.
  destruct (resample_rising taps rho (line_of c 0 rho) (line_of 0 0 rho) d D S L (line_length _ _ _) (line_length _ _ _)) as (q & N & g & Hq & HN & Hg & E1 & E2 & E3 & E4 & P).
  rewrite E in P. injection P as -> -> _. rewrite map_length, seq_length in K.
  assert (H0 : hd 0 (map (fun i => start rho d + said_step rho d * INR i) (seq 0 ((N + q - 1) / q))) = start rho d).
  { destruct ((N + q - 1) / q)%nat; [lia|]. cbn. lra. }
  rewrite H0 in Me. pose proof (ts_pos rho d D L) as Tp. fold (start rho d) in Tp.
  assert (Q2 : (2 <= q)%nat).
  { unfold true_step in E4. fold (start rho d) in E4. rewrite (proj2 (ltb_false d _)) in E4 by lra.
    assert (3 / 2 < d / mean_spacing rho (start rho d)). { apply Rmult_lt_reg_r with (mean_spacing rho (start rho d)); [lra|]. field_simplify; lra. }
    assert (1 < q)%nat by (apply INR_lt; cbn [INR]; lra). lia. }
  assert (C : forall n, (n < N)%nat -> nth n (on_grid rho d g N (line_of c 0 rho)) 0 = c).
  { intros n Hn. rewrite grid_line by (auto; exact (proj1 L)). lra. }
  exists q. split; [exact Q2|]. unfold resample_poly. rewrite grid_length. destruct (q =? 1)%nat eqn:Eq; [apply Nat.eqb_eq in Eq; lia|].
  pose proof (Nat.mul_div_le (N + q - 1) q ltac:(lia)). set (n := ((N + q - 1) / q)%nat) in *. destruct n as [|n]; [lia|]. cbn [seq map hd].
  cbn [Nat.mul]. apply filter_first; [exact T|lia|rewrite grid_length; nia|intros m Hm; rewrite grid_length in Hm; apply C, Hm].
Qed.
Theorem turned_same : forall taps rho I Q dr, ascending_radii rho -> (2 <= length rho)%nat ->
  resample_IQ taps (rev rho) (rev I) (rev Q) dr = resample_IQ taps rho I Q dr.
Proof.
  intros taps rho I Q d S L. unfold resample_IQ at 1.
  assert (Sr : StronglySorted (fun x y => y < x) (rev rho)) by (apply sorted_rev; exact S).
  assert (Lr : (2 <= length (rev rho))%nat) by (rewrite rev_length; exact L).
  destruct (rev rho) as [|x [|y l]] eqn:Er; [cbn in Lr; lia|cbn in Lr; lia|]. rewrite <- Er.
  assert (Xy : ltb (y - x) 0 = true). { apply ltb_true. inversion Sr as [|? ? _ F]; subst. inversion F; subst. lra. }
  rewrite Xy, !rev_involutive. unfold resample_IQ. clear - S L.
  destruct rho as [|u [|v t]] eqn:E; [cbn in L; lia|cbn in L; lia|].
  assert (Uv : ltb (v - u) 0 = false). { apply ltb_false. inversion S as [|? ? _ F]; subst. inversion F; subst. lra. }
  rewrite Uv. reflexivity.
Qed.
