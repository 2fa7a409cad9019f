(** * Proof_Resample: proofs of C71. *)
From Coq Require Import List ZArith Bool Reals Lia Lra Sorted.
From Flocq Require Import Core.
From Verif Require Import Base Model_Time Model_Chord Model_Free Model_Resample Spec_Resample Proof_Chord Proof_Free Proof_Free2.
Import ListNotations.
Open Scope R_scope.

(** ** Rounding. *)
Lemma round_half : forall x, IZR (pyround x) - 1 / 2 <= x <= IZR (pyround x) + 1 / 2.
Proof. intro x. pose proof (Znearest_half (fun x => negb (Z.even x)) x) as H. unfold pyround in *. apply Rabs_le_inv in H. lra. Qed.
Lemma round_int : forall z, pyround (IZR z) = z.
Proof. intro z. unfold pyround. apply Znearest_imp. rewrite Rminus_diag_eq by reflexivity. rewrite Rabs_R0. lra. Qed.
Lemma round3_metres : forall d, in_metres d -> round3 d = d.
Proof.
  intros d (z & ->). unfold round3. replace (IZR z / 1000 * 1000) with (IZR z) by field. rewrite round_int. reflexivity.
Qed.
Lemma round3_near : forall d, in_metres (round3 d) /\ Rabs (round3 d - d) <= 1 / 2000.
Proof.
  intro d. split; [exists (pyround (d * 1000)); reflexivity|]. unfold round3. pose proof (round_half (d * 1000)). apply Rabs_le. lra.
Qed.

(** ** The first radius. *)
Lemma climbs : forall step x, 0 < step -> forall left r0, x - r0 <= INR left * step ->
  x <= climb left r0 step x /\ (climb left r0 step x = r0 \/ climb left r0 step x < x + step) /\
  exists n : nat, climb left r0 step x = r0 + INR n * step.
Proof.
  intros step x P. induction left as [|left IH]; intros r0 H.
  - cbn in *. split; [lra|]. split; [left; reflexivity|]. exists O. cbn. lra.
  - rewrite S_INR in H. cbn. destruct (ltb r0 x) eqn:L.
    + apply ltb_true in L. destruct (IH (r0 + step)) as (I1 & I2 & n & I3); [lra|]. split; [exact I1|]. split; [right; destruct I2; lra|].
      exists (S n). rewrite I3, S_INR. lra.
    + apply ltb_false in L. split; [lra|]. split; [left; reflexivity|]. exists O. cbn. lra.
Qed.
Lemma first_ok : forall x step, 0 < step -> x <= first_radius x step /\
  (first_radius x step <= x + 1 / 2 \/ first_radius x step < x + step) /\
  exists (z : Z) (n : nat), first_radius x step = IZR z + INR n * step.
Proof.
  intros x step P. unfold first_radius. pose proof (round_half x) as H. pose proof (Zceil_ub (1 / step)) as C.
  assert (D : 0 < 1 / step) by (apply Rdiv_lt_0_compat; lra).
  assert (Z0 : (0 < Zceil (1 / step))%Z) by (apply lt_IZR; lra).
  destruct (climbs step x P (Z.to_nat (Zceil (1 / step))) (IZR (pyround x))) as (I1 & I2 & n & I3).
  - rewrite INR_IZR_INZ, Z2Nat.id by lia. apply Rle_trans with (1 / step * step); [field_simplify; lra|]. apply Rmult_le_compat_r; lra.
  - split; [exact I1|]. split; [destruct I2; [left|right]; lra|]. exists (pyround x), n. exact I3.
Qed.

(** ** The grid. *)
Lemma some_first : forall l : list R, (2 <= length l)%nat -> exists x t, l = x :: t.
Proof. intros [|x t] H; [cbn in H; lia|]. exists x, t. reflexivity. Qed.
Section Grid.
  Variables (rho : list R) (d : R).
  Hypothesis D : 0 < d.
  Hypothesis Long : long_enough rho d.
  Let r0 := first_radius (hd 0 rho) d.
  Let ts := mean_spacing rho r0.

  Lemma r0_lt : r0 < last rho 0.
  Proof.
    destruct Long as (_ & L1 & L2). destruct (first_ok (hd 0 rho) d D) as (_ & [H|H] & _); unfold r0; lra.
  Qed.
  Lemma n_pos : 0 < INR (length rho - 1).
  Proof. destruct Long as (L & _). apply (lt_INR 0). lia. Qed.
  Lemma n_one : 1 <= INR (length rho - 1).
  Proof. destruct Long as (L & _). apply (le_INR 1). lia. Qed.
  Lemma ts_pos : 0 < ts.
  Proof. unfold ts, mean_spacing. apply Rdiv_lt_0_compat; [pose proof r0_lt; lra|apply n_pos]. Qed.

  (** The spacing of the output before rounding, and the reported spacing. *)
  Definition coarse (t : R) : R := let res := IZR (pyround (40 * t)) / 40 in if ltb res t then res + 25 / 1000 else res.
  Lemma coarse_ok : forall t, t <= coarse t < t + 1 / 40 /\ exists z : Z, coarse t = IZR z / 40.
  Proof.
    intro t. unfold coarse. pose proof (round_half (40 * t)) as H. destruct (ltb _ t) eqn:L.
    - apply ltb_true in L. split; [lra|]. exists (pyround (40 * t) + 1)%Z. rewrite plus_IZR. lra.
    - apply ltb_false in L. split; [lra|]. exists (pyround (40 * t)). reflexivity.
  Qed.
  Definition true_step : R := if ltb d ts then coarse ts else d.
  Definition said_step : R := if ltb d ts then coarse ts else round3 d.
  Lemma true_ge : ts <= true_step.
  Proof. unfold true_step. destruct (ltb d ts) eqn:L; [apply coarse_ok|]. apply ltb_false in L. lra. Qed.

  Lemma pre_ok : exists (q N : nat) (g : R), (1 <= q)%nat /\ (1 <= N)%nat /\ 0 < g /\ g * INR q = true_step /\
    r0 + g * (INR N - 1) < last rho 0 /\ last rho 0 <= r0 + g * INR N + g / 2 /\ true_step / ts <= INR q + 1 / 2 /\
    forall vec, length vec = length rho -> pre_resample rho vec (1 / d) = Returns {| u_rho := map (fun i => r0 + g * INR i) (seq 0 N);
      u_vec := map (interp1d (combine rho vec)) (map (fun i => r0 + g * INR i) (seq 0 N)); u_q := q; u_res := said_step |}.
  Proof.
    pose proof true_ge as TG. pose proof ts_pos as TP. pose proof r0_lt as RL. pose proof n_pos as NP. pose proof n_one as N1.
    set (u := true_step / ts).
    assert (U1 : 1 <= u). { unfold u. apply Rmult_le_reg_r with ts; [lra|]. field_simplify; lra. }
    pose proof (round_half u) as QH. set (qz := pyround u) in *.
    assert (Q1 : (1 <= qz)%Z). { assert (0 < qz)%Z by (apply lt_IZR; lra). lia. }
    pose proof (IZR_le _ _ Q1) as Q1'.
    set (g := 1 / (IZR qz * (1 / true_step))).
    assert (G : g = true_step / IZR qz) by (unfold g; field; lra).
    assert (GP : 0 < g) by (rewrite G; apply Rdiv_lt_0_compat; lra).
    set (v := (last rho 0 - r0) / g).
    assert (Ev : v = INR (length rho - 1) * (IZR qz / u)).
    { unfold v, u. rewrite G. unfold ts, mean_spacing. field. repeat split; try lra; fold r0; try lra.
      }
    assert (V : 2 / 3 <= v).
    { rewrite Ev. assert (2 / 3 <= IZR qz / u). { apply Rmult_le_reg_r with u; [lra|]. field_simplify; lra. }
      apply Rle_trans with (1 * (IZR qz / u)); [lra|]. apply Rmult_le_compat_r; lra. }
    pose proof (round_half v) as VH. set (nz := pyround v) in *.
    assert (NZ : (1 <= nz)%Z). { assert (0 < nz)%Z by (apply lt_IZR; lra). lia. }
    assert (Evg : v * g = last rho 0 - r0) by (unfold v; field; lra).
    exists (Z.to_nat qz), (Z.to_nat nz), g.
    assert (In : INR (Z.to_nat nz) = IZR nz) by (rewrite INR_IZR_INZ, Z2Nat.id by lia; reflexivity).
    assert (Iq : INR (Z.to_nat qz) = IZR qz) by (rewrite INR_IZR_INZ, Z2Nat.id by lia; reflexivity).
    split; [lia|]. split; [lia|]. split; [exact GP|]. split; [rewrite Iq, G; field; lra|]. rewrite In.
    split; [assert (g * (IZR nz - 1) <= g * (v - 1 / 2)) by (apply Rmult_le_compat_l; lra); lra|].
    split; [assert (g * (v - 1 / 2) <= g * IZR nz) by (apply Rmult_le_compat_l; lra); lra|].
    split; [rewrite Iq; fold u; lra|].
    intros vec Lv. destruct (some_first rho (proj1 Long)) as (x & l & Er).
    assert (Hx : first_radius x d = r0) by (unfold r0; rewrite Er; reflexivity).
    unfold pre_resample. rewrite Er. cbv iota. rewrite <- Er.
    replace (1 / (1 / d)) with d by (field; lra). rewrite Hx.
    rewrite (Rabs_pos_eq (last rho 0 - r0)) by lra.
    replace (length rho <=? 1)%nat with false by (symmetry; apply Nat.leb_gt; destruct Long as (L & _); lia).
    assert (E0 : eqb (last rho 0 - r0) 0 = false) by (unfold eqb; destruct (Req_EM_T _ _); [lra|reflexivity]). rewrite E0. cbn [orb].
    change ((last rho 0 - r0) / INR (length rho - 1)) with ts. fold (coarse ts).
    set (pr := if ltb d ts then _ else _).
    assert (Epr : pr = (1 / true_step, said_step)).
    { unfold pr, true_step, said_step. destruct (ltb d ts); reflexivity. }
    rewrite Epr. rewrite Lv, Nat.eqb_refl. cbn [negb].
    replace (1 / (ts * (1 / true_step))) with u by (unfold u; field; lra). reflexivity.
  Qed.
End Grid.
