(** * Proof_Sky: the rate of the light time, and the frequencies. *)
From Coq Require Import String List ZArith Bool Reals Lra Lia Sorting.Sorted.
From Verif Require Import Base Model_Time Model_Chord Model_Frame Model_Resample Model_Sky Spec_Sky Proof_Chord Proof_Frame.
Import ListNotations.
Open Scope R_scope.

Lemma lim_eq : forall f x l l', derivable_pt_lim f x l -> l = l' -> derivable_pt_lim f x l'.
Proof. intros f x l l' D <-. exact D. Qed.
Lemma lim_ext : forall f g x l, (forall t, f t = g t) -> derivable_pt_lim f x l -> derivable_pt_lim g x l.
Proof. intros f g x l E D e He. destruct (D e He) as (d & H). exists d. intros h H1 H2. rewrite <- !E. apply H; assumption. Qed.
Lemma lim_sq : forall f x l, derivable_pt_lim f x l -> derivable_pt_lim (fun t => f t * f t) x (2 * f x * l).
Proof. intros f x l D. apply (lim_eq _ _ (l * f x + f x * l)); [exact (derivable_pt_lim_mult f f x l l D D)|ring]. Qed.
(** The norm of a moving vector. *)
Lemma lim_norm : forall (q : R -> vec) t dx dy dz, derivable_pt_lim (fun s => px (q s)) t dx -> derivable_pt_lim (fun s => py_ (q s)) t dy -> derivable_pt_lim (fun s => pz (q s)) t dz ->
  vnorm (q t) <> 0 -> derivable_pt_lim (fun s => vnorm (q s)) t (vdot (vhat (q t)) (dx, dy, dz)).
Proof.
  intros q t dx dy dz X Y Z N. pose proof (vnorm_pos (q t)) as P.
  assert (Q : forall s, vdot (q s) (q s) = px (q s) * px (q s) + py_ (q s) * py_ (q s) + pz (q s) * pz (q s)) by (intros s; destruct (q s) as ((a, b), c); reflexivity).
  assert (Dq : derivable_pt_lim (fun s => vdot (q s) (q s)) t (2 * px (q t) * dx + 2 * py_ (q t) * dy + 2 * pz (q t) * dz)).
  { apply (lim_ext (fun s => px (q s) * px (q s) + py_ (q s) * py_ (q s) + pz (q s) * pz (q s))); [intros s; symmetry; apply Q|].
    exact (derivable_pt_lim_plus _ _ _ _ _ (derivable_pt_lim_plus _ _ _ _ _ (lim_sq _ _ _ X) (lim_sq _ _ _ Y)) (lim_sq _ _ _ Z)). }
  assert (Pos : 0 < vdot (q t) (q t)) by (rewrite <- vnorm_sq; nra).
  apply (lim_eq _ _ (/ (2 * sqrt (vdot (q t) (q t))) * (2 * px (q t) * dx + 2 * py_ (q t) * dy + 2 * pz (q t) * dz))).
  - exact (derivable_pt_lim_comp _ sqrt t _ _ Dq (derivable_pt_lim_sqrt _ Pos)).
  - fold (vnorm (q t)). unfold vhat. rewrite (proj2 (eqb_false _ _) N). destruct (q t) as ((a, b), c). unfold px, py_, pz. cbn [fst snd vscl vdot]. field. exact N.
Qed.

Theorem light_rate_ok : forall c p1 v1 p2 v2 lt d t, c <> 0 -> moves p1 v1 -> moves p2 v2 -> travels c LTfac p1 p2 lt -> derivable_pt_lim lt t d ->
  let t1 := t - lt t in
  let s1 := (p1 t1, v1 t1) in let s2 := (p2 t, v2 t) in
  vnorm (p1 t1) <> 0 -> vnorm (p2 t) <> 0 -> vnorm (vsub (p2 t) (p1 t1)) <> 0 -> vnorm (vsub (p2 t) (p1 t1)) < vnorm (p1 t1) + vnorm (p2 t) ->
  let u := vhat (vsub (p2 t) (p1 t1)) in
  let r := vdot (vhat (p1 t1)) (v1 t1) in let w := - vdot u (v1 t1) in
  ((r + w) / (vnorm (p1 t1) + vnorm (p2 t) + vnorm (vsub (p2 t) (p1 t1))) - (r - w) / (vnorm (p1 t1) + vnorm (p2 t) - vnorm (vsub (p2 t) (p1 t1)))) * LTfac + w / c + 1 <> 0 ->
  light_rate c s1 s2 = d.
Proof.
  intros c p1 v1 p2 v2 lt d t C M1 M2 Tr Dl t1 s1 s2 N1 N2 N12 Tri u r w Dn.
  assert (Dt : derivable_pt_lim (fun s => s - lt s) t (1 - d)) by exact (derivable_pt_lim_minus _ _ _ _ _ (derivable_pt_lim_id t) Dl).
  destruct (M1 t1) as (X1 & Y1 & Z1). destruct (M2 t) as (X2 & Y2 & Z2).
  pose proof (derivable_pt_lim_comp (fun s => s - lt s) (fun s => px (p1 s)) t _ _ Dt X1) as X. pose proof (derivable_pt_lim_comp (fun s => s - lt s) (fun s => py_ (p1 s)) t _ _ Dt Y1) as Y. pose proof (derivable_pt_lim_comp (fun s => s - lt s) (fun s => pz (p1 s)) t _ _ Dt Z1) as Z. unfold comp in X, Y, Z.
  pose proof (lim_norm (fun s => p1 (s - lt s)) t _ _ _ X Y Z N1) as E1. pose proof (lim_norm p2 t _ _ _ X2 Y2 Z2 N2) as E2.
  assert (Vx : forall a b, px (vsub a b) = px a - px b) by (intros ((a1, a2), a3) ((b1, b2), b3); unfold px; cbn; ring).
  assert (Vy : forall a b, py_ (vsub a b) = py_ a - py_ b) by (intros ((a1, a2), a3) ((b1, b2), b3); unfold py_; cbn; ring).
  assert (Vz : forall a b, pz (vsub a b) = pz a - pz b) by (intros ((a1, a2), a3) ((b1, b2), b3); unfold pz; cbn; ring).
  assert (E12 : derivable_pt_lim (fun s => vnorm (vsub (p2 s) (p1 (s - lt s)))) t (vdot u (px (v2 t) - px (v1 t1) * (1 - d), py_ (v2 t) - py_ (v1 t1) * (1 - d), pz (v2 t) - pz (v1 t1) * (1 - d)))).
  { apply (lim_norm (fun s => vsub (p2 s) (p1 (s - lt s)))).
    - apply (lim_ext (fun s => px (p2 s) - px (p1 (s - lt s)))); [intros s; symmetry; apply Vx|]. exact (derivable_pt_lim_minus _ _ _ _ _ X2 X).
    - apply (lim_ext (fun s => py_ (p2 s) - py_ (p1 (s - lt s)))); [intros s; symmetry; apply Vy|]. exact (derivable_pt_lim_minus _ _ _ _ _ Y2 Y).
    - apply (lim_ext (fun s => pz (p2 s) - pz (p1 (s - lt s)))); [intros s; symmetry; apply Vz|]. exact (derivable_pt_lim_minus _ _ _ _ _ Z2 Z).
    - exact N12. }
  cbv beta in E1. fold t1 in E1. set (q := vdot (vhat (p2 t)) (v2 t)). set (z := vdot u (v2 t)).
  assert (L1 : vdot (vhat (p1 t1)) (px (v1 t1) * (1 - d), py_ (v1 t1) * (1 - d), pz (v1 t1) * (1 - d)) = r * (1 - d)).
  { unfold r. destruct (vhat (p1 t1)) as ((a1, a2), a3), (v1 t1) as ((b1, b2), b3). unfold px, py_, pz. cbn. ring. }
  assert (L2 : vdot (vhat (p2 t)) (px (v2 t), py_ (v2 t), pz (v2 t)) = q) by (unfold q; destruct (v2 t) as ((b1, b2), b3); reflexivity).
  assert (L12 : vdot u (px (v2 t) - px (v1 t1) * (1 - d), py_ (v2 t) - py_ (v1 t1) * (1 - d), pz (v2 t) - pz (v1 t1) * (1 - d)) = z + w * (1 - d)).
  { unfold z, w. destruct u as ((a1, a2), a3), (v1 t1) as ((b1, b2), b3), (v2 t) as ((c1, c2), c3). unfold px, py_, pz. cbn. ring. }
  rewrite L1 in E1. rewrite L2 in E2. rewrite L12 in E12.
  set (A := vnorm (p1 t1)) in *. set (B := vnorm (p2 t)) in *. set (D := vnorm (vsub (p2 t) (p1 t1))) in *.
  assert (PA : 0 < A) by (pose proof (vnorm_pos (p1 t1)); unfold A in *; lra). assert (PB : 0 < B) by (pose proof (vnorm_pos (p2 t)); unfold B in *; lra). assert (PD : 0 < D) by (pose proof (vnorm_pos (vsub (p2 t) (p1 t1))); unfold D in *; lra).
  (* the derivative of the right-hand side *)
  set (f1 := fun s => vnorm (p1 (s - lt s)) + vnorm (p2 s) + vnorm (vsub (p2 s) (p1 (s - lt s)))).
  set (f2 := fun s => vnorm (p1 (s - lt s)) + vnorm (p2 s) - vnorm (vsub (p2 s) (p1 (s - lt s)))).
  pose proof (derivable_pt_lim_plus _ _ _ _ _ (derivable_pt_lim_plus _ _ _ _ _ E1 E2) E12) as F1. pose proof (derivable_pt_lim_minus _ _ _ _ _ (derivable_pt_lim_plus _ _ _ _ _ E1 E2) E12) as F2.
  change (derivable_pt_lim f1 t (r * (1 - d) + q + (z + w * (1 - d)))) in F1. change (derivable_pt_lim f2 t (r * (1 - d) + q - (z + w * (1 - d)))) in F2.
  assert (V1 : f1 t = A + B + D) by reflexivity. assert (V2 : f2 t = A + B - D) by reflexivity.
  assert (G : derivable_pt_lim (fun s => ln (f1 s / f2 s)) t ((r * (1 - d) + q + (z + w * (1 - d))) / (A + B + D) - (r * (1 - d) + q - (z + w * (1 - d))) / (A + B - D))).
  { pose proof (derivable_pt_lim_div f1 f2 t _ _ F1 F2 ltac:(rewrite V2; lra)) as Q. rewrite V1, V2 in Q.
    assert (Pq : 0 < f1 t / f2 t) by (rewrite V1, V2; apply Rdiv_lt_0_compat; lra).
    pose proof (derivable_pt_lim_comp _ ln t _ _ Q (derivable_pt_lim_ln _ Pq)) as H. unfold comp, div_fct in H. eapply lim_eq; [exact H|]. rewrite V1, V2. unfold Rsqr. field. repeat split; lra. }
  assert (H : derivable_pt_lim (fun s => vnorm (vsub (p2 s) (p1 (s - lt s))) / c + LTfac * ln (f1 s / f2 s)) t ((z + w * (1 - d)) / c + LTfac * ((r * (1 - d) + q + (z + w * (1 - d))) / (A + B + D) - (r * (1 - d) + q - (z + w * (1 - d))) / (A + B - D)))).
  { apply (lim_eq _ _ (/ c * (z + w * (1 - d)) + LTfac * ((r * (1 - d) + q + (z + w * (1 - d))) / (A + B + D) - (r * (1 - d) + q - (z + w * (1 - d))) / (A + B - D)))); [|unfold Rdiv; ring].
    apply (lim_ext (fun s => / c * vnorm (vsub (p2 s) (p1 (s - lt s))) + LTfac * ln (f1 s / f2 s))); [intros s; unfold Rdiv; ring|].
    exact (derivable_pt_lim_plus _ _ _ _ _ (derivable_pt_lim_scal _ (/ c) _ _ E12) (derivable_pt_lim_scal _ LTfac _ _ G)). }
  assert (H' : derivable_pt_lim lt t ((z + w * (1 - d)) / c + LTfac * ((r * (1 - d) + q + (z + w * (1 - d))) / (A + B + D) - (r * (1 - d) + q - (z + w * (1 - d))) / (A + B - D)))).
  { eapply lim_ext; [|exact H]. intros s. symmetry. apply Tr. }
  pose proof (uniqueness_limite _ _ _ _ Dl H') as E. clear H H' G F1 F2 E1 E2 E12.
  unfold light_rate, s1, s2. cbn [fst snd]. cbv zeta. fold u. fold A B D. fold r q z w.
  apply (Rmult_eq_reg_r (((r + w) / (A + B + D) - (r - w) / (A + B - D)) * LTfac + w / c + 1)); [|exact Dn]. unfold Rdiv at 1. rewrite Rmult_assoc, Rinv_l, Rmult_1_r by exact Dn.
  set (i1 := / (A + B + D)) in *. set (i2 := / (A + B - D)) in *. unfold Rdiv in *. set (ic := / c) in *. fold i1 i2 in E |- *. fold i1 i2. rewrite (Rmult_comm d). nra.
Qed.
