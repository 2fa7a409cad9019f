(** * Proof_Kernel: the data of the kernels (C53). *)
From Coq Require Import List ZArith Bool Reals String Lia Lra.
From Verif Require Import Base BaseFacts Scalar Model_TauRec Model_Transform Model_Interp Spec_Select Spec_Safety Spec_Real Spec_Kernel Proof_Real.
Import ListNotations.
Open Scope Z_scope.

Section Kernel.
  Variable L : rlib.
  Variable t : rtau.
  Variable v : rf -> Z -> R.
  Variables lo hi : Z.
  Hypothesis V : tabulated t v lo hi.
  Lemma rd_v : forall g i, lo <= i <= hi -> rd t g i = Ok (v g i : real_scalar).
  Proof. intros g i H. apply at_sample_rd, V, H. Qed.
  Lemma geo_v : forall a b phi, lo <= a <= hi -> lo <= b <= hi -> geo_at t a b phi = Ok (ring_geometry v a b phi).
  Proof. intros a b phi A B. unfold geo_at. rewrite !rd_v by assumption. reflexivity. Qed.

  Theorem kernel_data : forall c i, lo <= c <= hi -> lo <= i <= hi ->
    fresnel_kernel L t c i = Ok (if use_fwd t then t_kernel L (v KV c) (ring_geometry v c i (v PHI c)) (eps t) (toler t)
      else cconj (t_kernel L (v KV i) (ring_geometry v i c (v PHI i)) (eps t) (toler t))) /\
    phase_and_weight L t c i = Ok (let '(_, wt, psi) := if use_fwd t then t_phasew L (v KV c) (ring_geometry v c i (v PHI c)) (eps t) (toler t)
      else t_phasew L (v KV i) (ring_geometry v i c (v PHI i)) (eps t) (toler t) in (wt, if use_fwd t then psi else (- psi)%R)) /\
    forall phi, exists guess, fast_phase_and_weight L t c i phi = Ok (let '(_, wt, psi) := if use_fwd t then t_phasew L (v KV c) (ring_geometry v c i phi) (eps t) (toler t)
      else t_phasew L (v KV i) (ring_geometry v i c phi) (eps t) (toler t) in (guess, wt, if use_fwd t then psi else (- psi)%R)).
  Proof.
    intros c i C I. unfold fresnel_kernel, phase_and_weight, fast_phase_and_weight. destruct (use_fwd t); rewrite !rd_v by assumption; cbn [bind]; rewrite !geo_v by assumption; cbn [bind].
    - split; [reflexivity|]. split; [destruct (t_phasew L _ _ _ _) as ((? & ?) & ?); reflexivity|]. intros phi. rewrite geo_v by assumption. cbn [bind]. destruct (t_phasew L _ _ _ _) as ((? & ?) & ?). eexists. reflexivity.
    - split; [reflexivity|]. split; [destruct (t_phasew L _ _ _ _) as ((? & ?) & ?); reflexivity|]. intros phi. rewrite geo_v by assumption. cbn [bind]. destruct (t_phasew L _ _ _ _) as ((? & ?) & ?). eexists. reflexivity.
  Qed.
  Theorem nodes_data : forall h c s low high, 0 <= h -> 0 <= s -> lo <= c - h * s -> c + h * s <= hi -> node_phases L t h c s = Ok (low, high) ->
    zlen low = h /\ zlen high = h /\ forall j, 1 <= j <= h ->
      aread low (j - 1) = Ok (t_psi L (v KV c) (ring_geometry v (c - j * s) c (v PHI (c - j * s))) (eps t) (toler t)) /\
      aread high (j - 1) = Ok (t_psi L (v KV c) (ring_geometry v (c + j * s) c (v PHI (c + j * s))) (eps t) (toler t)).
  Proof.
    intros h c s low high Hh Hs A B N. unfold node_phases in N.
    destruct (tabulate h (fun j => sample_psi L t c (c - (j + 1) * s))) as [l|] eqn:E1; try discriminate. cbn [bind] in N.
    destruct (tabulate h (fun j => sample_psi L t c (c + (j + 1) * s))) as [l'|] eqn:E2; try discriminate. cbn [bind] in N. injection N as -> ->.
    apply tabulate_ok in E1; [|exact Hh]. apply tabulate_ok in E2; [|exact Hh]. destruct E1 as (L1 & E1), E2 as (L2 & E2). split; [exact L1|]. split; [exact L2|].
    intros j Hj. rewrite E1, E2 by lia. replace (j - 1 + 1) with j by lia. unfold sample_psi.
    assert (0 <= j * s <= h * s) by nia. rewrite !rd_v by nia. cbn [bind]. rewrite !geo_v by nia. split; reflexivity.
  Qed.
  Theorem elliptic_data : forall c i, lo <= c <= hi -> lo <= i <= hi ->
    let e := ecc t in
    let orbit := fun r phi => (r * (1 + e * t_cos L (phi - peri t)) / (1 - e * e))%R in
    exists phi, phi = t_ellphi L [v KV c; v RHO c; v RHO i; v PHI i; v PHI i; v BDEG c; e; peri t; v RX c; v RY c; v RZ c; eps t] (toler t) /\
    elliptic_psi L t c i = Ok (t_idealpsi L [v KV c; (orbit (v RHO c) (v PHI c) * (1 - e * e) / (1 + e * t_cos L (phi - peri t)))%R; v RHO i; phi; v PHI i; v BDEG c;
      t_obsdist L [v RHO i; phi; v RX c; v RY c; v RZ c]]).
  Proof. intros c i C I e orbit. eexists. split; [reflexivity|]. unfold elliptic_psi. rewrite !rd_v by assumption. reflexivity. Qed.
  Theorem perturbed_data : forall c i, lo <= c <= hi -> lo <= i <= hi -> zlen (perturb t) = 5 ->
    exists phi, phi = t_idealphi L [v KV c; v RHO c; v RHO i; v PHI i; v PHI i; v BDEG c; v DKM c; eps t] (toler t) /\
    perturbed_psi L t c i = Ok (t_idealpsi L [v KV c; v RHO c; v RHO i; phi; v PHI i; v BDEG c; v DKM c]
      + quartic (perturb t) ((v RHO c - v RHO i) / v DKM c) * (v KV c * v DKM c))%R.
  Proof.
    intros c i C I P. eexists. split; [reflexivity|]. unfold perturbed_psi. rewrite !rd_v by assumption. cbn [bind].
    destruct (perturb t) as [|p0 [|p1 [|p2 [|p3 [|p4 [|p5 l]]]]]]; cbn in P; try (unfold zlen in P; cbn in P; lia); try discriminate.
    set (l := [p0; p1; p2; p3; p4]). change (aread l 4) with (Ok p4). change (aread l 3) with (Ok p3). change (aread l 2) with (Ok p2). change (aread l 1) with (Ok p1). change (aread l 0) with (Ok p0).
    cbn [bind]. f_equal. cbn. ring.
  Qed.
End Kernel.
