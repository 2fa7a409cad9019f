(** * Properties_Exact: C61, free space through a whole diffraction correction.

    Vocabulary: Spec_Exact.v, Spec_Real.v, Spec_Safety.v. *)
From Coq Require Import List ZArith Bool Reals Lia Lra.
From Verif Require Import Base BaseFacts Scalar Model_TauRec Model_Checks Model_Transform Model_Interp Model_Recon
  Spec_Tau Spec_Select Spec_Safety Spec_Real Spec_Fft Spec_Exact Ref_Tmpl Ex_Real Ex_Exact
  Proof_Real Proof_Exact Proof_Exact2.
Import ListNotations.
Open Scope Z_scope.

(** ** C61 *)
(** Whatever the method and the division of the samples among threads, where nothing was
    in the way of the signal the corrected profile has the intensity recorded. *)
Theorem c61_free_space : forall (L : rlib) (sch : schedule) (t : rtau) (rho : list R) (z : RC),
  trig_law L -> cabs_law L -> filon_real L -> maximum_law L -> valid_schedule sch ->
  ready_exact L t rho -> mode_needs L t -> free_space t z -> use_norm t = true ->
  kernel_sums_nonzero L t rho ->
  exists t', diffraction_correction L sch t = Ok t' /\ clean t' /\
    forall i, start t <= i < start t + n_used t -> exists v, result_at t' i v /\ modulus v = modulus z.
Proof. exact free_space_exact. Qed.
Print Assumptions c61_free_space.

(** Three methods on seventeen samples. *)
Example c61_example_fresnel : forall sch z, valid_schedule sch ->
  exists t', diffraction_correction ref_rlib sch (ex_exact PsiFresnel z) = Ok t' /\ clean t' /\
    forall i, 6 <= i < 11 -> exists v, result_at t' i v /\ modulus v = modulus z.
Proof.
  intros sch z V. apply (c61_free_space ref_rlib sch (ex_exact PsiFresnel z) ex_exact_rho z); auto using ref_trig, ref_cabs, ref_filon_real, ref_maximum.
  - apply ex_exact_ready.
  - apply ex_exact_fresnel_needs.
  - apply ex_exact_free.
  - apply ex_exact_fresnel_kernel.
Qed.
Example c61_example_riemann : forall sch z, valid_schedule sch ->
  exists t', diffraction_correction ref_rlib sch (ex_exact PsiNewtonRiemann z) = Ok t' /\ clean t' /\
    forall i, 6 <= i < 11 -> exists v, result_at t' i v /\ modulus v = modulus z.
Proof.
  intros sch z V. apply (c61_free_space ref_rlib sch (ex_exact PsiNewtonRiemann z) ex_exact_rho z); auto using ref_trig, ref_cabs, ref_filon_real, ref_maximum.
  - apply ex_exact_ready.
  - exact I.
  - apply ex_exact_free.
  - apply ex_exact_riemann_kernel.
Qed.
