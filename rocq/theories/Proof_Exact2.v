(** * Proof_Exact2: free space stays free space (C61). *)
From Coq Require Import List ZArith Bool Reals Lia Lra String.
From Verif Require Import Base BaseFacts Scalar Model_TauRec Model_Checks Model_Select Model_Transform Model_Interp
  Model_Recon Spec_Tau Spec_Select Spec_Safety Spec_Real Spec_Fft Spec_Exact Proof_Checks Proof_Safety Proof_Drivers Proof_SafeDbl
  Proof_Real Proof_Real2 Proof_Real3 Proof_Real4 Proof_Exact Properties_Real.
Import ListNotations.
Open Scope Z_scope.

Lemma dispatch_fresnel {S} (L : tmpl S) sch (t : tau S) : clean t -> psinum t = PsiFresnel -> diffraction_correction L sch t = dc_fresnel L sch t.
Proof. intros C E. unfold diffraction_correction. rewrite guarded_clean by exact C. cbv zeta. rewrite E. reflexivity. Qed.
Lemma dispatch_legendre {S} (L : tmpl S) sch (t : tau S) : clean t -> psinum t = PsiLegendre -> diffraction_correction L sch t = dc_legendre L t.
Proof. intros C E. unfold diffraction_correction. rewrite guarded_clean by exact C. cbv zeta. rewrite E. reflexivity. Qed.
Lemma dispatch_newton {S} (L : tmpl S) sch (t : tau S) : clean t ->
  match psinum t with PsiNewtonRiemann | PsiNewtonFilon01 | PsiNewtonFilon11 | PsiEllipticNewton | PsiNewtonPerturb => True | _ => False end ->
  diffraction_correction L sch t = dc_newton L sch t.
Proof. intros C E. unfold diffraction_correction. rewrite guarded_clean by exact C. cbv zeta. destruct (psinum t); try contradiction; reflexivity. Qed.
Lemma dispatch_interp {S} (L : tmpl S) sch (t : tau S) : clean t ->
  match psinum t with PsiNewton8 | PsiNewton16 => True | _ => False end ->
  diffraction_correction L sch t = dc_interp L t.
Proof. intros C E. unfold diffraction_correction. rewrite guarded_clean by exact C. cbv zeta. destruct (psinum t); try contradiction; reflexivity. Qed.

Section Free.
  Variables (L : rlib) (sch : schedule) (t : rtau) (rho : list R) (z : RC).
  Hypothesis Htr : trig_law L.
  Hypothesis Hab : cabs_law L.
  Hypothesis Hfil : filon_real L.
  Hypothesis Hmax : maximum_law L.
  Hypothesis Hsch : valid_schedule sch.
  Hypothesis HR : ready_exact L t rho.
  Hypothesis Hneed : mode_needs L t.
  Hypothesis Hfree : free_space t z.
  Hypothesis Hnorm : use_norm t = true.
  Hypothesis Hker : kernel_sums_nonzero L t rho.
  Local Notation two_dx := ((2 * dx t)%R : real_scalar).
  Local Notation good t' := (clean t' /\ forall i, start t <= i < start t + n_used t -> exists v, result_at t' i v /\ modulus v = modulus z).

  Lemma free_piece lo hi : 0 <= lo -> hi < arr_size t -> recorded t (fun _ => z) lo hi.
  Proof. intros A B. destruct Hfree as (T & E & H). exists T. split; [exact E|]. intros i Hi. apply H. lia. Qed.
  Lemma free_window i j m (wj : R) : start t <= j <= i -> i < start t + n_used t -> width t j (wj : real_scalar) ->
    reusable t two_dx j i -> @scast real_scalar (wj / (2 * dx t))%R = Ok m ->
    0 <= m <= i /\ i + m < arr_size t /\ recorded t (fun _ => z) (i - m) (i + m) /\ 2 * m + 1 < two64 /\ kernel_sum_nonzero L t rho i j m wj.
  Proof.
    intros Hj Hi Hw Hre Em. pose proof (rd_selection _ _ _ HR) as (S1 & S2 & S3). assert (Sz : arr_size t < two64) by apply (rd_complete _ _ _ HR).
    destruct (proj2 (m_fits t (start t) (start t + n_used t) (rd_step _ _ _ HR) (rd_margins _ _ _ HR) S3 Sz) j i m Hj Hi Hre) as (B1 & B2).
    { exists wj. split; auto. }
    split; [exact B1|]. split; [exact B2|]. split; [apply free_piece; lia|]. split; [lia|]. apply Hker; auto.
  Qed.
  Lemma free_wrap (Q : Z -> RC -> Prop) (r : res rtau) :
    (exists t', r = Ok t' /\ clean t' /\ forall i, start t <= i < start t + n_used t -> exists v, result_at t' i v /\ Q i v) ->
    (forall i v, start t <= i < start t + n_used t -> Q i v -> modulus v = modulus z) ->
    exists t', r = Ok t' /\ good t'.
  Proof.
    intros (t' & E & C & H) HQ. exists t'. split; [exact E|]. split; [exact C|]. intros i Hi. destruct (H i Hi) as (v & Rv & Qv).
    exists v. split; [exact Rv|]. apply (HQ i v Hi Qv).
  Qed.
  Lemma ok_modulus (r : res RC) v : r = Ok v -> (exists v', r = Ok v' /\ modulus v' = modulus z) -> modulus v = modulus z.
  Proof. intros E (v' & E' & M). assert (v = v') by congruence. subst. exact M. Qed.

  Lemma free_fresnel : psinum t = PsiFresnel -> exists t', diffraction_correction L sch t = Ok t' /\ good t'.
  Proof.
    intros Hp. pose proof HR as [C1 C2 C3 (S1 & S2 & S3) C5 C6 C7 C8 C9]. rewrite (dispatch_fresnel L sch t C1 Hp).
    pose proof Hneed as Hneed'. unfold mode_needs in Hneed'. rewrite Hp in Hneed'. destruct Hneed' as (N1 & N2 & N3).
    apply (free_wrap (fresnel_sample L t two_dx)).
    - apply (fresnel_driver_exact L sch t); auto.
    - intros i v Hi (j & wj & Hj & Hw & Hre & m & x & w & Em & Hx & Hh & Ev).
      destruct (free_window i j m wj Hj ltac:(lia) Hw Hre Em) as (B1 & B2 & Rc & B3 & K).
      unfold kernel_sum_nonzero in K. cbv zeta in K. rewrite Hp in K. destruct K as (F & HF & F0 & KS).
      apply (ok_modulus _ _ Ev).
      apply (c26_fresnel_free_space L Htr Hab t z F x w (fresnel_x t m) (half_weight L t m wj) i m); auto. lia.
  Qed.

  Lemma free_newton f : select_newton L (psinum t) = Ok (inl f) ->
    match psinum t with PsiNewtonRiemann | PsiNewtonFilon01 | PsiNewtonFilon11 | PsiEllipticNewton | PsiNewtonPerturb => True | _ => False end ->
    exists t', diffraction_correction L sch t = Ok t' /\ good t'.
  Proof.
    intros Es Hp. pose proof HR as [C1 C2 C3 (S1 & S2 & S3) C5 C6 C7 C8 C9]. rewrite (dispatch_newton L sch t C1 Hp).
    apply (free_wrap (newton_sample L t f two_dx rho)).
    - apply (newton_driver_exact L sch t rho); auto. destruct (psinum t); try contradiction; exact I.
    - intros i v Hi (j & wj & Hj & Hw & Hre & m & w & Em & Hh & Ev).
      destruct (free_window i j m wj Hj ltac:(lia) Hw Hre Em) as (B1 & B2 & Rc & B3 & K).
      unfold kernel_sum_nonzero in K. cbv zeta in K. apply select_newton_inv in Es. apply (ok_modulus _ _ Ev). clear Ev.
      destruct (psinum t); try contradiction; subst f.
      + destruct K as (Kk & E & KS). eapply (c27_riemann_free_space L Hab t z Kk w (full_weight L t rho j m wj) i m); auto. lia.
      + destruct K as (wt & psi & E & KS). apply (c27_filon_free_space L Hab t z w (full_weight L t rho j m wj) wt psi i m); auto. lia.
      + destruct K as (wt & psi & E & KS). apply (c27_filon_free_space L Hab t z w (full_weight L t rho j m wj) wt psi i m); auto. lia.
      + destruct K as (psi & E & KS). apply (c27_elliptical_free_space L Htr Hab t z psi w (full_weight L t rho j m wj) i m); auto. lia.
      + destruct K as (psi & E & KS). apply (c27_perturbed_free_space L Htr Hab t z psi w (full_weight L t rho j m wj) i m); auto. lia.
  Qed.

  Lemma free_interp f : select_interp L (psinum t) = Ok (inl (Some f)) ->
    match psinum t with PsiNewton8 | PsiNewton16 => True | _ => False end ->
    exists t', diffraction_correction L sch t = Ok t' /\ good t'.
  Proof.
    intros Es Hp. pose proof HR as [C1 C2 C3 (S1 & S2 & S3) C5 C6 C7 C8 C9]. rewrite (dispatch_interp L sch t C1 Hp).
    assert (Hwide : forall i (x : R), selected t i -> width t i (x : real_scalar) -> (2 * dx t <= x)%R).
    { pose proof Hneed as N. unfold mode_needs in N. destruct (psinum t); try contradiction; exact N. }
    apply (free_wrap (interp_sample L t f two_dx)).
    - apply (interp_driver_exact L t rho); auto.
    - intros i v Hi (j & wj & m & x & w & Hj & Hw & Hre & Em & Hx & Hh & Ev).
      destruct (free_window i j m wj Hj ltac:(lia) Hw Hre Em) as (B1 & B2 & Rc & B3 & K).
      unfold kernel_sum_nonzero in K. cbv zeta in K. apply select_interp_inv in Es. apply (ok_modulus _ _ Ev). clear Ev.
      destruct (psinum t); try contradiction; subst f; destruct K as (l & h & E & KS).
      + apply (proj1 (c27_interpolated_free_space L Htr Hab t z l h x w (offset_x t m) (half_weight L t m wj) i m ltac:(lia) Rc Hx Hh)); auto.
      + apply (proj2 (c27_interpolated_free_space L Htr Hab t z l h x w (offset_x t m) (half_weight L t m wj) i m ltac:(lia) Rc Hx Hh)); auto.
  Qed.
  Lemma at_rd (g : rf) i (x : R) : at_sample t g i (x : real_scalar) -> rd t g i = Ok (x : real_scalar).
  Proof. intros (l & E & H). unfold rd. rewrite E. cbn [deref bind]. apply entry_read in H. exact H. Qed.
  Lemma free_legendre : psinum t = PsiLegendre -> exists t', diffraction_correction L sch t = Ok t' /\ good t'.
  Proof.
    intros Hp. pose proof HR as [C1 C2 C3 (S1 & S2 & S3) C5 C6 C7 C8 C9]. rewrite (dispatch_legendre L sch t C1 Hp).
    pose proof Hneed as Hneed'. unfold mode_needs in Hneed'. rewrite Hp in Hneed'. destruct Hneed' as (N1 & N2 & N3 & N4).
    pose (f := if order t mod 2 =? 0 then legendre_odd_norm L else legendre_even_norm L).
    assert (Ef : aread (legendre_table L) (legendre_index t) = Ok f).
    { unfold legendre_index, f. rewrite Hnorm. pose proof (Z.mod_pos_bound (order t) 2 ltac:(lia)).
      assert (order t mod 2 = 0 \/ order t mod 2 = 1) as [-> | ->] by lia; reflexivity. }
    apply (free_wrap (interp_sample L t (legendre_step L f) two_dx)).
    - apply (legendre_driver_exact L t rho); auto.
    - intros i v Hi (j & wj & m & x & w & Hj & Hw & Hre & Em & Hx & Hh & Ev).
      destruct (free_window i j m wj Hj ltac:(lia) Hw Hre Em) as (B1 & B2 & Rc & B3 & K).
      unfold kernel_sum_nonzero in K. cbv zeta in K. rewrite Hp in K. destruct K as (cs & D & kc & pl & pr & (b & p & Hb & Hphi & Ecs) & HD & Hk & Hph & KS).
      cbv zeta in Ecs.
      apply (ok_modulus _ _ Ev). clear Ev. unfold legendre_step. rewrite (at_rd _ _ _ Hb). cbn [bind]. rewrite (at_rd _ _ _ Hphi). cbn [bind].
      cbv zeta. match goal with |- context [f t x w ?c m i] => replace c with cs by (rewrite Ecs; f_equal) end.
      destruct (c27_legendre_free_space L Htr Hab t z cs D kc pl pr x w (offset_x t m) (half_weight L t m wj) i m) as [LO LE]; auto; [lia|].
      unfold f. destruct (order t mod 2 =? 0); [apply LO|apply LE]; exact Hph.
  Qed.
  Lemma free_space_exact : exists t', diffraction_correction L sch t = Ok t' /\ good t'.
  Proof.
    destruct (psinum t) eqn:Ep.
    all: try (apply free_fresnel; exact Ep).
    all: try (apply free_legendre; exact Ep).
    all: try (eapply free_newton; [rewrite Ep; reflexivity|rewrite Ep; exact I]).
    all: try (eapply free_interp; [rewrite Ep; reflexivity|rewrite Ep; exact I]).
    all: exfalso; pose proof HR as [C1 C2 C3 (S1 & S2 & S3) C5 C6 C7 C8 C9];
      destruct (x_first t C2 S2 S3 C6 C9) as (w0 & m & Ew & Em); apply width_rd in Ew;
      pose proof (Hker (start t) (start t) m w0 ltac:(lia) ltac:(lia) Ew ltac:(left; reflexivity) Em) as K;
      unfold kernel_sum_nonzero in K; rewrite Ep in K; exact K.
  Qed.
End Free.
