(** * Properties_Real: theorems in exact real arithmetic (C25-C32, C53).

    [L] ranges over the library functions; the laws assumed of it (sine, cosine and
    modulus are exact, quadratures are linear) are hypotheses, satisfied by
    [ref_rlib].  [recorded t f lo hi] says that samples lo..hi of the input
    profile are f lo, ..., f hi; [holds b n g] that cells 0..n-1 of the buffer b
    are g 0, ..., g (n-1). *)
From Coq Require Import List ZArith Bool Reals String Lia Lra.
From Verif Require Import Base BaseFacts Dbl Scalar Model_TauRec Model_Transform
  Model_Interp Model_Recon Ref_Tmpl Spec_Select Spec_Safety Spec_Real Spec_Kernel Proof_Kernel
  Proof_Linear Proof_Linear2 Proof_Real Proof_Real2 Proof_Real3 Proof_Real4 Proof_Real5 Ex_Real.
Import ListNotations.
Open Scope Z_scope.

(** ** C25: a whole reconstruction is linear in the recorded profile *)
Theorem c25_reconstruction_linear : forall (L : rlib) (a b : RC), filon_linear L -> fourier_linear L ->
  forall sch (t t1 t2 : rtau) T1 T2 T3, T_out t = None -> T_fwd t = None -> superposed a b T1 T2 T3 ->
  reconstruction L sch (set_T_in t (Some T1)) = Ok t1 -> reconstruction L sch (set_T_in t (Some T2)) = Ok t2 ->
  exists t3, reconstruction L sch (set_T_in t (Some T3)) = Ok t3 /\
    superposed_ptr a b (T_in t1) (T_in t2) (T_in t3) /\
    superposed_ptr a b (T_out t1) (T_out t2) (T_out t3) /\ superposed_ptr a b (T_fwd t1) (T_fwd t2) (T_fwd t3) /\
    no_profiles t1 = no_profiles t3 /\ no_profiles t2 = no_profiles t3.
Proof. exact run_linear. Qed.
Print Assumptions c25_reconstruction_linear.
Example c25_laws : filon_linear ref_rlib /\ fourier_linear ref_rlib.
Proof. exact (conj ref_filon_linear ref_fourier_linear). Qed.
Example c25_superposed : superposed (2%R, 0%R) (0%R, 1%R) [Some (1, 0)%R; None] [Some (0, 1)%R; None]
  [Some (superposition (2%R, 0%R) (0%R, 1%R) (1%R, 0%R) (0%R, 1%R)); None].
Proof. repeat split. intros [|[|[|]]]; cbn; exact I || reflexivity. Qed.

(** ** C26: quadratic Fresnel mode *)
Theorem c26_fresnel_free_space : forall L : rlib, trig_law L -> cabs_law L ->
  forall (t : rtau) (z : RC) (F : R) (x w : @buffer real_scalar) (X W : Z -> R) c n,
  0 <= n -> recorded t (fun _ => z) (c - n) (c + n) -> at_sample t FKM c F -> holds x n X -> holds w n W -> F <> 0%R ->
  use_norm t = true ->
  radd CI (sum_weights n (fresnel_weight (use_fwd t) F X W) (fresnel_weight (use_fwd t) F X W)) <> CZ ->
  exists v, fresnel_transform L t x w c n = Ok v /\ modulus v = modulus z.
Proof. exact fresnel_free. Qed.
Print Assumptions c26_fresnel_free_space.
Example c26_example : exists v, fresnel_transform ref_rlib (ex_real (fun _ => (3, 4)%R)) (buf 2 1) (buf 2 1) 8 2 = Ok v /\ modulus v = 5%R.
Proof.
  destruct (c26_fresnel_free_space ref_rlib ref_trig ref_cabs (ex_real (fun _ => (3, 4)%R)) (3, 4)%R 2 (buf 2 1) (buf 2 1) (fun _ => 1%R) (fun _ => 1%R) 8 2)
    as (v & E & M); try (apply (buf_holds 2)); try lia; try lra; try reflexivity.
  - apply ex_recorded; lia.
  - apply ex_sample; [reflexivity|lia].
  - apply one_plus_nonzero. intros k Hk. unfold cadd, cre, cim. cbn [fst snd sadd real_scalar].
    assert (0 < fst (fresnel_weight false 2 (fun _ => 1) (fun _ => 1) k))%R by (apply cis_re; lra). cbn [use_fwd ex_real]. lra.
  - exists v. split; [exact E|]. rewrite M. unfold modulus. cbn [fst snd]. replace (3 * 3 + 4 * 4)%R with (5 * 5)%R by ring.
    apply sqrt_square. lra.
Qed.
(** Without normalisation the modulus is not kept: the value is scaled with the
    step and the Fresnel scale. *)
Theorem c26_unnormalised_refuted : exists (t : rtau) (z : RC) v, use_norm t = false /\ recorded t (fun _ => z) 8 8 /\
  fresnel_transform ref_rlib t (buf 0 0) (buf 0 0) 8 0 = Ok v /\ modulus v <> modulus z.
Proof.
  pose (t := set_use_norm (ex_real (fun _ => (1, 0)%R)) false).
  exists t, (1, 0)%R. eexists. split; [reflexivity|]. split; [apply (ex_recorded (fun _ => (1, 0)%R)); lia|]. split.
  - apply (fresnel_closed ref_rlib ref_trig ref_cabs t (fun _ => (1, 0)%R) 2%R (buf 0 0) (buf 0 0) (fun _ => 0%R) (fun _ => 0%R) 8 0); try lia; try lra.
    + apply (ex_recorded (fun _ => (1, 0)%R)); lia.
    + apply (ex_sample (fun _ => (1, 0)%R)); [reflexivity|lia].
    + intros i Hi; lia.
    + intros i Hi; lia.
  - cbv zeta. unfold t, modulus, sum_pairs, one_plus_i, cmul, cadd, cre, cim. cbn [use_norm set_use_norm use_fwd ex_real dx Z.to_nat csum fst snd sadd ssub smul real_scalar].
    intros E. apply (f_equal (fun x => x * x)%R) in E. rewrite !sqrt_sqrt in E by nra. lra.
Qed.
Print Assumptions c26_unnormalised_refuted.

(** ** C27: the other normalised modes *)
Theorem c27_riemann_free_space : forall L : rlib, cabs_law L ->
  forall (t : rtau) (z : RC) (K : Z -> RC) (w : @buffer real_scalar) (W : Z -> R) c m,
  0 <= m -> 2 * m + 1 < two64 -> recorded t (fun _ => z) (c - m) (c + m) -> holds w (2 * m + 1) W ->
  (forall k, 0 <= k < 2 * m -> fresnel_kernel L t c (c - m + k) = Ok (K k)) -> use_norm t = true ->
  sum_all (2 * m) (fun k => rscale (W k) (K k)) <> CZ ->
  exists v, newton_riemann L t w (2 * m + 1) c = Ok v /\ modulus v = modulus z.
Proof. exact riemann_free. Qed.
Print Assumptions c27_riemann_free_space.
Definition ex_K (T : Z -> RC) (k : Z) : RC := match fresnel_kernel ref_rlib (ex_real T) 8 (8 - 2 + k) with Ok v => v | UB _ => CZ end.
Example c27_riemann_example : forall z, exists v, newton_riemann ref_rlib (ex_real (fun _ => z)) (buf 5 1) 5 8 = Ok v /\ modulus v = modulus z.
Proof.
  intros z. apply (c27_riemann_free_space ref_rlib ref_cabs (ex_real (fun _ => z)) z (ex_K (fun _ => z)) (buf 5 1) (fun _ => 1%R) 8 2); try lia; try reflexivity.
  - apply ex_recorded; lia.
  - apply (buf_holds 5).
  - intros k Hk. assert (k = 0 \/ k = 1 \/ k = 2 \/ k = 3) as [-> | [-> | [-> | ->]]] by lia; reflexivity.
  - apply csum_nonzero; [discriminate|]. intros k Hk.
    assert (E : exists th, (-1 <= th <= 1)%R /\ ex_K (fun _ => z) k = (cos th, (- sin th)%R)).
    { assert (k = 0 \/ k = 1 \/ k = 2 \/ k = 3) as [-> | [-> | [-> | ->]]] by (cbn in Hk; lia);
      (eexists; split; [|reflexivity]); cbn -[IZR]; lra. }
    destruct E as (th & Ht & ->). unfold cscale, cre, cim. cbn [fst snd smul real_scalar].
    pose proof PI2_1. assert (0 < cos th)%R by (apply cos_gt_0; lra). lra.
Qed.
Theorem c27_filon_free_space : forall L : rlib, cabs_law L ->
  forall (t : rtau) (z : RC) (w : @buffer real_scalar) (W wt psi : Z -> R) c m, filon_real L ->
  0 <= m -> 2 * m + 1 < two64 -> recorded t (fun _ => z) (c - m) (c + m) -> holds w (2 * m + 1) W ->
  weights_at L t c (c - m) (2 * m + 1) wt psi -> use_norm t = true ->
  (sum_all (2 * m) (fun k => t_rfilon01 L ((wt k * W k + wt (k + 1)%Z * W (k + 1)%Z) / 2)%R (psi k) (psi (k + 1)) (dx t)) <> CZ ->
   exists v, newton_filon01 L t w (2 * m + 1) c = Ok v /\ modulus v = modulus z) /\
  (sum_all (2 * m) (fun k => t_rfilon11 L (wt k * W k)%R (wt (k + 1)%Z * W (k + 1)%Z)%R (psi k) (psi (k + 1)) (dx t)) <> CZ ->
   exists v, newton_filon11 L t w (2 * m + 1) c = Ok v /\ modulus v = modulus z).
Proof. exact filon_free. Qed.
Print Assumptions c27_filon_free_space.
Example c27_filon_example : forall z, exists v, newton_filon11 ref_rlib (ex_real (fun _ => z)) (buf 3 1) 3 8 = Ok v /\ modulus v = modulus z.
Proof.
  intros z. pose (psi := fun k => (IZR (1 - k) / 100)%R).
  destruct (c27_filon_free_space ref_rlib ref_cabs (ex_real (fun _ => z)) z (buf 3 1) (fun _ => 1%R) (fun _ => 1%R) psi 8 1 ref_filon_real) as [_ H];
    try lia; try reflexivity.
  - apply ex_recorded; lia.
  - apply (buf_holds 3).
  - intros k Hk. assert (k = 0 \/ k = 1 \/ k = 2) as [-> | [-> | ->]] by lia;
      (eapply (eq_trans (y := Ok (_, _))); [reflexivity|f_equal; apply f_equal2; [reflexivity|unfold psi; cbn -[IZR]; req; lra]]).
  - apply H. apply csum_nonzero; [discriminate|]. intros k Hk.
    cbn [t_rfilon11 ref_rlib ref_lib]. unfold cscale, cre, cim, shalf. cbn [fst snd smul sadd sfrac real_scalar dx ex_real].
    apply Rmult_lt_0_compat; [lra|]. pose proof PI2_1. assert (k = 0 \/ k = 1) as [-> | ->] by (cbn in Hk; lia); unfold psi; apply cos_gt_0; cbn -[IZR]; lra.
Qed.
(** Elliptical and perturbed modes normalise whatever the setting. *)
Theorem c27_elliptical_free_space : forall L : rlib, trig_law L -> cabs_law L ->
  forall (t : rtau) (z : RC) (psi : Z -> R) (w : @buffer real_scalar) (W : Z -> R) c m,
  0 <= m -> recorded t (fun _ => z) (c - m) (c + m) -> holds w (2 * m + 1) W ->
  (forall k, 0 <= k < 2 * m + 1 -> elliptic_psi L t c (c - m + k) = Ok (psi k)) ->
  sum_all (2 * m + 1) (fun k => cis (W k) (- psi k)%R) <> CZ ->
  exists v, elliptical_newton L t w (2 * m + 1) c = Ok v /\ modulus v = modulus z.
Proof. exact elliptical_free. Qed.
Print Assumptions c27_elliptical_free_space.
Theorem c27_perturbed_free_space : forall L : rlib, trig_law L -> cabs_law L ->
  forall (t : rtau) (z : RC) (psi : Z -> R) (w : @buffer real_scalar) (W : Z -> R) c m,
  0 <= m -> recorded t (fun _ => z) (c - m) (c + m) -> holds w (2 * m + 1) W ->
  (forall k, 0 <= k < 2 * m + 1 -> perturbed_psi L t c (c - m + k) = Ok (psi k)) ->
  sum_all (2 * m + 1) (fun k => cis (W k) (- psi k)%R) <> CZ ->
  exists v, perturbed_newton L t w (2 * m + 1) c = Ok v /\ modulus v = modulus z.
Proof. exact perturbed_free. Qed.
Print Assumptions c27_perturbed_free_space.
Example c27_elliptical_example : forall z, exists v, elliptical_newton ref_rlib (ex_real (fun _ => z)) (buf 3 1) 3 8 = Ok v /\ modulus v = modulus z.
Proof.
  intros z. apply (c27_elliptical_free_space ref_rlib ref_trig ref_cabs (ex_real (fun _ => z)) z (fun _ => 1 / 100)%R (buf 3 1) (fun _ => 1%R) 8 1); try lia.
  - apply ex_recorded; lia.
  - apply (buf_holds 3).
  - intros k Hk. assert (k = 0 \/ k = 1 \/ k = 2) as [-> | [-> | ->]] by lia; reflexivity.
  - apply csum_nonzero; [discriminate|]. intros k Hk. apply cis_re; lra.
Qed.
Example c27_perturbed_example : forall z, exists v, perturbed_newton ref_rlib (ex_real (fun _ => z)) (buf 3 1) 3 8 = Ok v /\ modulus v = modulus z.
Proof.
  intros z. apply (c27_perturbed_free_space ref_rlib ref_trig ref_cabs (ex_real (fun _ => z)) z (fun _ => 1 / 100)%R (buf 3 1) (fun _ => 1%R) 8 1); try lia.
  - apply ex_recorded; lia.
  - apply (buf_holds 3).
  - intros k Hk. assert (k = 0 \/ k = 1 \/ k = 2) as [-> | [-> | ->]] by lia;
      (eapply (eq_trans (y := Ok _)); [reflexivity|f_equal; cbn -[IZR]; req; ring]).
  - apply csum_nonzero; [discriminate|]. intros k Hk. apply cis_re; lra.
Qed.
Theorem c27_interpolated_free_space : forall L : rlib, trig_law L -> cabs_law L ->
  forall (t : rtau) (z : RC) (lo hi : list R) (x w : @buffer real_scalar) (X W : Z -> R) c n,
  0 <= n -> recorded t (fun _ => z) (c - n) (c + n) -> holds x n X -> holds w n W ->
  (node_phases L t 4 c (n / 4) = Ok (lo, hi) -> use_norm t = true ->
   (let u := fun k => (X k / (8 * dx t * IZR (n / 4)))%R in
    radd CI (sum_weights n (fun k => cis (W k) (- fst (phase8 lo hi (u k))))%R
                          (fun k => cis (W k) (- snd (phase8 lo hi (u k))))%R)) <> CZ ->
   exists v, newton8 L t x w n c = Ok v /\ modulus v = modulus z) /\
  (node_phases L t 8 c (n / 8) = Ok (lo, hi) ->
   (let u := fun k => (X k / (16 * dx t * IZR (n / 8)))%R in
    radd CI (sum_weights n (fun k => cis (W k) (- fst (phase16 lo hi (u k))))%R
                          (fun k => cis (W k) (- snd (phase16 lo hi (u k))))%R)) <> CZ ->
   exists v, newton16 L t x w n c = Ok v /\ modulus v = modulus z).
Proof. exact interp_free. Qed.
Print Assumptions c27_interpolated_free_space.
Lemma phase8_zero (lo hi : list R) : List.length lo = 4%nat -> List.length hi = 4%nat -> phase8 lo hi 0%R = (0, 0)%R.
Proof. intros H1 H2. exact (proj1 (phase8_nodes lo hi H1 H2)). Qed.
Example c27_newton8_example : forall z, exists v, newton8 ref_rlib (ex_real (fun _ => z)) (buf 4 0) (buf 4 1) 4 8 = Ok v /\ modulus v = modulus z.
Proof.
  intros z. assert (N : exists lo hi, node_phases ref_rlib (ex_real (fun _ => z)) 4 8 (4 / 4) = Ok (lo, hi) /\ List.length lo = 4%nat /\ List.length hi = 4%nat).
  { do 2 eexists. split; [reflexivity|]. split; reflexivity. }
  destruct N as (lo & hi & N & L1 & L2).
  destruct (c27_interpolated_free_space ref_rlib ref_trig ref_cabs (ex_real (fun _ => z)) z lo hi (buf 4 0) (buf 4 1) (fun _ => 0%R) (fun _ => 1%R) 8 4) as [H _];
    try apply (buf_holds 4); try lia.
  - apply ex_recorded; lia.
  - apply H; [exact N|reflexivity|]. cbv zeta. apply one_plus_nonzero. intros k Hk.
    replace (0 / (8 * dx (ex_real (fun _ => z)) * IZR (4 / 4)))%R with 0%R by (unfold Rdiv; ring).
    rewrite phase8_zero by assumption. unfold cadd, cre, cim. cbn [fst snd sadd real_scalar].
    assert (0 < fst (cis 1 (- 0)))%R by (apply cis_re; lra). lra.
Qed.
Theorem c27_legendre_free_space : forall L : rlib, trig_law L -> cabs_law L ->
  forall (t : rtau) (z : RC) (cs : list R) (D kc : R) (pl pr : Z -> R) (x w : @buffer real_scalar) (X W : Z -> R) c n,
  0 <= n -> recorded t (fun _ => z) (c - n) (c + n) -> holds x n X -> holds w n W ->
  at_sample t DKM c D -> at_sample t KV c kc ->
  radd CI (sum_weights n (fun k => cis (W k) (- pl k)%R) (fun k => cis (W k) (- pr k)%R)) <> CZ ->
  ((forall k, 0 <= k < n -> @legendre_odd_phases real_scalar cs (order t) (order t) (kc * D)%R (X k / D)%R = Ok (pl k, pr k)) ->
   exists v, legendre_odd_norm L t x w cs n c = Ok v /\ modulus v = modulus z) /\
  ((forall k, 0 <= k < n -> @legendre_even_phases real_scalar cs (order t) (kc * D)%R (X k / D)%R = Ok (pl k, pr k)) ->
   exists v, legendre_even_norm L t x w cs n c = Ok v /\ modulus v = modulus z).
Proof. exact legendre_free. Qed.
Print Assumptions c27_legendre_free_space.
Example c27_legendre_example : forall z, exists v,
  legendre_even_norm ref_rlib (set_order (ex_real (fun _ => z)) 3) (buf 2 1) (buf 2 1) [1; 1; 1]%R 2 8 = Ok v /\ modulus v = modulus z.
Proof.
  intros z. set (t := set_order (ex_real (fun _ => z)) 3). set (s := fun y : R => series [1; 1; 1]%R (1 / 100 * 1000) y).
  destruct (c27_legendre_free_space ref_rlib ref_trig ref_cabs t z [1; 1; 1]%R 1000 (1 / 100) (fun _ => s (1 / 1000)%R) (fun _ => s (- (1 / 1000))%R)
    (buf 2 1) (buf 2 1) (fun _ => 1%R) (fun _ => 1%R) 8 2) as [_ H]; try apply (buf_holds 2); try lia.
  - apply (ex_recorded (fun _ => z)); lia.
  - apply (ex_sample (fun _ => z)); [reflexivity|lia].
  - apply (ex_sample (fun _ => z)); [reflexivity|lia].
  - apply one_plus_nonzero. intros k Hk. unfold cadd, cre, cim. cbn [fst snd sadd real_scalar].
    assert (0 < fst (cis 1 (- s (1 / 1000))))%R by (apply cis_re; unfold s, series, poly; lra).
    assert (0 < fst (cis 1 (- s (- (1 / 1000)))))%R by (apply cis_re; unfold s, series, poly; lra). lra.
  - apply H. intros k Hk. apply even_series; [cbn; lia|reflexivity|reflexivity].
Qed.
(** The two Filon modes of second degree and the four-point mode ignore the
    setting: a constant profile does not keep its modulus. *)
Theorem c27_filon02_refuted : exists (t : rtau) (z : RC) v, use_norm t = true /\ recorded t (fun _ => z) 7 9 /\
  newton_filon02 ref_rlib t (buf 3 1) 3 8 = Ok v /\ modulus z = 1%R /\ modulus v = 2%R.
Proof.
  pose (t := ex_real (fun _ => (1, 0)%R)). exists t, (1, 0)%R.
  assert (R : recorded t (fun _ => (1, 0)%R : RC) 7 9) by (apply ex_recorded; lia).
  pose (psi := fun k => (IZR (1 - k) / 100)%R).
  assert (P : weights_at ref_rlib t 8 (8 - 1) (2 * 1 + 1) (fun _ => 1%R) psi).
  { intros k Hk. assert (k = 0 \/ k = 1 \/ k = 2) as [-> | [-> | ->]] by lia;
      (eapply (eq_trans (y := Ok (_, _))); [reflexivity|f_equal; apply f_equal2; [reflexivity|unfold psi; cbn -[IZR]; req; lra]]). }
  eexists. split; [reflexivity|]. split; [exact R|]. split.
  - exact (filon02_closed ref_rlib t (fun _ => (1, 0)%R) (buf 3 1) (fun _ => 1%R) (fun _ => 1%R) psi 8 1 ltac:(lia) ltac:(reflexivity) R (buf_holds 3 1) P ltac:(lia)).
  - split.
    + unfold modulus. cbn [fst snd]. replace (1 * 1 + 0 * 0)%R with 1%R by ring. apply sqrt_1.
    + unfold sum_all. change (Z.to_nat 1) with 1%nat. cbn [csum t_filon02 ref_rlib ref_lib Z.of_nat].
      replace (psi (2 * 0 + 1)) with 0%R by (unfold psi; cbn -[IZR]; lra). rewrite cos_0, sin_0.
      unfold modulus, midpoint, cscale, cmul, cadd, cre, cim. cbn -[IZR sqrt].
      match goal with |- sqrt ?a = _ => replace a with (2 * 2)%R by field end. apply sqrt_square. lra.
Qed.
Print Assumptions c27_filon02_refuted.

(** ** C28: forward modelling *)
Theorem c28_forward_kernel_conjugate : forall (S : scalar) (L : tmpl S), (forall x : S, (- - x)%S = x) ->
  forall (t : tau S) c o,
  fresnel_kernel L (set_use_fwd t true) c o = (do v <- fresnel_kernel L (set_use_fwd t false) o c; Ok (cconj v)) /\
  phase_and_weight L (set_use_fwd t true) c o =
    (do p <- phase_and_weight L (set_use_fwd t false) o c; Ok (fst p, - snd p)%S).
Proof. intros S L H t c o. split; [apply kernel_forward; exact H|apply weight_forward; exact H]. Qed.
Print Assumptions c28_forward_kernel_conjugate.
Example c28_example_negation : (forall x : real_scalar, (- - x)%S = x) /\ (forall x : dbl_scalar, (- - x)%S = x).
Proof. split; [intros x; apply Ropp_involutive|]. intros x. apply (BinarySingleNaN.Bopp_involutive _ _ (x : double)). Qed.
Example c28_example : exists v, fresnel_kernel ref_rlib (set_use_fwd (ex_real (fun _ => (1, 0)%R)) true) 8 6 = Ok v /\
  fresnel_kernel ref_rlib (set_use_fwd (ex_real (fun _ => (1, 0)%R)) false) 6 8 = Ok (cconj v).
Proof. eexists. split; reflexivity. Qed.
(** The quadratic mode uses the conjugate weights, with the same factor 1 + i. *)
Theorem c28_fresnel_forward : forall L : rlib, trig_law L -> cabs_law L ->
  forall (t t' : rtau) (f : Z -> RC) (F : R) (x w : @buffer real_scalar) (X W : Z -> R) c n,
  0 <= n -> recorded t f (c - n) (c + n) -> recorded t' (fun i => cconj (f i)) (c - n) (c + n) ->
  at_sample t FKM c F -> at_sample t' FKM c F -> holds x n X -> holds w n W -> F <> 0%R ->
  use_norm t' = use_norm t -> dx t' = dx t -> use_fwd t = false -> use_fwd t' = true ->
  exists v, fresnel_transform L t x w c n = Ok v /\ fresnel_transform L t' x w c n = Ok (rmul (0%R, 1%R) (cconj v)).
Proof. exact fresnel_forward. Qed.
Print Assumptions c28_fresnel_forward.
Example c28_fresnel_example : exists v,
  fresnel_transform ref_rlib (ex_real (fun i => (1, IZR i)%R)) (buf 2 1) (buf 2 1) 8 2 = Ok v /\
  fresnel_transform ref_rlib (set_use_fwd (ex_real (fun i => @cconj real_scalar (1, IZR i)%R)) true) (buf 2 1) (buf 2 1) 8 2
    = Ok (rmul (0%R, 1%R) (cconj v)).
Proof.
  apply (c28_fresnel_forward ref_rlib ref_trig ref_cabs _ _ (fun i => (1, IZR i)%R) 2 (buf 2 1) (buf 2 1) (fun _ => 1%R) (fun _ => 1%R) 8 2);
    try apply (buf_holds 2); try lia; try lra; try reflexivity.
  - apply ex_recorded; lia.
  - apply (ex_recorded (fun i => @cconj real_scalar (1, IZR i)%R)); lia.
  - apply ex_sample; [reflexivity|lia].
  - apply (ex_sample (fun i => @cconj real_scalar (1, IZR i)%R)); [reflexivity|lia].
Qed.
(** Four transforms do not consult the setting at all. *)
Theorem c28_forward_ignored_refuted : forall (S : scalar) (L : tmpl S) (t : tau S) b,
  (forall w n c, elliptical_newton L (set_use_fwd t b) w n c = elliptical_newton L t w n c) /\
  (forall w n c, perturbed_newton L (set_use_fwd t b) w n c = perturbed_newton L t w n c) /\
  (forall x w n c, newton8 L (set_use_fwd t b) x w n c = newton8 L t x w n c) /\
  (forall x w n c, newton16 L (set_use_fwd t b) x w n c = newton16 L t x w n c).
Proof. exact @forward_ignored. Qed.
Print Assumptions c28_forward_ignored_refuted.

(** ** C29: the degree-4 phase *)
Theorem c29_quartic_nodes : forall i0 i1 i2 i3 i4 : R,
  deg4_phase i0 i1 i2 i3 i4 (-1/2)%R = (i0, i4) /\ deg4_phase i0 i1 i2 i3 i4 (-1/4)%R = (i1, i3) /\
  deg4_phase i0 i1 i2 i3 i4 0%R = (i2, i2).
Proof. exact deg4_nodes. Qed.
Print Assumptions c29_quartic_nodes.
Theorem c29_quartic_exact : forall a0 a1 a2 a3 a4 x : R,
  let p y := (a0 + a1 * y + a2 * (y * y) + a3 * (y * y * y) + a4 * (y * y * y * y))%R in
  (deg4_phase (p (-1/2)) (p (-1/4)) (p 0) (p (1/4)) (p (1/2)) x = (p x, p (- x)))%R.
Proof. exact deg4_quartic. Qed.
Print Assumptions c29_quartic_exact.
Example c29_example : deg4_phase 16 1 0 1 16 (-3/4)%R = (81, 81)%R.
Proof.
  pose proof (c29_quartic_exact 0 0 0 0 256 (-3/4)) as H. cbv zeta in H.
  transitivity (deg4_phase (0 + 0 * (-1/2) + 0 * ((-1/2) * (-1/2)) + 0 * ((-1/2) * (-1/2) * (-1/2)) + 256 * ((-1/2) * (-1/2) * (-1/2) * (-1/2)))
   (0 + 0 * (-1/4) + 0 * ((-1/4) * (-1/4)) + 0 * ((-1/4) * (-1/4) * (-1/4)) + 256 * ((-1/4) * (-1/4) * (-1/4) * (-1/4)))
   (0 + 0 * 0 + 0 * (0 * 0) + 0 * (0 * 0 * 0) + 256 * (0 * 0 * 0 * 0))
   (0 + 0 * (1/4) + 0 * ((1/4) * (1/4)) + 0 * ((1/4) * (1/4) * (1/4)) + 256 * ((1/4) * (1/4) * (1/4) * (1/4)))
   (0 + 0 * (1/2) + 0 * ((1/2) * (1/2)) + 0 * ((1/2) * (1/2) * (1/2)) + 256 * ((1/2) * (1/2) * (1/2) * (1/2))) (-3/4))%R.
  { f_equal; lra. }
  rewrite H. apply f_equal2; lra.
Qed.

(** ** C30: the degree-8 and degree-16 phases *)
Theorem c30_eight_point_nodes : reproduces_nodes phase8 4 (/ 1000000000000000000000)%R.
Proof. exact phase8_nodes. Qed.
Print Assumptions c30_eight_point_nodes.
Theorem c30_sixteen_point_nodes : reproduces_nodes phase16 8 (/ 250000000000000000)%R.
Proof. exact phase16_nodes. Qed.
Print Assumptions c30_sixteen_point_nodes.
Example c30_example : (Rabs (fst (phase8 [1; 4; 9; 16] [1; 4; 9; 16] (- (1 + 1) / (2 * 4))) - 4) <= / 1000000000000000000000 * 60)%R.
Proof.
  destruct (c30_eight_point_nodes [1; 4; 9; 16]%R [1; 4; 9; 16]%R eq_refl eq_refl) as [_ H]. destruct (H 1%nat ltac:(lia)) as [A _].
  cbn [INR nth sum_abs fold_right] in A. rewrite (Rabs_pos_eq 1), (Rabs_pos_eq 4), (Rabs_pos_eq 9), (Rabs_pos_eq 16) in A by lra.
  replace (2 * (1 + 1 + 1 + 1))%R with (2 * 4)%R in A by lra.
  eapply Rle_trans; [exact A|]. lra.
Qed.

(** ** C31: Legendre expansions *)
Theorem c31_even_phase : forall (cs : list R) N kD x, 3 <= N -> N mod 2 = 1 -> zlen cs = N ->
  @legendre_even_phases real_scalar cs N kD x = Ok (series cs kD x, series cs kD (- x)%R).
Proof. exact even_series. Qed.
Print Assumptions c31_even_phase.
Theorem c31_odd_normalised_phase : forall (cs : list R) N kD x, 2 <= N -> N mod 2 = 0 -> zlen cs = N ->
  @legendre_odd_phases real_scalar cs N N kD x = Ok (series cs kD (- x)%R, series cs kD x).
Proof. exact odd_norm_series. Qed.
Print Assumptions c31_odd_normalised_phase.
(** Without normalisation the odd expansion loses its two leading terms, from four
    coefficients on. *)
Theorem c31_odd_unnormalised_phase : forall (cs : list R) N kD x, 4 <= N -> N mod 2 = 0 -> zlen cs = N ->
  @legendre_odd_phases real_scalar cs N (N - 1) kD x = Ok (series (skipn 2 cs) kD (- x)%R, series (skipn 2 cs) kD x).
Proof. exact odd_series. Qed.
Print Assumptions c31_odd_unnormalised_phase.
Theorem c31_odd_unnormalised_refuted : exists (cs : list R) (kD x a b : R), zlen cs = 4 /\
  @legendre_odd_phases real_scalar cs 4 3 kD x = Ok (a, b) /\ a <> series cs kD (- x)%R /\ a <> series cs kD x.
Proof.
  exists [1; 0; 0; 0]%R, 1%R, 1%R, (series (skipn 2 [1; 0; 0; 0]) 1 (- (1)))%R, (series (skipn 2 [1; 0; 0; 0]) 1 1)%R.
  split; [reflexivity|]. split; [apply odd_series; [lia|reflexivity|reflexivity]|]. cbn [skipn]. unfold series, poly. split; lra.
Qed.
Print Assumptions c31_odd_unnormalised_refuted.
(** The two parities take opposite signs of the offset for the same side. *)
Theorem c31_side_refuted : exists (c0 c1 c2 kD x a b : R),
  @legendre_even_phases real_scalar [c0; c1; c2] 3 kD x = Ok (a, b) /\
  @legendre_odd_phases real_scalar [c0; c1; c2; 0%R] 4 4 kD x = Ok (b, a) /\ a <> b.
Proof.
  exists 1%R, 1%R, 1%R, 1%R, 1%R, 3%R, 1%R. split; [|split; [|lra]].
  - rewrite even_series by (lia || reflexivity). unfold series, poly. f_equal. apply f_equal2; req; lra.
  - rewrite odd_norm_series by (lia || reflexivity). unfold series, poly. f_equal. apply f_equal2; req; lra.
Qed.
Print Assumptions c31_side_refuted.
Example c31_example : @legendre_even_phases real_scalar [1; 2; 3]%R 3 10%R 2%R = Ok (680, 360)%R.
Proof. rewrite c31_even_phase by (lia || reflexivity). unfold series, poly. f_equal. apply f_equal2; req; lra. Qed.

(** ** C32: mirror symmetry of the quadratic mode *)
Theorem c32_fresnel_symmetric : forall (S : scalar) (L : tmpl S), (forall x y : S, (x + y)%S = (y + x)%S) ->
  forall (t t' : tau S) x w c n,
  0 <= n -> mirrored t t' c n -> arr t' FKM = arr t FKM -> use_norm t' = use_norm t -> use_fwd t' = use_fwd t -> dx t' = dx t ->
  fresnel_transform L t' x w c n = fresnel_transform L t x w c n.
Proof. exact @fresnel_mirror. Qed.
Print Assumptions c32_fresnel_symmetric.
(** In double precision, bit for bit. *)
Theorem c32_fresnel_symmetric_double : forall (L : tmpl dbl_scalar) (t t' : tau dbl_scalar) x w c n,
  0 <= n -> mirrored t t' c n -> arr t' FKM = arr t FKM -> use_norm t' = use_norm t -> use_fwd t' = use_fwd t -> dx t' = dx t ->
  fresnel_transform L t' x w c n = fresnel_transform L t x w c n.
Proof. intros L. apply fresnel_mirror. exact dadd_comm. Qed.
Print Assumptions c32_fresnel_symmetric_double.
Example c32_example : fresnel_transform ref_rlib (ex_real (fun i => (IZR (16 - i), 1)%R)) (buf 3 1) (buf 3 1) 8 3 =
  fresnel_transform ref_rlib (ex_real (fun i => (IZR i, 1)%R)) (buf 3 1) (buf 3 1) 8 3.
Proof.
  apply c32_fresnel_symmetric; try reflexivity; [exact radd_comm|lia|].
  exists (fun i => (IZR i, 1)%R). split; [apply ex_recorded; lia|].
  destruct (ex_recorded (fun i => (IZR (16 - i), 1)%R) (8 - 3) (8 + 3)) as (T & E & H); [lia|lia|]. exists T. split; [exact E|].
  intros i Hi. replace (2 * 8 - i) with (16 - i) by lia. exact (H i Hi).
Qed.

(** ** C53: the transforms compute their documented sums *)
Theorem c53_fresnel_sum : forall L : rlib, trig_law L -> cabs_law L ->
  forall (t : rtau) (f : Z -> RC) (F : R) (x w : @buffer real_scalar) (X W : Z -> R) c n,
  0 <= n -> recorded t f (c - n) (c + n) -> at_sample t FKM c F -> holds x n X -> holds w n W -> F <> 0%R ->
  fresnel_transform L t x w c n = Ok (
    let e := fresnel_weight (use_fwd t) F X W in
    let N := radd CI (sum_weights n e e) in
    rmul (one_plus_i (if use_norm t then / sqrt 2 / modulus N else dx t / (2 * F))%R)
         (radd (f c) (sum_pairs f c n e e))).
Proof. exact fresnel_closed. Qed.
Print Assumptions c53_fresnel_sum.
(** The data of the kernels: wave number, spacecraft and azimuth are those of the sample of the
    sum (in the forward direction those of the centre); at the nodes of the interpolations the
    wave number is the one of the centre. *)
Theorem c53_kernel_data : forall (L : rlib) (t : rtau) v lo hi, tabulated t v lo hi -> forall c i, lo <= c <= hi -> lo <= i <= hi ->
    fresnel_kernel L t c i = Ok (if use_fwd t then t_kernel L (v KV c) (ring_geometry v c i (v PHI c)) (eps t) (toler t)
      else cconj (t_kernel L (v KV i) (ring_geometry v i c (v PHI i)) (eps t) (toler t))) /\
    phase_and_weight L t c i = Ok (let '(_, wt, psi) := if use_fwd t then t_phasew L (v KV c) (ring_geometry v c i (v PHI c)) (eps t) (toler t)
      else t_phasew L (v KV i) (ring_geometry v i c (v PHI i)) (eps t) (toler t) in (wt, if use_fwd t then psi else (- psi)%R)) /\
    forall phi, exists guess, fast_phase_and_weight L t c i phi = Ok (let '(_, wt, psi) := if use_fwd t then t_phasew L (v KV c) (ring_geometry v c i phi) (eps t) (toler t)
      else t_phasew L (v KV i) (ring_geometry v i c phi) (eps t) (toler t) in (guess, wt, if use_fwd t then psi else (- psi)%R)).
Proof. exact kernel_data. Qed.
Print Assumptions c53_kernel_data.
Theorem c53_node_data : forall (L : rlib) (t : rtau) v lo hi, tabulated t v lo hi -> forall h c s low high,
    0 <= h -> 0 <= s -> lo <= c - h * s -> c + h * s <= hi -> node_phases L t h c s = Ok (low, high) ->
    zlen low = h /\ zlen high = h /\ forall j, 1 <= j <= h ->
      aread low (j - 1) = Ok (t_psi L (v KV c) (ring_geometry v (c - j * s) c (v PHI (c - j * s))) (eps t) (toler t)) /\
      aread high (j - 1) = Ok (t_psi L (v KV c) (ring_geometry v (c + j * s) c (v PHI (c + j * s))) (eps t) (toler t)).
Proof. exact nodes_data. Qed.
Print Assumptions c53_node_data.
Theorem c53_elliptical_data : forall (L : rlib) (t : rtau) v lo hi, tabulated t v lo hi -> forall c i, lo <= c <= hi -> lo <= i <= hi ->
    let e := ecc t in
    let orbit := fun r phi => (r * (1 + e * t_cos L (phi - peri t)) / (1 - e * e))%R in
    exists phi, phi = t_ellphi L [v KV c; v RHO c; v RHO i; v PHI i; v PHI i; v BDEG c; e; peri t; v RX c; v RY c; v RZ c; eps t] (toler t) /\
    elliptic_psi L t c i = Ok (t_idealpsi L [v KV c; (orbit (v RHO c) (v PHI c) * (1 - e * e) / (1 + e * t_cos L (phi - peri t)))%R; v RHO i; phi; v PHI i; v BDEG c;
      t_obsdist L [v RHO i; phi; v RX c; v RY c; v RZ c]]).
Proof. exact elliptic_data. Qed.
Print Assumptions c53_elliptical_data.
Theorem c53_perturbed_data : forall (L : rlib) (t : rtau) v lo hi, tabulated t v lo hi -> forall c i, lo <= c <= hi -> lo <= i <= hi -> zlen (perturb t) = 5 ->
    exists phi, phi = t_idealphi L [v KV c; v RHO c; v RHO i; v PHI i; v PHI i; v BDEG c; v DKM c; eps t] (toler t) /\
    perturbed_psi L t c i = Ok (t_idealpsi L [v KV c; v RHO c; v RHO i; phi; v PHI i; v BDEG c; v DKM c]
      + quartic (perturb t) ((v RHO c - v RHO i) / v DKM c) * (v KV c * v DKM c))%R.
Proof. exact perturbed_data. Qed.
Print Assumptions c53_perturbed_data.
(** Seventeen samples at radii 100, ..., 116, with a width for each. *)
Definition ex_data : rtau :=
  mkTau (S := real_scalar) (fun f => match f with
     | RHO => Some (map (fun i => IZR (100 + i)) (iota 17 0))
     | KV => Some (repeat (1 / 100)%R 17)
     | DKM => Some (repeat 1000%R 17)
     | WKM => Some (repeat 6%R 17)
     | _ => Some (repeat 0%R 17) end)
   (Some (map (fun i => Some (IZR i, 0%R)) (iota 17 0))) None None
   1%R 2%R 1%R 0%R 0%R 2%R (repeat 0%R 5) 102%R 104%R 1%R 6 0 0 17 Rect PsiFresnel 0 true false false None.
Definition ex_values (g : rf) (i : Z) : R := match g with RHO => IZR (100 + i) | KV => 1 / 100 | DKM => 1000 | WKM => 6 | _ => 0 end%R.
Example c53_data_used : tabulated ex_data ex_values 0 16 /\ zlen (perturb ex_data) = 5.
Proof.
  split; [|reflexivity]. intros g i H. destruct g; (eexists; split; [reflexivity|]; split; [lia|]); try (apply nth_error_repeat; change 17%nat with (Z.to_nat 17); lia).
  rewrite nth_error_map, iota_nth by lia. reflexivity.
Qed.
(** The right end of the window is left out. *)
Theorem c53_riemann_sum : forall L : rlib, cabs_law L ->
  forall (t : rtau) (f : Z -> RC) (K : Z -> RC) (w : @buffer real_scalar) (W : Z -> R) c m,
  0 <= m -> 2 * m + 1 < two64 -> recorded t f (c - m) (c + m) -> holds w (2 * m + 1) W ->
  (forall k, 0 <= k < 2 * m -> fresnel_kernel L t c (c - m + k) = Ok (K k)) ->
  newton_riemann L t w (2 * m + 1) c = Ok (
    let e := fun k => rscale (W k) (K k) in
    rscale (if use_norm t then 1 / modulus (sum_all (2 * m) e) else dx t)%R (sum_window f (c - m) (2 * m) e)).
Proof. exact riemann_closed. Qed.
Print Assumptions c53_riemann_sum.
Theorem c53_elliptical_sum : forall L : rlib, trig_law L -> cabs_law L ->
  forall (t : rtau) (f : Z -> RC) (psi : Z -> R) (w : @buffer real_scalar) (W : Z -> R) c m,
  0 <= m -> recorded t f (c - m) (c + m) -> holds w (2 * m + 1) W ->
  (forall k, 0 <= k < 2 * m + 1 -> elliptic_psi L t c (c - m + k) = Ok (psi k)) ->
  elliptical_newton L t w (2 * m + 1) c = Ok (
    let e := fun k => cis (W k) (- psi k)%R in
    rmul (one_plus_i (/ sqrt 2 / modulus (sum_all (2 * m + 1) e))%R) (sum_window f (c - m) (2 * m + 1) e)).
Proof. exact elliptical_closed. Qed.
Print Assumptions c53_elliptical_sum.
Theorem c53_perturbed_sum : forall L : rlib, trig_law L -> cabs_law L ->
  forall (t : rtau) (f : Z -> RC) (psi : Z -> R) (w : @buffer real_scalar) (W : Z -> R) c m,
  0 <= m -> recorded t f (c - m) (c + m) -> holds w (2 * m + 1) W ->
  (forall k, 0 <= k < 2 * m + 1 -> perturbed_psi L t c (c - m + k) = Ok (psi k)) ->
  perturbed_newton L t w (2 * m + 1) c = Ok (
    let e := fun k => cis (W k) (- psi k)%R in
    rmul (one_plus_i (/ sqrt 2 / modulus (sum_all (2 * m + 1) e))%R) (sum_window f (c - m) (2 * m + 1) e)).
Proof. exact perturbed_closed. Qed.
Print Assumptions c53_perturbed_sum.
Theorem c53_filon_sums : forall L : rlib, cabs_law L ->
  forall (t : rtau) (f : Z -> RC) (w : @buffer real_scalar) (W wt psi : Z -> R) c m,
  0 <= m -> 2 * m + 1 < two64 -> recorded t f (c - m) (c + m) -> holds w (2 * m + 1) W ->
  weights_at L t c (c - m) (2 * m + 1) wt psi ->
  let a k := rscale (wt k * W k)%R (f (c - m + k)) in
  newton_filon01 L t w (2 * m + 1) c = Ok (
    let N := sum_all (2 * m) (fun k => t_rfilon01 L ((wt k * W k + wt (k + 1)%Z * W (k + 1)%Z) / 2)%R (psi k) (psi (k + 1)) (dx t)) in
    let I := sum_all (2 * m) (fun k => t_filon01 L (midpoint (a k) (a (k + 1))) (psi k) (psi (k + 1)) (dx t)) in
    if use_norm t then rscale (1 / modulus N)%R I else I) /\
  newton_filon11 L t w (2 * m + 1) c = Ok (
    let N := sum_all (2 * m) (fun k => t_rfilon11 L (wt k * W k)%R (wt (k + 1)%Z * W (k + 1)%Z)%R (psi k) (psi (k + 1)) (dx t)) in
    let I := sum_all (2 * m) (fun k => t_filon11 L (a k) (a (k + 1)) (psi k) (psi (k + 1)) (dx t)) in
    if use_norm t then rscale (1 / modulus N)%R I else I) /\
  (1 <= m -> newton_filon02 L t w (2 * m + 1) c = Ok (sum_all m (fun k =>
    t_filon02 L (midpoint (a (2 * k)) (a (2 * k + 1))) (midpoint (a (2 * k + 1)) (a (2 * k + 2)))
      (psi (2 * k)) (psi (2 * k + 1)) (psi (2 * k + 2)) (dx t)))).
Proof.
  intros L HA t f w W wt psi c m Hm H64 Hf Hw Hp a. split; [|split].
  - exact (filon01_closed L HA t f w W wt psi c m Hm H64 Hf Hw Hp).
  - exact (filon11_closed L HA t f w W wt psi c m Hm H64 Hf Hw Hp).
  - exact (filon02_closed L t f w W wt psi c m Hm H64 Hf Hw Hp).
Qed.
Print Assumptions c53_filon_sums.
Theorem c53_filon12_sum : forall (L : rlib) (t : rtau) (f : Z -> RC) (w : @buffer real_scalar) (W wt psi : Z -> R) c m,
  0 <= m -> 2 * m + 1 < two64 -> recorded t f (c - m) (c + m) -> holds w (2 * m + 1) W ->
  forall g : Z -> R, 1 <= m -> at_sample t PHI (c - m) (g 0) ->
  (forall k, 0 <= k < 2 * m + 1 -> fast_phase_and_weight L t c (c - m + k) (g k) = Ok (g (k + 1), wt k, psi k)) ->
  let a k := rscale (wt k * W k)%R (f (c - m + k)) in
  newton_filon12 L t w (2 * m + 1) c = Ok (sum_all m (fun k =>
    t_filon12 L (a (2 * k)) (a (2 * k + 1)) (a (2 * k + 2)) (psi (2 * k)) (psi (2 * k + 1)) (psi (2 * k + 2)) (dx t))).
Proof. intros L t f w W wt psi c m H0 H1 H2 H3 g. exact (filon12_closed L t f w W wt psi c m H0 H1 H2 H3 g). Qed.
Print Assumptions c53_filon12_sum.
Theorem c53_newton4_sum : forall (L : rlib) (t : rtau) (f : Z -> RC) (x w : @buffer real_scalar) (X W : Z -> R) c n,
  1 <= n -> recorded t f (c - n) (c + n) -> holds x n X -> holds w n W ->
  forall ws ps : Z -> R,
  (forall k, 0 <= k < 5 -> phase_and_weight L t c (c - 2 * (n / 2) + k * (n / 2)) = Ok (ws k, ps k)) ->
  let u k := (X k / (4 * dx t * IZR (n / 2)))%R in
  let psi k := deg4_phase (ps 0) (ps 1) (ps 2) (ps 3) (ps 4) (u k) in
  let wgt k := deg4_phase (ws 0) (ws 1) (ws 2) (ws 3) (ws 4) (u k) in
  let l k := rscale (fst (wgt k) * W k)%R (f (c - n + k)) in
  let r k := rscale (snd (wgt k) * W k)%R (f (c + n - k)) in
  newton4 L t x w n c = Ok (
    radd (sum_all (n - 1) (fun k =>
            radd (t_filon11 L (l k) (l (k + 1)) (fst (psi k)) (fst (psi (k + 1))) (dx t))
                 (t_filon11 L (r (k + 1)) (r k) (snd (psi (k + 1))) (snd (psi k)) (dx t))))
         (t_filon12 L (l (n - 1)) (rscale (ws 2) (f c)) (r (n - 1)) (fst (psi (n - 1))) (ps 2) (snd (psi (n - 1))) (dx t))).
Proof. exact newton4_closed. Qed.
Print Assumptions c53_newton4_sum.
Theorem c53_newton8_sum : forall L : rlib, trig_law L -> cabs_law L ->
  forall (t : rtau) (f : Z -> RC) (lo hi : list R) (x w : @buffer real_scalar) (X W : Z -> R) c n,
  0 <= n -> recorded t f (c - n) (c + n) -> holds x n X -> holds w n W ->
  node_phases L t 4 c (n / 4) = Ok (lo, hi) ->
  newton8 L t x w n c = Ok (
    let u := fun k => (X k / (8 * dx t * IZR (n / 4)))%R in
    let el := fun k => cis (W k) (- fst (phase8 lo hi (u k)))%R in
    let er := fun k => cis (W k) (- snd (phase8 lo hi (u k)))%R in
    let N := radd CI (sum_weights n el er) in
    rmul (if use_norm t then one_plus_i (/ sqrt 2 / modulus N)%R else CI) (radd (f c) (sum_pairs f c n el er))).
Proof. exact newton8_sum. Qed.
Print Assumptions c53_newton8_sum.
Theorem c53_newton16_sum : forall L : rlib, trig_law L -> cabs_law L ->
  forall (t : rtau) (f : Z -> RC) (lo hi : list R) (x w : @buffer real_scalar) (X W : Z -> R) c n,
  0 <= n -> recorded t f (c - n) (c + n) -> holds x n X -> holds w n W ->
  node_phases L t 8 c (n / 8) = Ok (lo, hi) ->
  newton16 L t x w n c = Ok (
    let u := fun k => (X k / (16 * dx t * IZR (n / 8)))%R in
    let el := fun k => cis (W k) (- fst (phase16 lo hi (u k)))%R in
    let er := fun k => cis (W k) (- snd (phase16 lo hi (u k)))%R in
    let N := radd CI (sum_weights n el er) in
    rmul (one_plus_i (/ sqrt 2 / modulus N)%R) (radd (f c) (sum_pairs f c n el er))).
Proof. exact newton16_sum. Qed.
Print Assumptions c53_newton16_sum.
Theorem c53_legendre_sums : forall L : rlib, trig_law L -> cabs_law L ->
  forall (t : rtau) (f : Z -> RC) (cs : list R) (F D kc : R) (x w : @buffer real_scalar) (X W : Z -> R) c n,
  0 <= n -> recorded t f (c - n) (c + n) -> holds x n X -> holds w n W ->
  at_sample t DKM c D -> at_sample t KV c kc -> zlen cs = order t -> at_sample t FKM c F -> F <> 0%R ->
  let wgt cs k y := cis (W k) (- series cs (kc * D) (y / D))%R in
  let total el er := radd (f c) (sum_pairs f c n el er) in
  let nrm el er := one_plus_i (/ sqrt 2 / modulus (radd CI (sum_weights n el er)))%R in
  let plain := one_plus_i (dx t / (2 * F))%R in
  (3 <= order t -> order t mod 2 = 1 ->
   let el k := wgt cs k (X k) in let er k := wgt cs k (- X k)%R in
   legendre_even_norm L t x w cs n c = Ok (rmul (nrm el er) (total el er)) /\
   legendre_even L t x w cs n c = Ok (rmul plain (total el er))) /\
  (2 <= order t -> order t mod 2 = 0 ->
   let el ds k := wgt ds k (- X k)%R in let er ds k := wgt ds k (X k) in
   let ds := if order t =? 2 then cs else skipn 2 cs in
   legendre_odd_norm L t x w cs n c = Ok (rmul (nrm (el cs) (er cs)) (total (el cs) (er cs))) /\
   legendre_odd L t x w cs n c = Ok (rmul plain (total (el ds) (er ds)))).
Proof.
  intros L HT HA t f cs F D kc x w X W c n H0 H1 H2 H3 H4 H5 H6 H7 H8. cbv zeta. split; intros Ha Hb; split.
  - exact (leg_even_norm L HT HA t f cs D kc x w X W c n H0 H1 H2 H3 H4 H5 H6 Ha Hb).
  - exact (leg_even L HT t f cs F D kc x w X W c n H0 H1 H2 H3 H4 H5 H6 H7 H8 Ha Hb).
  - exact (leg_odd_norm L HT HA t f cs D kc x w X W c n H0 H1 H2 H3 H4 H5 H6 Ha Hb).
  - exact (leg_odd L HT t f cs F D kc x w X W c n H0 H1 H2 H3 H4 H5 H6 H7 H8 Ha Hb).
Qed.
Print Assumptions c53_legendre_sums.
(** One sample on either side, all weights 1, phases 0: the sum over the window. *)
Example c53_example : exists v,
  newton8 ref_rlib (set_use_norm (ex_real (fun i => (IZR i, 0)%R)) false) (buf 4 0) (buf 4 1) 4 8 = Ok v /\ v = (72, 0)%R.
Proof.
  set (T := fun i => (IZR i, 0)%R : RC). set (t := set_use_norm (ex_real T) false).
  assert (N : exists lo hi, node_phases ref_rlib t 4 8 (4 / 4) = Ok (lo, hi) /\ List.length lo = 4%nat /\ List.length hi = 4%nat).
  { do 2 eexists. split; [reflexivity|]. split; reflexivity. }
  destruct N as (lo & hi & N & L1 & L2). eexists. split.
  { apply (c53_newton8_sum ref_rlib ref_trig ref_cabs t T lo hi (buf 4 0) (buf 4 1) (fun _ => 0%R) (fun _ => 1%R) 8 4);
      try apply (buf_holds 4); try lia; [apply (ex_recorded T); lia|exact N]. }
  cbv zeta. replace (0 / (8 * dx t * IZR (4 / 4)))%R with 0%R by (unfold Rdiv; ring). rewrite phase8_zero by assumption.
  cbn [fst snd]. unfold cis. rewrite Ropp_0, cos_0, sin_0. unfold sum_pairs. change (Z.to_nat 4) with 4%nat. cbn [csum use_norm t set_use_norm].
  unfold T, cmul, cadd, cre, cim. cbn -[IZR]. unfold cmul, cre, cim. cbn -[IZR]. apply f_equal2; req; lra.
Qed.
