(** * Properties_Fft: C60, the FFT mode in exact arithmetic.

    Vocabulary: Spec_Fft.v, Spec_Real.v, Spec_Safety.v. *)
From Coq Require Import List ZArith Bool Reals Lia Lra.
From Verif Require Import Base BaseFacts Scalar Model_TauRec Model_Checks Model_Transform Model_Recon
  Spec_Tau Spec_Select Spec_Safety Spec_Real Spec_Fft Ref_Tmpl Ex_Real Proof_Real Proof_Dft Ex_Fft.
Import ListNotations.
Open Scope Z_scope.

(** ** C60 *)
(** Sample i of the result is the sum, over the displacements d of up to [half]
    samples, of the data at i - d times the tapered kernel of displacement d seen
    from the central sample c. *)
Theorem c60_fft_convolution : forall (L : rlib) (t : rtau) (f K : Z -> RC) (w : R) (half : Z),
  fourier_law L -> clean t -> complete t -> arr_size t <= 2 ^ 61 -> 0 <= start t -> 0 < n_used t -> no_obstacle L t ->
  let c := start t + n_used t / 2 in
  width t c (w : real_scalar) -> @scast real_scalar (w / dx t)%R = Ok half ->
  0 <= half <= start t -> start t + n_used t + half <= arr_size t ->
  (0 < dx t)%R -> evenly_spaced t ->
  recorded t f (start t - half) (start t + n_used t + half - 1) ->
  (forall d, - half <= d <= half -> exists z, fresnel_kernel L t (c + d) c = Ok z /\
    K d = if Rle_dec (Rabs (IZR d * dx t)) (w / 2)
          then rscale (t_window L (window t) (IZR d * dx t)%R w * dx t)%R z else CZ) ->
  exists t', dc_fft L t = Ok t' /\ clean t' /\
    forall i, start t <= i < start t + n_used t ->
      result_at t' i (sum_around half (fun d => rmul (K d) (f (i - d)))).
Proof. exact fft_exact. Qed.
Print Assumptions c60_fft_convolution.
(** If the kernel depends on the displacement only, it is that of the sample itself:
    the mode then gives the sum that the direct methods approximate. *)
Theorem c60_invariant_kernel : forall (L : rlib) (t : rtau) (f : Z -> RC) (K : Z -> Z -> RC) (w : R) (half : Z),
  fourier_law L -> clean t -> complete t -> arr_size t <= 2 ^ 61 -> 0 <= start t -> 0 < n_used t -> no_obstacle L t ->
  let c := start t + n_used t / 2 in
  width t c (w : real_scalar) -> @scast real_scalar (w / dx t)%R = Ok half ->
  0 <= half <= start t -> start t + n_used t + half <= arr_size t ->
  (0 < dx t)%R -> evenly_spaced t ->
  recorded t f (start t - half) (start t + n_used t + half - 1) ->
  (forall i d, start t <= i < start t + n_used t -> - half <= d <= half ->
    fresnel_kernel L t i (i - d) = fresnel_kernel L t (c + d) c /\
    exists z, fresnel_kernel L t i (i - d) = Ok z /\
      K i d = if Rle_dec (Rabs (IZR d * dx t)) (w / 2)
              then rscale (t_window L (window t) (IZR d * dx t)%R w * dx t)%R z else CZ) ->
  exists t', dc_fft L t = Ok t' /\ clean t' /\
    forall i, start t <= i < start t + n_used t ->
      result_at t' i (sum_around half (fun d => rmul (K i d) (f (i - d)))).
Proof. exact fft_exact_invariant. Qed.
Print Assumptions c60_invariant_kernel.

Example c60_example : forall T, exists t', dc_fft (with_fourier ref_rlib) (ex_fft (1 / 100) T) = Ok t' /\ clean t' /\
  forall i, 6 <= i < 11 -> result_at t' i (sum_around 2 (fun d => rmul (ex_fft_K (1 / 100) d) (T (i - d)))).
Proof. intro T. apply ex_fft_run. Qed.
(** The kernel of the example depends on the displacement only. *)
Example c60_invariant_example : forall kv T i d, 6 <= i < 11 -> -2 <= d <= 2 ->
  fresnel_kernel (with_fourier ref_rlib) (ex_fft kv T) i (i - d) = fresnel_kernel (with_fourier ref_rlib) (ex_fft kv T) (8 + d) 8.
Proof.
  intros kv T i d Hi Hd.
  assert (i = 6 \/ i = 7 \/ i = 8 \/ i = 9 \/ i = 10) as [->|[->|[->|[->| ->]]]] by lia;
  assert (d = -2 \/ d = -1 \/ d = 0 \/ d = 1 \/ d = 2) as [->|[->|[->|[->| ->]]]] by lia;
    cbv -[IZR Rminus Rplus Rmult Ropp Rdiv cos sin];
    match goal with |- ?l = ?r => match l with context [(kv * ?a)%R] => match r with context [(kv * ?b)%R] =>
      replace a with b by lra end end end; reflexivity.
Qed.
(** The mode does not normalise: free space comes out with another intensity, although
    normalisation is requested. *)
Theorem c60_not_normalised_refuted : exists (L : rlib) (t t' : rtau),
  fourier_law L /\ use_norm t = true /\ recorded t (fun _ => CI) 0 16 /\ dc_fft L t = Ok t' /\ clean t' /\
  forall i, start t <= i < start t + n_used t -> exists v, result_at t' i v /\ modulus v = 3%R.
Proof. exact ex_fft_not_normalised. Qed.
Print Assumptions c60_not_normalised_refuted.
