(** * Spec_Fft: vocabulary of C17 and C60, the FFT mode.  Definitions only. *)
From Coq Require Import List ZArith Bool Reals.
From Verif Require Import Base Scalar Model_TauRec Model_Transform Spec_Select Spec_Safety Spec_Real.
Import ListNotations.
Open Scope Z_scope.

Section Fft.
  Context {S : scalar}.
  Variable L : tmpl S.
  (** The kernel seen from the sample [c]: the tapered Fresnel kernel between sample
      [a] and the data at [c], times the spacing, within half a window of width [w];
      zero outside. *)
  Definition central_kernel (t : tau S) (c : Z) (w : S) (a : Z) (k : cplx S) : Prop :=
    exists rho ra rc z, arr t RHO = Some rho /\ entry rho a ra /\ entry rho c rc /\
      fresnel_kernel L t a c = Ok z /\
      k = if sle (sabs (ra - rc)%S) (shalf * w)%S
          then cscale (t_window L (window t) (ra - rc)%S w * dx t)%S z else c0.
  (** The two arrays that are transformed: kernel and recorded profile of the [m]
      samples from sample [lo] on, filled up with zeros to [n] entries. *)
  Record fft_arrays (t : tau S) (c : Z) (w : S) (lo m n : Z) (ker data : list (cplx S)) : Prop := {
    fa_ker : zlen ker = n;
    fa_data : zlen data = n;
    fa_kernel : forall j, 0 <= j < m -> exists k, entry ker j k /\ central_kernel t c w (lo + j) k;
    fa_profile : forall j, 0 <= j < m -> exists T z, T_in t = Some T /\ entry T (lo + j) (Some z) /\ entry data j z;
    fa_zero : forall j, m <= j < n -> entry ker j c0 /\ entry data j c0
  }.
  (** Inverse transform of the product of the transforms. *)
  Definition by_fourier (ker data : list (cplx S)) : list (cplx S) :=
    t_ifft L (map (fun p => cmul (fst p) (snd p)) (combine (t_fft L ker) (t_fft L data))).
  (** Sample [i] of the result, with windows of [half] samples on either side. *)
  Definition fft_sample_value (t : tau S) (w : S) (half : Z) (i : Z) (v : cplx S) : Prop :=
    exists k n ker data, 0 <= k /\ n = 2 ^ k /\ 2 * (n_used t + 2 * half) - 1 <= n /\
      (forall j, 0 <= j -> 2 * (n_used t + 2 * half) - 1 <= 2 ^ j -> k <= j) /\
      fft_arrays t (start t + n_used t / 2) w (start t - half) (n_used t + 2 * half) n ker data /\
      entry (by_fourier ker data) (i - start t + 2 * half + n_used t / 2) v.
End Fft.

(** ** Exact arithmetic *)
(** The discrete Fourier transform with angle [s] 2 pi j k / n, and the two
    transforms of libtmpl. *)
Definition fourier_sum (s : R) (l : list RC) (k : Z) : RC :=
  csum (List.length l) (fun j =>
    rmul (cis 1 (s * (2 * PI * IZR j * IZR k / IZR (zlen l)))%R) (nth (Z.to_nat j) l CZ)).
Definition fourier_law (L : rlib) : Prop :=
  (forall l, zlen (t_fft L l) = zlen l) /\ (forall l, zlen (t_ifft L l) = zlen l) /\
  forall l, (exists k, 0 <= k /\ zlen l = 2 ^ k) -> forall k, 0 <= k < zlen l ->
      entry (t_fft L l) k (fourier_sum (-1) l k) /\
      entry (t_ifft L l) k (rscale (1 / IZR (zlen l))%R (fourier_sum 1 l k)).
(** The radii are r, r + dx, r + 2 dx, ... *)
Definition evenly_spaced (t : rtau) : Prop :=
  exists rho r, arr t RHO = Some rho /\ forall i x, entry rho i x -> x = (r + IZR i * dx t)%R.
(** The sum over d = -m, ..., m. *)
Definition sum_around (m : Z) (g : Z -> RC) : RC :=
  csum (Z.to_nat (2 * m + 1)) (fun j => g (j - m)).
(** The reconstructed profile at sample [i]. *)
Definition result_at {S} (t : tau S) (i : Z) (v : cplx S) : Prop :=
  exists T, T_out t = Some T /\ entry T i (Some v).
