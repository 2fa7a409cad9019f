(** * Ex_Fft: a library with discrete Fourier transforms and a concrete object for the
    FFT mode in exact arithmetic; it models no code of /repo. *)
From Coq Require Import List ZArith Bool Reals Lia Lra.
From Verif Require Import Base BaseFacts Scalar Model_TauRec Model_Checks Model_Transform Model_Recon
  Spec_Tau Spec_Select Spec_Safety Spec_Real Spec_Fft Ref_Tmpl Ex_Real Proof_Real Proof_Dft.
Import ListNotations.
Open Scope Z_scope.

(** A library whose transforms are the discrete Fourier transforms. *)
Definition with_fourier (L : rlib) : rlib := {|
  t_minmax := t_minmax L; t_min := t_min L; t_max := t_max L; t_resinv := t_resinv L;
  t_window := t_window L; t_normeq := t_normeq L; t_sin := t_sin L; t_cos := t_cos L;
  t_exp := t_exp L; t_sind := t_sind L; t_cosd := t_cosd L; t_cabs := t_cabs L;
  t_kernel := t_kernel L; t_phasew := t_phasew L; t_psi := t_psi L;
  t_filon01 := t_filon01 L; t_rfilon01 := t_rfilon01 L; t_filon11 := t_filon11 L;
  t_rfilon11 := t_rfilon11 L; t_filon02 := t_filon02 L; t_filon12 := t_filon12 L;
  t_ellphi := t_ellphi L; t_obsdist := t_obsdist L; t_idealpsi := t_idealpsi L;
  t_idealphi := t_idealphi L; t_legendre := t_legendre L;
  t_fft := fun l => map (fun k => fourier_sum (-1) l k) (iota (List.length l) 0);
  t_ifft := fun l => map (fun k => rscale (1 / IZR (zlen l))%R (fourier_sum 1 l k)) (iota (List.length l) 0);
  t_alloc := t_alloc L; t_realloc0 := t_realloc0 L |}.
Lemma iota_len n k : List.length (iota n k) = n.
Proof. revert k. induction n; intro k; cbn; [reflexivity|]. rewrite IHn. reflexivity. Qed.
Lemma with_fourier_law L : fourier_law (with_fourier L).
Proof.
  split; [|split]; cbn [t_fft t_ifft with_fourier].
  - intros l. unfold zlen. rewrite map_length, iota_len. reflexivity.
  - intros l. unfold zlen. rewrite map_length, iota_len. reflexivity.
  - intros l _ k Hk. split; (split; [lia|]); rewrite nth_error_map, iota_nth by (unfold zlen in Hk; lia); cbn [option_map]; rewrite Z.add_0_l; reflexivity.
Qed.
(** Seventeen samples at radii 100, ..., 116; five of them, from the seventh on,
    with windows of two kilometres. *)
Definition ex_fft (kv : R) (T : Z -> RC) : rtau :=
  mkTau (S := real_scalar) (fun f => match f with
     | RHO => Some (map (fun i => IZR (100 + i)) (iota 17 0))
     | KV => Some (repeat kv 17)
     | WKM => Some (repeat 2%R 17)
     | _ => Some (repeat 0%R 17) end)
   (Some (map (fun i => Some (T i)) (iota 17 0))) (Some (repeat None 17)) None
   1%R 2%R 1%R 0%R 0%R 2%R (repeat 0%R 5) 102%R 104%R 1%R 6 6 5 17 Rect PsiSimpleFFT 0 true false false None.
Lemma cast_Z z : 0 <= z < two64 -> @scast real_scalar (IZR z) = Ok z.
Proof.
  intros H. cbn [scast real_scalar]. rewrite Flocq.Core.Raux.Ztrunc_IZR.
  destruct (Z.leb_spec 0 z), (Z.ltb_spec z two64); try lia. reflexivity.
Qed.
Lemma ex_fft_range kv T : check_data_range (ex_fft kv T) = Ok (ex_fft kv T).
Proof.
  unfold check_data_range, guarded. cbn [err ex_fft arr dx arr_size n_used start].
  cbn [sle s0 sofZ real_scalar]. destruct (Rle_dec 1 0); [lra|].
  replace (Z.to_nat 5) with 5%nat by reflexivity.
  assert (C : @scast real_scalar (@smul real_scalar 2%R (@sdiv real_scalar shalf 1%R)) = Ok 1).
  { rewrite <- (cast_Z 1) by (unfold two64; lia). f_equal. unfold shalf. cbn [smul sdiv sfrac real_scalar]. req. lra. }
  cbn [data_range_loop].
  repeat (match goal with |- context [aread (repeat 2%R 17) ?i] =>
            change (aread (repeat 2%R 17) i) with (@Ok R 2%R) end; cbn [bind]; rewrite C; cbn [bind Z.ltb Z.compare Z.add Pos.compare Pos.compare_cont]).
  reflexivity.
Qed.
Lemma ex_fft_complete kv T : complete (ex_fft kv T).
Proof.
  split; [|split; [|split; [|split]]].
  - intros f Hf. destruct f; cbn in Hf; eexists; (split; [reflexivity|reflexivity]).
  - eexists. split; [reflexivity|]. split; [reflexivity|]. intros x Hx. apply in_map_iff in Hx. destruct Hx as (i & <- & _). discriminate.
  - eexists. split; reflexivity.
  - reflexivity.
  - reflexivity.
Qed.
Lemma nth_error_Some' {A} (l : list A) n x : nth_error l n = Some x -> (n < List.length l)%nat.
Proof. intro E. apply nth_error_Some. rewrite E. discriminate. Qed.
Lemma ex_fft_spaced kv T : evenly_spaced (ex_fft kv T).
Proof.
  exists (map (fun i => IZR (100 + i)) (iota 17 0)), 100%R. split; [reflexivity|]. intros i x [Hi E].
  change (nth_error (map (fun i => IZR (100 + i)) (iota 17 0)) (Z.to_nat i) = Some x) in E.
  assert (B : (Z.to_nat i < 17)%nat) by (apply nth_error_Some' in E; exact E).
  rewrite nth_error_map, iota_nth in E by lia. cbn [option_map] in E. injection E as <-.
  change (IZR (100 + i) = (100 + IZR i * 1)%R). rewrite plus_IZR. ring.
Qed.
(** The kernel: within one kilometre, e^(i k d). *)
Definition ex_fft_K (kv : R) (d : Z) : RC :=
  if Rle_dec (Rabs (IZR d * 1)) (2 / 2) then (cos (kv * IZR d), sin (kv * IZR d)) else CZ.
Lemma ex_fft_run kv T : exists t', dc_fft (with_fourier ref_rlib) (ex_fft kv T) = Ok t' /\ clean t' /\
  forall i, 6 <= i < 11 -> result_at t' i (sum_around 2 (fun d => rmul (ex_fft_K kv d) (T (i - d)))).
Proof.
  apply (fft_exact (with_fourier ref_rlib) (ex_fft kv T) T (ex_fft_K kv) 2 2).
  - apply with_fourier_law.
  - reflexivity.
  - apply ex_fft_complete.
  - vm_compute; discriminate.
  - cbn; lia.
  - cbn; lia.
  - split; [reflexivity|apply ex_fft_range].
  - exists (repeat 2%R 17). split; [reflexivity|]. split; [vm_compute; discriminate|reflexivity].
  - rewrite <- (cast_Z 2) by (unfold two64; lia). f_equal. cbn [dx ex_fft]. lra.
  - cbn; lia.
  - cbn; lia.
  - cbn [dx ex_fft]; lra.
  - apply ex_fft_spaced.
  - eexists. split; [reflexivity|]. intros i Hi. cbn [start n_used ex_fft] in Hi. split; [lia|].
    rewrite nth_error_map, iota_nth by lia. reflexivity.
  - intros d Hd.
    assert (Ker : exists z, fresnel_kernel (with_fourier ref_rlib) (ex_fft kv T) (8 + d) 8 = Ok z /\ z = (cos (kv * IZR d), sin (kv * IZR d))).
    { assert (d = -2 \/ d = -1 \/ d = 0 \/ d = 1 \/ d = 2) as [->|[->|[->|[->| ->]]]] by lia;
        (eexists; split; [reflexivity|]); cbn -[IZR Rminus]; unfold cconj, cre, cim; cbn [fst snd sneg real_scalar];
        match goal with |- (cos ?a, (- sin ?a)%R) = (cos ?b, _) => replace a with (- b)%R by lra; rewrite cos_neg, sin_neg, Ropp_involutive; reflexivity end. }
    destruct Ker as (z & E & ->). eexists. split; [exact E|].
    cbn [dx ex_fft window]. unfold ex_fft_K. destruct (Rle_dec (Rabs (IZR d * 1)) (2 / 2)); [|reflexivity].
    cbn [t_window with_fourier ref_rlib ref_lib]. unfold cscale, cre, cim, s1. cbn [fst snd smul sofZ real_scalar].
    apply f_equal2; req; ring.
Qed.
Lemma ex_fft_not_normalised : exists (L : rlib) (t t' : rtau),
  fourier_law L /\ use_norm t = true /\ recorded t (fun _ => CI) 0 16 /\ dc_fft L t = Ok t' /\ clean t' /\
  forall i, start t <= i < start t + n_used t -> exists v, result_at t' i v /\ modulus v = 3%R.
Proof.
  destruct (ex_fft_run 0 (fun _ => CI)) as (t' & E & C & V).
  exists (with_fourier ref_rlib), (ex_fft 0 (fun _ => CI)), t'. split; [apply with_fourier_law|]. split; [reflexivity|].
  split. { eexists. split; [reflexivity|]. intros i Hi. split; [lia|]. rewrite nth_error_map, iota_nth by lia. reflexivity. }
  split; [exact E|]. split; [exact C|]. intros i Hi. cbn [start n_used ex_fft] in Hi. eexists. split; [apply V; lia|].
  replace (sum_around 2 (fun d => rmul (ex_fft_K 0 d) CI)) with ((3, 0)%R : RC).
  - unfold modulus. cbn [fst snd]. replace (3 * 3 + 0 * 0)%R with (3 * 3)%R by ring. apply sqrt_square. lra.
  - assert (K1 : forall d, -1 <= d <= 1 -> ex_fft_K 0 d = CI).
    { intros d Hd. unfold ex_fft_K. destruct (Rle_dec _ _) as [|N].
      - rewrite Rmult_0_l, cos_0, sin_0. apply f_equal2; req; ring.
      - destruct N. rewrite Rmult_1_r, <- abs_IZR. replace (2 / 2)%R with (IZR 1) by lra. apply IZR_le. lia. }
    assert (K0 : forall d, d = -2 \/ d = 2 -> ex_fft_K 0 d = CZ).
    { intros d Hd. unfold ex_fft_K. destruct (Rle_dec _ _) as [Y|]; [|reflexivity].
      rewrite Rmult_1_r, <- abs_IZR in Y. replace (2 / 2)%R with (IZR 1) in Y by lra. apply le_IZR in Y. lia. }
    unfold sum_around. change (Z.to_nat (2 * 2 + 1)) with 5%nat. cbn [csum].
    rewrite (K0 (Z.of_nat 0 - 2)), (K0 (Z.of_nat 4 - 2)) by (cbn; lia).
    rewrite (K1 (Z.of_nat 1 - 2)), (K1 (Z.of_nat 2 - 2)), (K1 (Z.of_nat 3 - 2)) by (cbn; lia).
    unfold cadd, cmul, cre, cim. cbn [fst snd sadd ssub smul real_scalar]. apply f_equal2; req; lra.
Qed.
