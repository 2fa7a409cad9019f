(** * Spec_Real: vocabulary of the statements in exact real arithmetic (C25-C32,
    C53).  Definitions only. *)
From Coq Require Import List ZArith Bool Reals String.
From Verif Require Import Base Scalar Model_TauRec Model_Transform Model_Interp Spec_Select.
Import ListNotations.
Open Scope Z_scope.

(** ** Complex numbers: pairs of reals *)
Notation RC := (cplx real_scalar).
Notation rtau := (tau real_scalar).
Notation rlib := (tmpl real_scalar).
Notation CZ := ((0%R, 0%R) : RC).
Notation CI := ((1%R, 0%R) : RC).
(** r z, and z w. *)
Notation rscale := (@cscale real_scalar).
Notation rmul := (@cmul real_scalar).
Notation radd := (@cadd real_scalar).
Definition modulus (z : RC) : R := sqrt (fst z * fst z + snd z * snd z).
(** r e^(i theta) *)
Definition cis (r theta : R) : RC := (r * cos theta, r * sin theta)%R.
(** f(0) + ... + f(n-1) *)
Fixpoint csum (n : nat) (f : Z -> RC) : RC :=
  match n with
  | O => (0, 0)%R
  | Datatypes.S m => radd (csum m f) (f (Z.of_nat m))
  end.

(** ** The elementary functions of libtmpl, exactly *)
Definition trig_law (L : rlib) : Prop :=
  forall x : R, t_cos L x = cos x /\ t_sin L x = sin x.
Definition cabs_law (L : rlib) : Prop := forall z : RC, t_cabs L z = modulus z.

(** ** C25: superposition *)
Definition superposition (a b x y : RC) : RC := radd (rmul a x) (rmul b y).
(** Profile [T3] is a T1 + b T2; a cell never written in one profile is never
    written in the others. *)
Definition superposed (a b : RC) (T1 T2 T3 : list (option RC)) : Prop :=
  List.length T1 = List.length T3 /\ List.length T2 = List.length T3 /\
  forall i, match nth_error T1 i, nth_error T2 i, nth_error T3 i with
            | Some (Some x), Some (Some y), Some (Some z) => z = superposition a b x y
            | Some None, Some None, Some None => True
            | None, None, None => True
            | _, _, _ => False
            end.
(** The same for members that may be NULL. *)
Definition superposed_ptr (a b : RC) (p1 p2 p3 : option (list (option RC))) : Prop :=
  match p1, p2, p3 with
  | Some T1, Some T2, Some T3 => superposed a b T1 T2 T3
  | None, None, None => True
  | _, _, _ => False
  end.
(** Everything but the three profiles. *)
Definition no_profiles (t : rtau) : rtau := set_T_fwd (set_T_out (set_T_in t None) None) None.
(** Filon integrands and the Fourier transforms are linear in the amplitudes. *)
Definition filon_linear (L : rlib) : Prop :=
  (forall a b x y p q d, t_filon01 L (superposition a b x y) p q d
     = superposition a b (t_filon01 L x p q d) (t_filon01 L y p q d)) /\
  (forall a b x y x' y' p q d, t_filon11 L (superposition a b x y) (superposition a b x' y') p q d
     = superposition a b (t_filon11 L x x' p q d) (t_filon11 L y y' p q d)) /\
  (forall a b x y x' y' p q r d, t_filon02 L (superposition a b x y) (superposition a b x' y') p q r d
     = superposition a b (t_filon02 L x x' p q r d) (t_filon02 L y y' p q r d)) /\
  (forall a b x y x' y' x'' y'' p q r d,
     t_filon12 L (superposition a b x y) (superposition a b x' y') (superposition a b x'' y'') p q r d
     = superposition a b (t_filon12 L x x' x'' p q r d) (t_filon12 L y y' y'' p q r d)).
Definition combine_lists (a b : RC) (l m : list RC) : list RC :=
  map (fun p => superposition a b (fst p) (snd p)) (combine l m).
Definition fourier_linear (L : rlib) : Prop :=
  (forall l, List.length (t_fft L l) = List.length l) /\
  (forall l, List.length (t_ifft L l) = List.length l) /\
  (forall a b l m, List.length l = List.length m ->
     t_fft L (combine_lists a b l m) = combine_lists a b (t_fft L l) (t_fft L m)) /\
  (forall a b l m, List.length l = List.length m ->
     t_ifft L (combine_lists a b l m) = combine_lists a b (t_ifft L l) (t_ifft L m)).

(** ** C26, C27, C53: the recorded profile as a function of the sample *)
(** Samples lo, ..., hi of the input profile are f lo, ..., f hi. *)
Definition recorded {S} (t : tau S) (f : Z -> cplx S) (lo hi : Z) : Prop :=
  exists T, T_in t = Some T /\ forall i, lo <= i <= hi -> entry T i (Some (f i)).
Definition at_sample {S} (t : tau S) (g : rf) (i : Z) (x : S) : Prop :=
  exists l, arr t g = Some l /\ entry l i x.
(** 1 + i times a real. *)
Definition one_plus_i (s : R) : RC := (s, s).

(** The weighted sum over the samples around [c] at distance n, ..., 1 on either
    side: e_left(k) f(c-n+k) + e_right(k) f(c+n-k), k = 0, ..., n-1. *)
Definition sum_pairs (f : Z -> RC) (c n : Z) (el er : Z -> RC) : RC :=
  csum (Z.to_nat n) (fun k => radd (rmul (el k) (f (c - n + k))) (rmul (er k) (f (c + n - k)))).
(** The sum of the weights themselves. *)
Definition sum_weights (n : Z) (el er : Z -> RC) : RC :=
  csum (Z.to_nat n) (fun k => radd (el k) (er k)).
(** The quadratic kernel at sample k of the half window: weight W, X = (pi/2) x^2,
    Fresnel scale F, sign -1 for the forward model. *)
Definition fresnel_weight (fwd : bool) (F : R) (X W : Z -> R) (k : Z) : RC :=
  cis (W k) (- ((if fwd then -1 else 1) * X k / (F * F))).
(** A full window: samples off, ..., off+n-1 with weights e. *)
Definition sum_window (f : Z -> RC) (off n : Z) (e : Z -> RC) : RC :=
  csum (Z.to_nat n) (fun k => rmul (e k) (f (off + k))).
Definition sum_all (n : Z) (e : Z -> RC) : RC := csum (Z.to_nat n) e.

(** Filon quadratures: the integrand weights at the samples of the window. *)
Definition weights_at (L : rlib) (t : rtau) (c off n : Z) (wt psi : Z -> R) : Prop :=
  forall k, 0 <= k < n -> phase_and_weight L t c (off + k) = Ok (wt k, psi k).
(** Quadrature with a real amplitude: the same as with the complex one. *)
Definition filon_real (L : rlib) : Prop :=
  (forall r z p q d, t_filon01 L (rscale r z) p q d = rmul z (t_rfilon01 L r p q d)) /\
  (forall l r z p q d, t_filon11 L (rscale l z) (rscale r z) p q d = rmul z (t_rfilon11 L l r p q d)).

(** ** C31: the Legendre expansion: k D x^2 (c_0 + c_1 x + ... ) *)
Fixpoint poly (cs : list R) (x : R) : R :=
  match cs with [] => 0 | c :: r => c + x * poly r x end%R.
Definition series (cs : list R) (kD x : R) : R := (kD * (x * x) * poly cs x)%R.

(** ** C32: mirror image of the profile about sample [c] *)
Definition mirrored {S} (t t' : tau S) (c n : Z) : Prop :=
  exists f, recorded t f (c - n) (c + n) /\ recorded t' (fun i => f (2 * c - i)) (c - n) (c + n).

(** Mean of two samples. *)
Definition midpoint (z w : RC) : RC := rscale (1 / 2)%R (radd z w).

(** ** C30 *)
(** The interpolated phases left and right of the centre, from the phases at the nodes. *)
Definition phase8 (lo hi : list R) (x : R) : R * R :=
  @interp_eval real_scalar (@interp_coeffs real_scalar (@C8 real_scalar) lo hi) x.
Definition phase16 (lo hi : list R) (x : R) : R * R :=
  @interp_eval real_scalar (@interp_coeffs real_scalar (@C16 real_scalar) lo hi) x.
Definition sum_abs (l : list R) : R := fold_right (fun x s => Rabs x + s)%R 0%R l.
(** The interpolated phases (left, right) reproduce the node values within
    [eps] times the sum of their absolute values: node j (j = 0, ..., h-1) lies
    at distance (j+1)/(2h) of the interpolation interval from its centre. *)
Definition reproduces_nodes (phase : list R -> list R -> R -> R * R) (h : nat) (eps : R) : Prop :=
  forall lo hi : list R, List.length lo = h -> List.length hi = h ->
  phase lo hi 0%R = (0%R, 0%R) /\
  forall j, (j < h)%nat ->
    let p := phase lo hi (- (INR j + 1) / (2 * INR h))%R in
    (Rabs (fst p - nth j lo 0) <= eps * (sum_abs lo + sum_abs hi) /\
     Rabs (snd p - nth j hi 0) <= eps * (sum_abs lo + sum_abs hi))%R.
