(** * Spec_Recon: vocabulary of the statements about dispatch, orientation,
    finishing and the whole reconstruction (C07, C12, C20-C24).  Definitions only. *)
From Coq Require Import List ZArith Bool String Reals.
From Verif Require Import Base Dbl Scalar Model_TauRec Model_Checks Model_Select Model_Strings
  Model_Transform Model_Interp Model_Recon Spec_Tau Spec_Select.
Import ListNotations.
Open Scope Z_scope.

(** ** C07: the method that belongs to each selector *)
(** Full-window Newton methods and their quadratures. *)
Definition window_method {S} (L : tmpl S) (p : psitype) : option (@newton_fn S) :=
  match p with
  | PsiNewtonRiemann => Some (newton_riemann L)
  | PsiNewtonFilon01 => Some (newton_filon01 L)
  | PsiNewtonFilon11 => Some (newton_filon11 L)
  | PsiNewtonFilon02 => Some (newton_filon02 L)
  | PsiNewtonFilon12 => Some (newton_filon12 L)
  | PsiEllipticNewton => Some (elliptical_newton L)
  | PsiNewtonPerturb => Some (perturbed_newton L)
  | _ => None
  end.
(** Interpolated Newton methods. *)
Definition interp_method {S} (L : tmpl S) (p : psitype) : option (@interp_fn S) :=
  match p with
  | PsiNewton4 => Some (newton4 L)
  | PsiNewton8 => Some (newton8 L)
  | PsiNewton16 => Some (newton16 L)
  | _ => None
  end.
(** "fresnelN" of degree [d] (the object stores [d - 1]): the series for even or
    odd degree, normalised or not. *)
Definition series_method {S} (L : tmpl S) (d : Z) (norm : bool) : @legendre_fn S :=
  match Z.even d, norm with
  | true, true => legendre_even_norm L
  | true, false => legendre_even L
  | false, true => legendre_odd_norm L
  | false, false => legendre_odd L
  end.
(** The methods the library implements. *)
Definition implemented {S} (L : tmpl S) (p : psitype) : Prop :=
  p = PsiFresnel \/ p = PsiLegendre \/ p = PsiSimpleFFT \/
  window_method L p <> None \/ interp_method L p <> None.

(** ** C20, C21: orientation *)
(** The velocity array of [arr_size] numbers (no NaN). *)
Definition velocities (t : dtau) (v : list double) : Prop :=
  arr t RHODOT = Some v /\ zlen v = arr_size t /\ (forall x, In x v -> notnan x).
Definition all_positive (v : list double) : Prop := forall x, In x v -> positive_number x.
Definition negative_number (x : double) : Prop :=
  (finite x /\ (val x < 0)%R) \/ x = BinarySingleNaN.B754_infinity true.
Definition all_negative (v : list double) : Prop := forall x, In x v -> negative_number x.
(** Radius increases, or decreases, from sample to sample (sign of the spacing). *)
Definition outward (t : dtau) : Prop := positive_number (dx t).
Definition inward (t : dtau) : Prop := negative_number (dx t).
(** The data a sample consists of that the user passes in a diffraction-limited
    profile and that are stored per sample. *)
Definition sampled : list rf :=
  [RHO; FKM; PHI; KV; RHODOT; BDEG; DKM; TOET; TRET; TSET; CPOLE; CTIM; PHIRL; RX; RY; RZ].
(** [f] of [t'] is [f] of [t] read backwards. *)
Definition backwards {S} (t t' : tau S) (f : rf) : Prop :=
  exists l, arr t f = Some l /\ arr t' f = Some (rev l).
(** Every member needed by the reversal is there with [arr_size] entries. *)
Definition has_sizes {S} (t : tau S) (fs : list rf) : Prop :=
  forall f, In f fs -> exists l, arr t f = Some l /\ zlen l = arr_size t.

(** ** C22, C24: finished objects *)
(** [l'] is the piece of [l] with [n] entries from position [s] on. *)
Definition piece {A} (l : list A) (s n : Z) (l' : list A) : Prop :=
  zlen l' = n /\ forall i a, 0 <= i < n -> (entry l' i a <-> entry l (s + i) a).
(** The arrays a finished object hands out aligned with the reconstruction. *)
Definition aligned_fields : list rf :=
  [RHO; FKM; PHI; KV; RHODOT; BDEG; DKM; WKM; TOET; TRET; TSET; CPOLE; CTIM; PHIRL].
(** All of them, and the profiles, have one entry per sample of the object. *)
Definition aligned {S} (t : tau S) : Prop :=
  arr_size t = n_used t /\
  (forall f, In f aligned_fields -> exists l, arr t f = Some l /\ zlen l = arr_size t) /\
  (exists T, T_in t = Some T /\ zlen T = arr_size t) /\
  (exists T, T_out t = Some T /\ zlen T = arr_size t) /\
  (use_fwd t = true -> exists T, T_fwd t = Some T /\ zlen T = arr_size t).

(** ** C23: two objects that agree in everything but the reconstructed profile and
    the error flag. *)
Definition same_but_out {S} (t t' : tau S) : Prop :=
  arr t' = arr t /\ T_in t' = T_in t /\ T_fwd t' = T_fwd t /\
  dx t' = dx t /\ normeq t' = normeq t /\ sigma t' = sigma t /\ ecc t' = ecc t /\
  peri t' = peri t /\ reso t' = reso t /\ perturb t' = perturb t /\
  range0 t' = range0 t /\ range1 t' = range1 t /\ eps t' = eps t /\
  toler t' = toler t /\ start t' = start t /\ n_used t' = n_used t /\
  arr_size t' = arr_size t /\ window t' = window t /\ psinum t' = psinum t /\
  order t' = order t /\ use_norm t' = use_norm t /\ use_fwd t' = use_fwd t /\
  bfac t' = bfac t.
(** Agreement of everything a user reads from two finished objects except the
    forward model itself, its switch, and the wave numbers. *)
Definition same_inverse {S} (t t' : tau S) : Prop :=
  (forall f, f <> KV -> arr t' f = arr t f) /\ T_in t' = T_in t /\ T_out t' = T_out t /\
  dx t' = dx t /\ start t' = start t /\ n_used t' = n_used t /\ arr_size t' = arr_size t /\
  range0 t' = range0 t /\ range1 t' = range1 t /\ window t' = window t /\ psinum t' = psinum t /\
  order t' = order t /\ use_norm t' = use_norm t.
