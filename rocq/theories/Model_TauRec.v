(** * Model_TauRec: the data structure [rssringoccs_TAUObj] and the libtmpl
    interface.  Definitions only. *)
From Coq Require Import List ZArith Bool String.
From Verif Require Import Base Scalar.
Import ListNotations.

(** include/types/rss_ringoccs_tauobj.h 42-87: names of the [double *] members
    of a tau object.  ([rho_km_vals], [F_km_vals], [phi_deg_vals], [k_vals],
    [rho_dot_kms_vals], [B_deg_vals], [D_km_vals], [w_km_vals],
    [t_oet_spm_vals], [t_ret_spm_vals], [t_set_spm_vals],
    [rho_corr_pole_km_vals], [rho_corr_timing_km_vals], [tau_threshold_vals],
    [phi_rl_deg_vals], [rx_km_vals], [ry_km_vals], [rz_km_vals].) *)
Inductive rf : Type :=
| RHO | FKM | PHI | KV | RHODOT | BDEG | DKM | WKM | TOET | TRET | TSET
| CPOLE | CTIM | TTHR | PHIRL | RX | RY | RZ.
Definition rf_eqb (a b : rf) : bool :=
  match a, b with
  | RHO, RHO | FKM, FKM | PHI, PHI | KV, KV | RHODOT, RHODOT | BDEG, BDEG
  | DKM, DKM | WKM, WKM | TOET, TOET | TRET, TRET | TSET, TSET | CPOLE, CPOLE
  | CTIM, CTIM | TTHR, TTHR | PHIRL, PHIRL | RX, RX | RY, RY | RZ, RZ => true
  | _, _ => false
  end.
Definition all_rf : list rf :=
  [RHO; FKM; PHI; KV; RHODOT; BDEG; DKM; WKM; TOET; TRET; TSET; CPOLE; CTIM;
   TTHR; PHIRL; RX; RY; RZ].

(** The window functions selectable by src/tau/rss_ringoccs_tau_set_window_type.c
    9-106 (function pointers into libtmpl; the enumeration stands for the
    pointer values). *)
Inductive wintype : Type :=
| Rect | Coss | KB20 | KB25 | KB35 | KBMD20 | KBMD25 | KBMD35.

(** include/types/rss_ringoccs_psitype.h: [enum rssringoccs_PsiType], in order
    (constructor = value 0, 1, ..., 16). *)
Inductive psitype : Type :=
| PsiFresnel | PsiLegendre | PsiSimpleFFT | PsiNewtonRiemann | PsiNewtonFilon01
| PsiNewtonFilon11 | PsiNewtonFilon02 | PsiNewtonFilon12 | PsiEllipticNewton
| PsiNewtonPerturb | PsiNewton4 | PsiNewton8 | PsiNewton16 | PsiEllipticNewton4
| PsiEllipticNewton8 | PsiEllipticNewton16 | PsiNone.
Definition psi_val (p : psitype) : Z :=
  match p with
  | PsiFresnel => 0 | PsiLegendre => 1 | PsiSimpleFFT => 2
  | PsiNewtonRiemann => 3 | PsiNewtonFilon01 => 4 | PsiNewtonFilon11 => 5
  | PsiNewtonFilon02 => 6 | PsiNewtonFilon12 => 7 | PsiEllipticNewton => 8
  | PsiNewtonPerturb => 9 | PsiNewton4 => 10 | PsiNewton8 => 11
  | PsiNewton16 => 12 | PsiEllipticNewton4 => 13 | PsiEllipticNewton8 => 14
  | PsiEllipticNewton16 => 15 | PsiNone => 16
  end.

(** tmpl_CylFresnelGeometryDouble as filled by the callers: spacecraft position,
    ring intercept point and dummy point, the latter two in polar form
    (radius, azimuth in degrees). *)
Record geometry (S : scalar) : Type := mkGeo {
  g_pos : S * S * S;
  g_intercept : S * S;
  g_dummy : S * S;
}.
Arguments mkGeo {S}. Arguments g_pos {S}. Arguments g_intercept {S}.
Arguments g_dummy {S}.

(** The libtmpl functions the modelled code calls.  libtmpl is not in the pinned
    tree, so they are parameters; what a theorem needs to know about them is a
    hypothesis of that theorem (see Spec_Tau.v and Spec_Real.v).  [t_alloc k] says whether
    the allocation at site [k] succeeds. *)
Record tmpl (S : scalar) : Type := {
  t_minmax : list S -> S * S;          (* tmpl_Double_Array_MinMax *)
  t_min : list S -> S;                 (* tmpl_Double_Array_Min *)
  t_max : list S -> S;                 (* tmpl_Double_Array_Max *)
  t_resinv : S -> S;                   (* tmpl_Double_Resolution_Inverse *)
  t_window : wintype -> S -> S -> S;   (* the window functions f(x, width) *)
  t_normeq : wintype -> S;             (* RectNormEQ, ..., KBMD35NormEQ *)
  t_sin : S -> S;                      (* tmpl_Double_Sin *)
  t_cos : S -> S;                      (* tmpl_Double_Cos *)
  t_exp : S -> S;                      (* tmpl_Double_Exp *)
  t_sind : S -> S;                     (* tmpl_Double_Sind *)
  t_cosd : S -> S;                     (* tmpl_Double_Cosd *)
  t_cabs : cplx S -> S;                (* tmpl_CDouble_Abs *)
  (* tmpl_Double_Stationary_Cyl_Fresnel_Kernel(k, geo, EPS, toler) *)
  t_kernel : S -> geometry S -> S -> Z -> cplx S;
  (* tmpl_Double_Stationary_Cyl_Fresnel_Phase_And_Weight: returned azimuth,
     weight, psi *)
  t_phasew : S -> geometry S -> S -> Z -> S * S * S;
  (* tmpl_Double_Stationary_Cyl_Fresnel_Psi *)
  t_psi : S -> geometry S -> S -> Z -> S;
  (* tmpl_CDouble_Filon01_Integrand(mid, psi_l, psi_r, dx) and the real one *)
  t_filon01 : cplx S -> S -> S -> S -> cplx S;
  t_rfilon01 : S -> S -> S -> S -> cplx S;
  (* tmpl_CDouble_Filon11_Integrand(l, r, psi_l, psi_r, dx) and the real one *)
  t_filon11 : cplx S -> cplx S -> S -> S -> S -> cplx S;
  t_rfilon11 : S -> S -> S -> S -> S -> cplx S;
  (* tmpl_CDouble_Filon02_Integrand(lm, rm, psi_l, psi_m, psi_r, dx) *)
  t_filon02 : cplx S -> cplx S -> S -> S -> S -> S -> cplx S;
  (* tmpl_CDouble_Filon12_Integrand(l, m, r, psi_l, psi_m, psi_r, dx) *)
  t_filon12 : cplx S -> cplx S -> cplx S -> S -> S -> S -> S -> cplx S;
  (* tmpl_Double_Stationary_Elliptical_Fresnel_Psi_Newton: the thirteen
     arguments in order, as a list of doubles and the iteration bound *)
  t_ellphi : list S -> Z -> S;
  (* tmpl_Double_Cyl_Fresnel_Observer_Distance(rho, phi, rx, ry, rz) *)
  t_obsdist : list S -> S;
  (* tmpl_Double_Ideal_Cyl_Fresnel_Psi_Deg, seven arguments in order *)
  t_idealpsi : list S -> S;
  (* tmpl_Double_Ideal_Stationary_Cyl_Fresnel_Phi_Newton_Deg *)
  t_idealphi : list S -> Z -> S;
  (* tmpl_Double_Fresnel_Legendre_L(coeffs, alpha, beta, order): fills [order]
     coefficients *)
  t_legendre : S -> S -> Z -> list S;
  (* tmpl_CDouble_FFT and tmpl_CDouble_IFFT *)
  t_fft : list (cplx S) -> list (cplx S);
  t_ifft : list (cplx S) -> list (cplx S);
  t_alloc : Z -> bool;
  (* whether realloc(p, 0) frees p and returns NULL (as in glibc) *)
  t_realloc0 : bool;
}.
Arguments t_minmax {S}. Arguments t_min {S}. Arguments t_max {S}.
Arguments t_resinv {S}. Arguments t_window {S}. Arguments t_normeq {S}.
Arguments t_sin {S}. Arguments t_cos {S}. Arguments t_exp {S}.
Arguments t_sind {S}. Arguments t_cosd {S}. Arguments t_cabs {S}.
Arguments t_kernel {S}. Arguments t_phasew {S}. Arguments t_psi {S}.
Arguments t_filon01 {S}. Arguments t_rfilon01 {S}. Arguments t_filon11 {S}.
Arguments t_rfilon11 {S}. Arguments t_filon02 {S}. Arguments t_filon12 {S}.
Arguments t_ellphi {S}. Arguments t_obsdist {S}. Arguments t_idealpsi {S}.
Arguments t_idealphi {S}. Arguments t_legendre {S}. Arguments t_fft {S}.
Arguments t_ifft {S}.
Arguments t_alloc {S}. Arguments t_realloc0 {S}.

(** include/types/rss_ringoccs_tauobj.h 42-87.  Simplifications: [verbose] and
    [requested_range], which no function in /repo reads, are left out; error
    messages are short keys instead of the full text.  Complex cells are
    optional: [None] is memory that was never written. *)
Record tau (S : scalar) : Type := mkTau {
  arr : rf -> option (list S);                    (* the eighteen double arrays, NULL = None *)
  T_in : option (list (option (cplx S)));         (* T_in *)
  T_out : option (list (option (cplx S)));        (* T_out *)
  T_fwd : option (list (option (cplx S)));        (* T_fwd *)
  dx : S;                                         (* dx_km *)
  normeq : S;                                     (* normeq *)
  sigma : S;                                      (* sigma *)
  ecc : S;                                        (* eccentricity *)
  peri : S;                                       (* periapse *)
  reso : S;                                       (* resolution_km *)
  perturb : list S;                               (* perturb *)
  range0 : S;                                     (* range[0] *)
  range1 : S;                                     (* range[1] *)
  eps : S;                                        (* EPS *)
  toler : Z;                                      (* toler *)
  start : Z;                                      (* start *)
  n_used : Z;                                     (* n_used *)
  arr_size : Z;                                   (* arr_size *)
  window : wintype;                               (* window_func *)
  psinum : psitype;                               (* psinum *)
  order : Z;                                      (* order *)
  use_norm : bool;                                (* use_norm *)
  use_fwd : bool;                                 (* use_fwd *)
  bfac : bool;                                    (* bfac *)
  err : option string                             (* error_occurred / error_message: None = no error *)
}.
Arguments arr {S}.
Arguments T_in {S}.
Arguments T_out {S}.
Arguments T_fwd {S}.
Arguments dx {S}.
Arguments normeq {S}.
Arguments sigma {S}.
Arguments ecc {S}.
Arguments peri {S}.
Arguments reso {S}.
Arguments perturb {S}.
Arguments range0 {S}.
Arguments range1 {S}.
Arguments eps {S}.
Arguments toler {S}.
Arguments start {S}.
Arguments n_used {S}.
Arguments arr_size {S}.
Arguments window {S}.
Arguments psinum {S}.
Arguments order {S}.
Arguments use_norm {S}.
Arguments use_fwd {S}.
Arguments bfac {S}.
Arguments err {S}.
Arguments mkTau {S}.

(** Field updates. *)
Section Setters.
  Context {S : scalar}.
  Definition set_arr (t : tau S) (v : rf -> option (list S)) : tau S :=
    mkTau
          v (T_in t) (T_out t) (T_fwd t) (dx t) (normeq t) (sigma t) (ecc t)
          (peri t) (reso t) (perturb t) (range0 t) (range1 t) (eps t) (toler t)
          (start t) (n_used t) (arr_size t) (window t) (psinum t) (order t)
          (use_norm t) (use_fwd t) (bfac t) (err t).
  Definition set_T_in (t : tau S) (v : option (list (option (cplx S)))) : tau S :=
    mkTau
          (arr t) v (T_out t) (T_fwd t) (dx t) (normeq t) (sigma t) (ecc t)
          (peri t) (reso t) (perturb t) (range0 t) (range1 t) (eps t) (toler t)
          (start t) (n_used t) (arr_size t) (window t) (psinum t) (order t)
          (use_norm t) (use_fwd t) (bfac t) (err t).
  Definition set_T_out (t : tau S) (v : option (list (option (cplx S)))) : tau S :=
    mkTau
          (arr t) (T_in t) v (T_fwd t) (dx t) (normeq t) (sigma t) (ecc t)
          (peri t) (reso t) (perturb t) (range0 t) (range1 t) (eps t) (toler t)
          (start t) (n_used t) (arr_size t) (window t) (psinum t) (order t)
          (use_norm t) (use_fwd t) (bfac t) (err t).
  Definition set_T_fwd (t : tau S) (v : option (list (option (cplx S)))) : tau S :=
    mkTau
          (arr t) (T_in t) (T_out t) v (dx t) (normeq t) (sigma t) (ecc t)
          (peri t) (reso t) (perturb t) (range0 t) (range1 t) (eps t) (toler t)
          (start t) (n_used t) (arr_size t) (window t) (psinum t) (order t)
          (use_norm t) (use_fwd t) (bfac t) (err t).
  Definition set_dx (t : tau S) (v : S) : tau S :=
    mkTau
          (arr t) (T_in t) (T_out t) (T_fwd t) v (normeq t) (sigma t) (ecc t)
          (peri t) (reso t) (perturb t) (range0 t) (range1 t) (eps t) (toler t)
          (start t) (n_used t) (arr_size t) (window t) (psinum t) (order t)
          (use_norm t) (use_fwd t) (bfac t) (err t).
  Definition set_normeq (t : tau S) (v : S) : tau S :=
    mkTau
          (arr t) (T_in t) (T_out t) (T_fwd t) (dx t) v (sigma t) (ecc t)
          (peri t) (reso t) (perturb t) (range0 t) (range1 t) (eps t) (toler t)
          (start t) (n_used t) (arr_size t) (window t) (psinum t) (order t)
          (use_norm t) (use_fwd t) (bfac t) (err t).
  Definition set_sigma (t : tau S) (v : S) : tau S :=
    mkTau
          (arr t) (T_in t) (T_out t) (T_fwd t) (dx t) (normeq t) v (ecc t)
          (peri t) (reso t) (perturb t) (range0 t) (range1 t) (eps t) (toler t)
          (start t) (n_used t) (arr_size t) (window t) (psinum t) (order t)
          (use_norm t) (use_fwd t) (bfac t) (err t).
  Definition set_ecc (t : tau S) (v : S) : tau S :=
    mkTau
          (arr t) (T_in t) (T_out t) (T_fwd t) (dx t) (normeq t) (sigma t) v
          (peri t) (reso t) (perturb t) (range0 t) (range1 t) (eps t) (toler t)
          (start t) (n_used t) (arr_size t) (window t) (psinum t) (order t)
          (use_norm t) (use_fwd t) (bfac t) (err t).
  Definition set_peri (t : tau S) (v : S) : tau S :=
    mkTau
          (arr t) (T_in t) (T_out t) (T_fwd t) (dx t) (normeq t) (sigma t)
          (ecc t) v (reso t) (perturb t) (range0 t) (range1 t) (eps t)
          (toler t) (start t) (n_used t) (arr_size t) (window t) (psinum t)
          (order t) (use_norm t) (use_fwd t) (bfac t) (err t).
  Definition set_reso (t : tau S) (v : S) : tau S :=
    mkTau
          (arr t) (T_in t) (T_out t) (T_fwd t) (dx t) (normeq t) (sigma t)
          (ecc t) (peri t) v (perturb t) (range0 t) (range1 t) (eps t)
          (toler t) (start t) (n_used t) (arr_size t) (window t) (psinum t)
          (order t) (use_norm t) (use_fwd t) (bfac t) (err t).
  Definition set_perturb (t : tau S) (v : list S) : tau S :=
    mkTau
          (arr t) (T_in t) (T_out t) (T_fwd t) (dx t) (normeq t) (sigma t)
          (ecc t) (peri t) (reso t) v (range0 t) (range1 t) (eps t) (toler t)
          (start t) (n_used t) (arr_size t) (window t) (psinum t) (order t)
          (use_norm t) (use_fwd t) (bfac t) (err t).
  Definition set_range0 (t : tau S) (v : S) : tau S :=
    mkTau
          (arr t) (T_in t) (T_out t) (T_fwd t) (dx t) (normeq t) (sigma t)
          (ecc t) (peri t) (reso t) (perturb t) v (range1 t) (eps t) (toler t)
          (start t) (n_used t) (arr_size t) (window t) (psinum t) (order t)
          (use_norm t) (use_fwd t) (bfac t) (err t).
  Definition set_range1 (t : tau S) (v : S) : tau S :=
    mkTau
          (arr t) (T_in t) (T_out t) (T_fwd t) (dx t) (normeq t) (sigma t)
          (ecc t) (peri t) (reso t) (perturb t) (range0 t) v (eps t) (toler t)
          (start t) (n_used t) (arr_size t) (window t) (psinum t) (order t)
          (use_norm t) (use_fwd t) (bfac t) (err t).
  Definition set_eps (t : tau S) (v : S) : tau S :=
    mkTau
          (arr t) (T_in t) (T_out t) (T_fwd t) (dx t) (normeq t) (sigma t)
          (ecc t) (peri t) (reso t) (perturb t) (range0 t) (range1 t) v
          (toler t) (start t) (n_used t) (arr_size t) (window t) (psinum t)
          (order t) (use_norm t) (use_fwd t) (bfac t) (err t).
  Definition set_toler (t : tau S) (v : Z) : tau S :=
    mkTau
          (arr t) (T_in t) (T_out t) (T_fwd t) (dx t) (normeq t) (sigma t)
          (ecc t) (peri t) (reso t) (perturb t) (range0 t) (range1 t) (eps t) v
          (start t) (n_used t) (arr_size t) (window t) (psinum t) (order t)
          (use_norm t) (use_fwd t) (bfac t) (err t).
  Definition set_start (t : tau S) (v : Z) : tau S :=
    mkTau
          (arr t) (T_in t) (T_out t) (T_fwd t) (dx t) (normeq t) (sigma t)
          (ecc t) (peri t) (reso t) (perturb t) (range0 t) (range1 t) (eps t)
          (toler t) v (n_used t) (arr_size t) (window t) (psinum t) (order t)
          (use_norm t) (use_fwd t) (bfac t) (err t).
  Definition set_n_used (t : tau S) (v : Z) : tau S :=
    mkTau
          (arr t) (T_in t) (T_out t) (T_fwd t) (dx t) (normeq t) (sigma t)
          (ecc t) (peri t) (reso t) (perturb t) (range0 t) (range1 t) (eps t)
          (toler t) (start t) v (arr_size t) (window t) (psinum t) (order t)
          (use_norm t) (use_fwd t) (bfac t) (err t).
  Definition set_arr_size (t : tau S) (v : Z) : tau S :=
    mkTau
          (arr t) (T_in t) (T_out t) (T_fwd t) (dx t) (normeq t) (sigma t)
          (ecc t) (peri t) (reso t) (perturb t) (range0 t) (range1 t) (eps t)
          (toler t) (start t) (n_used t) v (window t) (psinum t) (order t)
          (use_norm t) (use_fwd t) (bfac t) (err t).
  Definition set_window (t : tau S) (v : wintype) : tau S :=
    mkTau
          (arr t) (T_in t) (T_out t) (T_fwd t) (dx t) (normeq t) (sigma t)
          (ecc t) (peri t) (reso t) (perturb t) (range0 t) (range1 t) (eps t)
          (toler t) (start t) (n_used t) (arr_size t) v (psinum t) (order t)
          (use_norm t) (use_fwd t) (bfac t) (err t).
  Definition set_psinum (t : tau S) (v : psitype) : tau S :=
    mkTau
          (arr t) (T_in t) (T_out t) (T_fwd t) (dx t) (normeq t) (sigma t)
          (ecc t) (peri t) (reso t) (perturb t) (range0 t) (range1 t) (eps t)
          (toler t) (start t) (n_used t) (arr_size t) (window t) v (order t)
          (use_norm t) (use_fwd t) (bfac t) (err t).
  Definition set_order (t : tau S) (v : Z) : tau S :=
    mkTau
          (arr t) (T_in t) (T_out t) (T_fwd t) (dx t) (normeq t) (sigma t)
          (ecc t) (peri t) (reso t) (perturb t) (range0 t) (range1 t) (eps t)
          (toler t) (start t) (n_used t) (arr_size t) (window t) (psinum t) v
          (use_norm t) (use_fwd t) (bfac t) (err t).
  Definition set_use_norm (t : tau S) (v : bool) : tau S :=
    mkTau
          (arr t) (T_in t) (T_out t) (T_fwd t) (dx t) (normeq t) (sigma t)
          (ecc t) (peri t) (reso t) (perturb t) (range0 t) (range1 t) (eps t)
          (toler t) (start t) (n_used t) (arr_size t) (window t) (psinum t)
          (order t) v (use_fwd t) (bfac t) (err t).
  Definition set_use_fwd (t : tau S) (v : bool) : tau S :=
    mkTau
          (arr t) (T_in t) (T_out t) (T_fwd t) (dx t) (normeq t) (sigma t)
          (ecc t) (peri t) (reso t) (perturb t) (range0 t) (range1 t) (eps t)
          (toler t) (start t) (n_used t) (arr_size t) (window t) (psinum t)
          (order t) (use_norm t) v (bfac t) (err t).
  Definition set_bfac (t : tau S) (v : bool) : tau S :=
    mkTau
          (arr t) (T_in t) (T_out t) (T_fwd t) (dx t) (normeq t) (sigma t)
          (ecc t) (peri t) (reso t) (perturb t) (range0 t) (range1 t) (eps t)
          (toler t) (start t) (n_used t) (arr_size t) (window t) (psinum t)
          (order t) (use_norm t) (use_fwd t) v (err t).
  Definition set_err (t : tau S) (v : option string) : tau S :=
    mkTau
          (arr t) (T_in t) (T_out t) (T_fwd t) (dx t) (normeq t) (sigma t)
          (ecc t) (peri t) (reso t) (perturb t) (range0 t) (range1 t) (eps t)
          (toler t) (start t) (n_used t) (arr_size t) (window t) (psinum t)
          (order t) (use_norm t) (use_fwd t) (bfac t) v.

  (** [tau->f = p] for an array member. *)
  Definition set_f (t : tau S) (f : rf) (v : option (list S)) : tau S :=
    set_arr t (fun g => if rf_eqb f g then v else arr t g).
  (** [tau->error_occurred = tmpl_True; tau->error_message = msg]. *)
  Definition fail (t : tau S) (msg : string) : res (tau S) :=
    Ok (set_err t (Some msg)).
End Setters.
