(** * Spec_Pipe: vocabulary of the statement about whole reconstructions (C54).
    Definitions only. *)
From Coq Require Import List ZArith Bool String Reals.
From Verif Require Import Base Dbl Scalar Model_TauRec Model_Transform Model_Interp Model_Recon
  Spec_Tau Spec_Select Spec_Recon Spec_Safety.
Import ListNotations.
Open Scope Z_scope.

(** Sample [i] has a radius inside the requested range. *)
Definition wanted (t : dtau) (rho : list double) (i : Z) : Prop :=
  exists a, entry rho i a /\ (val (range0 t) <= val a <= val (range1 t))%R.

(** Radii [h] km apart, each an exact double between 0 and 10^12 km. *)
Definition evenly_spaced (rho : list double) (h : R) : Prop :=
  forall i a, entry rho i a -> finite a /\ (0 < val a <= 1000000000000)%R /\
    exists r0, entry rho 0 r0 /\ (val a = val r0 + IZR i * h)%R.

(** The first sample of the range. *)
Definition first_wanted (t : dtau) (rho : list double) (s : Z) : Prop :=
  wanted t rho s /\ forall i, wanted t rho i -> s <= i.

(** The width of the window of sample [i] of the range (C11).  Without the
    Allan-deviation correction: the documented width for its Fresnel scale.  With it:
    the documented width for its Fresnel scale, its wave number and the size of the
    velocity found as many samples before it as the range starts after the first
    sample; the resolution must be attainable with them (P > 1). *)
Definition width_of (L : dlib) (t : dtau) (rho Fk v : list double) (i : Z) (x : double) : Prop :=
  exists F, entry Fk i F /\
    ((bfac t = false /\ x = plain_width F (normeq t) (reso t)) \/
     (bfac t = true /\ exists s kv k u,
        first_wanted t rho s /\ arr t KV = Some kv /\ entry kv i k /\ entry v (i - s) u /\
        dlt (dofZ 1) (bfac_P F k (dabs u) (sigma t) (reso t)) = true /\
        x = bfac_width (t_resinv L) F k (dabs u) (sigma t) (normeq t) (reso t))).

(** A well-posed reconstruction: a clean object that holds all its data, usable
    keywords, evenly spaced radii at least 1 mm apart that increase, velocities of
    one sign, no forward model; at least two samples in the requested range; and
    for each sample in the range a window width between 0 and [W], such that the
    data extend half of [W] and one more sample beyond it on both sides. *)
Record posed (L : dlib) (t : dtau) (rho Fk v : list double) (h W : R) : Prop := {
  ps_clean : clean t;
  ps_arrays : has_sizes t sampled;
  ps_input : exists T, T_in t = Some T /\ zlen T = arr_size t /\ forall c, In c T -> c <> None;
  ps_perturb : zlen (perturb t) = 5;
  ps_size : arr_size t <= 1125899906842624;
  ps_new : arr t WKM = None;
  ps_keywords : keywords_ok t;
  ps_rho : arr t RHO = Some rho;
  ps_even : evenly_spaced rho h;
  ps_dx : finite (dx t) /\ val (dx t) = h;
  ps_step : (/ 1000000 <= h)%R;
  ps_velocity : velocities t v /\ (all_positive v \/ all_negative v);
  ps_fwd : use_fwd t = false;
  ps_fresnel : arr t FKM = Some Fk;
  ps_two : exists i j, i < j /\ wanted t rho i /\ wanted t rho j;
  ps_widths : forall i, wanted t rho i -> exists x, width_of L t rho Fk v i x /\
    finite x /\ (0 <= val x <= W)%R;
  ps_margin : forall i a r0 rl, wanted t rho i -> entry rho i a -> entry rho 0 r0 ->
    entry rho (arr_size t - 1) rl ->
    (val r0 + W / 2 + h <= val a <= val rl - W / 2 - h)%R
}.

(** What the chosen method asks for: the quadratic mode, a window at the last
    sample of the range that is no wider than some other one; the series modes, a
    series of at least two terms; all modes that divide the window into panels or
    interpolate in it, windows at least two samples wide. *)
Definition wide_windows (L : dlib) (t : dtau) (rho Fk v : list double) (h : R) : Prop :=
  forall i x, wanted t rho i -> width_of L t rho Fk v i x -> (2 * h <= val x)%R.
Definition method_fits (L : dlib) (t : dtau) (rho Fk v : list double) (h : R) : Prop :=
  match psinum t with
  | PsiFresnel => forall i x, wanted t rho i -> (forall j, i < j -> ~ wanted t rho j) ->
      width_of L t rho Fk v i x ->
      exists j y, j < i /\ wanted t rho j /\ width_of L t rho Fk v j y /\ (val x <= val y)%R
  | PsiLegendre => 2 <= order t /\ (forall a b, zlen (t_legendre L a b (order t)) = order t) /\
      wide_windows L t rho Fk v h
  | PsiNewtonFilon02 | PsiNewtonFilon12 | PsiNewton4 | PsiNewton8 | PsiNewton16 =>
      wide_windows L t rho Fk v h
  | PsiNewtonRiemann | PsiNewtonFilon01 | PsiNewtonFilon11 | PsiEllipticNewton | PsiNewtonPerturb => True
  | _ => False
  end.

(** The value the chosen method gives at sample [i] of an object that carries its
    window widths. *)
Definition method_value (L : dlib) (t : dtau) (rho : list double) (i : Z) (v : cplx dbl_scalar) : Prop :=
  let two_dx := dmul (dofZ 2) (dx t) in
  match psinum t with
  | PsiFresnel => fresnel_sample L t two_dx i v
  | PsiLegendre =>
      interp_sample L t (legendre_step L (series_method L (order t + 1) (use_norm t))) two_dx i v
  | p =>
      (exists f, window_method L p = Some f /\ newton_sample L t f two_dx rho i v) \/
      (exists f, interp_method L p = Some f /\ interp_sample L t f two_dx i v)
  end.

(** [tw] is [t] with window widths and a selection of [n] samples from [s] on: the
    velocities are made positive; nothing else that a method reads is changed. *)
Record prepared_from (L : dlib) (t tw : dtau) (Fk v : list double) (s n : Z) : Prop := {
  pf_arrays : forall f, f <> WKM -> f <> RHODOT -> arr tw f = arr t f;
  pf_velocity : arr tw RHODOT = Some (map dabs v);
  pf_widths : exists w, arr tw WKM = Some w /\
    forall rho i x, arr t RHO = Some rho -> wanted t rho i -> entry w i x -> width_of L t rho Fk v i x;
  pf_selection : start tw = s /\ n_used tw = n;
  pf_same : T_in tw = T_in t /\ dx tw = dx t /\ window tw = window t /\ psinum tw = psinum t /\
    order tw = order t /\ ecc tw = ecc t /\ peri tw = peri t /\ perturb tw = perturb t /\
    eps tw = eps t /\ toler tw = toler t /\ use_norm tw = use_norm t /\ use_fwd tw = use_fwd t
}.
