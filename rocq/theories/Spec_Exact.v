(** * Spec_Exact: vocabulary of the statements about a whole diffraction correction
    in exact arithmetic (C61).  Definitions only. *)
From Coq Require Import List ZArith Bool Reals.
From Verif Require Import Base Scalar Model_TauRec Model_Transform Model_Interp Model_Recon
  Spec_Tau Spec_Select Spec_Safety Spec_Real Spec_Fft.
Import ListNotations.
Open Scope Z_scope.

(** The maximum of the library is the largest entry. *)
Definition maximum_law (L : rlib) : Prop :=
  forall l : list R, l <> [] -> In (t_max L l) l /\ forall x, In x l -> (x <= t_max L l)%R.

(** Around the samples lo, ..., hi - 1, the window of each, and the window of an
    earlier one of them that is less than two steps wider, stay in the data. *)
Definition margins (t : rtau) (lo hi : Z) : Prop :=
  (forall i, lo <= i < hi -> exists x : R, width t i (x : real_scalar) /\ (0 <= x <= 2 * dx t * IZR i)%R) /\
  (forall j i (x y : R), lo <= j <= i -> i < hi -> width t j (x : real_scalar) -> width t i (y : real_scalar) ->
     (x - y < 2 * dx t)%R -> (x <= 2 * dx t * IZR (arr_size t - 1 - i))%R).

(** All samples recorded are the same. *)
Definition free_space (t : rtau) (z : RC) : Prop := recorded t (fun _ => z) 0 (arr_size t - 1).

(** Coefficients of the expansion of the phase at sample [i]. *)
Definition series_coefficients (L : rlib) (t : rtau) (i : Z) (cs : list R) : Prop :=
  exists b p : R, at_sample t BDEG i (b : real_scalar) /\ at_sample t PHI i (p : real_scalar) /\
    let s := (t_cosd L b * t_sind L p * (t_cosd L b * t_sind L p))%R in
    cs = t_legendre L (t_cosd L b * t_cosd L p)%R (s * (1 / 2 / (1 - s)))%R (order t).

(** The sum of the window times the kernel around sample [i], by which the chosen method
    divides, is not zero.  The window has half width [m], in samples, and was computed at
    sample [j], where the width is [wj]. *)
Definition kernel_sum_nonzero (L : rlib) (t : rtau) (rho : list R) (i j m : Z) (wj : R) : Prop :=
  let W := full_weight L t rho j m wj : Z -> R in
  let H := half_weight L t m wj : Z -> R in
  match psinum t with
  | PsiFresnel => exists F : R, at_sample t FKM i (F : real_scalar) /\ F <> 0%R /\
      let e := fresnel_weight (use_fwd t) F (fresnel_x t m) H in radd CI (sum_weights m e e) <> CZ
  | PsiNewtonRiemann => exists K, (forall k, 0 <= k < 2 * m -> fresnel_kernel L t i (i - m + k) = Ok (K k)) /\
      sum_all (2 * m) (fun k => rscale (W k) (K k)) <> CZ
  | PsiNewtonFilon01 => exists wt psi, weights_at L t i (i - m) (2 * m + 1) wt psi /\
      sum_all (2 * m) (fun k => t_rfilon01 L ((wt k * W k + wt (k + 1)%Z * W (k + 1)%Z) / 2)%R (psi k) (psi (k + 1)) (dx t)) <> CZ
  | PsiNewtonFilon11 => exists wt psi, weights_at L t i (i - m) (2 * m + 1) wt psi /\
      sum_all (2 * m) (fun k => t_rfilon11 L (wt k * W k)%R (wt (k + 1)%Z * W (k + 1)%Z)%R (psi k) (psi (k + 1)) (dx t)) <> CZ
  | PsiEllipticNewton => exists psi, (forall k, 0 <= k < 2 * m + 1 -> elliptic_psi L t i (i - m + k) = Ok (psi k)) /\
      sum_all (2 * m + 1) (fun k => cis (W k) (- psi k)%R) <> CZ
  | PsiNewtonPerturb => exists psi, (forall k, 0 <= k < 2 * m + 1 -> perturbed_psi L t i (i - m + k) = Ok (psi k)) /\
      sum_all (2 * m + 1) (fun k => cis (W k) (- psi k)%R) <> CZ
  | PsiNewton8 => exists lo hi, node_phases L t 4 i (m / 4) = Ok (lo, hi) /\
      let u := fun k => (offset_x t m k / (8 * dx t * IZR (m / 4)))%R in
      radd CI (sum_weights m (fun k => cis (H k) (- fst (phase8 lo hi (u k))))%R
                            (fun k => cis (H k) (- snd (phase8 lo hi (u k))))%R) <> CZ
  | PsiNewton16 => exists lo hi, node_phases L t 8 i (m / 8) = Ok (lo, hi) /\
      let u := fun k => (offset_x t m k / (16 * dx t * IZR (m / 8)))%R in
      radd CI (sum_weights m (fun k => cis (H k) (- fst (phase16 lo hi (u k))))%R
                            (fun k => cis (H k) (- snd (phase16 lo hi (u k))))%R) <> CZ
  | PsiLegendre => exists cs D kc pl pr, series_coefficients L t i cs /\
      at_sample t DKM i (D : real_scalar) /\ at_sample t KV i (kc : real_scalar) /\
      (forall k, 0 <= k < m ->
         (if order t mod 2 =? 0 then @legendre_odd_phases real_scalar cs (order t) (order t) (kc * D)%R (offset_x t m k / D)%R
          else @legendre_even_phases real_scalar cs (order t) (kc * D)%R (offset_x t m k / D)%R) = Ok (pl k, pr k)) /\
      radd CI (sum_weights m (fun k => cis (H k) (- pl k)%R) (fun k => cis (H k) (- pr k)%R)) <> CZ
  | _ => False
  end.
(** The same for every sample of the selection and every window that may be in use there. *)
Definition kernel_sums_nonzero (L : rlib) (t : rtau) (rho : list R) : Prop :=
  forall i j m (wj : R), start t <= j <= i -> i < start t + n_used t -> width t j (wj : real_scalar) ->
    reusable t ((2 * dx t)%R : real_scalar) j i -> @scast real_scalar (wj / (2 * dx t))%R = Ok m ->
    kernel_sum_nonzero L t rho i j m wj.

(** What the modes need besides: the quadratic mode, which also processes the sample
    after the selection, that this sample exists, has its window in the data, and a width
    no larger than another one; the interpolated and series modes, windows at least two
    samples wide; the series mode, at least two terms and no forward model. *)
Definition mode_needs (L : rlib) (t : rtau) : Prop :=
  let wide := forall i (x : R), selected t i -> width t i (x : real_scalar) -> (2 * dx t <= x)%R in
  match psinum t with
  | PsiFresnel => start t + n_used t < arr_size t /\ margins t (start t) (start t + n_used t + 1) /\
      exists j (x y : R), selected t j /\ width t j (x : real_scalar) /\
        width t (start t + n_used t) (y : real_scalar) /\ (y <= x)%R
  | PsiNewton8 | PsiNewton16 => wide
  | PsiLegendre => wide /\ 2 <= order t /\ (forall a b, zlen (t_legendre L a b (order t)) = order t) /\ use_fwd t = false
  | _ => True
  end.

(** An object ready for the correction step: no error, all data there, at least two
    samples, a selection that is not empty, radii [dx] apart, windows in the data, memory
    available and a range check without complaint. *)
Record ready_exact (L : rlib) (t : rtau) (rho : list R) : Prop := {
  rd_clean : clean t;
  rd_complete : complete t;
  rd_size : 2 <= arr_size t;
  rd_selection : 0 <= start t /\ 0 < n_used t /\ start t + n_used t <= arr_size t;
  rd_obstacle : no_obstacle L t;
  rd_step : (0 < dx t)%R;
  rd_radii : arr t RHO = Some (rho : list real_scalar);
  rd_even : evenly_spaced t;
  rd_margins : margins t (start t) (start t + n_used t)
}.
