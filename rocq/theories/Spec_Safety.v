(** * Spec_Safety: vocabulary of the statements about memory safety and thread
    schedules (C13-C18, C33).  Definitions only.  A run of the model is memory
    safe when it returns ([Ok]) instead of reaching undefined behaviour. *)
From Coq Require Import List ZArith Bool String Reals.
From Verif Require Import Base Dbl Scalar Model_TauRec Model_Checks Model_Select Model_Transform Model_Recon Spec_Tau Spec_Select.
Import ListNotations.
Open Scope Z_scope.

(** The members that rssringoccs_Tau_Check_Core_Data insists on. *)
Definition core_fields : list rf :=
  [RHO; FKM; PHI; KV; RHODOT; BDEG; DKM; WKM; RX; RY; RZ].
(** The object carries all its data: [arr_size] entries in every core array and
    in the two complex profiles, and every entry of the input profile written. *)
Definition complete {S} (t : tau S) : Prop :=
  (forall f, In f core_fields -> exists l, arr t f = Some l /\ zlen l = arr_size t) /\
  (exists T, T_in t = Some T /\ zlen T = arr_size t /\ forall c, In c T -> c <> None) /\
  (exists T, T_out t = Some T /\ zlen T = arr_size t) /\
  zlen (perturb t) = 5 /\ arr_size t < two64.

(** The width of the window of sample [i]. *)
Definition width {S} (t : tau S) (i : Z) (x : S) : Prop :=
  exists w, arr t WKM = Some w /\ entry w i x.
(** Number of samples in half a window of sample [i], for a step of [two_dx / 2]. *)
Definition half_count {S} (t : tau S) (two_dx : S) (i m : Z) : Prop :=
  exists x, width t i x /\ scast (x / two_dx)%S = Ok m.
(** The window of sample [j] may still be in use at sample [i]: the widths differ
    by less than [two_dx]. *)
Definition reusable {S} (t : tau S) (two_dx : S) (j i : Z) : Prop :=
  j = i \/ exists x y, width t j x /\ width t i y /\ sge (sabs (x - y)%S) two_dx = false.
(** Around every sample i of [lo, hi), each window that may be in use there, of
    half width m, stays in the data: i - m and i + m are samples. *)
Definition windows_fit {S} (t : tau S) (two_dx : S) (lo hi : Z) : Prop :=
  (forall i, lo <= i < hi -> exists m, half_count t two_dx i m) /\
  (forall j i m, lo <= j <= i -> i < hi -> reusable t two_dx j i ->
     half_count t two_dx j m -> 0 <= m <= i /\ i + m < arr_size t).
(** A buffer whose first [n] cells have been written. *)
Definition written {A} (b : list (option A)) (n : Z) : Prop :=
  n <= zlen b /\ forall i, 0 <= i < n -> exists x, entry b i (Some x).

(** In double arithmetic, for samples [two_dx / 2] apart: around every sample
    [i] of [lo, hi), with [arr_size - 1] the last index, the window of [i]
    reaches no further left than sample 0, and no window wider by less than one
    step on either side, of an earlier sample, reaches further right than the
    last sample.  Widths are finite and not negative. *)
Definition room (t : dtau) (two_dx : double) (lo hi : Z) : Prop :=
  finite two_dx /\ (0 < val two_dx)%R /\
  (forall i, lo <= i < hi -> exists x, width t i x /\ finite x /\
     (0 <= val x <= val two_dx * IZR i)%R) /\
  (forall j i x y, lo <= j <= i -> i < hi -> width t j x -> width t i y ->
     (val x - val y < val two_dx)%R ->
     (val x <= val two_dx * IZR (arr_size t - 1 - i))%R).

(** C13: half the window of sample [i], counted in samples as the range check
    counts: trunc(w * (0.5 / dx)). *)
Definition checked_half (t : dtau) (i m : Z) : Prop :=
  exists x, width t i x /\ dcast (dmul x (ddiv (dfrac 1 2) (dx t))) = Ok m.

(** ** Window buffers (C33) and the values of samples (C16) *)
(** The first [n] cells hold [f 0], ..., [f (n-1)]. *)
Definition holds {S} (b : @buffer S) (n : Z) (f : Z -> S) : Prop :=
  forall i, 0 <= i < n -> aread b i = Ok (Some (f i)).
(** Distance from the centre of sample [k] of a half window of [n] samples. *)
Definition offset_x {S} (t : tau S) (n k : Z) : S := ((sofZ k - sofZ n) * dx t)%S.
(** pi/2 times its square. *)
Definition fresnel_x {S} (t : tau S) (n k : Z) : S :=
  (offset_x t n k * (spihalf * offset_x t n k))%S.
(** Weights of a half window of width [wj] in [n] samples. *)
Definition half_weight {S} (L : tmpl S) (t : tau S) (n : Z) (wj : S) (k : Z) : S :=
  t_window L (window t) (offset_x t n k) wj.
(** Weights of the full window of [2 m + 1] samples and width [wj] around sample
    [j], from the recorded radii. *)
Definition nth_cell {S : scalar} (l : list S) (i : Z) : S := nth (Z.to_nat i) l s0.
Definition full_weight {S} (L : tmpl S) (t : tau S) (rho : list S) (j m : Z) (wj : S) (k : Z) : S :=
  t_window L (window t) (nth_cell rho (j - m + k) - nth_cell rho j)%S wj.

(** [v] is what the quadratic transform gives at sample [i] with the window of
    width [wj]. *)
Definition fresnel_value {S} (L : tmpl S) (t : tau S) (two_dx : S) (i : Z) (wj : S) (v : cplx S) : Prop :=
  exists m x w, scast (wj / two_dx)%S = Ok m /\
    holds x m (fresnel_x t m) /\ holds w m (half_weight L t m wj) /\
    fresnel_transform L t x w i m = Ok v.
(** [v] is what the Newton transform [f] gives at sample [i] with the window
    computed for sample [j], of width [wj]. *)
Definition newton_value {S} (L : tmpl S) (t : tau S) (f : @newton_fn S) (two_dx : S)
    (rho : list S) (i j : Z) (wj : S) (v : cplx S) : Prop :=
  exists m w, scast (wj / two_dx)%S = Ok m /\
    holds w (2 * m + 1) (full_weight L t rho j m wj) /\ f t w (2 * m + 1) i = Ok v.
(** The reconstructed profile [T], [k] samples into the selection of [t]: each of
    those samples has a value satisfying [Q]; the other cells are those of [T0]. *)
Definition progress {S} (t : tau S) (Q : Z -> cplx S -> Prop) (T0 : @cbuf S) (k : Z) (T : @cbuf S) : Prop :=
  zlen T = arr_size t /\
  (forall i, start t <= i < start t + k -> exists v, aread T i = Ok (Some v) /\ Q i v) /\
  (forall i, i < start t \/ start t + k <= i -> aread T i = aread T0 i).

(** C16: windows that may be reused are the same.  Quadratic mode: equal widths. *)
Definition same_widths {S} (t : tau S) (two_dx : S) (lo hi : Z) : Prop :=
  forall j i wj wi, lo <= j <= i -> i < hi -> width t j wj -> width t i wi ->
    reusable t two_dx j i -> wj = wi.
(** Newton modes: equal widths, and equal radii relative to the centre. *)
Definition same_windows {S} (t : tau S) (two_dx : S) (lo hi : Z) : Prop :=
  same_widths t two_dx lo hi /\
  forall rho j i m, arr t RHO = Some rho -> lo <= j <= i -> i < hi ->
    reusable t two_dx j i -> half_count t two_dx j m ->
    forall k, 0 <= k < 2 * m + 1 ->
    (nth_cell rho (j - m + k) - nth_cell rho j)%S = (nth_cell rho (i - m + k) - nth_cell rho i)%S.

(** An object ready for a reconstruction driver: no error so far, all data there,
    a non-empty selection, and a range check that returns (it reads only valid
    elements and converts only representable numbers). *)
Definition prepared (t : dtau) : Prop :=
  clean t /\ complete t /\ arr_size t <= 9007199254740992 /\ 0 <= start t /\ 0 < n_used t /\
  (exists t2, check_data_range t = Ok t2).
(** [t'] is [t] with a reconstructed profile in which the [k] samples from the
    first selected one on have values satisfying [Q], the other cells being those
    of [t]; or [t'] carries an error. *)
Definition profile_written {S} (t : tau S) (Q : Z -> cplx S -> Prop) (t' : tau S) (k : Z) : Prop :=
  exists T e T', T_out t = Some T /\ zlen T' = arr_size t /\
    t' = (match e with None => set_Tout t T' | Some _ => set_err (set_Tout t T') e end) /\
    (e = None -> progress t Q T k T').
(** The value of sample [i] is that of the quadratic transform with the window of
    an earlier (or the same) selected sample whose width differs by less than
    [two_dx]. *)
Definition fresnel_sample {S} (L : tmpl S) (t : tau S) (two_dx : S) (i : Z) (v : cplx S) : Prop :=
  exists j wj, start t <= j <= i /\ width t j wj /\ reusable t two_dx j i /\
    fresnel_value L t two_dx i wj v.
Definition newton_sample {S} (L : tmpl S) (t : tau S) (f : @newton_fn S) (two_dx : S) (rho : list S)
    (i : Z) (v : cplx S) : Prop :=
  exists j wj, start t <= j <= i /\ width t j wj /\ reusable t two_dx j i /\
    newton_value L t f two_dx rho i j wj v.
(** The same for the modes with half windows of buffered offsets and weights (the
    interpolated and the series modes). *)
Definition interp_sample {S} (L : tmpl S) (t : tau S)
    (f : tau S -> @buffer S -> @buffer S -> Z -> Z -> res (cplx S)) (two_dx : S) (i : Z) (v : cplx S) : Prop :=
  exists j wj m x w, start t <= j <= i /\ width t j wj /\ reusable t two_dx j i /\
    scast (wj / two_dx)%S = Ok m /\ holds x m (offset_x t m) /\ holds w m (half_weight L t m wj) /\
    f t x w m i = Ok v.
(** No failure to allocate memory, and a range check without complaint. *)
Definition no_obstacle {S} (L : tmpl S) (t : tau S) : Prop :=
  (forall site, t_alloc L site = true) /\ check_data_range t = Ok t.
(** Quadratic mode also processes the sample after the selection: it is in the
    data and its window is no wider than some selected one. *)
Definition extra_sample_fits (t : dtau) : Prop :=
  start t + n_used t < arr_size t /\
  exists j x y, selected t j /\ width t j x /\ width t (start t + n_used t) y /\ (val y <= val x)%R.
(** The spacing used by the Newton modes (twice the first difference of radii)
    and by the interpolated modes (twice the difference at the selection). *)
Definition spacing_at (t : dtau) (i : Z) (two_dx : double) : Prop :=
  exists r0 r1, rd t RHO i = Ok r0 /\ rd t RHO (i + 1) = Ok r1 /\ two_dx = dmul (dofZ 2) (dsub r1 r0).
(** Every selected window is at least [two_dx] wide. *)
Definition widths_at_least (t : dtau) (two_dx : double) : Prop :=
  forall i x, selected t i -> width t i x -> (val two_dx <= val x)%R.
(** The object up to the wave numbers, which Legendre mode negates when the
    forward model is switched on: those with index 0 to [n_used], whatever the
    first selected sample is. *)
Definition same_but_k {S} (t t' : tau S) : Prop :=
  (use_fwd t = false /\ t' = t) \/
  (use_fwd t = true /\ exists k k', arr t KV = Some k /\ zlen k' = zlen k /\
     (forall i v, entry k i v -> entry k' i (if i <=? n_used t then (v * - s1)%S else v)) /\
     t' = set_f t KV (Some k')).
