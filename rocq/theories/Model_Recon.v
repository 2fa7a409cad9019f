(** * Model_Recon: window buffers, the diffraction-correction drivers and the full
    reconstruction (src/tau, src/reconstruction).  Definitions only.

    [#pragma omp parallel] with [omp for schedule(static)] is modelled by a list
    of contiguous chunks (first iteration, number of iterations), one per thread;
    each chunk starts from its own copy of the private variables.  The chunks are
    executed one after the other: each iteration writes only its own cell of
    [T_out] and reads nothing another iteration writes. *)
From Coq Require Import List ZArith Bool String.
From Verif Require Import Base Scalar Model_TauRec Model_Checks Model_Select
  Model_Transform Model_Interp.
Import ListNotations.
Open Scope string_scope.
Open Scope Z_scope.

(** A schedule: for a number of iterations, the chunks of the threads. *)
Definition schedule : Type := Z -> list (Z * Z).
Fixpoint chunks_from (lo : Z) (cs : list (Z * Z)) (hi : Z) : Prop :=
  match cs with
  | [] => lo = hi
  | (a, n) :: r => a = lo /\ 0 <= n /\ chunks_from (lo + n) r hi
  end.
(** Contiguous chunks covering [0, count), at least one thread. *)
Definition valid_schedule (sch : schedule) : Prop :=
  forall count, 0 <= count -> sch count <> [] /\ chunks_from 0 (sch count) count.

Section Recon.
  Context {S : scalar} (L : tmpl S).
  Local Notation tau := (tau S).
  Local Notation cplx := (cplx S).
  Local Notation buffer := (@buffer S).
  Definition cbuf : Type := list (option cplx).

  (** malloc: [n] cells, none of them written. *)
  Definition fresh {A} (n : Z) : list (option A) := repeat None (Z.to_nat n).

  (** src/tau/rss_ringoccs_tau_reset_window.c 36-59. *)
  Definition reset_window (t : tau) (xw : buffer * buffer) (nw_pts center : Z)
    : res (buffer * buffer) :=
    for_range 0 nw_pts (fun n st =>
      let '(x, w) := st in
      let xn := ((sofZ n - sofZ nw_pts) * dx t)%S in
      do x1 <- awrite x n (Some xn);
      do wc <- rd t WKM center;
      do w1 <- awrite w n (Some (t_window L (window t) xn wc));
      Ok (x1, w1)) xw.

  (** src/tau/rss_ringoccs_tau_compute_fresnel_window.c 6-36
      ([rssringoccs_Tau_Reset_Fresnel_Window]). *)
  Definition reset_fresnel_window (t : tau) (xw : buffer * buffer)
      (nw_pts center : Z) : res (buffer * buffer) :=
    for_range 0 nw_pts (fun n st =>
      let '(x, w) := st in
      let xn := ((sofZ n - sofZ nw_pts) * dx t)%S in
      do wc <- rd t WKM center;
      do w1 <- awrite w n (Some (t_window L (window t) xn wc));
      do x1 <- awrite x n (Some (xn * (spihalf * xn))%S);
      Ok (x1, w1)) xw.

  (** src/tau/rss_ringoccs_tau_compute_window.c 4-36. *)
  Definition compute_window (t : tau) (w : buffer) (nw_pts center : Z)
    : res buffer :=
    let off := center - nw_pts / 2 in
    for_range 0 nw_pts (fun n w =>
      do a <- rd t RHO (off + n);
      do b <- rd t RHO center;
      do wc <- rd t WKM center;
      awrite w n (Some (t_window L (window t) (a - b)%S wc))) w.

  (** [tmpl_Double_Array_Max(tau->w_km_vals + tau->start, tau->n_used)]. *)
  Definition w_max_of (t : tau) : res S :=
    do w <- deref (arr t WKM);
    do l <- aprefix (skipn (Z.to_nat (start t)) w) (n_used t);
    Ok (t_max L l).

  Definition set_Tout (t : tau) (T : cbuf) : tau := set_T_out t (Some T).

  (** *** Quadratic Fresnel mode *)

  (** Private variables of a thread: w_init, nw_pts, x_arr, w_func. *)
  Definition priv : Type := (S * Z * buffer * buffer)%type.

  (** src/reconstruction/rss_ringoccs_diffraction_correction_fresnel.c 396-430:
      one iteration of the loop. *)
  Definition fresnel_iter (t : tau) (two_dx : S) (n : Z) (st : priv * cbuf)
    : res (priv * cbuf) :=
    let '((w_init, nw, x, w), T) := st in
    let center := start t + n in
    do wc <- rd t WKM center;
    do p <- (if sge (sabs (w_init - wc)%S) two_dx then
               do nw' <- scast (wc / two_dx)%S;
               do xw <- reset_fresnel_window t (x, w) nw' center;
               Ok (wc, nw', fst xw, snd xw)
             else Ok (w_init, nw, x, w));
    let '(w_init', nw', x', w') := p in
    do v <- fresnel_transform L t x' w' center nw';
    do T' <- awrite T center (Some v);
    Ok (p, T').

  (** One thread: initial private state, then its chunk of iterations. *)
  Definition fresnel_thread (t : tau) (two_dx w_max : S) (nw_max : Z)
      (chunk : Z * Z) (T : cbuf) : res cbuf :=
    let p0 := ((- sofZ 4 * w_max)%S, 0, fresh nw_max, fresh nw_max) in
    do st <- for_range (fst chunk) (snd chunk) (fresnel_iter t two_dx) (p0, T);
    Ok (snd st).
  Fixpoint run_threads {A} (f : Z * Z -> A -> res A) (cs : list (Z * Z)) (a : A)
    : res A :=
    match cs with
    | [] => Ok a
    | c :: r => do a1 <- f c a; run_threads f r a1
    end.
  (** src/reconstruction/rss_ringoccs_diffraction_correction_fresnel.c 308-442.
      The loop runs over n = 0 ... n_used inclusive (line 396).  Allocation
      sites 20 and 21; a failure is modelled as happening in every thread. *)
  Definition dc_fresnel (sch : schedule) (t : tau) : res tau :=
    do t1 <- check_core_data t;
    do t2 <- check_data_range t1;
    guarded t2 (
      let two_dx := (s2 * dx t2)%S in
      do w_max <- w_max_of t2;
      do nw_max <- scast (w_max / two_dx)%S;
      if negb (t_alloc L 20 && t_alloc L 21) then fail t2 "fresnel: malloc"
      else
        do T <- deref (T_out t2);
        do T' <- run_threads (fresnel_thread t2 two_dx w_max nw_max)
                   (sch (n_used t2 + 1)) T;
        Ok (set_Tout t2 T')).

  (** *** Newton modes *)

  Definition newton_fn : Type := tau -> buffer -> Z -> Z -> res cplx.
  (** src/fresnel_transform/rss_ringoccs_newton_transform_table.c 4-13. *)
  Definition newton_table : list newton_fn :=
    [newton_riemann L; newton_filon01 L; newton_filon11 L; newton_filon02 L;
     newton_filon12 L; elliptical_newton L; perturbed_newton L].
  (** src/fresnel_transform/rss_ringoccs_tau_select_newton_transform.c 7-57:
      [inl] the transform, [inr] the error message; reading outside the table
      is undefined. *)
  Definition select_newton (p : psitype) : res (newton_fn + string) :=
    if psi_val p =? psi_val PsiNone then Ok (inr "select: none")
    else if psi_val p <? psi_val PsiNewtonRiemann then Ok (inr "select: not newton")
    else if psi_val PsiNewtonPerturb <? psi_val p then Ok (inr "select: interpolated")
    else do f <- aread newton_table (psi_val p - psi_val PsiNewtonRiemann);
         Ok (inl f).

  (** src/reconstruction/rss_ringoccs_diffraction_correction_newton.c 120 and
      182: [(TMPL_CAST(w / two_dx, size_t) << 1) + 1]. *)
  Definition newton_points (w two_dx : S) : res Z :=
    do n <- scast (w / two_dx)%S; Ok (wrap64 (2 * n + 1)).

  (** src/reconstruction/rss_ringoccs_diffraction_correction_newton.c 168-190. *)
  Definition newton_iter (f : newton_fn) (t : tau) (two_dx : S) (n : Z)
      (st : (S * Z * buffer) * cbuf) : res ((S * Z * buffer) * cbuf) :=
    let '((w_init, nw, w), T) := st in
    let center := start t + n in
    do wc <- rd t WKM center;
    do p <- (if sge (sabs (w_init - wc)%S) two_dx then
               do nw' <- newton_points wc two_dx;
               do w' <- compute_window t w nw' center;
               Ok (wc, nw', w')
             else Ok (w_init, nw, w));
    let '(w_init', nw', w') := p in
    do v <- f t w' nw' center;
    do T' <- awrite T center (Some v);
    Ok (p, T').
  (** Lines 110-196: one thread. *)
  Definition newton_thread (f : newton_fn) (t : tau) (two_dx : S) (nw_max : Z)
      (chunk : Z * Z) (T : cbuf) : res cbuf :=
    do w_init <- rd t WKM (start t);
    do nw <- newton_points w_init two_dx;
    do w <- compute_window t (fresh nw_max) nw (start t);
    do st <- for_range (fst chunk) (snd chunk) (newton_iter f t two_dx)
               ((w_init, nw, w), T);
    Ok (snd st).
  (** src/reconstruction/rss_ringoccs_diffraction_correction_newton.c 30-200.
      Allocation site 22. *)
  Definition dc_newton (sch : schedule) (t : tau) : res tau :=
    do t1 <- check_core_data t;
    do t2 <- check_data_range t1;
    guarded t2 (
      do r1 <- rd t2 RHO 1;
      do r0 <- rd t2 RHO 0;
      let two_dx := (s2 * (r1 - r0))%S in
      do w_max <- w_max_of t2;
      do nw_max <- newton_points w_max two_dx;
      do sel <- select_newton (psinum t2);
      match sel with
      | inr m => fail t2 m
      | inl f =>
          if negb (t_alloc L 22) then fail t2 "newton: malloc"
          else
            do T <- deref (T_out t2);
            do T' <- run_threads (newton_thread f t2 two_dx nw_max)
                       (sch (n_used t2)) T;
            Ok (set_Tout t2 T')
      end).

  (** *** Interpolated Newton modes and Legendre modes (sequential) *)

  (** src/tau/rss_ringoccs_tau_resize_half_window.c 9-152.  [None]: no resize
      (return value 0); [Some (inl xw)]: resized; [Some (inr msg)]: error.  The
      buffers are never NULL here.  Allocation sites 100 + 2*center and
      101 + 2*center.  [realloc(p, 0)] may free [p] and return NULL
      ([t_realloc0]); line 92 then frees [p] a second time. *)
  Definition resize_half_window (t : tau) (xw : buffer * buffer) (width two_dx : S)
      (center : Z) : res (option ((buffer * buffer) + string)) :=
    do wc <- rd t WKM center;
    if sge (sabs (width - wc)%S) two_dx then
      do nw <- scast (wc / two_dx)%S;
      if (nw =? 0) && t_realloc0 L then UB DoubleFree
      else if negb (t_alloc L (100 + 2 * center)) then
        Ok (Some (inr "resize: x_arr"))
      else if negb (t_alloc L (101 + 2 * center)) then
        Ok (Some (inr "resize: w_func"))
      else
        let grow (b : buffer) : buffer :=
          (firstn (Z.to_nat nw) b ++ fresh (nw - zlen b))%list in
        do xw' <- reset_window t (grow (fst xw), grow (snd xw)) nw center;
        Ok (Some (inl xw'))
    else Ok None.

  Definition interp_fn : Type := tau -> buffer -> buffer -> Z -> Z -> res cplx.
  (** src/fresnel_transform/rss_ringoccs_newton_interp_transform_table.c 4-12;
      [None] = NULL. *)
  Definition interp_table : list (option interp_fn) :=
    [Some (newton4 L); Some (newton8 L); Some (newton16 L); None; None; None].
  (** src/fresnel_transform/rss_ringoccs_tau_select_newton_interp_transform.c
      7-57. *)
  Definition select_interp (p : psitype) : res (option interp_fn + string) :=
    if psi_val p =? psi_val PsiNone then Ok (inr "select: none")
    else if psi_val p <? psi_val PsiNewtonRiemann then Ok (inr "select: not newton")
    else if psi_val p <? psi_val PsiNewton4 then Ok (inr "select: not interpolated")
    else do f <- aread interp_table (psi_val p - psi_val PsiNewton4);
         Ok (inl f).

  (** State of the sequential loops: w_init, nw_pts, buffers, T_out, and the
      error that ends the loop early. *)
  Definition seq_state : Type := (priv * cbuf * option string)%type.
  (** src/reconstruction/rss_ringoccs_diffraction_correction_polynomial_newton.c
      141-177 and rss_ringoccs_diffraction_correction_legendre.c 218-285: one
      iteration, with [f] the transform. *)
  Definition seq_iter (f : tau -> buffer -> buffer -> Z -> Z -> res cplx) (t : tau)
      (two_dx : S) (n : Z) (st : seq_state) : res seq_state :=
    let '((w_init, nw, x, w), T, e) := st in
    match e with
    | Some _ => Ok st
    | None =>
        let center := start t + n in
        do r <- resize_half_window t (x, w) w_init two_dx center;
        do p <- match r with
                | None => Ok (inl (w_init, nw, x, w))
                | Some (inl xw) =>
                    do wc <- rd t WKM center;
                    do nw' <- scast (wc / two_dx)%S;
                    Ok (inl (wc, nw', fst xw, snd xw))
                | Some (inr m) => Ok (inr m)
                end;
        match p with
        | inr m => Ok ((w_init, nw, x, w), T, Some m)
        | inl (w_init', nw', x', w') =>
            do v <- f t x' w' nw' center;
            do T' <- awrite T center (Some v);
            Ok ((w_init', nw', x', w'), T', None)
        end
    end.
  (** The common tail of the two drivers, from the buffers on. *)
  Definition seq_run (f : tau -> buffer -> buffer -> Z -> Z -> res cplx) (t : tau)
      (w_init two_dx : S) (nw : Z) : res tau :=
    do T <- deref (T_out t);
    do xw <- reset_window t (fresh nw, fresh nw) nw (start t);
    do st <- for_range 0 (n_used t) (seq_iter f t two_dx)
               ((w_init, nw, fst xw, snd xw), T, None);
    let '(_, T', e) := st in
    let t' := set_Tout t T' in
    match e with Some m => fail t' m | None => Ok t' end.

  (** src/reconstruction/rss_ringoccs_diffraction_correction_polynomial_newton.c
      10-182.  Allocation sites 23 and 24. *)
  Definition dc_interp (t : tau) : res tau :=
    do t1 <- check_core_data t;
    do t2 <- check_data_range t1;
    guarded t2 (
      let c := start t2 in
      do w_init <- rd t2 WKM c;
      do r1 <- rd t2 RHO (c + 1);
      do r0 <- rd t2 RHO c;
      let two_dx := (s2 * (r1 - r0))%S in
      do nw <- scast (w_init / two_dx)%S;
      do sel <- select_interp (psinum t2);
      match sel with
      | inr m => fail t2 m
      | inl None => fail t2 "interp: not implemented"
      | inl (Some f) =>
          if negb (t_alloc L 23 && t_alloc L 24) then fail t2 "interp: malloc"
          else seq_run f t2 w_init two_dx nw
      end).

  Definition legendre_fn : Type :=
    tau -> buffer -> buffer -> list S -> Z -> Z -> res cplx.
  (** src/reconstruction/rss_ringoccs_diffraction_correction_legendre.c 92-98. *)
  Definition legendre_table : list legendre_fn :=
    [legendre_odd L; legendre_even L; legendre_odd_norm L; legendre_even_norm L].
  (** Lines 150-160: the table index. *)
  Definition legendre_index (t : tau) : Z :=
    (order t) mod 2 + 2 * (if use_norm t then 1 else 0).
  (** Lines 257-281: geometry coefficients and transform for one sample. *)
  Definition legendre_step (f : legendre_fn) (t : tau) (x w : buffer)
      (nw center : Z) : res cplx :=
    do b <- rd t BDEG center;
    do p <- rd t PHI center;
    let cosb := t_cosd L b in
    let alpha := (cosb * t_cosd L p)%S in
    let beta := (cosb * t_sind L p)%S in
    let beta := (beta * beta)%S in
    let beta := (beta * (shalf / (s1 - beta)))%S in
    f t x w (t_legendre L alpha beta (order t)) nw center.
  (** Lines 164-169: with forward modelling, k_vals[n] *= -1 for
      n = 0 ... n_used (not offset by [start], and inclusive). *)
  Definition flip_k (t : tau) : res tau :=
    if use_fwd t then
      do k <- deref (arr t KV);
      do k' <- for_range 0 (n_used t + 1) (fun n k =>
                 do v <- aread k n; awrite k n (v * - s1)%S) k;
      Ok (set_f t KV (Some k'))
    else Ok t.
  (** src/reconstruction/rss_ringoccs_diffraction_correction_legendre.c 100-291.
      Allocation sites 25, 26, 27. *)
  Definition dc_legendre (t : tau) : res tau :=
    guarded t (
      do t1 <- check_core_data t;
      do t2 <- check_data_range t1;
      guarded t2 (
        do f <- aread legendre_table (legendre_index t2);
        do t3 <- flip_k t2;
        let c := start t3 in
        do w_init <- rd t3 WKM c;
        do r1 <- rd t3 RHO (c + 1);
        do r0 <- rd t3 RHO c;
        let two_dx := (s2 * (r1 - r0))%S in
        do nw <- scast (w_init / two_dx)%S;
        if negb (t_alloc L 25 && t_alloc L 26 && t_alloc L 27)
        then fail t3 "legendre: malloc"
        else seq_run (legendre_step f) t3 w_init two_dx nw)).

  (** *** FFT mode *)

  (** src/reconstruction/rss_ringoccs_diffraction_correction_simple_fft.c 30-38
      on 64-bit [size_t].  After 64 doublings [power] is 0 and stays 0: the loop
      never ends. *)
  Fixpoint next_pow_2_loop (fuel : nat) (power n : Z) : res Z :=
    if power <? n then
      match fuel with
      | O => UB Diverges
      | Datatypes.S k => next_pow_2_loop k (wrap64 (2 * power)) n
      end
    else Ok power.
  Definition next_pow_2 (n : Z) : res Z := next_pow_2_loop 64 1 n.

  (** Lines 130-152: one sample of the kernel and of the data. *)
  Definition fft_sample (t : tau) (center strt : Z) (w_init w_thresh : S) (n : Z)
    : res (cplx * cplx) :=
    let offset := wrap64 (strt + n) in
    do a <- rd t RHO offset;
    do b <- rd t RHO center;
    let x := (a - b)%S in
    do ker <- (if sle (sabs x) w_thresh then
                 do k <- fresnel_kernel L t offset center;
                 Ok (cscale (t_window L (window t) x w_init * dx t)%S k)
               else Ok c0);
    do T <- rdT (T_in t) offset;
    Ok (ker, T).
  (** src/reconstruction/rss_ringoccs_diffraction_correction_simple_fft.c 40-188.
      Allocation sites 28 and 29.  (The [omp for] outside a parallel region runs
      sequentially.) *)
  Definition dc_fft (t : tau) : res tau :=
    do t1 <- check_core_data t;
    do t2 <- check_data_range t1;
    guarded t2 (
      let center := start t2 + n_used t2 / 2 in
      do w_init <- rd t2 WKM center;
      do half <- scast (w_init / dx t2)%S;
      let nw_pts := wrap64 (2 * half + 1) in
      let w_thresh := (shalf * w_init)%S in
      let data_size := wrap64 (n_used t2 + nw_pts - 1) in
      do fsize <- next_pow_2 (wrap64 (2 * data_size - 1));
      let shift := data_size / 2 in
      let strt := wrap64 (center - shift) in
      if negb (t_alloc L 28 && t_alloc L 29) then fail t2 "fft: malloc"
      else
        do kt <- tabulate data_size (fft_sample t2 center strt w_init w_thresh);
        let pad := repeat c0 (Z.to_nat (fsize - data_size)) in
        let fin := t_fft L (map snd kt ++ pad)%list in
        let fker := t_fft L (map fst kt ++ pad)%list in
        let prod := map (fun p => cmul (fst p) (snd p)) (combine fker fin) in
        let out := t_ifft L prod in
        do T <- deref (T_out t2);
        do T' <- for_range 0 (n_used t2) (fun n T =>
                   do v <- aread out ((half + n + shift) mod fsize);
                   awrite T (start t2 + n) (Some v)) T;
        Ok (set_Tout t2 T')).

  (** src/reconstruction/rss_ringoccs_diffraction_correction.c 5-37. *)
  Definition diffraction_correction (sch : schedule) (t : tau) : res tau :=
    guarded t (
      let p := psi_val (psinum t) in
      if p =? psi_val PsiFresnel then dc_fresnel sch t
      else if p =? psi_val PsiLegendre then dc_legendre t
      else if p =? psi_val PsiSimpleFFT then dc_fft t
      else if p <=? psi_val PsiNewtonPerturb then dc_newton sch t
      else if p <? psi_val PsiNone then dc_interp t
      else fail t "dispatch: none").

  (** src/reconstruction/rss_ringoccs_reconstruction.c 40-80: the forward model.
      [inr t] is the early return of line 67.  [t] carries [use_fwd] again.
      Allocation site 31 is the calloc of line 44. *)
  Definition forward_model (sch : schedule) (t : tau) : res (tau + tau) :=
    let temp_T_in := T_in t in
    let t1 := set_T_in t (T_out t) in
    let t2 := set_T_out t1
                (if t_alloc L 31
                 then Some (repeat (Some c0) (Z.to_nat (arr_size t1))) else None) in
    do wl <- rd t2 WKM (start t2);
    do wr <- rd t2 WKM (start t2 + n_used t2);
    let w_max := if slt wl wr then wr else wl in
    do nw <- scast (w_max / (dx t2 * s2))%S;
    if n_used t2 <=? wrap64 (2 * nw) then
      do t3 <- fail t2 "forward: not enough data"; Ok (inr t3)
    else
      let t3 := set_n_used (set_start t2 (start t2 + nw)) (n_used t2 - 2 * nw) in
      do t4 <- diffraction_correction sch t3;
      let t5 := set_n_used (set_start t4 (start t2)) (n_used t2) in
      let t6 := set_T_fwd t5 (T_out t5) in
      let t7 := set_T_out t6 (T_in t6) in
      Ok (inl (set_T_in t7 temp_T_in)).

  (** src/reconstruction/rss_ringoccs_reconstruction.c 9-84.  Allocation site 30
      is the malloc of line 26. *)
  Definition reconstruction (sch : schedule) (t : tau) : res tau :=
    do t1 <- check_keywords t;
    do t2 <- check_occ_type L t1;
    do t3 <- get_window_width L t2;
    do t4 <- check_data_range t3;
    guarded t4 (
      let t5 := set_T_out t4
                  (if t_alloc L 30 then Some (fresh (arr_size t4)) else None) in
      do t6 <- check_core_data t5;
      guarded t6 (
        let temp_fwd := use_fwd t6 in
        do t7 <- diffraction_correction sch (set_use_fwd t6 false);
        let t8 := set_use_fwd t7 temp_fwd in
        if use_fwd t8 then
          do r <- forward_model sch t8;
          match r with
          | inr t9 => Ok t9
          | inl t9 => finish L t9
          end
        else finish L t8)).
End Recon.
