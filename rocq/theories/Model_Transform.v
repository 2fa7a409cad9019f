(** * Model_Transform: the per-sample transforms of src/fresnel_transform.
    Definitions only.

    A transform computes the value it stores in [tau->T_out[center]]; the C code
    accumulates directly in that cell, the model accumulates in a local variable
    and the driver stores it (no other cell is touched).  Window buffers are lists
    of optional cells, [None] = never written.  Index subtractions such as
    [center - (nw_pts >> 1)] are unsigned in C; when they wrap around, the first
    access through the result is out of bounds, and so is the access through the
    corresponding negative integer here. *)
From Coq Require Import List ZArith Bool String.
From Verif Require Import Base Scalar Model_TauRec.
Import ListNotations.
Open Scope Z_scope.

Section Transform.
  Context {S : scalar} (L : tmpl S).
  Local Notation tau := (tau S).
  Local Notation cplx := (cplx S).
  Definition buffer : Type := list (option S).

  (** Element reads: [tau->f[i]], [T[i]], [buf[i]]. *)
  Definition rd (t : tau) (f : rf) (i : Z) : res S :=
    do l <- deref (arr t f); aread l i.
  Definition cell {A} (c : option A) : res A :=
    match c with Some x => Ok x | None => UB Uninitialised end.
  Definition rdT (p : option (list (option cplx))) (i : Z) : res cplx :=
    do l <- deref p; do c <- aread l i; cell c.
  Definition rdb (b : buffer) (i : Z) : res S :=
    do c <- aread b i; cell c.

  (** tmpl_CDouble_Polar. *)
  Definition polar (r th : S) : cplx := (r * t_cos L th, r * t_sin L th)%S.
  (** tmpl_CDouble_Midpoint. *)
  Definition cmid (z w : cplx) : cplx := cscale shalf (cadd z w).

  (** src/fresnel_transform/rss_ringoccs_fresnel_transform.c 239-276: the loop
      body, for iteration [m]; the state is (T_out[center], norm). *)
  Definition fresnel_body (t : tau) (x w : buffer) (center n_pts : Z)
      (psi_factor : S) (m : Z) (st : cplx * cplx) : res (cplx * cplx) :=
    let '(acc, norm) := st in
    let n := n_pts - m in
    do xm <- rdb x m;
    let psi := (psi_factor * xm)%S in
    do wm <- rdb w m;
    let e := polar wm (- psi)%S in
    let norm' := if use_norm t then cadd norm e else norm in
    do a <- rdT (T_in t) (center - n);
    do b <- rdT (T_in t) (center + n);
    Ok (cadd acc (cmul (cadd a b) e), norm').
  (** src/fresnel_transform/rss_ringoccs_fresnel_transform.c 193-304. *)
  Definition fresnel_transform (t : tau) (x w : buffer) (center n_pts : Z)
    : res cplx :=
    do F <- rd t FKM center;
    let rF := (s1 / F)%S in
    let sign := if use_fwd t then (- s1)%S else s1 in
    let psi_factor := (sign * rF * rF)%S in
    do T0 <- rdT (T_in t) center;
    do st <- for_range 0 n_pts (fresnel_body t x w center n_pts psi_factor)
               (T0, c0);
    let '(acc, norm) := st in
    let scale :=
      if use_norm t then
        (srsqrttwo / t_cabs L (s2 * cre norm + s1, cim norm * s2))%S
      else (shalf * dx t * rF)%S in
    Ok (scale * (cre acc - cim acc), scale * (cre acc + cim acc))%S.

  (** The geometry structure filled in rss_ringoccs_fresnel_kernel.c 159-174,
      rss_ringoccs_fresnel_phase_and_weight.c 27-39 (with [phi_d] the azimuth of
      sample [v0]) and rss_ringoccs_fast_fresnel_phase_and_weight.c 29-41
      ([phi_d] the caller's guess). *)
  Definition geo_at (t : tau) (v0 v1 : Z) (phi_d : S) : res (geometry S) :=
    do x <- rd t RX v0; do y <- rd t RY v0; do z <- rd t RZ v0;
    do r0 <- rd t RHO v0; do p0 <- rd t PHI v0;
    do r1 <- rd t RHO v1;
    Ok (mkGeo (x, y, z) (r0, p0) (r1, phi_d)).

  (** src/fresnel_transform/rss_ringoccs_fresnel_kernel.c 132-209. *)
  Definition fresnel_kernel (t : tau) (center offset : Z) : res cplx :=
    let v0 := if use_fwd t then center else offset in
    let v1 := if use_fwd t then offset else center in
    do p <- rd t PHI v0;
    do g <- geo_at t v0 v1 p;
    do k <- rd t KV v0;
    let ker := t_kernel L k g (eps t) (toler t) in
    Ok (if use_fwd t then ker else cconj ker).

  (** src/fresnel_transform/rss_ringoccs_fresnel_phase_and_weight.c 10-74:
      (weight, psi). *)
  Definition phase_and_weight (t : tau) (center offset : Z) : res (S * S) :=
    let v0 := if use_fwd t then center else offset in
    let v1 := if use_fwd t then offset else center in
    do p <- rd t PHI v0;
    do g <- geo_at t v0 v1 p;
    do k <- rd t KV v0;
    let '(_, wt, psi) := t_phasew L k g (eps t) (toler t) in
    Ok (wt, if use_fwd t then psi else (- psi)%S).

  (** src/fresnel_transform/rss_ringoccs_fast_fresnel_phase_and_weight.c 10-78:
      (new azimuth guess in degrees, weight, psi). *)
  Definition fast_phase_and_weight (t : tau) (center offset : Z) (guess : S)
    : res (S * S * S) :=
    let v0 := if use_fwd t then center else offset in
    let v1 := if use_fwd t then offset else center in
    do g <- geo_at t v0 v1 guess;
    do k <- rd t KV v0;
    let '(phi_s, wt, psi) := t_phasew L k g (eps t) (toler t) in
    Ok ((sfrac 5729577951308232 100000000000000 * phi_s)%S, wt,
        if use_fwd t then psi else (- psi)%S).

  (** src/fresnel_transform/rss_ringoccs_fresnel_transform_newton_riemann.c
      66-87: loop body; state (T_out[center], norm). *)
  Definition riemann_body (t : tau) (w : buffer) (center off0 n : Z)
      (st : cplx * cplx) : res (cplx * cplx) :=
    let '(acc, norm) := st in
    do k <- fresnel_kernel t center (off0 + n);
    do wn <- rdb w n;
    let ker := cscale wn k in
    let norm' := if use_norm t then cadd norm ker else norm in
    do T <- rdT (T_in t) (off0 + n);
    Ok (cadd acc (cmul ker T), norm').
  (** src/fresnel_transform/rss_ringoccs_fresnel_transform_newton_riemann.c
      33-107.  The loop stops before the last point of the window. *)
  Definition newton_riemann (t : tau) (w : buffer) (nw_pts center : Z) : res cplx :=
    let off0 := center - nw_pts / 2 in
    do st <- for_range 0 (wrap64 (nw_pts - 1)) (riemann_body t w center off0)
               (c0, c0);
    let '(acc, norm) := st in
    Ok (if use_norm t then cscale (s1 / t_cabs L norm)%S acc
        else cscale (dx t) acc).

  (** src/fresnel_transform/rss_ringoccs_fresnel_transform_newton_filon01.c
      42-73: loop body; state (T_out[center], norm, left_scale, left_psi, left). *)
  Definition filon01_body (t : tau) (w : buffer) (center off0 n : Z)
      (st : cplx * cplx * S * S * cplx) : res (cplx * cplx * S * S * cplx) :=
    let '(acc, norm, ls, lp, l) := st in
    do wp <- phase_and_weight t center (off0 + n + 1);
    let '(wt, rp) := wp in
    do wn <- rdb w (n + 1);
    let rs := (wt * wn)%S in
    do T <- rdT (T_in t) (off0 + n + 1);
    let r := cscale rs T in
    let acc' := cadd acc (t_filon01 L (cmid l r) lp rp (dx t)) in
    let norm' := if use_norm t
                 then cadd norm (t_rfilon01 L (shalf * (ls + rs))%S lp rp (dx t))
                 else norm in
    Ok (acc', norm', rs, rp, r).
  (** Common prologue of the Filon quadratures: first point of the window. *)
  Definition filon_first (t : tau) (w : buffer) (center off0 : Z)
    : res (S * S * cplx) :=
    do wp <- phase_and_weight t center off0;
    let '(wt, lp) := wp in
    do w0 <- rdb w 0;
    let ls := (wt * w0)%S in
    do T <- rdT (T_in t) off0;
    Ok (ls, lp, cscale ls T).
  (** src/fresnel_transform/rss_ringoccs_fresnel_transform_newton_filon01.c
      17-88. *)
  Definition newton_filon01 (t : tau) (w : buffer) (nw_pts center : Z) : res cplx :=
    let off0 := center - nw_pts / 2 in
    do f <- filon_first t w center off0;
    let '(ls, lp, l) := f in
    do st <- for_range 0 (wrap64 (nw_pts - 1)) (filon01_body t w center off0)
               (c0, c0, ls, lp, l);
    let '(acc, norm, _, _, _) := st in
    Ok (if use_norm t then cscale (s1 / t_cabs L norm)%S acc else acc).

  (** src/fresnel_transform/rss_ringoccs_fresnel_transform_newton_filon11.c
      266-294. *)
  Definition filon11_body (t : tau) (w : buffer) (center off0 n : Z)
      (st : cplx * cplx * S * S * cplx) : res (cplx * cplx * S * S * cplx) :=
    let '(acc, norm, ls, lp, l) := st in
    do wp <- phase_and_weight t center (off0 + n + 1);
    let '(wt, rp) := wp in
    do wn <- rdb w (n + 1);
    let rs := (wt * wn)%S in
    do T <- rdT (T_in t) (off0 + n + 1);
    let r := cscale rs T in
    let acc' := cadd acc (t_filon11 L l r lp rp (dx t)) in
    let norm' := if use_norm t
                 then cadd norm (t_rfilon11 L ls rs lp rp (dx t)) else norm in
    Ok (acc', norm', rs, rp, r).
  (** src/fresnel_transform/rss_ringoccs_fresnel_transform_newton_filon11.c
      240-309. *)
  Definition newton_filon11 (t : tau) (w : buffer) (nw_pts center : Z) : res cplx :=
    let off0 := center - nw_pts / 2 in
    do f <- filon_first t w center off0;
    let '(ls, lp, l) := f in
    do st <- for_range 0 (wrap64 (nw_pts - 1)) (filon11_body t w center off0)
               (c0, c0, ls, lp, l);
    let '(acc, norm, _, _, _) := st in
    Ok (if use_norm t then cscale (s1 / t_cabs L norm)%S acc else acc).

  (** Number of iterations of [for (n = 0; n < nw_pts - 2; n += 2)] with unsigned
      arithmetic: for nw_pts = 1 the bound is 2^64 - 1. *)
  Definition pair_count (nw_pts : Z) : Z := (wrap64 (nw_pts - 2) + 1) / 2.

  (** src/fresnel_transform/rss_ringoccs_fresnel_transform_newton_filon02.c
      43-77: iteration [m] has n = 2 m; state (T_out[center], left_psi, left). *)
  Definition filon02_body (t : tau) (w : buffer) (center off0 m : Z)
      (st : cplx * S * cplx) : res (cplx * S * cplx) :=
    let '(acc, lp, l) := st in
    let n := 2 * m in
    do wp <- phase_and_weight t center (off0 + n + 1);
    let '(wt, mp) := wp in
    do wn <- rdb w (n + 1);
    do T <- rdT (T_in t) (off0 + n + 1);
    let mid := cscale (wt * wn)%S T in
    do wp2 <- phase_and_weight t center (off0 + n + 2);
    let '(wt2, rp) := wp2 in
    do wn2 <- rdb w (n + 2);
    do T2 <- rdT (T_in t) (off0 + n + 2);
    let r := cscale (wt2 * wn2)%S T2 in
    Ok (cadd acc (t_filon02 L (cmid l mid) (cmid mid r) lp mp rp (dx t)), rp, r).
  (** src/fresnel_transform/rss_ringoccs_fresnel_transform_newton_filon02.c
      17-78.  [use_norm] is not consulted. *)
  Definition newton_filon02 (t : tau) (w : buffer) (nw_pts center : Z) : res cplx :=
    let off0 := center - nw_pts / 2 in
    do f <- filon_first t w center off0;
    let '(_, lp, l) := f in
    do st <- for_range 0 (pair_count nw_pts) (filon02_body t w center off0)
               (c0, lp, l);
    let '(acc, _, _) := st in Ok acc.

  (** src/fresnel_transform/rss_ringoccs_fresnel_transform_newton_filon12.c
      44-76; state (T_out[center], phi_s, left_psi, left). *)
  Definition filon12_body (t : tau) (w : buffer) (center off0 m : Z)
      (st : cplx * S * S * cplx) : res (cplx * S * S * cplx) :=
    let '(acc, ph, lp, l) := st in
    let n := 2 * m in
    do a <- fast_phase_and_weight t center (off0 + n + 1) ph;
    let '(ph1, wt, mp) := a in
    do wn <- rdb w (n + 1);
    do T <- rdT (T_in t) (off0 + n + 1);
    let mid := cscale (wt * wn)%S T in
    do b <- fast_phase_and_weight t center (off0 + n + 2) ph1;
    let '(ph2, wt2, rp) := b in
    do wn2 <- rdb w (n + 2);
    do T2 <- rdT (T_in t) (off0 + n + 2);
    let r := cscale (wt2 * wn2)%S T2 in
    Ok (cadd acc (t_filon12 L l mid r lp mp rp (dx t)), ph2, rp, r).
  (** src/fresnel_transform/rss_ringoccs_fresnel_transform_newton_filon12.c
      17-77.  [use_norm] is not consulted. *)
  Definition newton_filon12 (t : tau) (w : buffer) (nw_pts center : Z) : res cplx :=
    let off0 := center - nw_pts / 2 in
    do ph <- rd t PHI off0;
    do a <- fast_phase_and_weight t center off0 ph;
    let '(ph1, wt, lp) := a in
    do w0 <- rdb w 0;
    do T <- rdT (T_in t) off0;
    let l := cscale (wt * w0)%S T in
    do st <- for_range 0 (pair_count nw_pts) (filon12_body t w center off0)
               (c0, ph1, lp, l);
    let '(acc, _, _, _) := st in Ok acc.

  (** src/fresnel_transform/rss_ringoccs_fresnel_transform_elliptical_newton.c
      52-96: the phase at sample [offset]. *)
  Definition elliptic_psi (t : tau) (center offset : Z) : res S :=
    let e := ecc t in
    let ecc_factor := (s1 - e * e)%S in
    do phc <- rd t PHI center;
    do rc <- rd t RHO center;
    let sm := (rc * (s1 + e * t_cos L (phc - peri t)) / ecc_factor)%S in
    do kc <- rd t KV center;
    do ro <- rd t RHO offset;
    do pho <- rd t PHI offset;
    do bc <- rd t BDEG center;
    do x <- rd t RX center; do y <- rd t RY center; do z <- rd t RZ center;
    let phi := t_ellphi L [kc; rc; ro; pho; pho; bc; e; peri t; x; y; z; eps t]
                 (toler t) in
    let D := t_obsdist L [ro; phi; x; y; z] in
    let rho := (sm * ecc_factor / (s1 + e * t_cos L (phi - peri t)))%S in
    Ok (t_idealpsi L [kc; rho; ro; phi; pho; bc; D]).
  (** src/fresnel_transform/rss_ringoccs_fresnel_transform_perturbed_newton.c
      49-82: the phase at sample [offset]; [perturb] has five entries. *)
  Definition perturbed_psi (t : tau) (center offset : Z) : res S :=
    do rc <- rd t RHO center;
    do ro <- rd t RHO offset;
    do dc <- rd t DKM center;
    let x := ((rc - ro) / dc)%S in
    do kc <- rd t KV center;
    do pho <- rd t PHI offset;
    do bc <- rd t BDEG center;
    let phi := t_idealphi L [kc; rc; ro; pho; pho; bc; dc; eps t] (toler t) in
    let psi := t_idealpsi L [kc; rc; ro; phi; pho; bc; dc] in
    do p4 <- aread (perturb t) 4; do p3 <- aread (perturb t) 3;
    do p2 <- aread (perturb t) 2; do p1 <- aread (perturb t) 1;
    do p0 <- aread (perturb t) 0;
    let poly := ((((x * p4 + p3) * x + p2) * x + p1) * x + p0)%S in
    Ok (psi + poly * (kc * dc))%S.
  (** Loop bodies rss_ringoccs_fresnel_transform_elliptical_newton.c 98-108 and
      rss_ringoccs_fresnel_transform_perturbed_newton.c 85-95. *)
  Definition newton_sum_body (t : tau) (psi_at : Z -> res S) (w : buffer)
      (off0 m : Z) (st : cplx * cplx) : res (cplx * cplx) :=
    let '(acc, norm) := st in
    do psi <- psi_at (off0 + m);
    do wm <- rdb w m;
    let e := polar wm (- psi)%S in
    do T <- rdT (T_in t) (off0 + m);
    Ok (cadd acc (cmul e T), cadd norm e).
  (** src/fresnel_transform/rss_ringoccs_fresnel_transform_elliptical_newton.c
      23-121.  [use_norm] and [use_fwd] are not consulted. *)
  Definition elliptical_newton (t : tau) (w : buffer) (nw_pts center : Z) : res cplx :=
    let off0 := center - (nw_pts - 1) / 2 in
    do st <- for_range 0 nw_pts
               (newton_sum_body t (elliptic_psi t center) w off0) (c0, c0);
    let '(acc, norm) := st in
    let rn := (ssqrttwo / t_cabs L norm)%S in
    Ok (cmul (shalf * rn, shalf * rn)%S acc).
  (** src/fresnel_transform/rss_ringoccs_fresnel_transform_perturbed_newton.c
      22-108.  [use_norm] and [use_fwd] are not consulted. *)
  Definition perturbed_newton (t : tau) (w : buffer) (nw_pts center : Z) : res cplx :=
    let off0 := center - (nw_pts - 1) / 2 in
    do st <- for_range 0 nw_pts
               (newton_sum_body t (perturbed_psi t center) w off0) (c0, c0);
    let '(acc, norm) := st in
    let rn := (srsqrttwo / t_cabs L norm)%S in
    Ok (cmul (rn, rn) acc).

  (** ** Legendre transforms *)

  (** rss_ringoccs_fresnel_transform_legendre_odd.c 109-116 (with
      [bound = order - 1]) and rss_ringoccs_fresnel_transform_legendre_odd_norm.c
      59-66 ([bound = order]): the pair (psi_odd, psi_even) after the Horner loop
      [for (k = 3; k < bound; k += 2)]. *)
  Definition horner_pair (coeffs : list S) (order bound : Z) (x2 : S)
    : res (S * S) :=
    do a <- aread coeffs (order - 1);
    do b <- aread coeffs (order - 2);
    for_range 0 ((bound - 2) / 2) (fun i st =>
      let k := 3 + 2 * i in
      let '(p, q) := st in
      do u <- aread coeffs (order - k);
      do v <- aread coeffs (order - k - 1);
      Ok (p * x2 + u, q * x2 + v)%S) (a, b).

  (** Phases (left of centre, right of centre) at abscissa [x], odd degree.
      rss_ringoccs_fresnel_transform_legendre_odd.c 104-128 and
      rss_ringoccs_fresnel_transform_legendre_odd_norm.c 54-78: the left sample
      uses [psi_even - psi_odd]. *)
  Definition legendre_odd_phases (coeffs : list S) (order bound : Z) (kD x : S)
    : res (S * S) :=
    let x2 := (x * x)%S in
    do pq <- horner_pair coeffs order bound x2;
    let '(podd, peven) := pq in
    let pe := (peven * (kD * x2))%S in
    let po := (podd * (kD * x2 * x))%S in
    Ok (pe - po, pe + po)%S.
  (** Phases (left, right), even degree.
      rss_ringoccs_fresnel_transform_even_polynomial.c 294-363 and
      rss_ringoccs_fresnel_transform_normalized_even_polynomial.c 335-404: the
      left sample uses [psi_even + psi_odd]. *)
  Definition legendre_even_phases (coeffs : list S) (order : Z) (kD x : S)
    : res (S * S) :=
    let x2 := (x * x)%S in
    do pq <- horner_pair coeffs order (order - 1) x2;
    let '(peven, podd) := pq in
    do c <- aread coeffs 0;
    let pe := (peven * x2 + c)%S in
    let po := (podd * x)%S in
    Ok (kD * x2 * (pe + po), kD * x2 * (pe - po))%S.

  (** Loop body shared by the four Legendre transforms; [phases] gives the two
      phases; state (T_out[center], norm).  (The two unnormalised versions do
      not accumulate [norm]; its value is unused there.) *)
  Definition legendre_body (t : tau) (phases : S -> res (S * S)) (x w : buffer)
      (rD : S) (n_pts center n : Z) (st : cplx * cplx) : res (cplx * cplx) :=
    let '(acc, norm) := st in
    let m := n_pts - n in
    do xn <- rdb x n;
    do ps <- phases (xn * rD)%S;
    let '(psl, psr) := ps in
    do wn <- rdb w n;
    let el := polar wn (- psl)%S in
    let er := polar wn (- psr)%S in
    do Tl <- rdT (T_in t) (center - m);
    do Tr <- rdT (T_in t) (center + m);
    Ok (cadd (cadd acc (cmul el Tl)) (cmul er Tr), cadd (cadd norm el) er).
  Definition legendre_sum (t : tau) (phases : S -> S -> res (S * S)) (x w : buffer)
      (n_pts center : Z) : res (cplx * cplx) :=
    do D <- rd t DKM center;
    do k <- rd t KV center;
    let rD := (s1 / D)%S in
    do st <- for_range 0 n_pts
               (legendre_body t (phases (k * D)%S) x w rD n_pts center) (c0, c0);
    let '(acc, norm) := st in
    do T0 <- rdT (T_in t) center;
    Ok (cadd acc T0, (cre norm + s1, cim norm)%S).
  (** rss_ringoccs_fresnel_transform_legendre_odd.c 73-148. *)
  Definition legendre_odd (t : tau) (x w : buffer) (coeffs : list S)
      (n_pts center : Z) : res cplx :=
    do F <- rd t FKM center;
    do st <- legendre_sum t
               (fun kD => legendre_odd_phases coeffs (order t) (order t - 1) kD)
               x w n_pts center;
    let f := (shalf * dx t / F)%S in
    Ok (cmul (f, f) (fst st)).
  (** rss_ringoccs_fresnel_transform_legendre_odd_norm.c 23-109. *)
  Definition legendre_odd_norm (t : tau) (x w : buffer) (coeffs : list S)
      (n_pts center : Z) : res cplx :=
    do st <- legendre_sum t
               (fun kD => legendre_odd_phases coeffs (order t) (order t) kD)
               x w n_pts center;
    let f := (srsqrttwo / t_cabs L (snd st))%S in
    Ok (cmul (f, f) (fst st)).
  (** rss_ringoccs_fresnel_transform_even_polynomial.c 236-398. *)
  Definition legendre_even (t : tau) (x w : buffer) (coeffs : list S)
      (n_pts center : Z) : res cplx :=
    do F <- rd t FKM center;
    do st <- legendre_sum t
               (fun kD => legendre_even_phases coeffs (order t) kD)
               x w n_pts center;
    let f := (shalf * dx t / F)%S in
    Ok (cmul (f, f) (fst st)).
  (** rss_ringoccs_fresnel_transform_normalized_even_polynomial.c 268-463. *)
  Definition legendre_even_norm (t : tau) (x w : buffer) (coeffs : list S)
      (n_pts center : Z) : res cplx :=
    do st <- legendre_sum t
               (fun kD => legendre_even_phases coeffs (order t) kD)
               x w n_pts center;
    let f := (srsqrttwo / t_cabs L (snd st))%S in
    Ok (cmul (f, f) (fst st)).
End Transform.
