(** * Model_Select: orientation, window selection and finishing of a tau object
    (src/tau).  Definitions only. *)
From Coq Require Import List ZArith Bool String.
From Verif Require Import Base Scalar Model_TauRec Model_Checks.
Import ListNotations.
Open Scope string_scope.
Open Scope Z_scope.

Section Select.
  Context {S : scalar} (L : tmpl S).
  Local Notation tau := (tau S).

  (** [tmpl_Double_Array_Reverse(tau->f, tau->arr_size)]: reverses the first
      [arr_size] cells.  A NULL array is dereferenced. *)
  Definition reverse_f (f : rf) (t : tau) : res tau :=
    do l <- deref (arr t f);
    do p <- aprefix l (arr_size t);
    Ok (set_f t f (Some (rev p ++ skipn (Z.to_nat (arr_size t)) l)%list)).

  (** The fourteen calls of src/tau/rss_ringoccs_tau_check_occ_type.c 209-222,
      in order. *)
  Definition occ_reversed : list rf :=
    [RHO; PHI; BDEG; DKM; RHODOT; TOET; TRET; TSET; PHIRL; RX; RY; RZ;
     CPOLE; CTIM].
  Fixpoint reverse_all (fs : list rf) (t : tau) : res tau :=
    match fs with
    | [] => Ok t
    | f :: r => do t1 <- reverse_f f t; reverse_all r t1
    end.

  (** src/tau/rss_ringoccs_tau_check_occ_type.c 196-198 and 224-226:
      [rho_dot[n] = |rho_dot[n]|] for n < arr_size. *)
  Definition abs_rho_dot (t : tau) : res tau :=
    do l <- deref (arr t RHODOT);
    do p <- aprefix l (arr_size t);
    Ok (set_f t RHODOT
          (Some (map sabs p ++ skipn (Z.to_nat (arr_size t)) l)%list)).

  (** src/tau/rss_ringoccs_tau_check_occ_type.c 76-230. *)
  Definition check_occ_type (t : tau) : res tau :=
    guarded t (
      match arr t RHODOT with
      | None => fail t "occ: null"
      | Some rd =>
          if arr_size t <=? 1 then fail t "occ: less than 2 points"
          else if seqb (dx t) s0 then fail t "occ: dx zero"
          else
            do l <- aprefix rd (arr_size t);
            let '(mn, mx) := t_minmax L l in
            if slt mn s0 && sgt mx s0 then fail t "occ: both signs"
            else if seqb mn s0 || seqb mx s0 then fail t "occ: zero"
            else if slt (dx t) s0 && sgt mn s0 then fail t "occ: contradictory"
            else if sgt (dx t) s0 && slt mx s0 then abs_rho_dot t
            else if slt (dx t) s0 then
              do t1 <- reverse_all occ_reversed t;
              do t2 <- abs_rho_dot t1;
              Ok (set_dx t2 (sabs (dx t2)))
            else Ok t
      end).

  (** tmpl_Speed_Of_Light_KMS: 299792.458. *)
  Definition c_kms : S := sfrac 299792458 1000.

  (** src/tau/rss_ringoccs_tau_get_window_width.c 29-55: first selected sample.
      Returns the new [range0] and [start], or [None] for the error. *)
  Definition gww_start (t : tau) (rho : list S) : res (option (S * Z)) :=
    do r0 <- aread rho 0;
    if sle (range0 t) r0 then Ok (Some (r0, 0))
    else
      do rl <- aread rho (wrap64 (arr_size t - 1));
      if sgt (range0 t) rl then Ok None
      else
        do n <- scan (fun r => slt r (range0 t)) rho 0;
        do rn <- aread rho n;
        Ok (Some (rn, n)).

  (** src/tau/rss_ringoccs_tau_get_window_width.c 57-83: number of samples.
      [t] already carries the new [start]. *)
  Definition gww_count (t : tau) (rho : list S) : res (option (S * Z)) :=
    do rl <- aread rho (wrap64 (arr_size t - 1));
    if sge (range1 t) rl then Ok (Some (rl, wrap64 (arr_size t - start t)))
    else
      do r0 <- aread rho 0;
      if slt (range1 t) r0 then Ok None
      else
        do n <- scan (fun r => sle r (range1 t)) rho (start t);
        do rn <- aread rho n;
        Ok (Some (rn, n - start t)).

  (** src/tau/rss_ringoccs_tau_get_window_width.c 109-116: the private buffers
      [alpha] and [P_vals] (as pairs).  Line 114 divides by [rho_dot[n]], not
      [rho_dot[n + start]]. *)
  Definition alpha_P (t : tau) (Fk kv rd : list S) (n : Z) : res (S * S) :=
    do F <- aread Fk (n + start t);
    do k <- aread kv (n + start t);
    do v <- aread rd n;
    let omega := (c_kms * k)%S in
    let a := (omega * sigma t)%S in
    let alpha := (a * (a * shalf / v))%S in
    Ok (alpha, (reso t / (alpha * F * F))%S).

  (** src/tau/rss_ringoccs_tau_get_window_width.c 122-125: widths for the points
      with P > 1.  Line 125 divides by [alpha[n]], with [n] the position in the
      list of indices, not by [alpha[Prange_Index[n]]]. *)
  Fixpoint fill_w_bfac (t : tau) (alphas Ps : list S) (idx : list Z) (n : Z)
      (w : list S) : res (list S) :=
    match idx with
    | [] => Ok w
    | i :: r =>
        do p <- aread Ps i;
        do a <- aread alphas n;
        do w1 <- awrite w (start t + i) (normeq t * t_resinv L p / a)%S;
        fill_w_bfac t alphas Ps r (n + 1) w1
    end.

  (** src/tau/rss_ringoccs_tau_get_window_width.c 101-141: the array of window
      widths.  Allocation sites: 1 = w_km_vals, 2 = alpha, 3 = P_vals, 4 = the
      result of tmpl_Where_Greater_Double. *)
  Definition gww_widths (t : tau) : res (list S) :=
    do _ <- need (t_alloc L 1) (n_used t);
    let w0 := repeat s0 (Z.to_nat (arr_size t)) in
    if bfac t then
      do _ <- need (t_alloc L 2 && t_alloc L 3) (n_used t);
      do Fk <- deref (arr t FKM);
      do kv <- deref (arr t KV);
      do rd <- deref (arr t RHODOT);
      do ap <- tabulate (n_used t) (alpha_P t Fk kv rd);
      let alphas := map fst ap in
      let Ps := map snd ap in
      do _ <- need (t_alloc L 4) 1;
      fill_w_bfac t alphas Ps (where_ (fun p => sgt p s1) Ps) 0 w0
    else
      let w_fac := (normeq t / reso t)%S in
      do Fk <- deref (arr t FKM);
      for_range 0 (n_used t) (fun n w =>
        do F <- aread Fk (n + start t);
        awrite w (n + start t) (s2 * F * F * w_fac)%S) w0.

  (** src/tau/rss_ringoccs_tau_get_window_width.c 145-150 and 181-186: the
      buffer [rho_legal], with [op] subtraction or addition. *)
  Definition rho_legal (op : S -> S -> S) (t : tau) (rho w : list S)
    : res (list S) :=
    tabulate (n_used t) (fun n =>
      do r <- aread rho (start t + n);
      do x <- aread w (start t + n);
      Ok (op r (shalf * x)%S)).

  (** src/tau/rss_ringoccs_tau_get_window_width.c 143-235: trimming of the
      selection to the points whose windows fit.  Allocation sites: 5 =
      rho_legal, 6 and 7 = results of the two Where functions. *)
  Definition gww_trim (t : tau) (rho w : list S) : res tau :=
    do _ <- need (t_alloc L 5) (n_used t);
    do left <- rho_legal ssub t rho w;
    do r0 <- aread rho 0;
    do _ <- need (t_alloc L 6) 1;
    match where_ (fun r => sgt r r0) left with
    | [] => fail t "window: left"
    | i0 :: _ =>
        let t1 := if 0 <? i0
                  then set_n_used (set_start t (start t + i0)) (n_used t - i0)
                  else t in
        do right <- rho_legal sadd t1 rho w;
        do rl <- aread rho (wrap64 (arr_size t - 1));
        do _ <- need (t_alloc L 7) 1;
        match where_ (fun r => slt r rl) right with
        | [] => fail t1 "window: right"
        | i :: r =>
            let last := List.last (i :: r) 0 in
            let t2 := if last <? n_used t1
                      then set_n_used t1 (zlen (i :: r) - 1)
                      else t1 in
            if arr_size t2 <? start t2 then fail t2 "window: start"
            else if arr_size t2 <? wrap64 (start t2 + n_used t2)
                 then fail t2 "window: end"
            else Ok t2
        end
    end.

  (** src/tau/rss_ringoccs_tau_get_window_width.c 11-236. *)
  Definition get_window_width (t : tau) : res tau :=
    guarded t (
      do rho <- deref (arr t RHO);
      do a <- gww_start t rho;
      match a with
      | None => fail t "window: range[0] too large"
      | Some (r0, s) =>
          let t1 := set_start (set_range0 t r0) s in
          do b <- gww_count t1 rho;
          match b with
          | None => fail t1 "window: range[1] too small"
          | Some (r1, n) =>
              let t2 := set_n_used (set_range1 t1 r1) n in
              match arr t2 WKM with
              | Some _ => fail t2 "window: already processed"
              | None =>
                  do w <- gww_widths t2;
                  gww_trim (set_f t2 WKM (Some w)) rho w
              end
          end
      end).

  (** src/tau/rss_ringoccs_tau_finish.c 6-33 ([resize_array] and
      [resize_carray]): replace a block by its cells [start, start+len).
      Allocation site 8 (all calls share it). *)
  Definition resize {A} (p : option (list A)) (st len : Z) : res (option (list A)) :=
    do _ <- need (t_alloc L 8) len;
    match p with
    | None => if len <=? 0 then Ok (Some []) else UB NullDeref
    | Some l => do r <- tabulate len (fun n => aread l (st + n)); Ok (Some r)
    end.
  Definition resize_f (f : rf) (t : tau) : res tau :=
    do v <- resize (arr t f) (start t) (n_used t); Ok (set_f t f v).

  (** src/tau/rss_ringoccs_tau_finish.c 45-58: the arrays resized, in order. *)
  Definition finish_resized : list rf :=
    [RHO; FKM; PHI; KV; RHODOT; BDEG; DKM; WKM; TOET; TRET; TSET; CPOLE; CTIM;
     PHIRL].
  Fixpoint resize_all (fs : list rf) (t : tau) : res tau :=
    match fs with
    | [] => Ok t
    | f :: r => do t1 <- resize_f f t; resize_all r t1
    end.

  (** src/tau/rss_ringoccs_tau_finish.c 35-63. *)
  Definition finish (t : tau) : res tau :=
    guarded t (
      do a <- resize (T_in t) (start t) (n_used t);
      let t := set_T_in t a in
      do b <- resize (T_out t) (start t) (n_used t);
      let t := set_T_out t b in
      do t <- resize_all finish_resized t;
      let t := set_arr_size t (n_used t) in
      if use_fwd t then
        do c <- resize (T_fwd t) (start t) (n_used t);
        Ok (set_T_fwd t c)
      else Ok t).
End Select.
