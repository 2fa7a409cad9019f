(** * Model_Mem: the heap blocks of a reconstruction and of the Python class
    DiffractionCorrection.  Definitions only.

    The functions of Model_Checks.v, Model_Select.v and Model_Recon.v say which
    values a reconstruction computes.  Here they run on an object whose members
    are heap blocks, together with every [malloc], [calloc] and [free] of the code
    around them.  Before each stage the object and all members that are not NULL
    are accessed ([touch]), which is at least what the stage does. *)
From Coq Require Import List ZArith Bool String.
From Verif Require Import Base Dbl Scalar Model_TauRec Model_Checks Model_Select Model_Strings Model_Transform
  Model_Recon Model_Heap Model_Create Model_Py.
Import ListNotations.
Open Scope list_scope.
Open Scope Z_scope.

Definition member_eqb (a b : member) : bool :=
  match a, b with
  | MArr f, MArr g => rf_eqb f g
  | MTin, MTin | MTout, MTout | MTfwd, MTfwd => true
  | _, _ => false
  end.
(** The block each member points to. *)
Definition blocks : Type := member -> option Z.
Definition put_blk (b : blocks) (m : member) (p : option Z) : blocks :=
  fun n => if member_eqb n m then p else b n.
Definition no_blocks : blocks := fun _ => None.

Section Mem.
  Context {S : scalar}.
  Notation tau := (tau S).
  Variable L : tmpl S.
  (** libtmpl's Where functions return a block with two pointers: to the indices
      and to their number.  [sep]: the number has a block of its own. *)
  Variable sep : bool.
  Local Open Scope heap_scope.

  (** include/rss_ringoccs_tau.h, rssringoccs_TAUObj: the object's own block, the
      blocks of its members, and all values. *)
  Record mobj : Type := mkMobj { m_id : Z; m_blk : blocks; m_tau : tau }.
  Definition with_val (o : mobj) (t : tau) : mobj := mkMobj (m_id o) (m_blk o) t.
  Definition with_blk (o : mobj) (m : member) (p : option Z) : mobj :=
    mkMobj (m_id o) (put_blk (m_blk o) m p) (m_tau o).
  (** An object of Model_Create.v, with the values [t]. *)
  Definition of_tobj (o : @tobj S) (t : tau) : mobj := mkMobj (x_id o) (block o) t.
  (** The object as [tau_destroy] takes it (the contents play no part there). *)
  Definition to_tobj (o : mobj) : @tobj S :=
    mkTobj (m_id o) (fun f => option_map (fun b => (b, [])) (m_blk o (MArr f)))
           (option_map (fun b => (b, [])) (m_blk o MTin))
           (option_map (fun b => (b, [])) (m_blk o MTout))
           (option_map (fun b => (b, [])) (m_blk o MTfwd)) (m_tau o).

  Fixpoint touch_each (ms : list member) (b : blocks) : H unit :=
    match ms with
    | [] => hret tt
    | m :: r =>
        _ <~ match b m with None => hret tt | p => haccess p end;
        touch_each r b
    end.
  Definition touch (o : mobj) : H unit :=
    _ <~ haccess (Some (m_id o)); touch_each destroy_order (m_blk o).
  (** A stage that allocates nothing and keeps all pointers. *)
  Definition staged (f : tau -> res tau) (o : mobj) : H mobj :=
    _ <~ touch o; t <~ hlift (f (m_tau o)); hret (with_val o t).

  Definition hnew : H Z :=
    fun h => Ok (next h, mkHeap (next h :: live h) (next h + 1) (files h)).
  Fixpoint hnews (n : nat) : H (list Z) :=
    match n with
    | O => hret []
    | Datatypes.S k => b <~ hnew; r <~ hnews k; hret (b :: r)
    end.
  Fixpoint hfrees (l : list Z) : H unit :=
    match l with
    | [] => hret tt
    | b :: r => _ <~ hfree (Some b); hfrees r
    end.
  (** A successful call of tmpl_Where_Greater_Double or tmpl_Where_Lesser_Double:
      the blocks of the indices and of the pair. *)
  Definition where_blocks : H (Z * Z) :=
    i <~ hnew; p <~ hnew; _ <~ (if sep then hnews 1 else hnews 0); hret (i, p).

  (** src/tau/rss_ringoccs_tau_get_window_width.c 101-141: w_km_vals (site 1),
      alpha (2), P_vals (3), the result of the Where function (4).  Lines 127-130
      free all but the first. *)
  Definition gww_widths_h (o : mobj) : H (mobj * list S) :=
    let t := m_tau o in
    _ <~ touch o;
    b <~ halloc (t_alloc L 1);
    let o1 := with_blk o (MArr WKM) b in
    if bfac t then
      al <~ halloc (t_alloc L 2);
      P <~ halloc (t_alloc L 3);
      w <~ hlift (gww_widths L t);
      '(i, p) <~ where_blocks;
      _ <~ hfree P; _ <~ hfree al; _ <~ hfree (Some i); _ <~ hfree (Some p);
      hret (o1, w)
    else
      w <~ hlift (gww_widths L t);
      hret (o1, w).

  (** src/tau/rss_ringoccs_tau_get_window_width.c 143-235: rho_legal (site 5), the
      two Where functions (6, 7).  Lines 157-171 return without freeing rho_legal;
      lines 195-207 return without freeing wrange_Index and wrange. *)
  Definition gww_trim_h (o : mobj) (rho w : list S) : H mobj :=
    let t := m_tau o in
    _ <~ touch o;
    l <~ halloc (t_alloc L 5);
    _ <~ hlift (need (t_alloc L 5) (n_used t));
    left <~ hlift (rho_legal ssub t rho w);
    r0 <~ hlift (aread rho 0);
    _ <~ hlift (need (t_alloc L 6) 1);
    '(i, p) <~ where_blocks;
    match where_ (fun r => sgt r r0) left with
    | [] =>
        _ <~ hfree (Some i); _ <~ hfree (Some p);
        t' <~ hlift (fail t "window: left"); hret (with_val o t')
    | i0 :: _ =>
        let t1 := if 0 <? i0
                  then set_n_used (set_start t (start t + i0)) (n_used t - i0)
                  else t in
        _ <~ hfree (Some i); _ <~ hfree (Some p);
        right <~ hlift (rho_legal sadd t1 rho w);
        rl <~ hlift (aread rho (wrap64 (arr_size t - 1)));
        _ <~ hlift (need (t_alloc L 7) 1);
        '(i2, p2) <~ where_blocks;
        _ <~ hfree l;
        match where_ (fun r => slt r rl) right with
        | [] => t' <~ hlift (fail t1 "window: right"); hret (with_val o t')
        | k :: r =>
            let last := List.last (k :: r) 0 in
            let t2 := if last <? n_used t1
                      then set_n_used t1 (zlen (k :: r) - 1)
                      else t1 in
            _ <~ hfree (Some i2); _ <~ hfree (Some p2);
            t' <~ hlift (if arr_size t2 <? start t2 then fail t2 "window: start"
                         else if arr_size t2 <? wrap64 (start t2 + n_used t2)
                              then fail t2 "window: end"
                         else Ok t2);
            hret (with_val o t')
        end
    end.

  (** src/tau/rss_ringoccs_tau_get_window_width.c 11-236. *)
  Definition get_window_width_h (o : mobj) : H mobj :=
    let t := m_tau o in
    match err t with
    | Some _ => hret o
    | None =>
        _ <~ touch o;
        rho <~ hlift (deref (arr t RHO));
        a <~ hlift (gww_start t rho);
        match a with
        | None => t' <~ hlift (fail t "window: range[0] too large"); hret (with_val o t')
        | Some (r0, s) =>
            let t1 := set_start (set_range0 t r0) s in
            b <~ hlift (gww_count t1 rho);
            match b with
            | None => t' <~ hlift (fail t1 "window: range[1] too small"); hret (with_val o t')
            | Some (r1, n) =>
                let t2 := set_n_used (set_range1 t1 r1) n in
                match arr t2 WKM with
                | Some _ => t' <~ hlift (fail t2 "window: already processed"); hret (with_val o t')
                | None =>
                    '(o1, w) <~ gww_widths_h (with_val o t2);
                    gww_trim_h (with_val o1 (set_f t2 WKM (Some w))) rho w
                end
            end
        end
    end.

  (** The private buffers of the drivers, all of which free them before they
      return (src/reconstruction/rss_ringoccs_diffraction_correction_fresnel.c
      362-440, ..._newton.c 128-196, ..._polynomial_newton.c 104-182,
      ..._legendre.c 176-291, ..._simple_fft.c 94-186): x_arr and w_func of each
      thread, w_func of each thread, x_arr and w_func, these and the coefficients,
      the two FFT buffers.  They are allocated and freed here also when the driver
      stops earlier, and the reallocations of
      rss_ringoccs_tau_resize_half_window.c (Model_Recon.v) keep their names. *)
  Definition temporaries (sch : schedule) (t : tau) : nat :=
    match psinum t with
    | PsiFresnel => 2 * List.length (sch (n_used t + 1)%Z)
    | PsiLegendre => 3
    | PsiSimpleFFT => 2
    | p => if psi_val p <=? psi_val PsiNewtonPerturb then List.length (sch (n_used t)) else 2
    end.
  (** src/reconstruction/rss_ringoccs_diffraction_correction.c 5-37. *)
  Definition diffraction_correction_h (sch : schedule) (o : mobj) : H mobj :=
    _ <~ touch o;
    tmp <~ hnews (temporaries sch (m_tau o));
    t <~ hlift (diffraction_correction L sch (m_tau o));
    _ <~ hfrees tmp;
    hret (with_val o t).

  (** src/tau/rss_ringoccs_tau_finish.c 6-33: a new block (site 8), the old block
      freed, the pointer replaced. *)
  Definition resize_h (m : member) (f : tau -> res tau) (o : mobj) : H mobj :=
    _ <~ touch o;
    b <~ halloc (t_alloc L 8);
    t <~ hlift (f (m_tau o));
    _ <~ hfree (m_blk o m);
    hret (with_blk (with_val o t) m b).
  Fixpoint resize_all_h (fs : list rf) (o : mobj) : H mobj :=
    match fs with
    | [] => hret o
    | f :: r => o1 <~ resize_h (MArr f) (resize_f L f) o; resize_all_h r o1
    end.
  (** src/tau/rss_ringoccs_tau_finish.c 35-63. *)
  Definition finish_h (o : mobj) : H mobj :=
    match err (m_tau o) with
    | Some _ => hret o
    | None =>
        o1 <~ resize_h MTin (fun t => do a <- resize L (T_in t) (start t) (n_used t); Ok (set_T_in t a)) o;
        o2 <~ resize_h MTout (fun t => do a <- resize L (T_out t) (start t) (n_used t); Ok (set_T_out t a)) o1;
        o3 <~ resize_all_h finish_resized o2;
        let o4 := with_val o3 (set_arr_size (m_tau o3) (n_used (m_tau o3))) in
        if use_fwd (m_tau o4)
        then resize_h MTfwd (fun t => do a <- resize L (T_fwd t) (start t) (n_used t); Ok (set_T_fwd t a)) o4
        else hret o4
    end.

  (** src/reconstruction/rss_ringoccs_reconstruction.c 40-80: the pointer T_in is
      kept in a local variable, T_in takes the block of T_out and T_out a new block
      (site 31).  The early return of line 67 leaves the first block of T_in
      without a pointer to it.  [inr]: the early return. *)
  Definition forward_model_h (sch : schedule) (o : mobj) : H (mobj + mobj) :=
    let t := m_tau o in
    let temp_T_in := T_in t in
    let temp_blk := m_blk o MTin in
    _ <~ touch o;
    let o1 := with_blk (with_val o (set_T_in t (T_out t))) MTin (m_blk o MTout) in
    b <~ halloc (t_alloc L 31);
    let o2 := with_blk (with_val o1
                (set_T_out (m_tau o1)
                   (if t_alloc L 31
                    then Some (repeat (Some c0) (Z.to_nat (arr_size (m_tau o1)))) else None)))
                MTout b in
    let t2 := m_tau o2 in
    wl <~ hlift (rd t2 WKM (start t2));
    wr <~ hlift (rd t2 WKM (start t2 + n_used t2));
    let w_max := if slt wl wr then wr else wl in
    nw <~ hlift (scast (w_max / (dx t2 * s2))%S);
    if n_used t2 <=? wrap64 (2 * nw) then
      t3 <~ hlift (fail t2 "forward: not enough data"); hret (inr (with_val o2 t3))
    else
      let t3 := set_n_used (set_start t2 (start t2 + nw)) (n_used t2 - 2 * nw) in
      o4 <~ diffraction_correction_h sch (with_val o2 t3);
      let t4 := m_tau o4 in
      let t5 := set_n_used (set_start t4 (start t2)) (n_used t2) in
      let t6 := set_T_fwd t5 (T_out t5) in
      let t7 := set_T_out t6 (T_in t6) in
      let o7 := with_blk (with_blk (with_blk o4 MTfwd (m_blk o4 MTout)) MTout (m_blk o4 MTin)) MTin temp_blk in
      hret (inl (with_val o7 (set_T_in t7 temp_T_in))).

  (** src/reconstruction/rss_ringoccs_reconstruction.c 9-84.  T_out: site 30. *)
  Definition reconstruction_h (sch : schedule) (o : mobj) : H mobj :=
    o1 <~ staged check_keywords o;
    o2 <~ staged (check_occ_type L) o1;
    o3 <~ get_window_width_h o2;
    o4 <~ staged check_data_range o3;
    match err (m_tau o4) with
    | Some _ => hret o4
    | None =>
        b <~ halloc (t_alloc L 30);
        let t4 := m_tau o4 in
        let o5 := with_blk (with_val o4 (set_T_out t4
                    (if t_alloc L 30 then Some (fresh (arr_size t4)) else None))) MTout b in
        o6 <~ staged check_core_data o5;
        match err (m_tau o6) with
        | Some _ => hret o6
        | None =>
            let temp_fwd := use_fwd (m_tau o6) in
            o7 <~ diffraction_correction_h sch (with_val o6 (set_use_fwd (m_tau o6) false));
            let o8 := with_val o7 (set_use_fwd (m_tau o7) temp_fwd) in
            if use_fwd (m_tau o8) then
              r <~ forward_model_h sch o8;
              match r with
              | inr o9 => hret o9
              | inl o9 => finish_h o9
              end
            else finish_h o8
        end
    end.
End Mem.

(** ** The instances of DiffractionCorrection *)
Section PyMem.
  Local Notation dtau := (tau dbl_scalar).
  Variables (L : tmpl dbl_scalar) (sep : bool) (X : strlib) (C : createlib dbl_scalar).
  Local Open Scope heap_scope.

  (** rss_ringoccs/crssringoccs/common/crssringoccs_set_var.c 40-91 and
      crssringoccs_set_cvar.c 40-90, auxiliary/crssringoccs_c_tau_to_py_tau.c 92-93:
      NULL drops the reference to the former value of the member, an array does
      not.  A shown array owns its block (see Model_PyCsv.v). *)
  Fixpoint show_members (ms : list member) (b v : blocks) : H blocks :=
    match ms with
    | [] => hret v
    | m :: r =>
        _ <~ match b m with None => hfree (v m) | Some _ => hret tt end;
        show_members r b (put_blk v m (b m))
    end.
  (** rss_ringoccs/crssringoccs/auxiliary/crssringoccs_c_tau_to_py_tau.c 70-96. *)
  Definition show_order : list member :=
    [MTin; MTout] ++ map MArr exposed_fields ++ [MTfwd].

  (** rss_ringoccs/crssringoccs/diffraction_correction/crssringoccs_diffraction_correction_init.c
      239-244: the options. *)
  Definition configure (a : pyargs) (t0 : dtau) : res (dtau * bool) :=
    let t1 := get_py_vars (given (a_sigma a) (dfrac 2 10000000000000)) (given (a_ecc a) (dofZ 0))
                (given (a_peri a) (dofZ 0)) (given (a_bfac a) true) (given (a_use_fwd a) false)
                (given (a_use_norm a) true) t0 in
    do '(t2, b1) <- get_py_perturb (a_perturb a) t1;
    do '(t3, b2) <- get_py_range L X (Some (given (a_rng a) (PStr "all"))) t2;
    do t4 <- set_window_type L X (Some (given (a_wtype a) "kbmd20"%string)) t3;
    do t5 <- set_psi_type L X (Some (given (a_psitype a) "fresnel4"%string)) t4;
    Ok (t5, b1 || b2).

  (** What a call of the constructor leaves behind. *)
  Inductive pymem : Type :=
  | MRaised (msg : string)
  | MConstructed (t : dtau) (v : blocks).

  (** rss_ringoccs/crssringoccs/diffraction_correction/crssringoccs_diffraction_correction_init.c
      193-293 with the blocks of the C DLP object, of its message (which was
      allocated by tmpl_strdup), of the tau object and of its members.  [d]: the
      result of crssringoccs_Py_DLP_To_C_DLP ([None]: its malloc failed); [v]: the
      members of the instance before the call.  Lines 281-282 return without
      freeing the DLP object, lines 256-266 likewise. *)
  Definition diffrec_init_h (sch : schedule) (self_res : double) (a : pyargs)
      (d : option (dlp dbl_scalar)) (v : blocks) : H pymem :=
    match d with
    | None => hret (MRaised "dlp: NULL")
    | Some d =>
        db <~ hnew;
        if d_err d then
          mb <~ hnew;
          _ <~ hfree (Some mb); _ <~ hfree (Some db); hret (MRaised "dlp: error")
        else
          r <~ create_from_dlp L C (Some d)
                 (dmul (given (a_resolution a) self_res) (given (a_factor a) (dfrac 3 4)));
          match r with
          | None => hret (MRaised "tau: NULL")
          | Some o =>
              match x_err o with
              | Some m => _ <~ tau_destroy (Some o); hret (MRaised m)
              | None =>
                  t0 <~ hlift (view o);
                  '(t5, _) <~ hlift (configure a t0);
                  o6 <~ reconstruction_h L sep sch (of_tobj o t5);
                  match err (m_tau o6) with
                  | Some m => _ <~ tau_destroy (Some (to_tobj o6)); hret (MRaised m)
                  | None =>
                      v1 <~ show_members show_order (m_blk o6) v;
                      _ <~ hfree (Some (m_id o6)); _ <~ hfree (Some db);
                      hret (MConstructed (m_tau o6) v1)
                  end
              end
          end
    end.

  (** rss_ringoccs/crssringoccs/diffraction_correction/crssringoccs_diffraction_correction_destroy.c
      25-49: the members whose references are dropped. *)
  Definition drop_order : list member :=
    [MTin; MTout; MTfwd; MArr BDEG; MArr DKM; MArr FKM; MArr PHI; MArr PHIRL; MArr CPOLE;
     MArr CTIM; MArr RHODOT; MArr RHO; MArr TOET; MArr TRET; MArr TSET; MArr TTHR; MArr WKM;
     MArr RX; MArr RY; MArr RZ].
  Fixpoint drop_members (ms : list member) (v : blocks) : H unit :=
    match ms with
    | [] => hret tt
    | m :: r => _ <~ hfree (v m); drop_members r v
    end.
  Definition diffrec_destroy (v : blocks) : H unit := drop_members drop_order v.
End PyMem.
