(** * Model_Py: the Python class DiffractionCorrection
    (rss_ringoccs/crssringoccs).  Definitions only.

    Left out: reference counts, the numpy import, the [verbose] printing, and calls
    whose arguments PyArg_ParseTupleAndKeywords rejects (the call then raises
    TypeError before anything else happens).  Strings are C strings without NUL
    that can be encoded.  libtmpl's Booleans are taken to be as wide as [int],
    which the format code "p" writes. *)
From Coq Require Import List ZArith Bool String.
From Verif Require Import Base Dbl Scalar Model_TauRec Model_Checks Model_Strings
  Model_Transform Model_Interp Model_Recon Model_Heap Model_Create.
Import ListNotations.
Open Scope list_scope.
Open Scope Z_scope.

Local Notation dtau := (tau dbl_scalar).

(** The Python values the code tells apart.  [bool] is a subclass of [int]. *)
Inductive pyval : Type :=
| PStr (s : string)
| PBytes (s : string)
| PList (l : list pyval)
| PInt (z : Z)
| PFloat (x : double)
| POther.

(** What [PyObject_GetAttrString] and [PyArray_FromObject(.., NPY_DOUBLE, 1, 1)]
    make of an attribute: absent; not a numpy array; an array that cannot be
    converted to one dimension of doubles; or these doubles. *)
Inductive pyattr : Type :=
| AMissing
| AOther
| ABad
| AArray (l : list double).
(** The object passed as [dlp]: its attributes, and whether it has [history]. *)
Record pydlp : Type := mkPydlp {
  p_attr : string -> pyattr;
  p_history : bool
}.

(** ** Python DLP to C DLP *)

Definition d_fail (d : dlp dbl_scalar) : dlp dbl_scalar := mkDlp (d_arr d) (d_n d) true.
Definition d_put (d : dlp dbl_scalar) (eqb : dlpf -> bool) (v : option (list double)) : dlp dbl_scalar :=
  mkDlp (S := dbl_scalar) (fun g => if eqb g then v else d_arr d g) (d_n d) (d_err d).
Definition dlpf_eqb (f g : dlpf) : bool :=
  match f, g with
  | dRHO, dRHO | dPHI, dPHI | dB, dB | dD, dD | dFSKY, dFSKY | dRHODOT, dRHODOT
  | dTOET, dTOET | dTRET, dTRET | dTSET, dTSET | dCPOLE, dCPOLE | dCTIM, dCTIM
  | dPHIRL, dPHIRL | dPNORM, dPNORM | dPHASE, dPHASE | dRAWTHR, dRAWTHR
  | dRX, dRX | dRY, dRY | dRZ, dRZ => true
  | _, _ => false
  end.

(** rss_ringoccs/crssringoccs/auxiliary/crssringoccs_extract_data.c 38-155.  The
    result is the object (with the error flag) and the pointer.  Lines 86-95: for
    an attribute that is not an array the text is printed into
    [dlp->error_message], which is NULL here.  Line 103 reads the dimensions of
    [arr] before line 106 tests whether it is NULL.  The test of the number of
    dimensions (122) never succeeds after the conversion. *)
Definition extract_data (y : pydlp) (name : string) (d : dlp dbl_scalar)
  : res (dlp dbl_scalar * option (list double)) :=
  if d_err d then Ok (d, None)
  else match p_attr y name with
       | AMissing => Ok (d_fail d, None)
       | AOther => UB NullDeref
       | ABad => UB NullDeref
       | AArray l => if zlen l =? d_n d then Ok (d, Some l) else Ok (d_fail d, None)
       end.

(** rss_ringoccs/crssringoccs/auxiliary/crssringoccs_py_dlp_to_c_dlp.c 141-157. *)
Definition extract_table : list (dlpf * string) :=
  [(dPNORM, "p_norm_vals"%string); (dPHASE, "phase_deg_vals"%string);
   (dPHI, "phi_deg_vals"%string); (dPHIRL, "phi_rl_deg_vals"%string);
   (dB, "B_deg_vals"%string); (dD, "D_km_vals"%string);
   (dFSKY, "f_sky_hz_vals"%string); (dRHODOT, "rho_dot_kms_vals"%string);
   (dTOET, "t_oet_spm_vals"%string); (dTRET, "t_ret_spm_vals"%string);
   (dTSET, "t_set_spm_vals"%string); (dRX, "rx_km_vals"%string);
   (dRY, "ry_km_vals"%string); (dRZ, "rz_km_vals"%string);
   (dCPOLE, "rho_corr_pole_km_vals"%string);
   (dCTIM, "rho_corr_timing_km_vals"%string);
   (dRAWTHR, "raw_tau_threshold_vals"%string)].
Fixpoint extract_all (tab : list (dlpf * string)) (y : pydlp) (d : dlp dbl_scalar)
  : res (dlp dbl_scalar) :=
  match tab with
  | [] => Ok d
  | (g, name) :: r =>
      do '(d1, v) <- extract_data y name d;
      extract_all r y (d_put d1 (dlpf_eqb g) v)
  end.
(** rss_ringoccs/crssringoccs/auxiliary/crssringoccs_py_dlp_to_c_dlp.c 43-159.
    [ok]: the [malloc] of line 55.  Members that are not assigned yet are shown as
    NULL; they are not read before they are assigned. *)
Definition py_dlp_to_c (ok : bool) (y : option pydlp) : res (option (dlp dbl_scalar)) :=
  match y with
  | None => Ok None
  | Some y =>
      if negb ok then Ok None
      else
        let d0 := mkDlp (S := dbl_scalar) (fun _ => None) 0 false in
        match p_attr y "rho_km_vals" with
        | AArray l =>
            do d <- extract_all extract_table y
                      (mkDlp (S := dbl_scalar) (fun g => if dlpf_eqb dRHO g then Some l else None) (zlen l) false);
            Ok (Some d)
        | _ => Ok (Some (d_fail d0))
        end
  end.

(** ** Ranges and perturbations *)

(** PyLong_AsDouble and PyFloat_AsDouble: the double, and whether an exception is
    left pending.  An integer too large for a double gives -1 and OverflowError,
    which no caller looks at. *)
Definition py_number (v : pyval) : option (double * bool) :=
  match v with
  | PInt z => if dfinite (dofZ z) then Some (dofZ z, false) else Some (dofZ (-1), true)
  | PFloat x => Some (x, false)
  | _ => None
  end.
(** The loops of crssringoccs_get_py_range.c 87-107 and
    crssringoccs_get_py_perturbation.c 71-95. *)
Fixpoint py_numbers (put : Z -> double -> dtau -> res dtau) (msg : string) (l : list pyval)
  (n : Z) (pend : bool) (t : dtau) : res (dtau * bool) :=
  match l with
  | [] => Ok (t, pend)
  | v :: r =>
      match py_number v with
      | Some (x, b) => do t1 <- put n x t; py_numbers put msg r (n + 1) (pend || b) t1
      | None => do t1 <- fail t msg; Ok (t1, pend)
      end
  end.
(** [tau->range[n] = x] and [tau->perturb[n] = x]. *)
Definition put_range (n : Z) (x : double) (t : dtau) : res dtau :=
  if n =? 0 then Ok (set_range0 t x) else if n =? 1 then Ok (set_range1 t x) else UB OutOfBounds.
Definition put_perturb (n : Z) (x : double) (t : dtau) : res dtau :=
  do l <- awrite (perturb t) n x; Ok (set_perturb t l).

Section Py.
  Variables (L : tmpl dbl_scalar) (X : strlib) (C : createlib dbl_scalar).

  (** rss_ringoccs/crssringoccs/diffraction_correction/crssringoccs_get_py_range.c
      32-143. *)
  Definition get_py_range (v : option pyval) (t : dtau) : res (dtau * bool) :=
    match err t with
    | Some _ => Ok (t, false)
    | None =>
        match v with
        | None => do t1 <- fail t "rng: NULL"; Ok (t1, false)
        | Some (PBytes s) => do t1 <- set_range_from_string L X (Some s) t; Ok (t1, false)
        | Some (PStr s) => do t1 <- set_range_from_string L X (Some s) t; Ok (t1, false)
        | Some (PList l) =>
            if negb (zlen l =? 2) then do t1 <- fail t "rng: length"; Ok (t1, false)
            else py_numbers put_range "rng: entries" l 0 false t
        | Some _ => do t1 <- fail t "rng: type"; Ok (t1, false)
        end
    end.

  (** rss_ringoccs/crssringoccs/diffraction_correction/crssringoccs_get_py_perturbation.c
      32-109. *)
  Definition get_py_perturb (v : option pyval) (t : dtau) : res (dtau * bool) :=
    match err t with
    | Some _ => Ok (t, false)
    | None =>
        match v with
        | None =>
            do t1 <- for_range 0 5 (fun n t => put_perturb n (dofZ 0) t) t; Ok (t1, false)
        | Some (PList l) =>
            if negb (zlen l =? 5) then do t1 <- fail t "perturb: length"; Ok (t1, false)
            else py_numbers put_perturb "perturb: entries" l 0 false t
        | Some _ => do t1 <- fail t "perturb: type"; Ok (t1, false)
        end
    end.

  (** ** The constructor *)

  (** The arguments; [None] is one that was not passed. *)
  Record pyargs : Type := mkPyargs {
    a_dlp : option pydlp;
    a_resolution : option double;
    a_rng : option pyval;
    a_wtype : option string;
    a_use_fwd : option bool;
    a_use_norm : option bool;
    a_bfac : option bool;
    a_sigma : option double;
    a_psitype : option string;
    a_factor : option double;
    a_ecc : option double;
    a_peri : option double;
    a_perturb : option pyval
  }.
  Definition given {A} (o : option A) (d : A) : A := match o with Some a => a | None => d end.

  (** The members of the instance (crssringoccs.h, crssringoccs_PyDiffrecObj_Def).
      [None] is Python's None. *)
  Record pydiff : Type := mkPydiff {
    y_arr : rf -> option (list double);
    y_in : option (list (option (cplx dbl_scalar)));
    y_out : option (list (option (cplx dbl_scalar)));
    y_fwd : option (list (option (cplx dbl_scalar)));
    y_resolution : double;
    y_rng : pyval;
    y_wtype : string;
    y_psitype : string;
    y_sigma : double;
    y_ecc : double;
    y_peri : double;
    y_factor : double;
    y_use_norm : bool;
    y_bfac : bool;
    y_pending : bool
  }.
  Inductive pyresult : Type :=
  | Raised (msg : string)
  | Constructed (o : pydiff).

  (** rss_ringoccs/crssringoccs/auxiliary/crssringoccs_get_py_vars_from_tau_self.c
      26-54. *)
  Definition get_py_vars (sg ec pe : double) (bf fw nm : bool) (t : dtau) : dtau :=
    match err t with
    | Some _ => t
    | None => set_use_norm (set_use_fwd (set_peri (set_ecc (set_bfac (set_sigma t sg) bf) ec) pe) fw) nm
    end.

  (** rss_ringoccs/crssringoccs/common/crssringoccs_set_var.c 40-91 and
      crssringoccs_set_cvar.c 40-90: a numpy array over the first [n] cells; a
      pointer to fewer cells is counted as an access out of bounds. *)
  Definition numpy {A} (p : option (list A)) (n : Z) : res (option (list A)) :=
    match p with
    | None => Ok None
    | Some l => if n <=? zlen l then Ok (Some (firstn (Z.to_nat n) l)) else UB OutOfBounds
    end.
  (** rss_ringoccs/crssringoccs/auxiliary/crssringoccs_c_tau_to_py_tau.c 72-89. *)
  Definition exposed_fields : list rf :=
    [RHO; FKM; PHI; KV; RHODOT; BDEG; DKM; WKM; TOET; TRET; TSET; CPOLE; CTIM; TTHR;
     PHIRL; RX; RY; RZ].
  Fixpoint expose (fs : list rf) (t : dtau) (a : rf -> option (list double))
    : res (rf -> option (list double)) :=
    match fs with
    | [] => Ok a
    | f :: r => do v <- numpy (arr t f) (arr_size t);
                expose r t (fun g => if rf_eqb g f then v else a g)
    end.

  (** rss_ringoccs/crssringoccs/diffraction_correction/crssringoccs_diffraction_correction_init.c
      45-333, run on the heap [h] (the heap afterwards is not returned).
      [self_res]: the resolution stored in the instance before the call (0 in a new
      instance, PyType_GenericNew); [ok]: the [malloc] of the C DLP object.
      Without a [dlp] argument line 193 reads the variable DLPInst, which was never
      assigned.  A tau object that could not be allocated is passed through lines
      239-254, which return for NULL, to line 256.  Line 300: without attribute
      [history] PyObject_GetAttrString gives NULL, then Py_BuildValue gives NULL,
      which line 305 dereferences. *)
  Definition diffrec_init (ok : bool) (sch : schedule) (self_res : double) (a : pyargs) (h : heap)
    : res pyresult :=
    match a_dlp a with
    | None => UB Uninitialised
    | Some y =>
        do p <- py_dlp_to_c ok (Some y);
        match p with
        | None => Ok (Raised "dlp: NULL")
        | Some d =>
            if d_err d then Ok (Raised "dlp: error")
            else
              let resolution := given (a_resolution a) self_res in
              let factor := given (a_factor a) (dfrac 3 4) in
              let sg := given (a_sigma a) (dfrac 2 10000000000000) in
              let ec := given (a_ecc a) (dofZ 0) in
              let pe := given (a_peri a) (dofZ 0) in
              let bf := given (a_bfac a) true in
              let fw := given (a_use_fwd a) false in
              let nm := given (a_use_norm a) true in
              let rng := given (a_rng a) (PStr "all") in
              let wt := given (a_wtype a) "kbmd20"%string in
              let ps := given (a_psitype a) "fresnel4"%string in
              do '(r, _) <- create_from_dlp L C (Some d) (dmul resolution factor) h;
              match r with
              | None => Ok (Raised "tau: NULL")
              | Some o =>
                  match x_err o with
                  | Some m => Ok (Raised m)
                  | None =>
                      do t0 <- view o;
                      let t1 := get_py_vars sg ec pe bf fw nm t0 in
                      do '(t2, b1) <- get_py_perturb (a_perturb a) t1;
                      do '(t3, b2) <- get_py_range (Some rng) t2;
                      do t4 <- set_window_type L X (Some wt) t3;
                      do t5 <- set_psi_type L X (Some ps) t4;
                      do t6 <- reconstruction L sch t5;
                      match err t6 with
                      | Some m => Ok (Raised m)
                      | None =>
                          do vi <- numpy (T_in t6) (arr_size t6);
                          do vo <- numpy (T_out t6) (arr_size t6);
                          do va <- expose exposed_fields t6 (fun _ => None);
                          do vf <- numpy (T_fwd t6) (arr_size t6);
                          if p_history y
                          then Ok (Constructed (mkPydiff va vi vo vf resolution rng wt ps
                                                  sg ec pe factor nm bf (b1 || b2)))
                          else UB NullDeref
                      end
                  end
              end
        end
    end.
End Py.
