(** * Model_Create: creating and destroying tau objects (src/tau).
    Definitions only.

    A tau object is a heap block whose members point to heap blocks.  The model
    keeps, next to the members that are not arrays (a [tau] record without
    arrays), one pointer for each of the twenty-one arrays. *)
From Coq Require Import List ZArith Bool String.
From Verif Require Import Base Scalar Model_TauRec Model_Checks Model_Heap.
Import ListNotations.
Open Scope list_scope.
Open Scope Z_scope.

(** include/rss_ringoccs_calibration.h 12-34: the arrays of a DLP object, in
    order. *)
Inductive dlpf : Type :=
| dRHO | dPHI | dB | dD | dFSKY | dRHODOT | dTOET | dTRET | dTSET | dCPOLE | dCTIM
| dPHIRL | dPNORM | dPHASE | dRAWTHR | dRX | dRY | dRZ.

(** include/rss_ringoccs_calibration.h 12-34.  [d_err] is [error_occurred]; the
    message is left out. *)
Record dlp (S : scalar) : Type := mkDlp {
  d_arr : dlpf -> option (list S);
  d_n : Z;
  d_err : bool
}.
Arguments mkDlp {S}. Arguments d_arr {S}. Arguments d_n {S}. Arguments d_err {S}.

(** The members that point to arrays. *)
Inductive member : Type := MArr (f : rf) | MTin | MTout | MTfwd.

(** What the creation uses of libtmpl and of the C library: the complex number
    with given modulus and argument in degrees ([tmpl_CDouble_Polard]), the wave
    length of a frequency in hertz, the wave number of a wave length, the Fresnel
    scale from wave length, distance, azimuth and opening angle, and whether each
    [malloc] succeeds ([k_obj]: that of the object, [k_mem m]: that of [m]). *)
Record createlib (S : scalar) : Type := {
  k_polard : S -> S -> cplx S;
  k_wavelength : S -> S;
  k_wavenumber : S -> S;
  k_scale : S -> S -> S -> S -> S;
  k_obj : bool;
  k_mem : member -> bool
}.
Arguments k_polard {S}. Arguments k_wavelength {S}. Arguments k_wavenumber {S}.
Arguments k_scale {S}. Arguments k_obj {S}. Arguments k_mem {S}.

Section Create.
  Context {S : scalar}.
  Notation tau := (tau S).
  Notation dlp := (dlp S).

  (** A pointer to an array of complex doubles (see [ptr]). *)
  Definition cptr : Type := option (Z * list (option (cplx S))).

  (** The object: its own block, the pointers, and the other members ([x_tau],
      whose own array fields are not used). *)
  Record tobj : Type := mkTobj {
    x_id : Z;
    x_arr : rf -> ptr S;
    x_in : cptr;
    x_out : cptr;
    x_fwd : cptr;
    x_tau : tau
  }.
  Definition with_tau (o : tobj) (t : tau) : tobj :=
    mkTobj (x_id o) (x_arr o) (x_in o) (x_out o) (x_fwd o) t.
  Definition with_arr (o : tobj) (f : rf) (p : ptr S) : tobj :=
    mkTobj (x_id o) (fun g => if rf_eqb g f then p else x_arr o g)
           (x_in o) (x_out o) (x_fwd o) (x_tau o).
  Definition with_in (o : tobj) (p : cptr) : tobj :=
    mkTobj (x_id o) (x_arr o) p (x_out o) (x_fwd o) (x_tau o).
  Definition with_out (o : tobj) (p : cptr) : tobj :=
    mkTobj (x_id o) (x_arr o) (x_in o) p (x_fwd o) (x_tau o).
  Definition with_fwd (o : tobj) (p : cptr) : tobj :=
    mkTobj (x_id o) (x_arr o) (x_in o) (x_out o) p (x_tau o).
  Definition x_err (o : tobj) : option string := err (x_tau o).
  Definition x_fail (o : tobj) (msg : string) : tobj := with_tau o (set_err (x_tau o) (Some msg)).

  (** The block a member points to. *)
  Definition block (o : tobj) (m : member) : option Z :=
    match m with
    | MArr f => pid (x_arr o f)
    | MTin => option_map fst (x_in o)
    | MTout => option_map fst (x_out o)
    | MTfwd => option_map fst (x_fwd o)
    end.
  (** The member set to NULL / to a new block of [n] cells. *)
  Definition set_null (o : tobj) (m : member) : tobj :=
    match m with
    | MArr f => with_arr o f None
    | MTin => with_in o None
    | MTout => with_out o None
    | MTfwd => with_fwd o None
    end.
  Definition set_block (o : tobj) (m : member) (b n : Z) : tobj :=
    match m with
    | MArr f => with_arr o f (Some (b, repeat None (Z.to_nat n)))
    | MTin => with_in o (Some (b, repeat None (Z.to_nat n)))
    | MTout => with_out o (Some (b, repeat None (Z.to_nat n)))
    | MTfwd => with_fwd o (Some (b, repeat None (Z.to_nat n)))
    end.

  (** The object as the [tau] record of the rest of the model, defined when every
      cell of the double arrays has been written. *)
  Fixpoint cells (l : list (option S)) : option (list S) :=
    match l with
    | [] => Some []
    | None :: _ => None
    | Some x :: r => match cells r with Some m => Some (x :: m) | None => None end
    end.
  Definition is_full (p : ptr S) : bool :=
    match p with
    | Some (_, l) => match cells l with Some _ => true | None => false end
    | None => true
    end.
  Definition contents (p : ptr S) : option (list S) :=
    match p with Some (_, l) => cells l | None => None end.
  Definition view (o : tobj) : res tau :=
    if forallb (fun f => is_full (x_arr o f)) all_rf
    then Ok (set_arr (set_T_in (set_T_out (set_T_fwd (x_tau o) (option_map snd (x_fwd o)))
               (option_map snd (x_out o))) (option_map snd (x_in o)))
               (fun f => contents (x_arr o f)))
    else UB Uninitialised.

  Variable L : tmpl S.
  Variable C : createlib S.

  (** src/tau/rss_ringoccs_tau_init.c 11-55 and
      src/tau/rss_ringoccs_tau_set_default_values.c 8-111: every member NULL, zero
      sizes, default parameters.  ([requested_range] and [verbose] are not part
      of the model.)  The literals 2.0E-13 and 1.0E-6 are the doubles nearest to
      those fractions; KBMD20NormEQ is a libtmpl constant. *)
  Definition default_tau : tau :=
    mkTau (fun _ => None) None None None
          s0 (t_normeq L KBMD20) (sfrac 2 10000000000000) s0 s0 s1
          [s0; s0; s0; s0; s0] s0 s0 (sfrac 1 1000000) 6
          0 0 0 KBMD20 PsiNewton8 0 true false true None.
  Definition tau_init (id : Z) : tobj :=
    mkTobj id (fun _ => None) None None None default_tau.

  (** src/tau/rss_ringoccs_tau_malloc_members.c 13-39: one use of the macro
      MALLOC_TAU_VAR.  (The block has [arr_size] cells; the product
      [sizeof * arr_size] is assumed not to exceed SIZE_MAX, which holds whenever
      the input really has [arr_size] entries.)  The [return] in the macro is the
      test of the error flag: the flag was not set before. *)
  Definition malloc_member (m : member) (o : tobj) : H tobj :=
    match x_err o with
    | Some _ => hret o
    | None =>
        match block o m with
        | Some _ => hret (x_fail o "malloc: not NULL")
        | None =>
            (p <~ halloc (k_mem C m);
             match p with
             | None => hret (x_fail o "malloc: failed")
             | Some b => hret (set_block o m b (arr_size (x_tau o)))
             end)%heap
        end
    end.
  Fixpoint malloc_each (ms : list member) (o : tobj) : H tobj :=
    match ms with
    | [] => hret o
    | m :: r => (o1 <~ malloc_member m o; malloc_each r o1)%heap
    end.
  (** src/tau/rss_ringoccs_tau_malloc_members.c 68-84. *)
  Definition malloc_order : list member :=
    [MArr RHO; MArr PHI; MArr KV; MArr RHODOT; MArr BDEG; MArr DKM; MArr TOET;
     MArr TRET; MArr TSET; MArr CPOLE; MArr CTIM; MArr PHIRL; MArr RX; MArr RY;
     MArr RZ; MTin; MArr FKM].
  (** src/tau/rss_ringoccs_tau_malloc_members.c 43-85. *)
  Definition malloc_members (o : tobj) : H tobj :=
    match x_err o with
    | Some _ => hret o
    | None =>
        if arr_size (x_tau o) =? 0 then hret (x_fail o "malloc: arr_size = zero")
        else malloc_each malloc_order o
    end.

  (** [tau->f[n] = x] and [tau->T_in[n] = x]. *)
  Definition put (o : tobj) (f : rf) (n : Z) (x : S) : res tobj :=
    do '(b, l) <- deref (x_arr o f);
    do l' <- awrite l n (Some x);
    Ok (with_arr o f (Some (b, l'))).
  Definition put_in (o : tobj) (n : Z) (x : cplx S) : res tobj :=
    do '(b, l) <- deref (x_in o);
    do l' <- awrite l n (Some x);
    Ok (with_in o (Some (b, l'))).
  (** [tau->f[n]]: undefined for a cell that was never written. *)
  Definition get (o : tobj) (f : rf) (n : Z) : res S :=
    do '(_, l) <- deref (x_arr o f);
    do c <- aread l n;
    match c with Some x => Ok x | None => UB Uninitialised end.
  (** [dlp->f[n]]. *)
  Definition dget (d : dlp) (f : dlpf) (n : Z) : res S :=
    do l <- deref (d_arr d f); aread l n.

  (** src/tau/rss_ringoccs_tau_copy_dlp_members.c 69-82, in order. *)
  Definition copy_table : list (rf * dlpf) :=
    [(RHO, dRHO); (PHI, dPHI); (BDEG, dB); (DKM, dD); (RHODOT, dRHODOT); (TOET, dTOET);
     (TRET, dTRET); (TSET, dTSET); (CPOLE, dCPOLE); (CTIM, dCTIM); (PHIRL, dPHIRL);
     (RX, dRX); (RY, dRY); (RZ, dRZ)].
  Fixpoint copy_sample (tab : list (rf * dlpf)) (d : dlp) (n : Z) (o : tobj) : res tobj :=
    match tab with
    | [] => Ok o
    | (f, g) :: r => do x <- dget d g n; do o1 <- put o f n x; copy_sample r d n o1
    end.
  (** src/tau/rss_ringoccs_tau_copy_dlp_members.c 10-84. *)
  Definition copy_dlp_members (o : tobj) (d : dlp) : res tobj :=
    match x_err o with
    | Some _ => Ok o
    | None =>
        if d_err d then Ok (x_fail o "copy: dlp error")
        else if negb (d_n d =? arr_size (x_tau o)) then Ok (x_fail o "copy: sizes")
        else for_range 0 (arr_size (x_tau o)) (fun n o => copy_sample copy_table d n o) o
    end.

  (** src/tau/rss_ringoccs_tau_compute_data_from_dlp_members.c 95-111. *)
  Definition compute_sample (d : dlp) (n : Z) (o : tobj) : res tobj :=
    do p <- dget d dPNORM n;
    do ph <- dget d dPHASE n;
    do o1 <- put_in o n (k_polard C (ssqrt p) (- ph)%S);
    do f <- dget d dFSKY n;
    let lambda := k_wavelength C f in
    do o2 <- put o1 KV n (k_wavenumber C lambda);
    do dd <- get o2 DKM n;
    do phi <- get o2 PHI n;
    do b <- get o2 BDEG n;
    put o2 FKM n (k_scale C lambda dd phi b).
  (** src/tau/rss_ringoccs_tau_compute_data_from_dlp_members.c 30-113. *)
  Definition compute_dlp_members (o : tobj) (d : dlp) : res tobj :=
    match x_err o with
    | Some _ => Ok o
    | None =>
        if d_err d then Ok (x_fail o "compute: dlp error")
        else if negb (d_n d =? arr_size (x_tau o)) then Ok (x_fail o "compute: sizes")
        else for_range 0 (arr_size (x_tau o)) (compute_sample d) o
    end.

  (** src/tau/rss_ringoccs_tau_copy_dlp_data.c 89-161. *)
  Definition copy_dlp_data (p : option dlp) (o : tobj) : H tobj :=
    match x_err o with
    | Some _ => hret o
    | None =>
        match p with
        | None => hret (x_fail o "dlp data: NULL")
        | Some d =>
            if d_err d then hret (x_fail o "dlp data: error")
            else if d_n d <=? 1 then hret (x_fail o "dlp data: less than 2 points")
            else
              (o1 <~ malloc_members (with_tau o (set_arr_size (x_tau o) (d_n d)));
               match x_err o1 with
               | Some _ => hret o1
               | None =>
                   o2 <~ hlift (copy_dlp_members o1 d);
                   o3 <~ hlift (compute_dlp_members o2 d);
                   r1 <~ hlift (get o3 RHO 1);
                   r0 <~ hlift (get o3 RHO 0);
                   hret (with_tau o3 (set_dx (x_tau o3) (r1 - r0)%S))
               end)%heap
        end
    end.

  (** The geometry checks (Model_Checks.v) on the object: they only set the error
      flag and message. *)
  Definition x_check_geometry (o : tobj) : res tobj :=
    match x_err o with
    | Some _ => Ok o
    | None => do t <- view o; do t' <- check_geometry L t;
              Ok (with_tau o (set_err (x_tau o) (err t')))
    end.

  (** src/tau/rss_ringoccs_tau_create_from_dlp.c 11-73. *)
  Definition create_from_dlp (p : option dlp) (res : S) : H (option tobj) :=
    (b <~ halloc (k_obj C);
     match b with
     | None => hret None
     | Some id =>
         let o := tau_init id in
         match p with
         | None => hret (Some (x_fail o "create: NULL"))
         | Some d =>
             if d_err d then hret (Some (x_fail o "create: dlp error"))
             else if sle res s0 then hret (Some (x_fail o "create: resolution"))
             else
               o1 <~ copy_dlp_data p (with_tau o (set_reso (x_tau o) res));
               o2 <~ hlift (x_check_geometry o1);
               hret (Some o2)
         end
     end)%heap.

  (** src/tau/rss_ringoccs_tau_destroy_members.c 33-53, in order. *)
  Definition destroy_order : list member :=
    [MArr RHO; MArr FKM; MArr PHI; MArr KV; MArr RHODOT; MArr BDEG; MArr DKM;
     MArr WKM; MArr TOET; MArr TRET; MArr TSET; MArr CPOLE; MArr CTIM; MArr TTHR;
     MArr PHIRL; MArr RX; MArr RY; MArr RZ; MTin; MTout; MTfwd].
  (** src/tau/rss_ringoccs_tau_destroy_members.c 26-54: TMPL_FREE releases a
      member that is not NULL and sets it to NULL. *)
  Fixpoint tau_free_each (ms : list member) (o : tobj) : H tobj :=
    match ms with
    | [] => hret o
    | m :: r => (_ <~ hfree (block o m); tau_free_each r (set_null o m))%heap
    end.
  Definition tau_destroy_members (o : tobj) : H tobj :=
    (_ <~ haccess (Some (x_id o)); tau_free_each destroy_order o)%heap.
  (** src/tau/rss_ringoccs_tau_destroy.c 26-40.  The argument and the result are
      the value of the caller's pointer before and after: line 39 sets the local
      copy [tau_inst] to NULL, not the caller's pointer, which goes on naming the
      freed block. *)
  Definition tau_destroy (p : option tobj) : H (option tobj) :=
    match p with
    | None => hret None
    | Some o =>
        (o1 <~ tau_destroy_members o;
         _ <~ hfree (Some (x_id o1));
         hret (Some o1))%heap
    end.
End Create.
