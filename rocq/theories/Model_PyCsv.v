(** * Model_PyCsv: the Python classes ExtractCSVData, GetUranusData and
    GetMergedCSVData (rss_ringoccs/crssringoccs).  Definitions only.

    Left out: the texts of the messages and of the history dictionary, the numpy
    import, failures of the Python allocator, and calls whose arguments
    PyArg_ParseTupleAndKeywords rejects (TypeError before anything else happens).
    An array that Python shows owns its block: the block is freed when the last
    reference to the array goes (crssringoccs_capsule_cleanup.c 35-40).  The
    instance is taken to hold the only reference. *)
From Coq Require Import List ZArith Bool String.
From Verif Require Import Base Dbl Scalar Model_Heap Model_Csv Model_CsvData Model_Py.
Import ListNotations.
Open Scope list_scope.
Open Scope Z_scope.

Section PyCsv.
  Context {S : scalar}.
  Variable L : csvlib S.
  Local Open Scope heap_scope.

  (** The array members of crssringoccs_PyCSVObj (crssringoccs.h): NULL or None,
      or a numpy array with its block. *)
  Definition pycsv : Type := col -> ptr S.
  (** A new instance (PyType_GenericNew): all members NULL. *)
  Definition new_instance : pycsv := fun _ => None.
  Inductive pycsv_result : Type :=
  | CsvRaised
  | CsvMade (v : pycsv).

  Definition put_col (v : pycsv) (c : col) (p : ptr S) : pycsv :=
    fun d => if col_beq d c then p else v d.

  (** rss_ringoccs/crssringoccs/common/crssringoccs_set_var.c 40-91: for NULL the
      member becomes None and the reference to its former value is dropped; for an
      array the member is overwritten (line 80), the reference to its former value
      is not dropped. *)
  Definition show_col (o : obj S) (c : col) (v : pycsv) : H pycsv :=
    match o_col o c with
    | None => _ <~ hfree (pid (v c)); hret (put_col v c None)
    | Some (id, l) =>
        if o_n o <=? zlen l
        then hret (put_col v c (Some (id, firstn (Z.to_nat (o_n o)) l)))
        else hlift (UB OutOfBounds)
    end.
  Fixpoint show_cols (cs : list col) (o : obj S) (v : pycsv) : H pycsv :=
    match cs with
    | [] => hret v
    | c :: r => v1 <~ show_col o c v; show_cols r o v1
    end.
  (** rss_ringoccs/crssringoccs/extract_csv_data/crssringoccs_extract_csv_data_steal.c
      59-80, get_uranus_data/crssringoccs_get_uranus_data_steal.c 51-72,
      get_merged_csv_data/crssringoccs_get_merged_csv_data_steal.c 51-72. *)
  Definition steal_order : list col :=
    [cRHO; cB; cD; cFSKY; cPNORM; cRAWTAU; cPHASE; cPHIDEG; cPHIRL; cRHODOT; cTOET; cTRET;
     cTSET; cRX; cRY; cRZ; cRAWTHR; cCPOLE; cCTIM; cTAUPOWER; cTAUPHASE; cTAUV].

  (** A file argument that was not passed stays NULL and goes to [fopen], which is
      not defined for NULL.  The tables that are read before it are left out. *)
  Definition file_arg (f : option (option text)) : res (option text) :=
    match f with Some x => Ok x | None => UB BadArgument end.

  (** rss_ringoccs/crssringoccs/extract_csv_data/crssringoccs_extract_csv_data_init.c
      25-162.  [self]: the members before the call. *)
  Definition extract_csv_data_init (self : pycsv) (geo cal dlp : option (option text))
      (tau : option (option text)) (dep : bool) : H pycsv_result :=
    g <~ hlift (file_arg geo);
    k <~ hlift (file_arg cal);
    d <~ hlift (file_arg dlp);
    p <~ csv_extract L g k d tau dep;
    match p with
    | None => hret CsvRaised
    | Some c =>
        if c_err c
        then _ <~ csv_destroy csv_family (Some c); hret CsvRaised
        else v <~ show_cols steal_order (c_obj c) self; hret (CsvMade v)
    end.
  (** rss_ringoccs/crssringoccs/get_uranus_data/crssringoccs_get_uranus_data_init.c
      23-159. *)
  Definition get_uranus_data_init (self : pycsv) (geo dlp : option (option text))
      (tau : option (option text)) (radians : bool) : H pycsv_result :=
    g <~ hlift (file_arg geo);
    d <~ hlift (file_arg dlp);
    p <~ uranus_csv_extract L g d tau radians;
    match p with
    | None => hret CsvRaised
    | Some c =>
        if c_err c
        then _ <~ csv_destroy uranus_family (Some c); hret CsvRaised
        else v <~ show_cols steal_order (c_obj c) self; hret (CsvMade v)
    end.
  (** rss_ringoccs/crssringoccs/get_merged_csv_data/crssringoccs_get_merged_csv_data_init.c
      24-144. *)
  Definition get_merged_csv_data_init (self : pycsv) (dlpm : option (option text))
    : H pycsv_result :=
    d <~ hlift (file_arg dlpm);
    p <~ merged_extract L d;
    match p with
    | None => hret CsvRaised
    | Some o =>
        if o_err o
        then _ <~ destroy merged_format (Some o); hret CsvRaised
        else v <~ show_cols steal_order o self; hret (CsvMade v)
    end.

  (** rss_ringoccs/crssringoccs/py_csv_obj/crssringoccs_py_csv_obj_destroy.c 21-48. *)
  Definition destroy_order_py : list col :=
    [cB; cD; cFSKY; cPNORM; cRAWTAU; cPHASE; cPHIDEG; cPHIRL; cRAWTHR; cCPOLE; cCTIM;
     cRHODOT; cRHO; cTOET; cTRET; cTSET; cRX; cRY; cRZ; cTAUPHASE; cTAUPOWER; cTAUV].
  Fixpoint drop_cols (cs : list col) (v : pycsv) : H unit :=
    match cs with
    | [] => hret tt
    | c :: r => _ <~ hfree (pid (v c)); drop_cols r v
    end.
  Definition py_csv_destroy (v : pycsv) : H unit := drop_cols destroy_order_py v.
End PyCsv.
Arguments pycsv : clear implicits.
Arguments pycsv_result : clear implicits.

(** The names of the members (crssringoccs_py_csv_obj_members.c 24-283). *)
Definition member_names : list (string * col) :=
  [("B_deg_vals"%string, cB); ("D_km_vals"%string, cD);
   ("rho_dot_kms_vals"%string, cRHODOT); ("f_sky_hz_vals"%string, cFSKY);
   ("p_norm_vals"%string, cPNORM); ("raw_tau_vals"%string, cRAWTAU);
   ("phi_deg_vals"%string, cPHIDEG); ("phi_rl_deg_vals"%string, cPHIRL);
   ("phase_deg_vals"%string, cPHASE); ("raw_tau_threshold_vals"%string, cRAWTHR);
   ("rho_corr_pole_km_vals"%string, cCPOLE); ("rho_corr_timing_km_vals"%string, cCTIM);
   ("rho_km_vals"%string, cRHO); ("t_oet_spm_vals"%string, cTOET);
   ("t_ret_spm_vals"%string, cTRET); ("t_set_spm_vals"%string, cTSET);
   ("rx_km_vals"%string, cRX); ("ry_km_vals"%string, cRY); ("rz_km_vals"%string, cRZ);
   ("tau_phase_deg_vals"%string, cTAUPHASE); ("tau_power_vals"%string, cTAUPOWER);
   ("tau_vals"%string, cTAUV)].

(** The doubles in an array; [None] if some cell was never written. *)
Fixpoint written (l : list (option double)) : option (list double) :=
  match l with
  | [] => Some []
  | Some x :: r => match written r with Some v => Some (x :: v) | None => None end
  | None :: _ => None
  end.
(** An instance passed as [dlp] to DiffractionCorrection: what
    [PyObject_GetAttrString] finds.  An array with cells that were never written is
    counted as one that cannot be converted.  All instances have [history]
    (crssringoccs_extract_csv_data_create_history.c 69-72, likewise the others). *)
Definition instance_attr (v : pycsv dbl_scalar) (name : string) : pyattr :=
  match find (fun x => String.eqb (fst x) name) member_names with
  | None => AMissing
  | Some (_, c) =>
      match v c with
      | None => AOther
      | Some (_, l) => match written l with Some xs => AArray xs | None => ABad end
      end
  end.
Definition instance_dlp (v : pycsv dbl_scalar) : pydlp := mkPydlp (instance_attr v) true.
