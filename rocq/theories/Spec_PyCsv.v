(** * Spec_PyCsv: what C58 and C59 say about the Python classes ExtractCSVData,
    GetUranusData and GetMergedCSVData.  Definitions only. *)
From Coq Require Import List ZArith Bool String.
From Verif Require Import Base Dbl Scalar Model_Heap Model_Csv Model_CsvData Model_Py Model_PyCsv
  Spec_Csv Spec_CsvData.
Import ListNotations.
Open Scope list_scope.
Open Scope Z_scope.

Section Spec.
  Context {S : scalar}.
  Variable L : csvlib S.

  (** The attribute of this name is an array with these values, or None. *)
  Definition attr_is (v : pycsv S) (name : string) (vs : list S) : Prop :=
    exists c id, In (name, c) member_names /\ v c = Some (id, map Some vs).
  Definition attr_none (v : pycsv S) (name : string) : Prop :=
    exists c, In (name, c) member_names /\ v c = None.

  (** Attributes that show a column of the DLP table. *)
  Definition dlp_attributes : list (string * col) :=
    [("rho_km_vals"%string, cRHO); ("raw_tau_vals"%string, cRAWTAU);
     ("t_ret_spm_vals"%string, cTRET); ("t_set_spm_vals"%string, cTSET);
     ("t_oet_spm_vals"%string, cTOET); ("rho_corr_pole_km_vals"%string, cCPOLE);
     ("rho_corr_timing_km_vals"%string, cCTIM); ("raw_tau_threshold_vals"%string, cRAWTHR);
     ("phase_deg_vals"%string, cPHASE); ("B_deg_vals"%string, cB);
     ("phi_rl_deg_vals"%string, cPHIRL)].
  (** Attributes interpolated from the geometry. *)
  Definition geo_attributes : list (string * col) :=
    [("D_km_vals"%string, cD); ("rho_dot_kms_vals"%string, cRHODOT);
     ("rx_km_vals"%string, cRX); ("ry_km_vals"%string, cRY); ("rz_km_vals"%string, cRZ)].

  (** What an ExtractCSVData instance shows. *)
  Record shows_cassini (legacy reversed : bool) (first : Z)
      (geo cal dlp : list (list text)) (tau : option (list (list text)))
      (v : pycsv S) : Prop := {
    sc_same : forall name x, In (name, x) dlp_attributes ->
      attr_is v name (column L (TDlp legacy) dlp x);
    sc_phi : attr_is v "phi_deg_vals" (column L (TDlp legacy) dlp cPHIORA);
    sc_power : attr_is v "p_norm_vals"
      (if legacy then map2 (power L) (column L (TDlp true) dlp cRAWTAU) (column L (TDlp true) dlp cB)
       else column L (TDlp false) dlp cPNORM);
    sc_geo : forall name x, In (name, x) geo_attributes ->
      attr_is v name
        (l_interp L (used reversed first (column L (TGeo legacy) geo cRHO))
                    (used reversed first (column L (TGeo legacy) geo x))
                    (column L (TDlp legacy) dlp cRHO));
    sc_sky : attr_is v "f_sky_hz_vals"
      (l_interp L (column L TCal cal cTOET)
                  (map2 ssub (column L TCal cal cFPRED) (column L TCal cal cFRESID))
                  (column L (TDlp legacy) dlp cTOET));
    sc_tau : match tau with
      | Some rows =>
          let at_rho x := l_interp L (column L (TTau legacy) rows cRHO) (column L (TTau legacy) rows x)
                                     (column L (TDlp legacy) dlp cRHO) in
          attr_is v "tau_phase_deg_vals" (at_rho cPHASE) /\ attr_is v "tau_vals" (at_rho cTAUV) /\
          attr_is v "tau_power_vals"
            (if legacy then map2 (power L) (at_rho cTAUV) (column L (TDlp true) dlp cB)
             else at_rho cPOWER)
      | None => attr_none v "tau_phase_deg_vals" /\ attr_none v "tau_vals" /\
                attr_none v "tau_power_vals"
      end
  }.

  (** What a GetUranusData instance shows. *)
  Record shows_uranus (radians reversed : bool) (first : Z)
      (geo dlp : list (list text)) (tau : option (list (list text))) (v : pycsv S) : Prop := {
    su_same : forall name x,
      In (name, x) (dlp_attributes ++ [("phi_deg_vals"%string, cPHIDEG);
        ("p_norm_vals"%string, cPNORM); ("f_sky_hz_vals"%string, cFSKY)]) ->
      attr_is v name (column L (TUranus radians) dlp x);
    su_geo : forall name x, In (name, x) geo_attributes ->
      attr_is v name
        (l_interp L (used reversed first (column L (TGeo false) geo cRHO))
                    (used reversed first (column L (TGeo false) geo x))
                    (column L (TUranus radians) dlp cRHO));
    su_tau : match tau with
      | Some rows =>
          let at_rho x := l_interp L (column L (TTau false) rows cRHO) (column L (TTau false) rows x)
                                     (column L (TUranus radians) dlp cRHO) in
          attr_is v "tau_phase_deg_vals" (at_rho cPHASE) /\ attr_is v "tau_vals" (at_rho cTAUV) /\
          attr_is v "tau_power_vals" (at_rho cPOWER)
      | None => attr_none v "tau_phase_deg_vals" /\ attr_none v "tau_vals" /\
                attr_none v "tau_power_vals"
      end
  }.

  (** What a GetMergedCSVData instance shows: the nineteen columns.  The cells of the
      other three arrays were never written. *)
  Definition shows_merged (rows : list (list text)) (v : pycsv S) : Prop :=
    (forall name x, In (name, x) member_names -> In x (columns TMerged) ->
       attr_is v name (column L TMerged rows x)).
  Definition shows_unwritten (v : pycsv S) (name : string) (n : Z) : Prop :=
    exists c id, In (name, c) member_names /\ v c = Some (id, repeat None (Z.to_nat n)).
End Spec.

(** The live blocks are those of [h] and one more; the same files are open. *)
Definition one_block_more (h h1 : heap) : Prop :=
  (exists b, ~ In b (live h) /\ forall x, In x (live h1) <-> x = b \/ In x (live h)) /\
  files h1 = files h.

(** What the call of a constructor for a new instance does to the memory. *)
Definition constructor_memory {S : scalar} (h : heap) (r : res (pycsv_result S * heap)) : Prop :=
  match r with
  | UB u => ~ memory_fault u
  | Ok (CsvRaised, h1) => same_resources h h1
  | Ok (CsvMade v, h1) => files h1 = files h /\
      exists h2, py_csv_destroy v h1 = Ok (tt, h2) /\ one_block_more h h2
  end.
