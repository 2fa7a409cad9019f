(** * Spec_CsvData: what the properties of combined tables say. *)
From Coq Require Import List ZArith Bool Ascii Reals.
From Verif Require Import Base Scalar Dbl Spec_Tau Spec_Select Spec_Recon Model_Heap Model_Csv
  Model_CsvData Spec_Csv.
Import ListNotations.
Open Scope list_scope.
Open Scope Z_scope.

(** Every row of the table has as many fields as the format has columns; there is
    at least one row, and the number of rows fits a 64-bit integer. *)
Definition good_table (t : table) (rows : list (list text)) : Prop :=
  well_formed (List.length (columns t)) rows /\ rows <> [] /\ zlen rows < 2 ^ 64.

(** The first place at which something holds, counted from 0. *)
Definition first_at {A} (P : A -> Prop) (l : list A) (j : Z) : Prop :=
  (exists x, entry l j x /\ P x) /\ forall i x, entry l i x -> i < j -> ~ P x.

Fixpoint map2 {A B C} (f : A -> B -> C) (l : list A) (m : list B) : list C :=
  match l, m with
  | a :: l', b :: m' => f a b :: map2 f l' m'
  | _, _ => []
  end.

Section Spec.
  Context {S : scalar}.
  Variable L : csvlib S.

  (** The values of column [c] of a table. *)
  Fixpoint position (c : col) (cs : list col) : nat :=
    match cs with
    | [] => 0
    | d :: r => if col_beq d c then 0 else Datatypes.S (position c r)
    end.
  Definition column (t : table) (rows : list (list text)) (c : col) : list S :=
    map (fun fs => stored_value L t c (nth (position c (columns t)) fs [])) rows.

  (** The member [c] is an array with exactly these values. *)
  Definition values_are (o : obj S) (c : col) (vs : list S) : Prop :=
    exists id, o_col o c = Some (id, map Some vs).

  (** Interpolation gives one value per position. *)
  Definition interp_law : Prop :=
    forall xs ys ps, List.length (l_interp L xs ys ps) = List.length ps.
  (** Every allocation for data succeeds (those of error messages may fail). *)
  Definition all_allocs : Prop :=
    forall k, l_alloc L (SObj k) = true /\ forall c, l_alloc L (SArr k c) = true.

  (** Radial velocities between consecutive samples. *)
  Definition differences (l : list S) : list S := map2 (fun a b => (b - a)%S) l (tl l).
  Definition speeds (rho time : list S) : list S :=
    map2 sdiv (differences rho) (differences time).

  (** Normalised power from optical depth and opening angle. *)
  Definition power (tau B : S) : S := l_exp L (- tau / l_sind L (sabs B))%S.

  (** Geometry columns as used: reversed for ingress, from sample [first] on. *)
  Definition used (reversed : bool) (first : Z) (l : list S) : list S :=
    skipn (Z.to_nat first) (if reversed then rev l else l).

  (** What the combined object holds.  [legacy] is the old format, [tau] the rows
      of the optional TAU table. *)
  Record combined (legacy reversed : bool) (first : Z)
      (geo cal dlp : list (list text)) (tau : option (list (list text)))
      (c : csv S) : Prop := {
    cb_err : c_err c = false;
    cb_n : c_n c = zlen dlp;
    (* members copied from the DLP table *)
    cb_same : forall x, In x [cRHO; cRAWTAU; cTRET; cTSET; cTOET; cCPOLE; cCTIM; cRAWTHR;
                              cPHASE; cB; cPHIRL] ->
      values_are (c_obj c) x (column (TDlp legacy) dlp x);
    cb_phi : values_are (c_obj c) cPHIDEG (column (TDlp legacy) dlp cPHIORA);
    cb_power : values_are (c_obj c) cPNORM
      (if legacy then map2 power (column (TDlp true) dlp cRAWTAU) (column (TDlp true) dlp cB)
       else column (TDlp false) dlp cPNORM);
    (* members interpolated from the geometry at the radii of the DLP samples *)
    cb_geo : forall x, In x [cD; cRHODOT; cRX; cRY; cRZ] ->
      values_are (c_obj c) x
        (l_interp L (used reversed first (column (TGeo legacy) geo cRHO))
                    (used reversed first (column (TGeo legacy) geo x))
                    (column (TDlp legacy) dlp cRHO));
    (* sky frequency at the observed event times of the DLP samples *)
    cb_sky : values_are (c_obj c) cFSKY
      (l_interp L (column TCal cal cTOET)
                  (map2 ssub (column TCal cal cFPRED) (column TCal cal cFRESID))
                  (column (TDlp legacy) dlp cTOET));
    (* members interpolated from the TAU table *)
    cb_tau : forall rows, tau = Some rows ->
      let at_rho x := l_interp L (column (TTau legacy) rows cRHO) (column (TTau legacy) rows x)
                                 (column (TDlp legacy) dlp cRHO) in
      values_are (c_obj c) cTAUPHASE (at_rho cPHASE) /\
      values_are (c_obj c) cTAUV (at_rho cTAUV) /\
      values_are (c_obj c) cTAUPOWER
        (if legacy then map2 power (at_rho cTAUV) (column (TDlp true) dlp cB)
         else at_rho cPOWER)
  }.

  (** The same for Uranus, where the DLP table has the sky frequency and the
      angles may be in radians. *)
  Record uranus_combined (radians reversed : bool) (first : Z)
      (geo dlp : list (list text)) (tau : option (list (list text)))
      (c : csv S) : Prop := {
    uc_err : c_err c = false;
    uc_n : c_n c = zlen dlp;
    uc_same : forall x, In x [cRHO; cRAWTAU; cTRET; cTSET; cTOET; cCPOLE; cCTIM; cRAWTHR;
                              cPHASE; cPHIDEG; cB; cPHIRL; cPNORM; cFSKY] ->
      values_are (c_obj c) x (column (TUranus radians) dlp x);
    uc_geo : forall x, In x [cD; cRHODOT; cRX; cRY; cRZ] ->
      values_are (c_obj c) x
        (l_interp L (used reversed first (column (TGeo false) geo cRHO))
                    (used reversed first (column (TGeo false) geo x))
                    (column (TUranus radians) dlp cRHO));
    uc_tau : forall rows, tau = Some rows ->
      let at_rho x := l_interp L (column (TTau false) rows cRHO) (column (TTau false) rows x)
                                 (column (TUranus radians) dlp cRHO) in
      values_are (c_obj c) cTAUPHASE (at_rho cPHASE) /\
      values_are (c_obj c) cTAUV (at_rho cTAUV) /\
      values_are (c_obj c) cTAUPOWER (at_rho cPOWER)
  }.
End Spec.

(** ** Direction of an occultation (doubles) *)
Definition numbers (l : list double) : Prop := forall x, In x l -> notnan x.
(** All radial velocities are negative, or positive. *)
Definition ingress (V : list double) : Prop := all_negative V.
Definition egress (V : list double) : Prop := V <> [] /\ all_positive V.
(** The data change direction or stand still somewhere. *)
Definition chord (V : list double) : Prop :=
  (exists x, In x V /\ negative_number x) /\ (exists y, In y V /\ positive_number y) \/
  exists z, In z V /\ finite z /\ val z = 0%R.

Definition direction (reversed : bool) (V : list double) : Prop :=
  if reversed then ingress V else egress V.
Definition toward (reversed : bool) : double -> Prop :=
  if reversed then negative_number else positive_number.

Section Files.
  Context {S : scalar}.
  Variable L : csvlib S.
  (** The optional TAU file and its table. *)
  Definition tau_file (tau : option (list (list text))) : option (option text) :=
    option_map (fun rows => Some (table_text rows)) tau.
  Definition good_tau (legacy : bool) (tau : option (list (list text))) : Prop :=
    forall rows, tau = Some rows -> good_table (TTau legacy) rows.
  (** A file that cannot be opened, or in which the number of columns is wrong, or
      without any line. *)
  Definition unusable (t : table) (f : option text) : Prop :=
    match f with
    | None => True
    | Some s => l_column_count L s <> Z.of_nat (List.length (columns t)) \/ l_line_count L s = 0
    end.
  Definition good_file (t : table) (f : option text) : Prop :=
    exists rows, f = Some (table_text rows) /\ good_table t rows.
End Files.
