(** * Spec_Csv: what the CSV properties say.

    The vocabulary of Properties_Csv.v: tables as lists of rows of fields, their
    text, the documented order of the columns, and what is assumed of the
    library functions ([atof], [tmpl_Line_Count], [tmpl_CSV_Column_Count],
    [tmpl_Double_Sorted_Linear_Interp1d]). *)
From Coq Require Import List ZArith Bool Ascii.
From Verif Require Import Base Scalar Spec_Select Model_Heap Model_Csv Model_CsvData.
Import ListNotations.
Open Scope list_scope.
Open Scope Z_scope.

(** ** Text *)

(** The non-empty fields of a line: it is cut at the commas and empty pieces do
    not count. *)
Fixpoint split_commas (s : text) : list text :=
  match s with
  | [] => [[]]
  | c :: r => if Ascii.eqb c ","%char then [] :: split_commas r
              else match split_commas r with
                   | [] => [[c]]
                   | f :: t => (c :: f) :: t
                   end
  end.
Definition nonempty (f : text) : bool := match f with [] => false | _ => true end.
Definition fields (s : text) : list text := filter nonempty (split_commas s).

(** A field without separators, and the text of a row and of a table. *)
Definition plain (f : text) : Prop :=
  f <> [] /\ forall c, In c f -> c <> ","%char /\ c <> "010"%char /\ c <> "000"%char.
Fixpoint row_text (fs : list text) : text :=
  match fs with
  | [] => ["010"%char]
  | [f] => f ++ ["010"%char]
  | f :: r => f ++ ","%char :: row_text r
  end.
Definition table_text (rows : list (list text)) : text := flat_map row_text rows.

(** [k] non-empty fields in each row, and rows short enough for the line buffer
    (1024 bytes with the terminator). *)
Definition good_row (k : nat) (fs : list text) : Prop :=
  List.length fs = k /\ Forall plain fs /\ Z.of_nat (List.length (row_text fs)) <= 1023.
Definition well_formed (k : nat) (rows : list (list text)) : Prop := Forall (good_row k) rows.

(** A line that begins with B or b. *)
Definition starts_with_B (s : text) : Prop :=
  exists r, s = "B"%char :: r \/ s = "b"%char :: r.

(** ** Tables *)

(** The tables that can be read, with their format flag: [use_deprecated] for
    the first ones, [in_radians] for Uranus DLP tables. *)
Inductive table : Type :=
| TGeo (legacy : bool) | TCal | TDlp (legacy : bool) | TTau (legacy : bool)
| TUranus (radians : bool) | TMerged.

(** The columns of each table in the order of the file. *)
Definition columns (t : table) : list col :=
  match t with
  | TGeo legacy =>
      [cTOET; cTRET; cTSET; cRHO; cPHIRL; cPHIORA; cB; cD; cRHODOT; cPHIRLDOT; cF;
       cRIMP; cRX; cRY; cRZ; cVX; cVY; cVZ] ++ if legacy then [] else [cOBSLAT]
  | TCal => [cTOET; cFPRED; cFRESID; cPFREE]
  | TDlp true =>
      [cRHO; cCPOLE; cCTIM; cPHIRL; cPHIORA; cRAWTAU; cPHASE; cRAWTHR; cTOET; cTRET;
       cTSET; cB]
  | TDlp false =>
      [cRHO; cCPOLE; cCTIM; cPHIRL; cPHIORA; cPNORM; cRAWTAU; cPHASE; cRAWTHR; cTOET;
       cTRET; cTSET; cB]
  | TTau true =>
      [cRHO; cCPOLE; cCTIM; cPHIRL; cPHIORA; cTAUV; cPHASE; cTAUTHR; cTOET; cTRET;
       cTSET; cB]
  | TTau false =>
      [cRHO; cCPOLE; cCTIM; cPHIRL; cPHIORA; cPOWER; cTAUV; cPHASE; cTAUTHR; cTOET;
       cTRET; cTSET; cB]
  | TUranus _ =>
      [cRHO; cCPOLE; cCTIM; cPHIRL; cPHIDEG; cPNORM; cRAWTAU; cPHASE; cRAWTHR; cTOET;
       cTRET; cTSET; cB; cRHODOT; cF; cD; cFSKY]
  | TMerged =>
      [cB; cD; cFSKY; cPNORM; cPHASE; cPHIDEG; cPHIRL; cRAWTHR; cRAWTAU; cCPOLE; cCTIM;
       cRHODOT; cRHO; cRX; cRY; cRZ; cTOET; cTRET; cTSET]
  end.

(** Which kind of object a table gives. *)
Definition kind_of (t : table) : kind :=
  match t with
  | TGeo _ => KGeo | TCal => KCal | TDlp _ => KDlp | TTau _ => KTau
  | TUranus _ => KUranusDlp | TMerged => KMerged
  end.

Section Spec.
  Context {S : scalar}.
  Variable L : csvlib S.

  (** The extractor and the destructor of each table. *)
  Definition extract_table (t : table) (file : option text) : H (option (obj S)) :=
    match t with
    | TGeo legacy => geo_extract L legacy file
    | TCal => cal_extract L file
    | TDlp legacy => dlp_extract L legacy file
    | TTau legacy => tau_extract L legacy file
    | TUranus radians => uranus_dlp_extract L radians file
    | TMerged => merged_extract L file
    end.
  Definition format_of (t : table) : format :=
    match t with
    | TGeo _ => geo_format | TCal => cal_format | TDlp _ => dlp_format
    | TTau _ => tau_format | TUranus _ => uranus_dlp_format | TMerged => merged_format
    end.
  Definition destroy_table (t : table) (p : option (obj S)) : H (option (obj S)) :=
    destroy (format_of t) p.

  (** The member [c] of the object is an array of [n] cells. *)
  Definition array (o : obj S) (c : col) (n : Z) : Prop :=
    exists id l, o_col o c = Some (id, l) /\ zlen l = n.
  (** Cell [i] of the member [c] was written and holds [v]. *)
  Definition holds_at (o : obj S) (c : col) (i : Z) (v : S) : Prop :=
    exists id l, o_col o c = Some (id, l) /\ entry l i (Some v).
  (** Cell [i] of the member [c] exists but was never written. *)
  Definition unwritten (o : obj S) (c : col) (i : Z) : Prop :=
    exists id l, o_col o c = Some (id, l) /\ entry l i None.

  (** Every allocation made for a table of this kind succeeds. *)
  Definition allocs_ok (k : kind) : Prop :=
    l_alloc L (SObj k) = true /\ forall c, l_alloc L (SArr k c) = true.

  (** The angles of a Uranus table given in radians are converted to degrees. *)
  Definition angle (c : col) : bool :=
    match c with cPHIRL | cPHIDEG | cPHASE | cB => true | _ => false end.
  Definition deg_per_rad : S :=
    sfrac 57295779513082320876798154814105170 1000000000000000000000000000000000.
  Definition stored_value (t : table) (c : col) (f : text) : S :=
    match t with
    | TUranus true => if angle c then (l_atof L f * deg_per_rad)%S else l_atof L f
    | _ => l_atof L f
    end.

  (** The rows are stored: entry [i] of the array of column [j] is the value of
      field [j] of row [i]. *)
  Definition stores (t : table) (rows : list (list text)) (o : obj S) : Prop :=
    forall i j fs f c, entry rows i fs -> entry fs j f -> entry (columns t) j c ->
      holds_at o c i (stored_value t c f).

  (** What is assumed of the library on the files in question: a trailing newline
      does not matter to [atof]; the lines and the columns of well-formed tables
      are counted correctly. *)
  Record csv_laws : Prop := {
    law_atof : forall f, plain f -> l_atof L (f ++ ["010"%char]) = l_atof L f;
    law_lines : forall k rows, well_formed k rows ->
      l_line_count L (table_text rows) = zlen rows;
    law_columns : forall k fs rows, (0 < k)%nat -> good_row k fs -> well_formed k rows ->
      l_column_count L (table_text (fs :: rows)) = Z.of_nat k
  }.
End Spec.
Arguments array {S}. Arguments holds_at {S}. Arguments unwritten {S}.

(** The blocks that are live, and the files that are open, are the same. *)
Definition same_resources (h h1 : heap) : Prop :=
  (forall b, In b (live h1) <-> In b (live h)) /\ files h1 = files h.
(** A heap: the live blocks are different from each other and from those to
    come. *)
Definition good_heap (h : heap) : Prop :=
  NoDup (live h) /\ forall b, In b (live h) -> b < next h.
(** Released memory was used. *)
Definition memory_fault (u : ub) : Prop := u = DoubleFree \/ u = UseAfterFree.

(** The lines from which rows are read: the strings that [fgets] returns with the
    1024-byte buffer; for a merged table without the first one if that begins with
    B or b. *)
Definition has_header (s : text) : bool :=
  match file_lines s with
  | (c :: _) :: _ => Ascii.eqb c "B"%char || Ascii.eqb c "b"%char
  | _ => false
  end.
Definition data_lines (t : table) (s : text) : list text :=
  match t with
  | TMerged => if has_header s then tl (file_lines s) else file_lines s
  | _ => file_lines s
  end.
(** The number of rows that is reported. *)
Definition row_count {S : scalar} (L : csvlib S) (t : table) (s : text) : Z :=
  match t with
  | TMerged => if has_header s then l_line_count L s - 1 else l_line_count L s
  | _ => l_line_count L s
  end.
(** A line has enough fields (up to a NUL character, if there is one). *)
Definition enough_fields (t : table) (line : text) : Prop :=
  (List.length (columns t) <= List.length (fields (cstring line)))%nat.
(** When reading the rows of a file is defined: enough fields in every line, and
    not more lines than were counted; exactly as many if the angles are converted
    afterwards. *)
Definition readable {S : scalar} (L : csvlib S) (t : table) (s : text) : Prop :=
  (forall line, In line (data_lines t s) -> enough_fields t line) /\
  zlen (data_lines t s) <= l_line_count L s /\
  (t = TUranus true -> zlen (data_lines t s) = l_line_count L s).
