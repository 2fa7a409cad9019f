(** * Model_Csv: reading CSV tables (src/csv_tools).  Definitions only. *)
From Coq Require Import List ZArith Bool String Ascii.
From Verif Require Import Base Scalar Model_Heap.
Import ListNotations.
Open Scope list_scope.
Open Scope Z_scope.

Notation text := (list ascii).

(** ** Text functions of the C library *)

Definition newline : ascii := "010"%char.
Definition comma : ascii := ","%char.
Definition nul : ascii := "000"%char.

(** [fgets] with room for [k] characters (and the terminator): the characters up
    to and including the first newline, at most [k]; and the unread rest. *)
Fixpoint fgets_take (k : nat) (s : text) : text * text :=
  match k, s with
  | O, _ => ([], s)
  | _, [] => ([], [])
  | Datatypes.S j, c :: r =>
      if Ascii.eqb c newline then ([c], r)
      else let '(l, t) := fgets_take j r in (c :: l, t)
  end.
(** The readers use [char buffer[1024]], so [fgets] has room for 1023 characters
    (geo_csv_read_data.c 45, cal 51, dlp 45, tau 45, uranus_dlp 54, merged 53). *)
Definition buffer_room : nat := 1023%nat.
(** The results of the successive calls of [fgets] until it returns NULL. *)
Fixpoint fgets_all (fuel : nat) (s : text) : list text :=
  match fuel, s with
  | O, _ => []
  | _, [] => []
  | Datatypes.S k, _ => let '(l, r) := fgets_take buffer_room s in l :: fgets_all k r
  end.
Definition file_lines (s : text) : list text := fgets_all (List.length s) s.

(** The C string held by a buffer: up to the first NUL. *)
Fixpoint cstring (s : text) : text :=
  match s with
  | [] => []
  | c :: r => if Ascii.eqb c nul then [] else c :: cstring r
  end.

(** [strtok(., ",")]: skips commas, then takes the characters up to the next
    comma; NULL when nothing is left.  Also the state for the next call. *)
Fixpoint skip_commas (s : text) : text :=
  match s with
  | [] => []
  | c :: r => if Ascii.eqb c comma then skip_commas r else s
  end.
Fixpoint until_comma (s : text) : text * text :=
  match s with
  | [] => ([], [])
  | c :: r => if Ascii.eqb c comma then ([], r)
              else let '(a, b) := until_comma r in (c :: a, b)
  end.
Definition strtok (s : text) : option (text * text) :=
  match skip_commas s with
  | [] => None
  | t => Some (until_comma t)
  end.

(** ** Objects *)

(** The members of the CSV structs of include/types/rss_ringoccs_geocsv.h,
    rss_ringoccs_calcsv.h, rss_ringoccs_dlpcsv.h and
    include/rss_ringoccs_csv_tools.h that point to heap blocks ([..._vals] and
    [history]).  [PHIORA] stands for [phi_ora_deg_vals], [PHIDEG] for
    [phi_deg_vals], [RAWTAU] for [raw_tau_vals], [RAWTHR] for
    [raw_tau_threshold_vals], [POWER] for [power_vals], [TAUV] for [tau_vals],
    [TAUTHR] for [tau_threshold_vals], [TAUPHASE] and [TAUPOWER] for
    [tau_phase_deg_vals] and [tau_power_vals]. *)
Inductive col : Type :=
| cTOET | cTRET | cTSET | cRHO | cPHIRL | cPHIORA | cPHIDEG | cB | cD | cRHODOT
| cPHIRLDOT | cF | cRIMP | cRX | cRY | cRZ | cVX | cVY | cVZ | cOBSLAT
| cFPRED | cFRESID | cPFREE
| cCPOLE | cCTIM | cPNORM | cRAWTAU | cPHASE | cRAWTHR
| cPOWER | cTAUV | cTAUTHR
| cFSKY | cTAUPHASE | cTAUPOWER | cHISTORY.
Scheme Equality for col.

Inductive kind : Type :=
| KGeo | KCal | KDlp | KTau | KMerged | KUranusDlp | KCsv | KUranusCsv.

(** The places where memory is allocated: the object itself, one of its arrays,
    its error message ([tmpl_String_Duplicate]).  Each place is reached at most
    once per extraction, so a function [site -> bool] describes every pattern
    of allocation failures. *)
Inductive site : Type := SObj (k : kind) | SArr (k : kind) (c : col) | SMsg (k : kind).

(** What the code uses of libtmpl and of the C library. *)
Record csvlib (S : scalar) : Type := {
  l_atof : text -> S;                       (* atof *)
  l_line_count : text -> Z;                 (* tmpl_Line_Count *)
  l_column_count : text -> Z;               (* tmpl_CSV_Column_Count *)
  (* tmpl_Double_Sorted_Linear_Interp1d(x, y, length, x_new, out, n): the
     values stored in [out] *)
  l_interp : list S -> list S -> list S -> list S;
  l_sind : S -> S;                          (* tmpl_Double_Sind *)
  l_exp : S -> S;                           (* tmpl_Double_Exp *)
  l_alloc : site -> bool
}.
Arguments l_atof {S}. Arguments l_line_count {S}. Arguments l_column_count {S}.
Arguments l_interp {S}. Arguments l_sind {S}. Arguments l_exp {S}.
Arguments l_alloc {S}.

(** A CSV object: the block of the struct, its pointers, [n_elements],
    [error_occurred], [error_message] if it is a heap block (the geo, cal, dlp and
    tau objects use string literals instead), and its boolean member
    ([use_deprecated]; [in_radians] for Uranus DLP files). *)
Record obj (S : scalar) : Type := mkObj {
  o_id : Z;
  o_col : col -> ptr S;
  o_n : Z;
  o_err : bool;
  o_msg : option Z;
  o_flag : bool
}.
Arguments mkObj {S}. Arguments o_id {S}. Arguments o_col {S}. Arguments o_n {S}.
Arguments o_err {S}. Arguments o_msg {S}. Arguments o_flag {S}.

(** How the table types differ. *)
Record format : Type := mkFormat {
  f_kind : kind;
  f_need : bool -> Z;              (* required number of columns *)
  f_malloc : bool -> list col;     (* members in the order of allocation *)
  f_read : bool -> list col;       (* members in the order of reading *)
  f_destroy : list col;            (* members in the order of freeing *)
  f_dup : bool                     (* error messages are duplicated on the heap *)
}.

(** src/csv_tools/rss_ringoccs_geo_csv_check_column_count.c 61-82,
    rss_ringoccs_geo_csv_malloc.c 102-124, rss_ringoccs_geo_csv_read_data.c
    98-156, rss_ringoccs_geo_csv_destroy_members.c 41-60. *)
Definition geo_format : format := mkFormat KGeo
  (fun dep => if dep then 18 else 19)
  (fun dep => [cTOET; cTRET; cTSET; cRHO; cPHIRL; cPHIORA; cB; cD; cRHODOT;
               cPHIRLDOT; cF; cRIMP; cRX; cRY; cRZ; cVX; cVY; cVZ]
              ++ (if dep then [] else [cOBSLAT]))
  (fun dep => [cTOET; cTRET; cTSET; cRHO; cPHIRL; cPHIORA; cB; cD; cRHODOT;
               cPHIRLDOT; cF; cRIMP; cRX; cRY; cRZ; cVX; cVY; cVZ]
              ++ (if dep then [] else [cOBSLAT]))
  [cTOET; cTRET; cTSET; cRHO; cPHIRL; cPHIORA; cB; cD; cRHODOT;
   cPHIRLDOT; cF; cRIMP; cRX; cRY; cRZ; cVX; cVY; cVZ; cOBSLAT; cHISTORY]
  false.

(** src/csv_tools/rss_ringoccs_cal_csv_check_column_count.c 65-75,
    rss_ringoccs_cal_csv_malloc.c 103-106, rss_ringoccs_cal_csv_read_data.c
    110-117, rss_ringoccs_cal_csv_destroy_members.c 41-45. *)
Definition cal_format : format := mkFormat KCal
  (fun _ => 4)
  (fun _ => [cTOET; cFPRED; cFRESID; cPFREE])
  (fun _ => [cTOET; cFPRED; cFRESID; cPFREE])
  [cTOET; cFPRED; cFRESID; cPFREE; cHISTORY]
  false.

(** src/csv_tools/rss_ringoccs_dlp_csv_check_column_count.c 61-81,
    rss_ringoccs_dlp_csv_malloc.c 103-119, rss_ringoccs_dlp_csv_read_data.c
    115-155, rss_ringoccs_dlp_csv_destroy_members.c 41-53. *)
Definition dlp_format : format := mkFormat KDlp
  (fun dep => if dep then 12 else 13)
  (fun dep => [cTOET; cTRET; cTSET; cRHO; cCPOLE; cCTIM; cPHIRL; cPHIORA; cB;
               cRAWTAU; cPHASE; cRAWTHR] ++ (if dep then [] else [cPNORM]))
  (fun dep => [cRHO; cCPOLE; cCTIM; cPHIRL; cPHIORA]
              ++ (if dep then [] else [cPNORM])
              ++ [cRAWTAU; cPHASE; cRAWTHR; cTOET; cTRET; cTSET; cB])
  [cRHO; cCPOLE; cCTIM; cPHIRL; cPHIORA; cPNORM; cRAWTAU; cPHASE; cRAWTHR;
   cTOET; cTRET; cTSET; cB]
  false.

(** src/csv_tools/rss_ringoccs_tau_csv_check_column_count.c 62-82,
    rss_ringoccs_tau_csv_malloc.c 101-119, rss_ringoccs_tau_csv_read_data.c
    115-155, rss_ringoccs_tau_csv_destroy_members.c 49-61. *)
Definition tau_format : format := mkFormat KTau
  (fun dep => if dep then 12 else 13)
  (fun dep => [cRHO; cCPOLE; cCTIM; cPHIRL; cPHIORA; cTAUV; cPHASE; cTAUTHR;
               cTOET; cTRET; cTSET; cB] ++ (if dep then [] else [cPOWER]))
  (fun dep => [cRHO; cCPOLE; cCTIM; cPHIRL; cPHIORA]
              ++ (if dep then [] else [cPOWER])
              ++ [cTAUV; cPHASE; cTAUTHR; cTOET; cTRET; cTSET; cB])
  [cRHO; cCPOLE; cCTIM; cPHIRL; cPHIORA; cPOWER; cTAUV; cPHASE; cTAUTHR;
   cTOET; cTRET; cTSET; cB]
  false.

(** src/csv_tools/rss_ringoccs_uranus_dlp_csv_check_column_count.c 65-78,
    rss_ringoccs_uranus_dlp_csv_malloc.c 106-122,
    rss_ringoccs_uranus_dlp_csv_read_data.c 126-146,
    rss_ringoccs_uranus_dlp_csv_destroy_members.c 49-65. *)
Definition uranus_dlp_format : format := mkFormat KUranusDlp
  (fun _ => 17)
  (fun _ => [cRHO; cCPOLE; cCTIM; cPHIRL; cPHIDEG; cPNORM; cRAWTAU; cPHASE;
             cRAWTHR; cTOET; cTRET; cTSET; cB; cRHODOT; cF; cD; cFSKY])
  (fun _ => [cRHO; cCPOLE; cCTIM; cPHIRL; cPHIDEG; cPNORM; cRAWTAU; cPHASE;
             cRAWTHR; cTOET; cTRET; cTSET; cB; cRHODOT; cF; cD; cFSKY])
  [cRHO; cCPOLE; cCTIM; cPHIRL; cPHIDEG; cPNORM; cRAWTAU; cPHASE;
   cRAWTHR; cTOET; cTRET; cTSET; cB; cRHODOT; cF; cD; cFSKY]
  true.

(** src/csv_tools/rss_ringoccs_merged_csv_data_check_column_count.c 65-76,
    rss_ringoccs_merged_csv_data_malloc.c 106-127,
    rss_ringoccs_merged_csv_data_read_data.c 155-177,
    rss_ringoccs_merged_csv_data_destroy_members.c 49-70. *)
Definition merged_format : format := mkFormat KMerged
  (fun _ => 19)
  (fun _ => [cB; cD; cFSKY; cPNORM; cRAWTAU; cPHASE; cPHIDEG; cPHIRL; cRAWTHR;
             cCPOLE; cCTIM; cRHODOT; cRHO; cRX; cRY; cRZ; cTOET; cTRET; cTSET;
             cTAUPHASE; cTAUPOWER; cTAUV])
  (fun _ => [cB; cD; cFSKY; cPNORM; cPHASE; cPHIDEG; cPHIRL; cRAWTHR; cRAWTAU;
             cCPOLE; cCTIM; cRHODOT; cRHO; cRX; cRY; cRZ; cTOET; cTRET; cTSET])
  [cB; cD; cFSKY; cPNORM; cRAWTAU; cPHASE; cPHIDEG; cPHIRL; cRAWTHR;
   cCPOLE; cCTIM; cRHODOT; cRHO; cRX; cRY; cRZ; cTOET; cTRET; cTSET;
   cTAUPHASE; cTAUPOWER; cTAUV]
  true.

Section Csv.
  Context {S : scalar}.
  Variable L : csvlib S.
  Local Open Scope heap_scope.

  Definition with_col (o : obj S) (c : col) (p : ptr S) : obj S :=
    mkObj (o_id o) (fun d => if col_beq d c then p else o_col o d)
          (o_n o) (o_err o) (o_msg o) (o_flag o).
  Definition with_n (o : obj S) (n : Z) : obj S :=
    mkObj (o_id o) (o_col o) n (o_err o) (o_msg o) (o_flag o).
  Definition with_flag (o : obj S) (b : bool) : obj S :=
    mkObj (o_id o) (o_col o) (o_n o) (o_err o) (o_msg o) b.

  (** [x->error_occurred = tmpl_True; x->error_message = ...]: a string literal,
      or a duplicate made on the heap (NULL if that allocation fails). *)
  Definition set_error (k : kind) (dup : bool) (o : obj S) : H (obj S) :=
    if dup
    then m <~ halloc (l_alloc L (SMsg k));
         hret (mkObj (o_id o) (o_col o) (o_n o) true m (o_flag o))
    else hret (mkObj (o_id o) (o_col o) (o_n o) true None (o_flag o)).

  (** src/csv_tools/rss_ringoccs_{geo,cal,dlp,tau,uranus_dlp}_csv_init.c,
      rss_ringoccs_merged_csv_data_init.c (all pointers NULL, no elements, no
      error), followed by the assignment of the boolean member in the extract
      functions. *)
  Definition init (id : Z) (flag : bool) : obj S :=
    mkObj id (fun _ => None) 0 false None flag.

  (** The [..._Destroy_Members] functions: [TMPL_FREE] (free and set to NULL) of
      each member, in order. *)
  Fixpoint destroy_cols (cs : list col) (o : obj S) : H (obj S) :=
    match cs with
    | [] => hret o
    | c :: r => _ <~ hfree (pid (o_col o c));
                destroy_cols r (with_col o c None)
    end.
  Definition destroy_members (F : format) (o : obj S) : H (obj S) :=
    _ <~ haccess (Some (o_id o)); destroy_cols (f_destroy F) o.

  (** rss_ringoccs_geo_csv_destroy.c 43-68, cal 43-68, dlp 43-69, tau 34-57,
      uranus_dlp 34-68, merged_csv_data_destroy.c 34-68.  The argument and the
      result are the value of the caller's pointer before and after. *)
  Definition destroy (F : format) (p : option (obj S)) : H (option (obj S)) :=
    match p with
    | None => hret None
    | Some o =>
        o1 <~ destroy_members F o;
        _ <~ (if f_dup F then hfree (o_msg o1) else hret tt);
        _ <~ hfree (Some (o_id o1));
        hret None
    end.

  (** The [..._Check_Column_Count] functions. *)
  Definition check_column_count (F : format) (s : text) (o : obj S) : H (obj S) :=
    if o_err o then hret o
    else if l_column_count L s =? f_need F (o_flag o) then hret o
    else set_error (f_kind F) (f_dup F) o.

  (** The [MALLOC_..._VAR] macros in sequence: allocate [n_elements] cells; on
      failure set the error and release all members. *)
  Fixpoint malloc_cols (F : format) (cs : list col) (o : obj S) : H (obj S) :=
    match cs with
    | [] => hret o
    | c :: r =>
        b <~ halloc (l_alloc L (SArr (f_kind F) c));
        match b with
        | Some id => malloc_cols F r
                       (with_col o c (Some (id, repeat None (Z.to_nat (o_n o)))))
        | None =>
            o1 <~ set_error (f_kind F) (f_dup F) (with_col o c None);
            destroy_members F o1
        end
    end.
  (** The [..._Malloc] functions (geo_csv_malloc.c 61-125, cal 62-107, dlp
      62-120, tau 59-120, uranus_dlp 62-123, merged_csv_data_malloc.c 62-128). *)
  Definition malloc_table (F : format) (s : text) (o : obj S) : H (obj S) :=
    if o_err o then hret o
    else let o1 := with_n o (l_line_count L s) in
         if o_n o1 =? 0 then set_error (f_kind F) (f_dup F) o1
         else malloc_cols F (f_malloc F (o_flag o1)) o1.

  (** [x->col[n] = v]. *)
  Definition store (o : obj S) (c : col) (n : Z) (v : S) : res (obj S) :=
    match o_col o c with
    | None => UB NullDeref
    | Some (id, l) => do l1 <- awrite l n (Some v); Ok (with_col o c (Some (id, l1)))
    end.
  (** [x->col[n]] as a value. *)
  Definition fetch (o : obj S) (c : col) (n : Z) : res S :=
    match o_col o c with
    | None => UB NullDeref
    | Some (_, l) => do v <- aread l n;
                     match v with Some x => Ok x | None => UB Uninitialised end
    end.

  (** One line: [record = strtok(.., ","); x->col[n] = atof(record);] for each
      column in turn ([atof(NULL)] is undefined). *)
  Fixpoint read_fields (cs : list col) (s : text) (n : Z) (o : obj S) : res (obj S) :=
    match cs with
    | [] => Ok o
    | c :: r =>
        match strtok s with
        | None => UB NullDeref
        | Some (tok, rest) => do o1 <- store o c n (l_atof L tok); read_fields r rest n o1
        end
    end.
  (** The loop [while (line != NULL)] from row [n] on; [lines] are the strings
      the calls of [fgets] return. *)
  Fixpoint read_rows (cs : list col) (lines : list text) (n : Z) (o : obj S) : res (obj S) :=
    match lines with
    | [] => Ok o
    | line :: r => do o1 <- read_fields cs (cstring line) n o; read_rows cs r (n + 1) o1
    end.
  (** The arrays written by the loop must be live (checked once, the loop does
      not free). *)
  Fixpoint access_all (cs : list col) (o : obj S) : H unit :=
    match cs with
    | [] => hret tt
    | c :: r => match o_col o c with
                | None => access_all r o
                | Some (id, _) => _ <~ haccess (Some id); access_all r o
                end
    end.

  (** rss_ringoccs_geo_csv_read_data.c 42-163, cal 48-126, dlp 42-163,
      tau 42-163. *)
  Definition read_table (F : format) (s : text) (o : obj S) : H (obj S) :=
    if o_err o then hret o
    else if o_n o =? 0 then set_error (f_kind F) (f_dup F) o
    else _ <~ access_all (f_read F (o_flag o)) o;
         hlift (read_rows (f_read F (o_flag o)) (file_lines s) 0 o).

  (** rss_ringoccs_merged_csv_data_read_data.c 49-185: a first line that starts
      with B or b is skipped. *)
  Definition read_merged (F : format) (s : text) (o : obj S) : H (obj S) :=
    if o_err o then hret o
    else if o_n o =? 0 then set_error (f_kind F) (f_dup F) o
    else _ <~ access_all (f_read F (o_flag o)) o;
         match file_lines s with
         | [] => set_error (f_kind F) (f_dup F) o
         | line :: r =>
             c <~ hlift (aread line 0);
             if (Ascii.eqb c "B"%char || Ascii.eqb c "b"%char)%bool
             then hlift (read_rows (f_read F (o_flag o)) r 0
                                   (with_n o (wrap64 (o_n o - 1))))
             else hlift (read_rows (f_read F (o_flag o)) (line :: r) 0 o)
         end.

  (** rss_ringoccs_uranus_dlp_csv_read_data.c 48: the conversion factor
      +5.7295779513082320876798154814105170E+01. *)
  Definition degrees_per_radian : S :=
    sfrac 57295779513082320876798154814105170 1000000000000000000000000000000000.
  (** [x->col[n] *= factor]. *)
  Definition scale_cell (c : col) (n : Z) (o : obj S) : res (obj S) :=
    do v <- fetch o c n; store o c n (v * degrees_per_radian)%S.
  (** rss_ringoccs_uranus_dlp_csv_read_data.c 51-170. *)
  Definition read_uranus (F : format) (s : text) (o : obj S) : H (obj S) :=
    if o_err o then hret o
    else if o_n o =? 0 then set_error (f_kind F) (f_dup F) o
    else _ <~ access_all (f_read F (o_flag o)) o;
         o1 <~ hlift (read_rows (f_read F (o_flag o)) (file_lines s) 0 o);
         if o_flag o1
         then o2 <~ hlift (for_range 0 (o_n o1)
                     (fun n o => do o <- scale_cell cPHIRL n o;
                                 do o <- scale_cell cPHIDEG n o;
                                 do o <- scale_cell cPHASE n o;
                                 scale_cell cB n o) o1);
              hret (with_flag o2 false)
         else hret o1.

  (** rss_ringoccs_geo_csv_extract.c 39-93, cal 40-90, dlp 39-93, tau 38-92,
      uranus_dlp 40-94, merged_csv_data_extract.c 40-92.  [file] is the content
      of the named file, [None] if it cannot be opened. *)
  Definition extract_with (read : format -> text -> obj S -> H (obj S))
      (F : format) (flag : bool) (file : option text) : H (option (obj S)) :=
    b <~ halloc (l_alloc L (SObj (f_kind F)));
    match b with
    | None => hret None
    | Some id =>
        let o := init id flag in
        match file with
        | None => o1 <~ set_error (f_kind F) (f_dup F) o; hret (Some o1)
        | Some s =>
            _ <~ hopen;
            o1 <~ check_column_count F s o;
            o2 <~ malloc_table F s o1;
            o3 <~ read F s o2;
            _ <~ hclose;
            hret (Some o3)
        end
    end.
  Definition geo_extract := extract_with read_table geo_format.
  Definition cal_extract := extract_with read_table cal_format false.
  Definition dlp_extract := extract_with read_table dlp_format.
  Definition tau_extract := extract_with read_table tau_format.
  Definition uranus_dlp_extract := extract_with read_uranus uranus_dlp_format.
  Definition merged_extract := extract_with read_merged merged_format false.
End Csv.
