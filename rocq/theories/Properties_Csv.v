(** * Properties_Csv: C34-C43, the CSV tables.

    Vocabulary: Spec_Csv.v and Spec_CsvData.v.  [L] is what the code uses of the C
    library and of libtmpl; [L]'s allocator is arbitrary unless stated.  [h] is the
    heap before the call, with any blocks already allocated. *)
From Coq Require Import List ZArith Lia Bool Ascii Reals.
From Verif Require Import Base BaseFacts Dbl DblFacts Scalar Spec_Tau Spec_Select Spec_Recon
  Model_Heap Model_Csv Model_CsvData Spec_Csv Spec_CsvData Proof_CsvText Proof_Csv Proof_Csv2
  Proof_CsvVal Proof_CsvVal2 Proof_CsvVal3 Proof_CsvVal4 Proof_CsvVal5 Ref_Csv Ex_Csv.
Import ListNotations.
Open Scope list_scope.
Open Scope Z_scope.

(** ** C34 *)
Theorem c34_rows_and_columns : forall (S : scalar) (L : csvlib S) t rows h,
  csv_laws L -> well_formed (List.length (columns t)) rows -> rows <> [] -> zlen rows < 2 ^ 64 ->
  (t = TMerged -> ~ starts_with_B (table_text rows)) ->
  allocs_ok L (kind_of t) -> good_heap h ->
  exists o h1, extract_table L t (Some (table_text rows)) h = Ok (Some o, h1) /\
    o_err o = false /\ o_n o = zlen rows /\ stores L t rows o /\
    forall c, In c (columns t) -> array o c (zlen rows).
Proof. exact @table_rows. Qed.
Print Assumptions c34_rows_and_columns.
Example c34_example : exists o h1,
  extract_table ex_lib (TGeo false) (Some (table_text ex_geo)) ex_heap = Ok (Some o, h1) /\ o_n o = 4.
Proof.
  destruct (good_tableb_ok (TGeo false) ex_geo eq_refl) as [A [B C]].
  destruct (c34_rows_and_columns _ ex_lib (TGeo false) ex_geo ex_heap ex_laws A B C ltac:(discriminate)
    (ex_allocs KGeo) ex_good_heap) as [o [h1 [E [_ [N _]]]]].
  exists o, h1. split; [exact E|exact N].
Qed.

(** ** C35: exactly which files are read without undefined behaviour *)
Theorem c35_which_files_are_safe : forall (S : scalar) (L : csvlib S) t s h,
  good_heap h -> allocs_ok L (kind_of t) -> s <> [] -> 0 <= l_line_count L s < 2 ^ 64 ->
  ((exists r, extract_table L t (Some s) h = Ok r) <->
   (l_column_count L s <> Z.of_nat (List.length (columns t)) \/ l_line_count L s = 0 \/
    readable L t s)).
Proof. exact @any_file. Qed.
Print Assumptions c35_which_files_are_safe.
(** In a file that is read, every line gives one row. *)
Theorem c35_lines_are_rows : forall (S : scalar) (L : csvlib S) t s h,
  good_heap h -> allocs_ok L (kind_of t) ->
  l_column_count L s = Z.of_nat (List.length (columns t)) ->
  0 < l_line_count L s < 2 ^ 64 -> s <> [] -> readable L t s ->
  exists o h1, extract_table L t (Some s) h = Ok (Some o, h1) /\
    o_err o = false /\ o_n o = row_count L t s /\
    forall i j line c f, entry (data_lines t s) i line -> entry (columns t) j c ->
      entry (fields (cstring line)) j f -> holds_at o c i (stored_value L t c f).
Proof. exact @file_values. Qed.
Print Assumptions c35_lines_are_rows.
(** A row with too few fields: a null field is passed to [atof]. *)
Theorem c35_short_row_refuted : exists s,
  forall r, extract_table ex_lib TCal (Some s) ex_heap <> Ok r.
Proof.
  exists (table_text [row 4 1 2; row 3 1 2]).
  assert (E : match extract_table ex_lib TCal (Some (table_text [row 4 1 2; row 3 1 2])) ex_heap with
              | Ok _ => false | UB _ => true end = true) by (vm_compute; reflexivity).
  intros r X. rewrite X in E. discriminate.
Qed.
Print Assumptions c35_short_row_refuted.
Example c35_example : exists r, extract_table ex_lib TCal (Some (table_text ex_cal)) ex_heap = Ok r.
Proof.
  apply c35_which_files_are_safe; [exact ex_good_heap|exact (ex_allocs KCal)|discriminate|vm_compute; split; [discriminate|reflexivity]|].
  right; right. destruct (good_tableb_ok TCal ex_cal eq_refl) as [A [B C]].
  apply (rows_readable ex_lib TCal ex_cal ex_laws A B). discriminate.
Qed.

(** ** C36 *)
Theorem c36_wrong_columns : forall (S : scalar) (L : csvlib S) t s h,
  l_alloc L (SObj (kind_of t)) = true ->
  l_column_count L s <> Z.of_nat (List.length (columns t)) ->
  exists o h1, extract_table L t (Some s) h = Ok (Some o, h1) /\
    o_err o = true /\ o_n o = 0 /\ forall c, o_col o c = None.
Proof. exact @wrong_columns. Qed.
Print Assumptions c36_wrong_columns.
Theorem c36_unopened : forall (S : scalar) (L : csvlib S) t h,
  l_alloc L (SObj (kind_of t)) = true ->
  exists o h1, extract_table L t None h = Ok (Some o, h1) /\
    o_err o = true /\ o_n o = 0 /\ forall c, o_col o c = None.
Proof. exact @unopened. Qed.
Print Assumptions c36_unopened.
Example c36_example : exists o h1,
  extract_table ex_lib (TGeo true) (Some (table_text ex_geo)) ex_heap = Ok (Some o, h1) /\ o_err o = true.
Proof.
  destruct (c36_wrong_columns _ ex_lib (TGeo true) (table_text ex_geo) ex_heap eq_refl) as [o [h1 [E [X _]]]];
    [vm_compute; discriminate|]. eauto.
Qed.

(** ** C37 *)
Theorem c37_angles : forall (S : scalar) (L : csvlib S) rows h,
  csv_laws L -> well_formed 17 rows -> rows <> [] -> zlen rows < 2 ^ 64 ->
  allocs_ok L KUranusDlp -> good_heap h ->
  exists od h1 orad h2,
    extract_table L (TUranus false) (Some (table_text rows)) h = Ok (Some od, h1) /\
    extract_table L (TUranus true) (Some (table_text rows)) h = Ok (Some orad, h2) /\
    o_err od = false /\ o_err orad = false /\ o_flag od = false /\ o_flag orad = false /\
    forall i fs j f c, entry rows i fs -> entry fs j f -> entry (columns (TUranus false)) j c ->
      holds_at od c i (l_atof L f) /\
      holds_at orad c i (if angle c then (l_atof L f * deg_per_rad)%S else l_atof L f).
Proof. exact @uranus_angles. Qed.
Print Assumptions c37_angles.
(** The factor is 180/pi. *)
Theorem c37_factor : (Rabs ((@deg_per_rad real_scalar : R) - 180 / PI) <= / 1000000000000)%R.
Proof. exact factor_real. Qed.
Print Assumptions c37_factor.
Example c37_example : exists o h1,
  extract_table ex_lib (TUranus true) (Some (table_text ex_uranus)) ex_heap = Ok (Some o, h1) /\ o_flag o = false.
Proof.
  destruct (good_tableb_ok (TUranus true) ex_uranus eq_refl) as [A [B C]].
  destruct (c37_angles _ ex_lib ex_uranus ex_heap ex_laws A B C (ex_allocs KUranusDlp) ex_good_heap)
    as [_ [_ [o [h1 [_ [E [_ [_ [_ [X _]]]]]]]]]]. eauto.
Qed.

(** ** C38 *)
Theorem c38_header : forall (S : scalar) (L : csvlib S) hd rows h,
  csv_laws L -> well_formed 19 (hd :: rows) -> zlen (hd :: rows) < 2 ^ 64 ->
  starts_with_B (row_text hd) ->
  allocs_ok L KMerged -> good_heap h ->
  exists o h1, extract_table L TMerged (Some (table_text (hd :: rows))) h = Ok (Some o, h1) /\
    o_err o = false /\ o_n o = zlen rows /\ stores L TMerged rows o.
Proof.
  intros S L hd rows h A B C D E F. destruct (header_rows L hd rows h A B C D E F) as [o [h1 [X [Y [Z0 [W _]]]]]].
  exists o, h1. auto.
Qed.
Print Assumptions c38_header.
Theorem c38_no_header : forall (S : scalar) (L : csvlib S) rows h,
  csv_laws L -> well_formed 19 rows -> rows <> [] -> zlen rows < 2 ^ 64 ->
  ~ starts_with_B (table_text rows) ->
  allocs_ok L KMerged -> good_heap h ->
  exists o h1, extract_table L TMerged (Some (table_text rows)) h = Ok (Some o, h1) /\
    o_err o = false /\ o_n o = zlen rows /\ stores L TMerged rows o.
Proof.
  intros S L rows h A B C D E F G. destruct (no_header_unwritten L rows h A B C D E F G) as [o [h1 [X [Y [Z0 [W _]]]]]].
  exists o, h1. auto.
Qed.
Print Assumptions c38_no_header.
(** Three exposed arrays are never written, whatever the table. *)
Theorem c38_arrays_filled_refuted : forall (S : scalar) (L : csvlib S) rows h,
  csv_laws L -> well_formed 19 rows -> rows <> [] -> zlen rows < 2 ^ 64 ->
  ~ starts_with_B (table_text rows) ->
  allocs_ok L KMerged -> good_heap h ->
  exists o h1, extract_table L TMerged (Some (table_text rows)) h = Ok (Some o, h1) /\
    o_err o = false /\
    forall c i, In c [cTAUPHASE; cTAUPOWER; cTAUV] -> 0 <= i < o_n o -> unwritten o c i.
Proof.
  intros S L rows h A B C D E F G. destruct (no_header_unwritten L rows h A B C D E F G) as [o [h1 [X [Y [Z0 [_ W]]]]]].
  exists o, h1. rewrite Z0. auto.
Qed.
Print Assumptions c38_arrays_filled_refuted.
Example c38_example : exists o h1,
  extract_table ex_lib TMerged (Some (table_text (ex_header :: ex_merged))) ex_heap = Ok (Some o, h1) /\ o_n o = 2.
Proof.
  destruct (good_tableb_ok TMerged (ex_header :: ex_merged) eq_refl) as [A [B C]].
  destruct (c38_header _ ex_lib ex_header ex_merged ex_heap ex_laws A C) as [o [h1 [E [_ [N _]]]]];
    [eexists; left; reflexivity|exact (ex_allocs KMerged)|exact ex_good_heap|]. eauto.
Qed.

(** ** C39 *)
(** Tables: any file, any pattern of allocation failures. *)
Theorem c39_tables : forall (S : scalar) (L : csvlib S) t file h,
  good_heap h ->
  (forall u, extract_table L t file h = UB u -> ~ memory_fault u) /\
  (forall p h1, extract_table L t file h = Ok (p, h1) ->
     files h1 = files h /\
     exists h2, destroy_table t p h1 = Ok (None, h2) /\ same_resources h h2).
Proof. exact @table_memory. Qed.
Print Assumptions c39_tables.
(** Combined extraction: any files; any pattern of allocation failures except for
    the object of the TAU table and the members allocated after the DLP columns
    have been taken over. *)
Theorem c39_cassini : forall (S : scalar) (L : csvlib S) geo cal dlp tau legacy h,
  good_heap h ->
  (tau <> None -> l_alloc L (SObj KTau) = true) ->
  (forall x, In x [cD; cFSKY; cRHODOT; cRX; cRY; cRZ; cTAUPHASE; cTAUPOWER; cTAUV] ->
     l_alloc L (SArr KCsv x) = true) ->
  (forall u, csv_extract L geo cal dlp tau legacy h = UB u -> ~ memory_fault u) /\
  (forall p h1, csv_extract L geo cal dlp tau legacy h = Ok (p, h1) ->
     files h1 = files h /\ exists h2, csv_destroy csv_family p h1 = Ok (None, h2) /\ same_resources h h2).
Proof. exact @cassini_memory. Qed.
Print Assumptions c39_cassini.
Theorem c39_uranus : forall (S : scalar) (L : csvlib S) geo dlp tau rad h,
  good_heap h ->
  (tau <> None -> l_alloc L (SObj KTau) = true) ->
  (forall x, In x [cRX; cRY; cRZ; cTAUPHASE; cTAUPOWER; cTAUV] ->
     l_alloc L (SArr KUranusCsv x) = true) ->
  (forall u, uranus_csv_extract L geo dlp tau rad h = UB u -> ~ memory_fault u) /\
  (forall p h1, uranus_csv_extract L geo dlp tau rad h = Ok (p, h1) ->
     files h1 = files h /\ exists h2, csv_destroy uranus_family p h1 = Ok (None, h2) /\ same_resources h h2).
Proof. exact @uranus_memory. Qed.
Print Assumptions c39_uranus.
(** If the allocation of a member fails after the DLP columns have been taken over,
    these are freed twice. *)
Definition fail_member : site -> bool := fun s => match s with SArr KCsv cD => false | _ => true end.
Theorem c39_double_free_refuted :
  csv_extract (ref fail_member) (Some (table_text ex_geo)) (Some (table_text ex_cal))
    (Some (table_text ex_dlp)) None false ex_heap = UB DoubleFree.
Proof.
  assert (E : match csv_extract (ref fail_member) (Some (table_text ex_geo)) (Some (table_text ex_cal))
    (Some (table_text ex_dlp)) None false ex_heap with UB DoubleFree => true | _ => false end = true)
    by (vm_compute; reflexivity).
  destruct (csv_extract _ _ _ _ _ _ _) as [|[]]; try discriminate. reflexivity.
Qed.
Print Assumptions c39_double_free_refuted.
(** If the object of the TAU table cannot be allocated, blocks are leaked. *)
Definition fail_tau : site -> bool := fun s => match s with SObj KTau => false | _ => true end.
Theorem c39_leak_refuted : exists p h1 h2,
  csv_extract (ref fail_tau) (Some (table_text ex_geo)) (Some (table_text ex_cal))
    (Some (table_text ex_dlp)) (Some (Some (table_text ex_tau))) false ex_heap = Ok (p, h1) /\
  csv_destroy csv_family p h1 = Ok (None, h2) /\ live ex_heap = [] /\ live h2 <> [].
Proof.
  assert (E : match csv_extract (ref fail_tau) (Some (table_text ex_geo)) (Some (table_text ex_cal))
    (Some (table_text ex_dlp)) (Some (Some (table_text ex_tau))) false ex_heap with
    | Ok (p, h1) => match csv_destroy csv_family p h1 with
                    | Ok (None, h2) => match live h2 with [] => false | _ => true end
                    | _ => false end
    | UB _ => false end = true) by (vm_compute; reflexivity).
  destruct (csv_extract _ _ _ _ _ _ _) as [[p h1]|]; [|discriminate].
  destruct (csv_destroy csv_family p h1) as [[[q|] h2]|] eqn:D; try discriminate.
  exists p, h1, h2. split; [reflexivity|]. split; [exact D|]. split; [reflexivity|].
  intro X. rewrite X in E. discriminate.
Qed.
Print Assumptions c39_leak_refuted.

(** ** C40 *)
Theorem c40_unusable_files_reported : forall (S : scalar) (L : csvlib S) legacy geo cal dlp tau h,
  csv_laws L -> all_allocs L -> good_heap h ->
  unusable L (TGeo legacy) geo \/ good_file (TGeo legacy) geo ->
  unusable L TCal cal \/ good_file TCal cal ->
  unusable L (TDlp legacy) dlp \/ good_file (TDlp legacy) dlp ->
  (forall f, tau = Some f -> unusable L (TTau legacy) f \/ good_file (TTau legacy) f) ->
  unusable L (TGeo legacy) geo \/ unusable L TCal cal \/ unusable L (TDlp legacy) dlp \/
    (exists f, tau = Some f /\ unusable L (TTau legacy) f) ->
  exists c h1, csv_extract L geo cal dlp tau legacy h = Ok (Some c, h1) /\ c_err c = true.
Proof. intros S L legacy geo cal dlp tau h A B. exact (cassini_unusable L A B legacy geo cal dlp tau h). Qed.
Print Assumptions c40_unusable_files_reported.
(** A Uranus extraction in which a file is unusable always dereferences a null
    pointer. *)
Theorem c40_uranus_refuted : forall (S : scalar) (L : csvlib S) rad geo dlp tau h,
  csv_laws L -> all_allocs L -> good_heap h ->
  unusable L (TGeo false) geo \/ good_file (TGeo false) geo ->
  unusable L (TUranus rad) dlp \/ good_file (TUranus rad) dlp ->
  (forall f, tau = Some f -> unusable L (TTau false) f \/ good_file (TTau false) f) ->
  unusable L (TGeo false) geo \/ unusable L (TUranus rad) dlp \/
    (exists f, tau = Some f /\ unusable L (TTau false) f) ->
  uranus_csv_extract L geo dlp tau rad h = UB NullDeref.
Proof. intros S L rad geo dlp tau h A B. exact (uranus_unusable L A B rad geo dlp tau h). Qed.
Print Assumptions c40_uranus_refuted.
Lemma ex_file t rows : good_tableb t rows = true -> good_file t (Some (table_text rows)).
Proof. intro H. exists rows. split; [reflexivity|apply good_tableb_ok; exact H]. Qed.
Example c40_example : exists c h1,
  csv_extract ex_lib (Some (table_text ex_geo)) None (Some (table_text ex_dlp)) None false ex_heap = Ok (Some c, h1) /\ c_err c = true.
Proof.
  apply c40_unusable_files_reported; [exact ex_laws|exact ex_allocs|exact ex_good_heap| | | |discriminate|].
  - right; apply ex_file; reflexivity.
  - left; exact I.
  - right; apply ex_file; reflexivity.
  - right; left; exact I.
Qed.
Example c40_uranus_example : uranus_csv_extract ex_lib None (Some (table_text ex_uranus)) None true ex_heap = UB NullDeref.
Proof.
  apply c40_uranus_refuted; [exact ex_laws|exact ex_allocs|exact ex_good_heap| | |discriminate|].
  - left; exact I.
  - right; apply ex_file; reflexivity.
  - left; exact I.
Qed.

(** ** C41 *)
Theorem c41_chords_rejected : forall (L : csvlib dbl_scalar) legacy geo cal dlp tau h,
  csv_laws L -> all_allocs L -> good_heap h ->
  good_table (TGeo legacy) geo -> good_table TCal cal -> good_table (TDlp legacy) dlp ->
  good_tau legacy tau ->
  let V := speeds (column L (TDlp legacy) dlp cRHO) (column L (TDlp legacy) dlp cTSET) in
  numbers V -> chord V ->
  exists c h1, csv_extract L (Some (table_text geo)) (Some (table_text cal)) (Some (table_text dlp))
                 (tau_file tau) legacy h = Ok (Some c, h1) /\ c_err c = true.
Proof. intros L legacy geo cal dlp tau h A B. exact (cassini_chord L A B legacy geo cal dlp tau h). Qed.
Print Assumptions c41_chords_rejected.
Theorem c41_uranus_chords_rejected : forall (L : csvlib dbl_scalar) rad geo dlp tau h,
  csv_laws L -> all_allocs L -> good_heap h ->
  good_table (TGeo false) geo -> good_table (TUranus rad) dlp -> good_tau false tau ->
  let V := speeds (column L (TUranus rad) dlp cRHO) (column L (TUranus rad) dlp cTSET) in
  numbers V -> chord V ->
  exists c h1, uranus_csv_extract L (Some (table_text geo)) (Some (table_text dlp))
                 (tau_file tau) rad h = Ok (Some c, h1) /\ c_err c = true.
Proof. intros L rad geo dlp tau h A B. exact (uranus_chord L A B rad geo dlp tau h). Qed.
Print Assumptions c41_uranus_chords_rejected.
(** If the geometry has a sample in the direction of the data, the error is set
    exactly for chords.  Any list of velocities without NaN is in one of the three
    cases.  That the geometry is reversed exactly for ingress, and used from the
    first sample in the direction of the data on, is part of C42. *)
Theorem c41_error_exactly_for_chords : forall (L : csvlib dbl_scalar) legacy geo cal dlp tau h,
  csv_laws L -> interp_law L -> all_allocs L -> good_heap h ->
  good_table (TGeo legacy) geo -> good_table TCal cal -> good_table (TDlp legacy) dlp ->
  good_tau legacy tau ->
  let V := speeds (column L (TDlp legacy) dlp cRHO) (column L (TDlp legacy) dlp cTSET) in
  let dots := column L (TGeo legacy) geo cRHODOT in
  numbers V -> numbers dots ->
  (forall reversed, direction reversed V -> exists v, In v dots /\ toward reversed v) ->
  exists c h1, csv_extract L (Some (table_text geo)) (Some (table_text cal)) (Some (table_text dlp))
                 (tau_file tau) legacy h = Ok (Some c, h1) /\ (c_err c = true <-> chord V).
Proof. exact cassini_error_iff. Qed.
Print Assumptions c41_error_exactly_for_chords.
Theorem c41_directions : forall V, numbers V -> ingress V \/ egress V \/ chord V.
Proof. exact directions. Qed.
Print Assumptions c41_directions.
(** Otherwise the search runs past the end of the geometry arrays, whatever the
    tables. *)
Theorem c41_search_bounds_refuted : forall (L : csvlib dbl_scalar) legacy reversed geo cal dlp tau h,
  csv_laws L -> all_allocs L -> good_heap h ->
  good_table (TGeo legacy) geo -> good_table TCal cal -> good_table (TDlp legacy) dlp ->
  good_tau legacy tau ->
  let V := speeds (column L (TDlp legacy) dlp cRHO) (column L (TDlp legacy) dlp cTSET) in
  let dots := column L (TGeo legacy) geo cRHODOT in
  numbers V -> numbers dots -> direction reversed V ->
  (forall v, In v dots -> ~ toward reversed v) ->
  csv_extract L (Some (table_text geo)) (Some (table_text cal)) (Some (table_text dlp))
                 (tau_file tau) legacy h = UB OutOfBounds.
Proof. intros L legacy rv geo cal dlp tau h A B. exact (cassini_lost L A B legacy rv geo cal dlp tau h). Qed.
Print Assumptions c41_search_bounds_refuted.
Ltac tab := apply good_tableb_ok; vm_compute; reflexivity.
Example c41_example : exists c h1,
  csv_extract ex_lib (Some (table_text ex_geo)) (Some (table_text ex_cal)) (Some (table_text ex_dlp_chord)) None false ex_heap
  = Ok (Some c, h1) /\ c_err c = true.
Proof.
  apply (c41_chords_rejected ex_lib false ex_geo ex_cal ex_dlp_chord None ex_heap ex_laws ex_allocs ex_good_heap);
    [tab|tab|tab|discriminate|apply numbersb_ok; vm_compute; reflexivity|].
  apply chord_iff; [apply numbersb_ok; vm_compute; reflexivity|]. vm_compute; reflexivity.
Qed.
Example c41_lost_example :
  csv_extract ex_lib (Some (table_text ex_geo)) (Some (table_text ex_cal)) (Some (table_text ex_dlp_in)) None false ex_heap
  = UB OutOfBounds.
Proof.
  apply (c41_search_bounds_refuted ex_lib false true ex_geo ex_cal ex_dlp_in None ex_heap ex_laws ex_allocs ex_good_heap);
    [tab|tab|tab|discriminate|apply numbersb_ok; vm_compute; reflexivity|apply numbersb_ok; vm_compute; reflexivity| |].
  - apply ingressb_ok. vm_compute; reflexivity.
  - assert (X : forallb (fun v => negb (dlt v (dofZ 0))) (column ex_lib (TGeo false) ex_geo cRHODOT) = true) by (vm_compute; reflexivity).
    intros v I N. apply neg_lt in N. rewrite forallb_forall in X. specialize (X v I). rewrite N in X. discriminate.
Qed.

(** ** C42 *)
Theorem c42_aligned : forall (L : csvlib dbl_scalar) legacy reversed first geo cal dlp tau h,
  csv_laws L -> interp_law L -> all_allocs L -> good_heap h ->
  good_table (TGeo legacy) geo -> good_table TCal cal -> good_table (TDlp legacy) dlp ->
  good_tau legacy tau ->
  let V := speeds (column L (TDlp legacy) dlp cRHO) (column L (TDlp legacy) dlp cTSET) in
  let dots := column L (TGeo legacy) geo cRHODOT in
  numbers V -> numbers dots -> direction reversed V ->
  first_at (toward reversed) (if reversed then rev dots else dots) first ->
  exists c h1, csv_extract L (Some (table_text geo)) (Some (table_text cal)) (Some (table_text dlp))
                 (tau_file tau) legacy h = Ok (Some c, h1) /\
    combined L legacy reversed first geo cal dlp tau c.
Proof. intros L legacy rv first geo cal dlp tau h A B C. exact (cassini_combined L A B C legacy rv first geo cal dlp tau h). Qed.
Print Assumptions c42_aligned.
Theorem c42_uranus_aligned : forall (L : csvlib dbl_scalar) rad reversed first geo dlp tau h,
  csv_laws L -> interp_law L -> all_allocs L -> good_heap h ->
  good_table (TGeo false) geo -> good_table (TUranus rad) dlp -> good_tau false tau ->
  let V := speeds (column L (TUranus rad) dlp cRHO) (column L (TUranus rad) dlp cTSET) in
  let dots := column L (TGeo false) geo cRHODOT in
  numbers V -> numbers dots -> direction reversed V ->
  first_at (toward reversed) (if reversed then rev dots else dots) first ->
  exists c h1, uranus_csv_extract L (Some (table_text geo)) (Some (table_text dlp))
                 (tau_file tau) rad h = Ok (Some c, h1) /\
    uranus_combined L rad reversed first geo dlp tau c.
Proof. intros L rad rv first geo dlp tau h A B C. exact (uranus_good L A B C rad rv first geo dlp tau h). Qed.
Print Assumptions c42_uranus_aligned.
(** All these arrays have as many entries as there are DLP samples. *)
Theorem c42_lengths : forall (S : scalar) (L : csvlib S) legacy reversed first geo cal dlp tau c,
  interp_law L -> combined L legacy reversed first geo cal dlp tau c ->
  forall x, In x ([cRHO; cRAWTAU; cTRET; cTSET; cTOET; cCPOLE; cCTIM; cRAWTHR; cPHASE; cB; cPHIRL; cPHIDEG; cPNORM;
                   cD; cRHODOT; cRX; cRY; cRZ; cFSKY] ++ match tau with Some _ => [cTAUPHASE; cTAUV; cTAUPOWER] | None => [] end) ->
  array (c_obj c) x (c_n c).
Proof. exact @combined_lengths. Qed.
Print Assumptions c42_lengths.
Example c42_example : exists c h1,
  csv_extract ex_lib (Some (table_text ex_geo)) (Some (table_text ex_cal)) (Some (table_text ex_dlp))
    (Some (Some (table_text ex_tau))) false ex_heap = Ok (Some c, h1) /\
  combined ex_lib false false 1 ex_geo ex_cal ex_dlp (Some ex_tau) c.
Proof.
  apply (c42_aligned ex_lib false false 1 ex_geo ex_cal ex_dlp (Some ex_tau) ex_heap ex_laws ex_interp ex_allocs ex_good_heap);
    [tab|tab|tab|intros rows [= <-]; tab|apply numbersb_ok; vm_compute; reflexivity|apply numbersb_ok; vm_compute; reflexivity| |].
  - apply egressb_ok. vm_compute; reflexivity.
  - split.
    + exists (dofZ 1). split; [split; [lia|reflexivity]|]. apply pos_lt. vm_compute; reflexivity.
    + intros i x [B E] Lt. assert (i = 0) by lia. subst. cbn in E. injection E as <-.
      intro P. apply pos_lt in P. vm_compute in P. discriminate.
Qed.
Example c42_ingress_example : exists c h1,
  csv_extract ex_lib (Some (table_text ex_geo_in)) (Some (table_text ex_cal)) (Some (table_text ex_dlp_in))
    None false ex_heap = Ok (Some c, h1) /\
  combined ex_lib false true 0 ex_geo_in ex_cal ex_dlp_in None c.
Proof.
  apply (c42_aligned ex_lib false true 0 ex_geo_in ex_cal ex_dlp_in None ex_heap ex_laws ex_interp ex_allocs ex_good_heap);
    [tab|tab|tab|discriminate|apply numbersb_ok; vm_compute; reflexivity|apply numbersb_ok; vm_compute; reflexivity| |].
  - apply ingressb_ok. vm_compute; reflexivity.
  - split.
    + exists (dofZ (-1)). split; [split; [lia|reflexivity]|]. apply neg_lt. vm_compute; reflexivity.
    + intros i x [B E] Lt. lia.
Qed.
Example c42_uranus_example : exists c h1,
  uranus_csv_extract ex_lib (Some (table_text ex_geo)) (Some (table_text ex_uranus)) None true ex_heap = Ok (Some c, h1) /\
  uranus_combined ex_lib true false 1 ex_geo ex_uranus None c.
Proof.
  apply (c42_uranus_aligned ex_lib true false 1 ex_geo ex_uranus None ex_heap ex_laws ex_interp ex_allocs ex_good_heap);
    [tab|tab|discriminate|apply numbersb_ok; vm_compute; reflexivity|apply numbersb_ok; vm_compute; reflexivity| |].
  - apply egressb_ok. vm_compute; reflexivity.
  - split.
    + exists (dofZ 1). split; [split; [lia|reflexivity]|]. apply pos_lt. vm_compute; reflexivity.
    + intros i x [B E] Lt. assert (i = 0) by lia. subst. cbn in E. injection E as <-.
      intro P. apply pos_lt in P. vm_compute in P. discriminate.
Qed.

(** ** C43 *)
Theorem c43_legacy_power : forall (L : csvlib dbl_scalar) reversed first geo cal dlp tau h,
  csv_laws L -> interp_law L -> all_allocs L -> good_heap h ->
  good_table (TGeo true) geo -> good_table TCal cal -> good_table (TDlp true) dlp ->
  good_tau true tau ->
  let V := speeds (column L (TDlp true) dlp cRHO) (column L (TDlp true) dlp cTSET) in
  let dots := column L (TGeo true) geo cRHODOT in
  numbers V -> numbers dots -> direction reversed V ->
  first_at (toward reversed) (if reversed then rev dots else dots) first ->
  exists c h1, csv_extract L (Some (table_text geo)) (Some (table_text cal)) (Some (table_text dlp))
                 (tau_file tau) true h = Ok (Some c, h1) /\ c_err c = false /\
    (forall i t B, holds_at (c_obj c) cRAWTAU i t -> holds_at (c_obj c) cB i B ->
       holds_at (c_obj c) cPNORM i (l_exp L (- t / l_sind L (sabs B))%S)) /\
    (tau <> None -> forall i t B, holds_at (c_obj c) cTAUV i t -> holds_at (c_obj c) cB i B ->
       holds_at (c_obj c) cTAUPOWER i (l_exp L (- t / l_sind L (sabs B))%S)).
Proof.
  intros L rv first geo cal dlp tau h A B C D E F G H0 V dots I J K M.
  destruct (cassini_combined L A B C true rv first geo cal dlp tau h D E F G H0 I J K M) as [c [h1 [X Y]]].
  exists c, h1. split; [exact X|]. exact (combined_power L rv first geo cal dlp tau c B Y).
Qed.
Print Assumptions c43_legacy_power.
(** In exact arithmetic, with opening angles of at most a half turn, this is
    exp(-tau/|sin B|). *)
Theorem c43_formula : forall (t B : R), (Rabs B <= 180)%R ->
  exp (- t / sin (Rabs B * (PI / 180))) = exp (- t / Rabs (sin (B * (PI / 180)))).
Proof. exact power_formula. Qed.
Print Assumptions c43_formula.
Example c43_example : exists c h1,
  csv_extract ex_lib (Some (table_text ex_geo_legacy)) (Some (table_text ex_cal)) (Some (table_text ex_legacy))
    None true ex_heap = Ok (Some c, h1) /\ c_err c = false.
Proof.
  destruct (c43_legacy_power ex_lib false 1 ex_geo_legacy ex_cal ex_legacy None ex_heap ex_laws ex_interp ex_allocs ex_good_heap)
    as [c [h1 [E [X _]]]];
    [tab|tab|tab|discriminate|apply numbersb_ok; vm_compute; reflexivity|apply numbersb_ok; vm_compute; reflexivity| | |].
  - apply egressb_ok. vm_compute; reflexivity.
  - split.
    + exists (dofZ 1). split; [split; [lia|reflexivity]|]. apply pos_lt. vm_compute; reflexivity.
    + intros i x [B E] Lt. assert (i = 0) by lia. subst. cbn in E. injection E as <-.
      intro P. apply pos_lt in P. vm_compute in P. discriminate.
  - exists c, h1. auto.
Qed.
