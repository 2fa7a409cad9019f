(** * Properties_PyCsv: C58 and C59, the Python classes that read CSV files.

    Vocabulary: Spec_PyCsv.v, Spec_Csv.v, Spec_CsvData.v, Spec_Py.v.  [L] is what the
    code uses of the C library and of libtmpl.  [h] is the heap before the call, with
    any blocks already allocated. *)
From Coq Require Import List ZArith Lia Bool Ascii String.
From Verif Require Import Base Dbl DblFacts Scalar Spec_Tau Spec_Select Spec_Recon
  Model_Heap Model_Csv Model_CsvData Model_Create Model_Py Model_PyCsv Spec_Csv Spec_CsvData Spec_Py Spec_PyCsv
  Proof_CsvVal4 Proof_CsvVal5 Proof_Py Proof_PyCsv Proof_PyCsv2 Ref_Csv Ex_Csv.
Import ListNotations.
Open Scope list_scope.
Open Scope Z_scope.

(** ** C58: what the instances show *)
Theorem c58_cassini : forall (L : csvlib dbl_scalar) legacy reversed first geo cal dlp tau h,
  csv_laws L -> interp_law L -> all_allocs L -> good_heap h ->
  good_table (TGeo legacy) geo -> good_table TCal cal -> good_table (TDlp legacy) dlp ->
  good_tau legacy tau ->
  let V := speeds (column L (TDlp legacy) dlp cRHO) (column L (TDlp legacy) dlp cTSET) in
  let dots := column L (TGeo legacy) geo cRHODOT in
  numbers V -> numbers dots -> direction reversed V ->
  first_at (toward reversed) (if reversed then rev dots else dots) first ->
  exists v h1, extract_csv_data_init L new_instance (Some (Some (table_text geo)))
      (Some (Some (table_text cal))) (Some (Some (table_text dlp))) (tau_file tau) legacy h
      = Ok (CsvMade v, h1) /\
    shows_cassini L legacy reversed first geo cal dlp tau v.
Proof. intros L legacy rv first geo cal dlp tau h A B C. exact (cassini_py L A C B legacy rv first geo cal dlp tau h). Qed.
Print Assumptions c58_cassini.
Theorem c58_uranus : forall (L : csvlib dbl_scalar) rad reversed first geo dlp tau h,
  csv_laws L -> interp_law L -> all_allocs L -> good_heap h ->
  good_table (TGeo false) geo -> good_table (TUranus rad) dlp -> good_tau false tau ->
  let V := speeds (column L (TUranus rad) dlp cRHO) (column L (TUranus rad) dlp cTSET) in
  let dots := column L (TGeo false) geo cRHODOT in
  numbers V -> numbers dots -> direction reversed V ->
  first_at (toward reversed) (if reversed then rev dots else dots) first ->
  exists v h1, get_uranus_data_init L new_instance (Some (Some (table_text geo)))
      (Some (Some (table_text dlp))) (tau_file tau) rad h = Ok (CsvMade v, h1) /\
    shows_uranus L rad reversed first geo dlp tau v.
Proof. intros L rad rv first geo dlp tau h A B C. exact (uranus_py L A C B rad rv first geo dlp tau h). Qed.
Print Assumptions c58_uranus.
(** A merged table: the nineteen columns, without a header row that starts with B. *)
Theorem c58_merged : forall (S : scalar) (L : csvlib S) rows hd h,
  csv_laws L -> allocs_ok L KMerged -> good_heap h -> rows <> [] ->
  match hd with
  | None => well_formed 19 rows /\ zlen rows < 2 ^ 64 /\ ~ starts_with_B (table_text rows)
  | Some b => well_formed 19 (b :: rows) /\ zlen (b :: rows) < 2 ^ 64 /\ starts_with_B (row_text b)
  end ->
  exists v h1, get_merged_csv_data_init L new_instance
      (Some (Some (table_text (match hd with Some b => b :: rows | None => rows end)))) h
      = Ok (CsvMade v, h1) /\ shows_merged L rows v.
Proof.
  intros S L rows hd h A B C D E. destruct (merged_py L rows hd h A B C D E) as [v [h1 [X [Y _]]]].
  exists v, h1. split; assumption.
Qed.
Print Assumptions c58_merged.
(** The other three arrays of such an instance were never written. *)
Theorem c58_merged_unwritten_refuted : forall (S : scalar) (L : csvlib S) rows h,
  csv_laws L -> allocs_ok L KMerged -> good_heap h -> rows <> [] ->
  well_formed 19 rows -> zlen rows < 2 ^ 64 -> ~ starts_with_B (table_text rows) ->
  exists v h1, get_merged_csv_data_init L new_instance (Some (Some (table_text rows))) h
      = Ok (CsvMade v, h1) /\
    forall name, In name ["tau_phase_deg_vals"%string; "tau_power_vals"%string; "tau_vals"%string] ->
      shows_unwritten v name (zlen rows).
Proof.
  intros S L rows h A B C D E F G.
  destruct (merged_py L rows None h A B C D (conj E (conj F G))) as [v [h1 [X [_ Y]]]].
  exists v, h1. split; assumption.
Qed.
Print Assumptions c58_merged_unwritten_refuted.
(** An exception is raised for unusable files and for chord occultations. *)
Theorem c58_cassini_unusable_raises : forall (L : csvlib dbl_scalar) legacy geo cal dlp tau h,
  csv_laws L -> all_allocs L -> good_heap h ->
  unusable L (TGeo legacy) geo \/ good_file (TGeo legacy) geo ->
  unusable L TCal cal \/ good_file TCal cal ->
  unusable L (TDlp legacy) dlp \/ good_file (TDlp legacy) dlp ->
  (forall f, tau = Some f -> unusable L (TTau legacy) f \/ good_file (TTau legacy) f) ->
  unusable L (TGeo legacy) geo \/ unusable L TCal cal \/ unusable L (TDlp legacy) dlp \/
    (exists f, tau = Some f /\ unusable L (TTau legacy) f) ->
  exists h1, extract_csv_data_init L new_instance (Some geo) (Some cal) (Some dlp) tau legacy h
    = Ok (@CsvRaised dbl_scalar, h1).
Proof. intros L legacy geo cal dlp tau h A B. exact (cassini_unusable_py L A B legacy geo cal dlp tau h). Qed.
Print Assumptions c58_cassini_unusable_raises.
Theorem c58_cassini_chord_raises : forall (L : csvlib dbl_scalar) legacy geo cal dlp tau h,
  csv_laws L -> all_allocs L -> good_heap h ->
  good_table (TGeo legacy) geo -> good_table TCal cal -> good_table (TDlp legacy) dlp ->
  good_tau legacy tau ->
  let V := speeds (column L (TDlp legacy) dlp cRHO) (column L (TDlp legacy) dlp cTSET) in
  numbers V -> chord V ->
  exists h1, extract_csv_data_init L new_instance (Some (Some (table_text geo)))
    (Some (Some (table_text cal))) (Some (Some (table_text dlp))) (tau_file tau) legacy h
    = Ok (@CsvRaised dbl_scalar, h1).
Proof. intros L legacy geo cal dlp tau h A B. exact (cassini_chord_py L A B legacy geo cal dlp tau h). Qed.
Print Assumptions c58_cassini_chord_raises.
Theorem c58_uranus_chord_raises : forall (L : csvlib dbl_scalar) rad geo dlp tau h,
  csv_laws L -> all_allocs L -> good_heap h ->
  good_table (TGeo false) geo -> good_table (TUranus rad) dlp -> good_tau false tau ->
  let V := speeds (column L (TUranus rad) dlp cRHO) (column L (TUranus rad) dlp cTSET) in
  numbers V -> chord V ->
  exists h1, get_uranus_data_init L new_instance (Some (Some (table_text geo)))
    (Some (Some (table_text dlp))) (tau_file tau) rad h = Ok (@CsvRaised dbl_scalar, h1).
Proof. intros L rad geo dlp tau h A B. exact (uranus_chord_py L A B rad geo dlp tau h). Qed.
Print Assumptions c58_uranus_chord_raises.
Theorem c58_merged_unusable_raises : forall (S : scalar) (L : csvlib S) file h,
  good_heap h -> l_alloc L (SObj KMerged) = true ->
  match file with None => True | Some s => l_column_count L s <> 19 end ->
  exists h1, get_merged_csv_data_init L new_instance (Some file) h = Ok (@CsvRaised S, h1).
Proof. exact @merged_unusable_py. Qed.
Print Assumptions c58_merged_unusable_raises.
(** GetUranusData crashes for an unusable file. *)
Theorem c58_uranus_unusable_refuted : forall (L : csvlib dbl_scalar) rad geo dlp tau h,
  csv_laws L -> all_allocs L -> good_heap h ->
  unusable L (TGeo false) geo \/ good_file (TGeo false) geo ->
  unusable L (TUranus rad) dlp \/ good_file (TUranus rad) dlp ->
  (forall f, tau = Some f -> unusable L (TTau false) f \/ good_file (TTau false) f) ->
  unusable L (TGeo false) geo \/ unusable L (TUranus rad) dlp \/
    (exists f, tau = Some f /\ unusable L (TTau false) f) ->
  get_uranus_data_init L new_instance (Some geo) (Some dlp) tau rad h = UB NullDeref.
Proof. intros L rad geo dlp tau h A B. exact (uranus_crash L A B rad geo dlp tau h). Qed.
Print Assumptions c58_uranus_unusable_refuted.
(** The instances can be passed to DiffractionCorrection: they have the attributes
    it looks up, under the names it uses, with one entry per sample. *)
Theorem c58_to_reconstruction : forall (L : csvlib dbl_scalar) (v : pycsv dbl_scalar) n,
  interp_law L ->
  (exists legacy reversed first geo cal dlp tau,
     shows_cassini L legacy reversed first geo cal dlp tau v /\ n = zlen dlp) \/
  (exists rad reversed first geo dlp tau,
     shows_uranus L rad reversed first geo dlp tau v /\ n = zlen dlp) \/
  (exists rows, shows_merged L rows v /\ n = zlen rows) ->
  full_dlp (instance_dlp v) n /\
  exists d, py_dlp_to_c true (Some (instance_dlp v)) = Ok (Some d) /\
    d_err d = false /\ d_n d = n /\ carries (instance_dlp v) d.
Proof.
  intros L v n IL H.
  assert (F : full_dlp (instance_dlp v) n).
  { destruct H as [(l & r & f & g & k & d & t & H & ->)|[(l & r & f & g & d & t & H & ->)|(rows & H & ->)]].
    - exact (cassini_full L l r f g k d t v IL H).
    - exact (uranus_full L l r f g d t v IL H).
    - exact (merged_full L rows v H). }
  split; [exact F|]. exact (proj1 (conversion (instance_dlp v)) n F).
Qed.
Print Assumptions c58_to_reconstruction.
(** What an array attribute shows is what DiffractionCorrection finds. *)
Theorem c58_attributes : forall (v : pycsv dbl_scalar) name vs,
  attr_is v name vs -> p_attr (instance_dlp v) name = AArray vs.
Proof. exact attr_found. Qed.
Print Assumptions c58_attributes.

Ltac tab := apply good_tableb_ok; vm_compute; reflexivity.
Ltac nums := apply numbersb_ok; vm_compute; reflexivity.
Ltac first_one :=
  split;
  [exists (dofZ 1); split; [split; [lia|reflexivity]|]; apply pos_lt; vm_compute; reflexivity
  |let i := fresh in let x := fresh in let B := fresh in let E := fresh in let Lt := fresh in
   intros i x [B E] Lt; assert (i = 0) by lia; subst; cbn in E; injection E as <-;
   let P := fresh in intro P; apply pos_lt in P; vm_compute in P; discriminate].
Lemma ex_file t rows : good_tableb t rows = true -> good_file t (Some (table_text rows)).
Proof. intro H. exists rows. split; [reflexivity|apply good_tableb_ok; exact H]. Qed.
Example c58_example : exists v h1,
  extract_csv_data_init ex_lib new_instance (Some (Some (table_text ex_geo))) (Some (Some (table_text ex_cal)))
    (Some (Some (table_text ex_dlp))) (Some (Some (table_text ex_tau))) false ex_heap = Ok (CsvMade v, h1) /\
  shows_cassini ex_lib false false 1 ex_geo ex_cal ex_dlp (Some ex_tau) v /\
  full_dlp (instance_dlp v) 3.
Proof.
  destruct (c58_cassini ex_lib false false 1 ex_geo ex_cal ex_dlp (Some ex_tau) ex_heap ex_laws ex_interp ex_allocs ex_good_heap)
    as [v [h1 [E X]]]; [tab|tab|tab|intros rows [= <-]; tab|nums|nums|apply egressb_ok; vm_compute; reflexivity|first_one|].
  exists v, h1. split; [exact E|]. split; [exact X|].
  refine (proj1 (c58_to_reconstruction ex_lib v 3 ex_interp (or_introl _))).
  exists false, false, 1, ex_geo, ex_cal, ex_dlp, (Some ex_tau). split; [exact X|reflexivity].
Qed.
Example c58_no_tau_example : exists v h1,
  extract_csv_data_init ex_lib new_instance (Some (Some (table_text ex_geo))) (Some (Some (table_text ex_cal)))
    (Some (Some (table_text ex_dlp))) None false ex_heap = Ok (CsvMade v, h1) /\ attr_none v "tau_vals".
Proof.
  destruct (c58_cassini ex_lib false false 1 ex_geo ex_cal ex_dlp None ex_heap ex_laws ex_interp ex_allocs ex_good_heap)
    as [v [h1 [E X]]]; [tab|tab|tab|discriminate|nums|nums|apply egressb_ok; vm_compute; reflexivity|first_one|].
  exists v, h1. split; [exact E|]. exact (proj1 (proj2 (sc_tau _ _ _ _ _ _ _ _ _ X))).
Qed.
Example c58_uranus_example : exists v h1,
  get_uranus_data_init ex_lib new_instance (Some (Some (table_text ex_geo))) (Some (Some (table_text ex_uranus)))
    None true ex_heap = Ok (CsvMade v, h1) /\ shows_uranus ex_lib true false 1 ex_geo ex_uranus None v.
Proof.
  apply (c58_uranus ex_lib true false 1 ex_geo ex_uranus None ex_heap ex_laws ex_interp ex_allocs ex_good_heap);
    [tab|tab|discriminate|nums|nums|apply egressb_ok; vm_compute; reflexivity|first_one].
Qed.
Example c58_merged_example : exists v h1,
  get_merged_csv_data_init ex_lib new_instance (Some (Some (table_text (ex_header :: ex_merged)))) ex_heap
    = Ok (CsvMade v, h1) /\ shows_merged ex_lib ex_merged v.
Proof.
  destruct (good_tableb_ok TMerged (ex_header :: ex_merged) eq_refl) as [A [B C]].
  apply (c58_merged _ ex_lib ex_merged (Some ex_header) ex_heap ex_laws (ex_allocs KMerged) ex_good_heap); [discriminate|].
  split; [exact A|]. split; [exact C|]. eexists; left; reflexivity.
Qed.
Example c58_unusable_example : exists h1,
  extract_csv_data_init ex_lib new_instance (Some (Some (table_text ex_geo))) (Some None) (Some (Some (table_text ex_dlp)))
    None false ex_heap = Ok (@CsvRaised dbl_scalar, h1).
Proof.
  apply c58_cassini_unusable_raises; [exact ex_laws|exact ex_allocs|exact ex_good_heap| | | |discriminate|].
  - right; apply ex_file; reflexivity.
  - left; exact I.
  - right; apply ex_file; reflexivity.
  - right; left; exact I.
Qed.
Example c58_chord_example : exists h1,
  extract_csv_data_init ex_lib new_instance (Some (Some (table_text ex_geo))) (Some (Some (table_text ex_cal)))
    (Some (Some (table_text ex_dlp_chord))) None false ex_heap = Ok (@CsvRaised dbl_scalar, h1).
Proof.
  apply (c58_cassini_chord_raises ex_lib false ex_geo ex_cal ex_dlp_chord None ex_heap ex_laws ex_allocs ex_good_heap);
    [tab|tab|tab|discriminate|nums|].
  apply chord_iff; [nums|vm_compute; reflexivity].
Qed.
Example c58_uranus_unusable_example :
  get_uranus_data_init ex_lib new_instance (Some None) (Some (Some (table_text ex_uranus))) None true ex_heap = UB NullDeref.
Proof.
  apply c58_uranus_unusable_refuted; [exact ex_laws|exact ex_allocs|exact ex_good_heap| | |discriminate|].
  - left; exact I.
  - right; apply ex_file; reflexivity.
  - left; exact I.
Qed.

(** ** C59: memory *)
(** Any arguments, any files; allocation failures as in C39. *)
Theorem c59_cassini : forall (S : scalar) (L : csvlib S) geo cal dlp tau legacy h,
  good_heap h ->
  (tau <> None -> l_alloc L (SObj KTau) = true) ->
  (forall x, In x [cD; cFSKY; cRHODOT; cRX; cRY; cRZ; cTAUPHASE; cTAUPOWER; cTAUV] ->
     l_alloc L (SArr KCsv x) = true) ->
  constructor_memory h (extract_csv_data_init L new_instance geo cal dlp tau legacy h).
Proof. exact @cassini_memory_py. Qed.
Print Assumptions c59_cassini.
Theorem c59_uranus : forall (S : scalar) (L : csvlib S) geo dlp tau rad h,
  good_heap h ->
  (tau <> None -> l_alloc L (SObj KTau) = true) ->
  (forall x, In x [cRX; cRY; cRZ; cTAUPHASE; cTAUPOWER; cTAUV] ->
     l_alloc L (SArr KUranusCsv x) = true) ->
  constructor_memory h (get_uranus_data_init L new_instance geo dlp tau rad h).
Proof. exact @uranus_memory_py. Qed.
Print Assumptions c59_uranus.
Theorem c59_merged : forall (S : scalar) (L : csvlib S) file h,
  good_heap h -> constructor_memory h (get_merged_csv_data_init L new_instance file h).
Proof. exact @merged_memory_py. Qed.
Print Assumptions c59_merged.
(** So a constructor that succeeds always loses one block. *)
Theorem c59_leak_refuted : forall (S : scalar) (L : csvlib S) file h v h1,
  good_heap h -> get_merged_csv_data_init L new_instance file h = Ok (CsvMade v, h1) ->
  exists h2, py_csv_destroy v h1 = Ok (tt, h2) /\ ~ same_resources h h2.
Proof.
  intros S L file h v h1 G E. pose proof (c59_merged S L file h G) as M. rewrite E in M.
  destruct M as [_ [h2 [D [[b [N X]] _]]]]. exists h2. split; [exact D|].
  intros [Q _]. apply N. apply Q. apply X. left; reflexivity.
Qed.
Print Assumptions c59_leak_refuted.
(** A second call of __init__ loses all the arrays of the first. *)
Theorem c59_second_init_refuted : exists v h1 v2 h2 h3,
  get_merged_csv_data_init ex_lib new_instance (Some (Some (table_text ex_merged))) ex_heap = Ok (CsvMade v, h1) /\
  get_merged_csv_data_init ex_lib v (Some (Some (table_text ex_merged))) h1 = Ok (CsvMade v2, h2) /\
  py_csv_destroy v2 h2 = Ok (tt, h3) /\ List.length (live ex_heap) = 0%nat /\ List.length (live h3) = 24%nat.
Proof.
  assert (E : match get_merged_csv_data_init ex_lib new_instance (Some (Some (table_text ex_merged))) ex_heap with
    | Ok (CsvMade v, h1) =>
        match get_merged_csv_data_init ex_lib v (Some (Some (table_text ex_merged))) h1 with
        | Ok (CsvMade v2, h2) => match py_csv_destroy v2 h2 with
                                 | Ok (_, h3) => Nat.eqb (List.length (live h3)) 24 | UB _ => false end
        | _ => false end
    | _ => false end = true) by (vm_compute; reflexivity).
  match type of E with match ?X with _ => _ end = _ => destruct X as [[[|v] h1]|] eqn:E1; [discriminate| |discriminate] end.
  match type of E with match ?X with _ => _ end = _ => destruct X as [[[|v2] h2]|] eqn:E2; [discriminate| |discriminate] end.
  match type of E with match ?X with _ => _ end = _ => destruct X as [[[] h3]|] eqn:E3; [|discriminate] end.
  exists v, h1, v2, h2, h3. split; [reflexivity|]. split; [exact E2|]. split; [exact E3|]. split; [reflexivity|].
  apply Nat.eqb_eq. exact E.
Qed.
Print Assumptions c59_second_init_refuted.
Example c59_example : exists v h1 h2,
  get_merged_csv_data_init ex_lib new_instance (Some (Some (table_text (ex_header :: ex_merged)))) ex_heap
    = Ok (CsvMade v, h1) /\ py_csv_destroy v h1 = Ok (tt, h2) /\ one_block_more ex_heap h2.
Proof.
  destruct c58_merged_example as [v [h1 [E _]]].
  pose proof (c59_merged _ ex_lib (Some (Some (table_text (ex_header :: ex_merged)))) ex_heap ex_good_heap) as M.
  rewrite E in M. destruct M as [_ [h2 [D X]]]. exists v, h1, h2. auto.
Qed.
Example c59_cassini_example : exists h1,
  extract_csv_data_init ex_lib new_instance (Some (Some (table_text ex_geo))) (Some None) (Some (Some (table_text ex_dlp)))
    None false ex_heap = Ok (@CsvRaised dbl_scalar, h1) /\ same_resources ex_heap h1.
Proof.
  destruct c58_unusable_example as [h1 E].
  pose proof (c59_cassini _ ex_lib (Some (Some (table_text ex_geo))) (Some None) (Some (Some (table_text ex_dlp))) None false
    ex_heap ex_good_heap ltac:(congruence) ltac:(reflexivity)) as M.
  rewrite E in M. exists h1. split; [exact E|exact M].
Qed.
