(** * Proof_Csv2: the statements about single tables. *)
From Coq Require Import List ZArith Lia Bool Ascii Reals Lra.
From Verif Require Import Base BaseFacts Scalar Spec_Select Proof_Misc Model_Heap Model_Csv
  Model_CsvData Spec_Csv Proof_Heap Proof_CsvOwn Proof_CsvOwn2 Proof_CsvText Proof_Csv Ref_Csv PiBounds.
Import ListNotations.
Open Scope list_scope.
Open Scope Z_scope.

Section Statements.
  Context {S : scalar}.
  Variable L : csvlib S.

  Lemma table_rows t rows h :
    csv_laws L -> well_formed (List.length (columns t)) rows -> rows <> [] -> zlen rows < 2 ^ 64 ->
    (t = TMerged -> ~ starts_with_B (table_text rows)) ->
    allocs_ok L (kind_of t) -> good_heap h ->
    exists o h1, extract_table L t (Some (table_text rows)) h = Ok (Some o, h1) /\
      o_err o = false /\ o_n o = zlen rows /\ stores L t rows o /\
      forall c, In c (columns t) -> array o c (zlen rows).
  Proof.
    intros LW W NE SZ NB A G. change (2 ^ 64) with two64 in SZ.
    destruct (rows_extract L t rows LW W NE NB SZ h G A) as [o [h1 [E R0]]].
    exists o, h1. split; [exact E|]. pose proof R0 as [X1 [X2 [_ [X3 _]]]].
    destruct (well_readable L t rows LW W NE NB) as [_ RC].
    split; [exact X1|]. split; [rewrite X2; exact RC|].
    split; [exact (rows_stores L t rows LW W NE NB o R0)|].
    intros c I. rewrite <- (law_lines L LW _ _ W). apply X3, columns_malloc, I.
  Qed.

  Lemma readable_dec t s : {readable L t s} + {~ readable L t s}.
  Proof.
    unfold readable.
    destruct (Forall_Exists_dec (enough_fields t)
      (fun l => le_dec (List.length (columns t)) (List.length (fields (cstring l)))) (data_lines t s)) as [F|F].
    2:{ right. intros [X _]. apply Exists_exists in F as [l [I N]]. apply N, X, I. }
    destruct (Z_le_dec (zlen (data_lines t s)) (l_line_count L s)) as [Q|Q]; [|right; tauto].
    rewrite Forall_forall in F.
    destruct (Z.eq_dec (zlen (data_lines t s)) (l_line_count L s)) as [R0|R0]; [left; auto|].
    destruct t as [| | | |[]|]; try (left; split; [exact F|]; split; [exact Q|discriminate]).
    right. intros [_ [_ X]]. apply R0, X, eq_refl.
  Qed.
  (** Any accepted file. *)
  Lemma any_file t s h :
    good_heap h -> allocs_ok L (kind_of t) -> s <> [] -> 0 <= l_line_count L s < 2 ^ 64 ->
    ((exists r, extract_table L t (Some s) h = Ok r) <->
     (l_column_count L s <> Z.of_nat (List.length (columns t)) \/ l_line_count L s = 0 \/
      readable L t s)).
  Proof.
    intros G A NE B. change (2 ^ 64) with two64 in B.
    assert (Dec : rejected L t (Some s) \/
      (l_column_count L s = Z.of_nat (List.length (columns t)) /\ 0 < l_line_count L s)).
    { cbn. destruct (Z.eq_dec (l_column_count L s) (Z.of_nat (List.length (columns t)))); [|tauto].
      destruct (Z.eq_dec (l_line_count L s) 0); [tauto|right; split; [assumption|lia]]. }
    destruct Dec as [Q|[CC LC]].
    - destruct (extract_rejected L t (Some s) h (proj1 A) Q) as [o [h1 [E _]]].
      split; intros _; [destruct Q; tauto|]. exists (Some o, h1); exact E.
    - split.
      + intros [r E]. right; right.
        destruct (readable_dec t s) as [Y|N]; [exact Y|exfalso].
        destruct (extract_bad L t s h G A CC ltac:(lia) NE N) as [u X]. congruence.
      + intros [N|[N|R0]]; [contradiction|lia|].
        destruct (extract_good L t s h G A CC ltac:(lia) NE R0) as [o [h1 [E _]]].
        exists (Some o, h1); exact E.
  Qed.

  (** Values of an accepted, readable file. *)
  Lemma file_values t s h :
    good_heap h -> allocs_ok L (kind_of t) ->
    l_column_count L s = Z.of_nat (List.length (columns t)) ->
    0 < l_line_count L s < 2 ^ 64 -> s <> [] -> readable L t s ->
    exists o h1, extract_table L t (Some s) h = Ok (Some o, h1) /\
      o_err o = false /\ o_n o = row_count L t s /\
      forall i j line c f, entry (data_lines t s) i line -> entry (columns t) j c ->
        entry (fields (cstring line)) j f -> holds_at o c i (stored_value L t c f).
  Proof.
    intros G A CC LC NE R0. destruct (extract_good L t s h G A CC LC NE R0)
      as [o [h1 [E [X1 [X2 [_ [_ [X3 _]]]]]]]].
    exists o, h1. auto.
  Qed.
  Lemma wrong_columns t s h :
    l_alloc L (SObj (kind_of t)) = true ->
    l_column_count L s <> Z.of_nat (List.length (columns t)) ->
    exists o h1, extract_table L t (Some s) h = Ok (Some o, h1) /\
      o_err o = true /\ o_n o = 0 /\ forall c, o_col o c = None.
  Proof. intros A N. apply extract_rejected; [exact A|left; exact N]. Qed.
  Lemma unopened t h :
    l_alloc L (SObj (kind_of t)) = true ->
    exists o h1, extract_table L t None h = Ok (Some o, h1) /\
      o_err o = true /\ o_n o = 0 /\ forall c, o_col o c = None.
  Proof. intros A. apply extract_rejected; [exact A|exact I]. Qed.

  Lemma reader_both t : reader_ok (format_of t) (reader_of L t) /\ reader_safe (format_of t) (reader_of L t).
  Proof.
    destruct t; cbn [format_of reader_of]; split;
      first [apply read_table_ok|apply read_table_safe|apply read_uranus_ok|apply read_uranus_safe|
             apply read_merged_ok|apply read_merged_safe];
      first [apply geo_format_ok|apply cal_format_ok|apply dlp_format_ok|
        apply tau_format_ok|apply uranus_dlp_format_ok|apply merged_format_ok].
  Qed.

  (** Memory: any allocation pattern, any file. *)
  Lemma table_memory t file h :
    good_heap h ->
    (forall u, extract_table L t file h = UB u -> ~ memory_fault u) /\
    (forall p h1, extract_table L t file h = Ok (p, h1) ->
       files h1 = files h /\
       exists h2, destroy_table t p h1 = Ok (None, h2) /\ same_resources h h2).
  Proof.
    intro G. pose proof (reader_both t) as [RO RS]. pose proof (owns_start h G) as O.
    rewrite extract_table_eq. split.
    - intros u E. exact (extract_mem L _ [] _ _ _ _ _ (format_of_ok t) RS O u E).
    - intros p h1 E.
      destruct (extract_own L _ [] _ _ _ _ _ _ _ (format_of_ok t) RO O E) as [O1 [M [F _]]].
      split; [exact F|].
      destruct (destroy_own (live h) (format_of t) p [] h1 (format_of_ok t) M O1) as [h2 [E2 [O2 F2]]].
      exists h2. split; [exact E2|]. split; [exact (proj1 (owns_end _ _ O2))|congruence].
  Qed.

  (** Uranus angles. *)
  Lemma uranus_angles rows h :
    csv_laws L -> well_formed 17 rows -> rows <> [] -> zlen rows < 2 ^ 64 ->
    allocs_ok L KUranusDlp -> good_heap h ->
    exists od h1 orad h2,
      extract_table L (TUranus false) (Some (table_text rows)) h = Ok (Some od, h1) /\
      extract_table L (TUranus true) (Some (table_text rows)) h = Ok (Some orad, h2) /\
      o_err od = false /\ o_err orad = false /\ o_flag od = false /\ o_flag orad = false /\
      forall i fs j f c, entry rows i fs -> entry fs j f -> entry (columns (TUranus false)) j c ->
        holds_at od c i (l_atof L f) /\
        holds_at orad c i (if angle c then (l_atof L f * deg_per_rad)%S else l_atof L f).
  Proof.
    intros LW W NE SZ A G. change (2 ^ 64) with two64 in SZ.
    assert (NB : forall b, TUranus b = TMerged -> ~ starts_with_B (table_text rows)) by (intros; discriminate).
    destruct (rows_extract L (TUranus false) rows LW W NE (NB false) SZ h G A) as [od [h1 [E1 R1]]].
    destruct (rows_extract L (TUranus true) rows LW W NE (NB true) SZ h G A) as [orad [h2 [E2 R2]]].
    exists od, h1, orad, h2. split; [exact E1|]. split; [exact E2|].
    split; [apply R1|]. split; [apply R2|]. split; [apply R1|]. split; [apply R2|].
    intros i fs j f c X1 X2 X3. split.
    - exact (rows_stores L (TUranus false) rows LW W NE (NB false) od R1 i j fs f c X1 X2 X3).
    - exact (rows_stores L (TUranus true) rows LW W NE (NB true) orad R2 i j fs f c X1 X2 X3).
  Qed.

  (** Merged tables with a header line. *)
  Lemma header_rows hd rows h :
    csv_laws L -> well_formed 19 (hd :: rows) -> zlen (hd :: rows) < 2 ^ 64 ->
    starts_with_B (row_text hd) ->
    allocs_ok L KMerged -> good_heap h ->
    exists o h1, extract_table L TMerged (Some (table_text (hd :: rows))) h = Ok (Some o, h1) /\
      o_err o = false /\ o_n o = zlen rows /\ stores L TMerged rows o /\
      (forall c i, In c [cTAUPHASE; cTAUPOWER; cTAUV] -> 0 <= i < zlen rows + 1 -> unwritten o c i).
  Proof.
    intros LW W SZ HB A G. change (2 ^ 64) with two64 in SZ.
    pose proof (file_lines_table _ _ W) as FL.
    assert (HH : has_header (table_text (hd :: rows)) = true).
    { unfold has_header. rewrite FL. cbn [map]. destruct HB as [r [->| ->]]; reflexivity. }
    assert (DL : data_lines TMerged (table_text (hd :: rows)) = map row_text rows).
    { unfold data_lines. rewrite HH, FL. reflexivity. }
    pose proof (law_lines L LW _ _ W) as LL.
    assert (Wr : well_formed 19 rows) by (inversion W; assumption).
    rewrite zlen_cons in SZ, LL. pose proof (zlen_nonneg rows) as Zr.
    destruct (extract_good L TMerged (table_text (hd :: rows)) h G A) as [o [h1 [E R0]]].
    - exact (rows_columns L TMerged _ LW W ltac:(discriminate)).
    - rewrite LL. lia.
    - apply text_nonempty; discriminate.
    - unfold readable. rewrite DL, LL, zlen_map. split; [|split; [lia|discriminate]].
      intros line I. apply in_map_iff in I as [fs [<- I]].
      unfold well_formed in Wr. rewrite Forall_forall in Wr. specialize (Wr fs I).
      unfold enough_fields. rewrite (row_fields 19 _ ltac:(lia) Wr), with_newline_length.
      destruct Wr as [-> _]. cbn; lia.
    - exists o, h1. split; [exact E|]. destruct R0 as [X1 [X2 [_ [_ [X3 [X4 _]]]]]].
      split; [exact X1|]. split.
      { rewrite X2. cbn [row_count]. rewrite HH, LL. lia. }
      split.
      + intros i j fs f c Ei Ej Ec. rewrite DL in X3.
        assert (Wf : good_row 19 fs).
        { unfold well_formed in Wr; rewrite Forall_forall in Wr. apply Wr. exact (entry_In _ _ _ Ei). }
        pose proof (row_fields _ _ (columns_pos TMerged) Wf) as RF.
        destruct (entry_in (with_newline fs) j) as [f' Ef'].
        { pose proof (entry_bound _ _ _ Ej) as B. unfold zlen in *. rewrite with_newline_length. exact B. }
        assert (V : l_atof L f' = l_atof L f) by (destruct Wf as [_ [P _]]; exact (newline_value L fs LW P j f f' Ej Ef')).
        specialize (X3 i j (row_text fs) c f'). rewrite RF in X3.
        assert (El : entry (map row_text rows) i (row_text fs)).
        { destruct Ei as [Hi Ex]. split; [exact Hi|]. rewrite nth_error_map, Ex. reflexivity. }
        specialize (X3 El Ec Ef'). unfold stored_value in *. rewrite V in X3. exact X3.
      + intros c i I B. apply X4; [cbn in I |- *; tauto|rewrite LL; lia|left].
        cbn in I. destruct I as [<-|[<-|[<-|[]]]]; cbn; intuition discriminate.
  Qed.
  Lemma no_header_unwritten rows h :
    csv_laws L -> well_formed 19 rows -> rows <> [] -> zlen rows < 2 ^ 64 ->
    ~ starts_with_B (table_text rows) ->
    allocs_ok L KMerged -> good_heap h ->
    exists o h1, extract_table L TMerged (Some (table_text rows)) h = Ok (Some o, h1) /\
      o_err o = false /\ o_n o = zlen rows /\ stores L TMerged rows o /\
      (forall c i, In c [cTAUPHASE; cTAUPOWER; cTAUV] -> 0 <= i < zlen rows -> unwritten o c i).
  Proof.
    intros LW W NE SZ NB A G. change (2 ^ 64) with two64 in SZ.
    destruct (rows_extract L TMerged rows LW W NE (fun _ => NB) SZ h G A) as [o [h1 [E R0]]].
    exists o, h1. split; [exact E|]. pose proof R0 as [X1 [X2 [_ [_ [_ [X4 _]]]]]].
    destruct (well_readable L TMerged rows LW W NE (fun _ => NB)) as [_ RC].
    split; [exact X1|]. split; [rewrite X2; exact RC|].
    split; [exact (rows_stores L TMerged rows LW W NE (fun _ => NB) o R0)|].
    intros c i I B. apply X4; [cbn in I |- *; tauto|rewrite (law_lines L LW _ _ W); lia|left].
    cbn in I. destruct I as [<-|[<-|[<-|[]]]]; cbn; intuition discriminate.
  Qed.
End Statements.

(** The factor. *)
Lemma factor_real : (Rabs ((@deg_per_rad real_scalar : R) - 180 / PI) <= / 1000000000000)%R.
Proof.
  unfold deg_per_rad. cbn [sfrac real_scalar].
  destruct two_pi_bounds as [HL HU]. pose proof PI_RGT_0 as P.
  set (q := (180 / PI)%R). assert (Q : (q * PI = 180)%R) by (unfold q; field; lra).
  clearbody q.
  assert (B1 : (q * (7074237752028440 / 1125899906842624) <= 360)%R) by nra.
  assert (B2 : (360 <= q * (7074237752028441 / 1125899906842624))%R) by nra.
  apply Rabs_le. split; lra.
Qed.
