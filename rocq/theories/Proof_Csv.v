(** * Proof_Csv: what extraction of one table returns. *)
From Coq Require Import List ZArith Lia Bool Ascii.
From Verif Require Import Base BaseFacts Scalar Spec_Select Proof_Misc Model_Heap Model_Csv
  Model_CsvData Spec_Csv Proof_Heap Proof_CsvOwn Proof_CsvOwn2 Proof_CsvText.
Import ListNotations.
Open Scope list_scope.
Open Scope Z_scope.

(** The model's formats against the documented columns. *)
Definition flag_of (t : table) : bool :=
  match t with TGeo b | TDlp b | TTau b | TUranus b => b | TCal | TMerged => false end.
Lemma format_of_ok t : format_ok (format_of t).
Proof.
  destruct t; [apply geo_format_ok|apply cal_format_ok|apply dlp_format_ok|
    apply tau_format_ok|apply uranus_dlp_format_ok|apply merged_format_ok].
Qed.
Lemma format_read t : f_read (format_of t) (flag_of t) = columns t.
Proof. destruct t as [[]| |[]|[]|[]|]; reflexivity. Qed.
Lemma format_need t : f_need (format_of t) (flag_of t) = Z.of_nat (List.length (columns t)).
Proof. destruct t as [[]| |[]|[]|[]|]; reflexivity. Qed.
Lemma format_kind t : f_kind (format_of t) = kind_of t.
Proof. destruct t; reflexivity. Qed.
Lemma columns_malloc t : incl (columns t) (f_malloc (format_of t) (flag_of t)).
Proof. rewrite <- format_read. apply (fo_read _ (format_of_ok t)). Qed.
Lemma columns_nodup t : NoDup (columns t).
Proof. destruct t as [[]| |[]|[]|[]|]; cbn; nodup_tac. Qed.
Lemma columns_nonnil t : columns t <> [].
Proof. destruct t as [[]| |[]|[]|[]|]; discriminate. Qed.

Section Table.
  Context {S : scalar}.
  Variable L : csvlib S.

  Definition reader_of (t : table) : format -> text -> obj S -> H (obj S) :=
    match t with TUranus _ => read_uranus L | TMerged => read_merged L | _ => read_table L end.
  Lemma extract_table_eq t file :
    extract_table L t file = extract_with L (reader_of t) (format_of t) (flag_of t) file.
  Proof. destruct t; reflexivity. Qed.

  (** ** Conversion of angles *)
  Definition K := @degrees_per_radian S.
  Definition scaled (d : col) (i n : Z) (done : list col) : bool :=
    angle d && ((i <? n) || ((i =? n) && existsb (col_beq d) done)).
  Definition Conv (o : obj S) (done : list col) (n : Z) (o' : obj S) : Prop :=
    same_shape o o' /\ (forall d M, array o d M -> array o' d M) /\
    forall d i v, cell o d i (Some v) ->
      cell o' d i (Some (if scaled d i n done then (v * K)%S else v)).

  Lemma fetch_cell (o : obj S) c n v : cell o c n (Some v) -> fetch o c n = Ok v.
  Proof.
    intros [id [l [E X]]]. unfold fetch. rewrite E. apply entry_iff in X. rewrite X. reflexivity.
  Qed.
  Lemma cell_array (o : obj S) c n v : cell o c n v -> exists M, array o c M /\ 0 <= n < M.
  Proof.
    intros [id [l [E X]]]. exists (zlen l). split; [exists id, l; auto|exact (entry_bound _ _ _ X)].
  Qed.

  Lemma scale_step o done n o1 c v :
    Conv o done n o1 -> angle c = true -> ~ In c done -> cell o c n (Some v) ->
    exists o2, scale_cell c n o1 = Ok o2 /\ Conv o (c :: done) n o2.
  Proof.
    intros [S1 [A1 C1]] Ac Nc Cv. unfold scale_cell.
    pose proof (C1 c n v Cv) as X. unfold scaled in X. rewrite Z.ltb_irrefl, Z.eqb_refl in X.
    assert (Ex : existsb (col_beq c) done = false).
    { destruct (existsb (col_beq c) done) eqn:Q; [|reflexivity].
      apply existsb_exists in Q as [d [I Q]]. apply col_beq_eq in Q; subst; contradiction. }
    rewrite Ex, Bool.andb_false_r in X. cbn in X.
    rewrite (fetch_cell _ _ _ _ X). cbn [bind].
    destruct (cell_array _ _ _ _ X) as [M [AM BM]].
    destruct (store_ok o1 c M n (v * K)%S AM BM) as [o2 [E2 [S2 [A2 [C2 U2]]]]].
    exists o2. split; [exact E2|]. split; [exact (same_shape_trans _ _ _ S1 S2)|].
    split; [auto|]. intros d i w Cw.
    destruct (col_eq_dec d c) as [->|Nd]; [destruct (Z.eq_dec i n) as [->|Ni]|].
    - pose proof (cell_fun _ _ _ _ _ Cw Cv) as Ew. injection Ew as ->.
      unfold scaled. rewrite Ac, Z.eqb_refl, Z.ltb_irrefl. cbn [existsb].
      rewrite col_beq_refl. cbn. exact C2.
    - apply (U2 c i); [right; exact Ni|].
      pose proof (C1 c i w Cw) as Y. unfold scaled in *.
      replace (i =? n) with false in * by (symmetry; apply Z.eqb_neq; exact Ni). exact Y.
    - apply (U2 d i); [left; exact Nd|].
      pose proof (C1 d i w Cw) as Y. unfold scaled in *. cbn [existsb].
      rewrite (col_beq_neq d c Nd). cbn. exact Y.
  Qed.

  Definition scale4 (n : Z) (o : obj S) : res (obj S) :=
    do o <- scale_cell cPHIRL n o; do o <- scale_cell cPHIDEG n o;
    do o <- scale_cell cPHASE n o; scale_cell cB n o.

  Lemma scale_all_ok (o : obj S) N :
    0 <= N ->
    (forall c i, angle c = true -> 0 <= i < N -> exists v, cell o c i (Some v)) ->
    exists o', for_range 0 N scale4 o = Ok o' /\ Conv o [] N o'.
  Proof.
    intros HN A.
    destruct (for_range_total (fun n o' => Conv o [] n o') 0 N scale4 o) as [o' [E Q]]; [exact HN| | |].
    - split; [apply same_shape_refl|]. split; [auto|]. intros d i v C.
      replace (scaled d i 0 []) with false; [exact C|].
      destruct (cell_array _ _ _ _ C) as [M [_ B]]. unfold scaled. cbn.
      rewrite Bool.andb_false_r, Bool.orb_false_r.
      replace (i <? 0) with false by (symmetry; apply Z.ltb_ge; lia).
      rewrite Bool.andb_false_r; reflexivity.
    - intros n o1 B Q. rewrite Z.add_0_l in B.
      destruct (A cPHIRL n eq_refl B) as [v1 V1]. destruct (A cPHIDEG n eq_refl B) as [v2 V2].
      destruct (A cPHASE n eq_refl B) as [v3 V3]. destruct (A cB n eq_refl B) as [v4 V4].
      destruct (scale_step _ _ _ _ cPHIRL _ Q eq_refl ltac:(cbn; tauto) V1) as [a1 [E1 Q1]].
      destruct (scale_step _ _ _ _ cPHIDEG _ Q1 eq_refl ltac:(cbn; intuition discriminate) V2) as [a2 [E2 Q2]].
      destruct (scale_step _ _ _ _ cPHASE _ Q2 eq_refl ltac:(cbn; intuition discriminate) V3) as [a3 [E3 Q3]].
      destruct (scale_step _ _ _ _ cB _ Q3 eq_refl ltac:(cbn; intuition discriminate) V4) as [a4 [E4 Q4]].
      exists a4. unfold scale4. rewrite E1; cbn [bind]. rewrite E2; cbn [bind]. rewrite E3; cbn [bind].
      split; [exact E4|]. destruct Q4 as [X1 [X2 X3]]. split; [exact X1|]. split; [exact X2|].
      intros d i v C. specialize (X3 d i v C).
      replace (scaled d i (n + 1) []) with (scaled d i n [cB; cPHASE; cPHIDEG; cPHIRL]); [exact X3|].
      unfold scaled. destruct (angle d) eqn:Ad; [|reflexivity]. cbn [andb].
      assert (Y : existsb (col_beq d) [cB; cPHASE; cPHIDEG; cPHIRL] = true)
        by (destruct d; try discriminate; reflexivity).
      rewrite Y. cbn [existsb]. rewrite Bool.andb_true_r, Bool.andb_false_r, Bool.orb_false_r.
      destruct (Z.ltb_spec i n), (Z.eqb_spec i n), (Z.ltb_spec i (n + 1)); try reflexivity; lia.
    - exists o'. split; [exact E|]. rewrite Z.add_0_l in Q. exact Q.
  Qed.

  (** A missing cell makes the conversion undefined. *)
  Lemma scale_cell_keeps c n (o o1 : obj S) d i w :
    scale_cell c n o = Ok o1 -> i <> n -> cell o d i w -> cell o1 d i w.
  Proof.
    unfold scale_cell; intros E Ni C. apply bind_ok in E as [v [Ef E]].
    assert (X : exists M, array o c M /\ 0 <= n < M).
    { unfold fetch in Ef. destruct (o_col o c) as [[id l]|] eqn:Q; [|discriminate].
      apply bind_ok in Ef as [y [Ef _]]. apply aread_ok in Ef as [B _].
      exists (zlen l); split; [exists id, l; auto|exact B]. }
    destruct X as [M [AM BM]].
    destruct (store_ok o c M n (v * degrees_per_radian)%S AM BM) as [o2 [E2 [_ [_ [_ U]]]]].
    rewrite E in E2; injection E2 as <-. apply U; [right; exact Ni|exact C].
  Qed.
  Lemma scale_all_bad (o : obj S) N i :
    0 <= i < N -> cell o cPHIRL i None -> exists u, for_range 0 N scale4 o = UB u.
  Proof.
    intros B C. destruct (for_range 0 N scale4 o) as [o'|u] eqn:E; [exfalso|eauto].
    assert (P : 0 + N <= i /\ cell o' cPHIRL i None); [|lia].
    revert E. apply (for_range_partial (fun n o' => n <= i /\ cell o' cPHIRL i None)); [lia|split; [lia|exact C]|].
    intros n a a' Bn [Hn Ca] X. unfold scale4 in X.
    apply bind_ok in X as [b1 [X1 X]]; apply bind_ok in X as [b2 [X2 X]];
      apply bind_ok in X as [b3 [X3 X4]].
    destruct (Z.eq_dec n i) as [->|Ni].
    - exfalso. unfold scale_cell in X1. apply bind_ok in X1 as [v [Ef _]].
      unfold fetch in Ef. destruct Ca as [id [l [Q Ec]]]. rewrite Q in Ef.
      apply entry_iff in Ec. rewrite Ec in Ef. discriminate.
    - split; [lia|].
      apply (scale_cell_keeps _ _ _ _ _ _ _ X4); [lia|].
      apply (scale_cell_keeps _ _ _ _ _ _ _ X3); [lia|].
      apply (scale_cell_keeps _ _ _ _ _ _ _ X2); [lia|].
      apply (scale_cell_keeps _ _ _ _ _ _ _ X1); [lia|exact Ca].
  Qed.

  (** ** Readers on a freshly allocated object *)
  Lemma fgets_nonempty fuel : forall s line, In line (fgets_all fuel s) -> line <> [].
  Proof.
    induction fuel as [|k IH]; intros s line I; [destruct I|]. cbn [fgets_all] in I.
    destruct s as [|c r]; [destruct I|].
    destruct (fgets_take buffer_room (c :: r)) as [l t] eqn:E. destruct I as [<-|I]; [|exact (IH _ _ I)].
    assert (X : exists k, buffer_room = Datatypes.S k) by (eexists; reflexivity).
    destruct X as [k' X]. rewrite X in E. cbn [fgets_take] in E.
    destruct (Ascii.eqb c newline); [injection E as <- _; discriminate|].
    destruct (fgets_take k' r); injection E as <- _; discriminate.
  Qed.

  Definition fresh (t : table) (N : Z) (o0 : obj S) : Prop :=
    o_err o0 = false /\ o_n o0 = N /\ o_flag o0 = flag_of t /\
    (forall c, In c (f_malloc (format_of t) (flag_of t)) ->
       exists id, o_col o0 c = Some (id, repeat None (Z.to_nat N))) /\
    (forall c, ~ In c (f_malloc (format_of t) (flag_of t)) -> o_col o0 c = None).

  Definition lines_ok (t : table) (s : text) (N : Z) : Prop :=
    (forall line, In line (data_lines t s) -> enough_fields t line) /\
    zlen (data_lines t s) <= N /\
    (t = TUranus true -> zlen (data_lines t s) = N).

  Definition fin (t : table) (c : col) (f : text) : S := stored_value L t c f.

  Lemma fresh_cell t N o0 c i : fresh t N o0 -> In c (f_malloc (format_of t) (flag_of t)) ->
    0 <= i < N -> cell o0 c i None.
  Proof.
    intros [_ [_ [_ [A _]]]] I B. destruct (A c I) as [id E].
    exists id, (repeat None (Z.to_nat N)). split; [exact E|].
    apply entry_iff. apply aread_repeat; exact B.
  Qed.
  Lemma fresh_array t N o0 c : fresh t N o0 -> 0 <= N ->
    In c (f_malloc (format_of t) (flag_of t)) -> array o0 c N.
  Proof.
    intros [_ [_ [_ [A _]]]] H I. destruct (A c I) as [id E]. exact (start_array _ _ _ _ H E).
  Qed.

  Definition rows_of (t : table) (s : text) : Z :=
    match t with TMerged => if has_header s then 1 else 0 | _ => 0 end.

  Lemma reader_good t s N o0 h0 :
    0 < N < two64 -> fresh t N o0 ->
    access_all (f_read (format_of t) (o_flag o0)) o0 h0 = Ok (tt, h0) -> lines_ok t s N ->
    file_lines s <> [] ->
    exists o, reader_of t (format_of t) s o0 h0 = Ok (o, h0) /\
      o_err o = false /\ o_n o = N - rows_of t s /\ o_flag o = match t with TUranus _ => false | _ => flag_of t end /\
      (forall c, In c (f_malloc (format_of t) (flag_of t)) -> array o c N) /\
      (forall i j line c f, entry (data_lines t s) i line -> entry (columns t) j c ->
         entry (fields (cstring line)) j f -> holds_at o c i (fin t c f)) /\
      (forall c i, In c (f_malloc (format_of t) (flag_of t)) ->
         0 <= i < N -> ~ In c (columns t) \/ zlen (data_lines t s) <= i -> unwritten o c i) /\
      (forall c, ~ In c (f_malloc (format_of t) (flag_of t)) -> o_col o c = None).
  Proof.
    intros HN FR AC [LK [LN LU]] Ne. pose proof FR as [Er [En [Ef [Ea Eb]]]].
    assert (RD : forall o1, (forall c, In c (columns t) -> array o1 c N) ->
      exists o2, read_rows L (columns t) (data_lines t s) 0 o1 = Ok o2 /\ same_shape o1 o2 /\
        (forall d M, array o1 d M -> array o2 d M) /\
        (forall i j line c f, entry (data_lines t s) i line -> entry (columns t) j c ->
         entry (fields (cstring line)) j f -> cell o2 c i (Some (l_atof L f))) /\
        (forall d i w, (~ In d (columns t) \/ i < 0 \/ zlen (data_lines t s) <= i) ->
           (cell o1 d i w <-> cell o2 d i w))).
    { intros o1 A1.
      destruct (read_rows_ok L (columns t) N (columns_nodup t) (data_lines t s) 0 o1)
        as [o2 [E2 [S2 [A2 [C2 U2]]]]]; [lia|lia|exact A1| |].
      { intros line I; specialize (LK line I). unfold short, enough_fields in *. lia. }
      exists o2. split; [exact E2|]. split; [exact S2|]. split; [exact A2|]. split; [|exact U2].
      intros i j line c f X1 X2 X3. exact (C2 i j line c f X1 X2 X3). }
    assert (FA : forall c, In c (columns t) -> array o0 c N).
    { intros c I; apply (fresh_array t N o0 c FR); [lia|]. apply columns_malloc; exact I. }
    assert (N0 : (o_n o0 =? 0) = false) by (apply Z.eqb_neq; lia).
    (* plain tables *)
    assert (PL : forall o1, same_shape o0 o1 -> (forall d M, array o0 d M -> array o1 d M) ->
      forall c, ~ In c (f_malloc (format_of t) (flag_of t)) -> o_col o1 c = None).
    { intros o1 S1 _ c Nc. exact (shape_none _ _ _ S1 (Eb c Nc)). }
    assert (BASIC : forall o2, same_shape o0 o2 ->
        (forall d M, array o0 d M -> array o2 d M) ->
        (forall c, In c (f_malloc (format_of t) (flag_of t)) -> array o2 c N)).
    { intros o2 _ A2 c I. apply A2, (fresh_array t N o0 c FR); [lia|exact I]. }
    assert (UNW : forall o2, (forall d i w, (~ In d (columns t) \/ i < 0 \/ zlen (data_lines t s) <= i) ->
           (cell o0 d i w <-> cell o2 d i w)) ->
        forall c i, In c (f_malloc (format_of t) (flag_of t)) ->
         0 <= i < N -> ~ In c (columns t) \/ zlen (data_lines t s) <= i -> unwritten o2 c i).
    { intros o2 U2 c i I B Q. apply (U2 c i None); [tauto|]. exact (fresh_cell t N o0 c i FR I B). }
    assert (EFR : f_read (format_of t) (o_flag o0) = columns t) by (rewrite Ef; apply format_read).
    destruct (RD o0 FA) as [o2 [E2 [S2 [A2 [C2 U2]]]]].
    assert (SIMPLE : reader_of t = read_table L -> rows_of t s = 0 ->
      (match t with TUranus _ => False | _ => True end) ->
      data_lines t s = file_lines s -> (forall c f, fin t c f = l_atof L f) ->
      exists o, reader_of t (format_of t) s o0 h0 = Ok (o, h0) /\
      o_err o = false /\ o_n o = N - rows_of t s /\ o_flag o = match t with TUranus _ => false | _ => flag_of t end /\
      (forall c, In c (f_malloc (format_of t) (flag_of t)) -> array o c N) /\
      (forall i j line c f, entry (data_lines t s) i line -> entry (columns t) j c ->
         entry (fields (cstring line)) j f -> holds_at o c i (fin t c f)) /\
      (forall c i, In c (f_malloc (format_of t) (flag_of t)) ->
         0 <= i < N -> ~ In c (columns t) \/ zlen (data_lines t s) <= i -> unwritten o c i) /\
      (forall c, ~ In c (f_malloc (format_of t) (flag_of t)) -> o_col o c = None)).
    { intros HR H0 HU HD HF. exists o2. rewrite HR. split.
      { unfold read_table. rewrite Er, N0. unfold hbind. rewrite AC. cbn [bind].
        rewrite EFR, <- HD. unfold hlift. rewrite E2. reflexivity. }
      split; [rewrite (sh_err _ _ S2); exact Er|]. split; [rewrite (sh_n _ _ S2); lia|].
      split; [rewrite (sh_flag _ _ S2), Ef; destruct t; try reflexivity; destruct HU|].
      split; [exact (BASIC o2 S2 A2)|]. split.
      { intros i j line c f X1 X2 X3. rewrite HF. exact (C2 i j line c f X1 X2 X3). }
      split; [exact (UNW o2 U2)|exact (PL o2 S2 A2)]. }
    destruct t as [b| |b|b|b|]; try (apply SIMPLE; try reflexivity; exact I).
    - (* Uranus *)
      clear SIMPLE. cbn [reader_of].
      assert (ERU : read_uranus L (format_of (TUranus b)) s o0 h0 =
        (if b then do o3 <- for_range 0 N scale4 o2; Ok (with_flag o3 false, h0) else Ok (o2, h0))).
      { unfold read_uranus. rewrite Er, N0. unfold hbind. rewrite AC. cbn [bind].
        rewrite EFR. change (file_lines s) with (data_lines (TUranus b) s).
        unfold hlift. rewrite E2. cbn [bind]. rewrite (sh_flag _ _ S2), Ef, (sh_n _ _ S2), En.
        cbn [flag_of]. destruct b; [|reflexivity].
        unfold scale4. destruct (for_range 0 N _ o2); reflexivity. }
      destruct b.
      + assert (LE : zlen (data_lines (TUranus true) s) = N) by (apply LU; reflexivity).
        destruct (scale_all_ok o2 N) as [o3 [E3 [S3 [A3 C3]]]]; [lia| |].
        { intros c i Ac B.
          destruct (entry_in (data_lines (TUranus true) s) i) as [line Hl]; [lia|].
          assert (I : In c (columns (TUranus true))) by (destruct c; try discriminate; cbn; tauto).
          destruct (In_aread _ _ I) as [j Hj]. apply entry_iff in Hj.
          destruct (entry_in (fields (cstring line)) j) as [f Hf].
          { pose proof (entry_bound _ _ _ Hj) as Bj.
            specialize (LK line (entry_In _ _ _ Hl)). unfold enough_fields, zlen in *. lia. }
          exists (l_atof L f). exact (C2 i j line c f Hl Hj Hf). }
        exists (with_flag o3 false). rewrite ERU, E3. split; [reflexivity|].
        cbn [with_flag o_err o_n o_flag].
        split; [rewrite (sh_err _ _ S3), (sh_err _ _ S2); exact Er|].
        split; [rewrite (sh_n _ _ S3), (sh_n _ _ S2); cbn; lia|]. split; [reflexivity|].
        split; [intros c I; exact (A3 c N (BASIC o2 S2 A2 c I))|]. split.
        { intros i j line c f X1 X2 X3.
          pose proof (entry_bound _ _ _ X1) as B1.
          pose proof (C3 c i _ (C2 i j line c f X1 X2 X3)) as Y.
          unfold scaled in Y. replace (i <? N) with true in Y by (symmetry; apply Z.ltb_lt; lia).
          rewrite Bool.orb_true_l, Bool.andb_true_r in Y. exact Y. }
        split.
        { intros c i I B [Q|Q]; [|rewrite LE in Q; lia]. exfalso. apply Q. exact I. }
        intros c Nc. exact (shape_none _ _ _ S3 (PL o2 S2 A2 c Nc)).
      + exists o2. rewrite ERU. split; [reflexivity|].
        split; [rewrite (sh_err _ _ S2); exact Er|]. split; [rewrite (sh_n _ _ S2); cbn; lia|].
        split; [rewrite (sh_flag _ _ S2), Ef; reflexivity|].
        split; [exact (BASIC o2 S2 A2)|]. split.
        { intros i j line c f X1 X2 X3. exact (C2 i j line c f X1 X2 X3). }
        split; [exact (UNW o2 U2)|exact (PL o2 S2 A2)].
    - (* merged *)
      clear SIMPLE. cbn [reader_of].
      destruct (file_lines s) as [|line r] eqn:EL; [congruence|].
      assert (NE : line <> []).
      { apply (fgets_nonempty (List.length s) s). fold (file_lines s). rewrite EL; left; reflexivity. }
      destruct line as [|c0 line]; [congruence|].
      assert (HH : has_header s = (Ascii.eqb c0 "B" || Ascii.eqb c0 "b")%bool)
        by (unfold has_header; rewrite EL; reflexivity).
      unfold rows_of. rewrite HH.
      assert (FM : forall c f, fin TMerged c f = l_atof L f) by reflexivity.
      destruct (Ascii.eqb c0 "B" || Ascii.eqb c0 "b")%bool eqn:HB.
      + assert (ED : data_lines TMerged s = r) by (unfold data_lines; rewrite HH, EL; reflexivity).
        assert (EW : wrap64 (o_n o0 - 1) = N - 1).
        { rewrite En. unfold wrap64. apply Z.mod_small. lia. }
        set (o1 := with_n o0 (N - 1)).
        destruct (RD o1) as [o3 [E3 [S3 [A3 [C3 U3]]]]]; [exact FA|].
        exists o3. split.
        { unfold read_merged. rewrite Er, N0. unfold hbind. rewrite AC. cbn [bind].
          rewrite EL. unfold hlift. rewrite (aread_nth _ 0 c0) by (rewrite zlen_cons; pose proof (zlen_nonneg line); lia).
          cbn [Z.to_nat nth bind]. rewrite HB, EW, EFR. fold o1. rewrite <- ED, E3. reflexivity. }
        split; [rewrite (sh_err _ _ S3); exact Er|].
        split; [rewrite (sh_n _ _ S3); reflexivity|].
        split; [rewrite (sh_flag _ _ S3); exact Ef|].
        split; [intros c I; apply A3; exact (fresh_array TMerged N o0 c FR ltac:(lia) I)|].
        split; [intros i j l c f X1 X2 X3; exact (C3 i j l c f X1 X2 X3)|].
        split; [exact (UNW o3 U3)|].
        intros c Nc. exact (shape_none o1 o3 c S3 (Eb c Nc)).
      + assert (ED : data_lines TMerged s = (c0 :: line) :: r) by (unfold data_lines; rewrite HH, EL; reflexivity).
        exists o2. split.
        { unfold read_merged. rewrite Er, N0. unfold hbind. rewrite AC. cbn [bind].
          rewrite EL. unfold hlift. rewrite (aread_nth _ 0 c0) by (rewrite zlen_cons; pose proof (zlen_nonneg line); lia).
          cbn [Z.to_nat nth bind]. rewrite HB, EFR, <- ED, E2. reflexivity. }
        split; [rewrite (sh_err _ _ S2); exact Er|].
        split; [rewrite (sh_n _ _ S2); lia|].
        split; [rewrite (sh_flag _ _ S2); exact Ef|].
        split; [exact (BASIC o2 S2 A2)|].
        split; [intros i j l c f X1 X2 X3; exact (C2 i j l c f X1 X2 X3)|].
        split; [exact (UNW o2 U2)|exact (PL o2 S2 A2)].
  Qed.

  Lemma reader_bad t s N o0 h0 :
    0 < N < two64 -> fresh t N o0 ->
    access_all (f_read (format_of t) (o_flag o0)) o0 h0 = Ok (tt, h0) ->
    file_lines s <> [] -> ~ lines_ok t s N ->
    exists u, reader_of t (format_of t) s o0 h0 = UB u.
  Proof.
    intros HN FR AC Ne NL. pose proof FR as [Er [En [Ef [Ea Eb]]]].
    assert (EFR : f_read (format_of t) (o_flag o0) = columns t) by (rewrite Ef; apply format_read).
    assert (FA : forall c, In c (columns t) -> array o0 c N).
    { intros c I; apply (fresh_array t N o0 c FR); [lia|]. apply columns_malloc; exact I. }
    assert (N0 : (o_n o0 =? 0) = false) by (apply Z.eqb_neq; lia).
    set (k := List.length (columns t)).
    (* either the loop fails or only the conversion does *)
    assert (CASES : (exists line, In line (data_lines t s) /\ short k line) \/
                    N < zlen (data_lines t s) \/
                    (t = TUranus true /\ (forall line, In line (data_lines t s) -> enough_fields t line) /\
                     zlen (data_lines t s) < N)).
    { destruct (Exists_dec (short k) (data_lines t s)) as [E|E].
      { intro line; unfold short. destruct (le_lt_dec k (List.length (fields (cstring line)))); [right; lia|left; lia]. }
      - left. apply Exists_exists in E. exact E.
      - assert (LK : forall line, In line (data_lines t s) -> enough_fields t line).
        { intros line I. unfold enough_fields. destruct (le_lt_dec k (List.length (fields (cstring line)))) as [|X]; [assumption|].
          exfalso; apply E, Exists_exists; exists line; split; assumption. }
        right. destruct (Z_lt_le_dec N (zlen (data_lines t s))) as [X|X]; [left; exact X|].
        right. destruct (Z.eq_dec (zlen (data_lines t s)) N) as [Y|Y].
        + exfalso; apply NL. split; [exact LK|]. split; [exact X|]. intros _; exact Y.
        + assert (t = TUranus true) as ->.
          { destruct t as [b| |b|b|b|]; try (exfalso; apply NL; split; [exact LK|]; split; [exact X|discriminate]).
            destruct b; [reflexivity|]. exfalso; apply NL; split; [exact LK|]; split; [exact X|discriminate]. }
          split; [reflexivity|]. split; [exact LK|]. lia. }
    assert (LOOP : (exists line, In line (data_lines t s) /\ short k line) \/ N < zlen (data_lines t s) ->
      forall o1, (forall c, In c (columns t) -> array o1 c N) ->
      exists u, read_rows L (columns t) (data_lines t s) 0 o1 = UB u).
    { intros [Q|Q] o1 A1; [apply read_rows_short; exact Q|].
      apply (read_rows_over L (columns t) N (columns_nodup t) (columns_nonnil t)); [lia|exact A1|lia|lia]. }
    destruct t as [b| |b|b|b|].
    all: try (destruct CASES as [Q|[Q|[Q _]]]; [| |discriminate];
      destruct (LOOP ltac:(tauto) o0 FA) as [u Eu]; exists u; cbn [reader_of];
      unfold read_table; rewrite Er, N0; unfold hbind; rewrite AC; cbn [bind];
      rewrite EFR; unfold hlift; unfold data_lines in Eu; rewrite Eu; reflexivity).
    - (* Uranus *)
      assert (ERU : forall r, read_rows L (columns (TUranus b)) (data_lines (TUranus b) s) 0 o0 = r ->
        read_uranus L (format_of (TUranus b)) s o0 h0 =
        (do o2 <- r; if o_flag o2 then do o3 <- for_range 0 (o_n o2) scale4 o2; Ok (with_flag o3 false, h0) else Ok (o2, h0))).
      { intros r Hr. unfold read_uranus. rewrite Er, N0. unfold hbind. rewrite AC. cbn [bind].
        rewrite EFR. change (file_lines s) with (data_lines (TUranus b) s).
        unfold hlift. rewrite Hr. destruct r as [o2|u]; [|reflexivity]. cbn [bind].
        destruct (o_flag o2); [|reflexivity]. unfold scale4. destruct (for_range 0 (o_n o2) _ o2); reflexivity. }
      cbn [reader_of]. destruct CASES as [Q|[Q|[Q [LK LN]]]].
      1,2: destruct (LOOP ltac:(tauto) o0 FA) as [u Eu]; exists u; rewrite (ERU _ Eu); reflexivity.
      injection Q as ->.
      destruct (read_rows_ok L (columns (TUranus true)) N (columns_nodup (TUranus true))
                  (data_lines (TUranus true) s) 0 o0)
        as [o2 [E2 [S2 [A2 [C2 U2]]]]]; [lia|lia|exact FA| |].
      { intros line I; specialize (LK line I). unfold short, enough_fields in *. lia. }
      destruct (scale_all_bad o2 N (zlen (data_lines (TUranus true) s))) as [u Eu].
      { pose proof (zlen_nonneg (data_lines (TUranus true) s)). lia. }
      { apply U2; [right; right; lia|].
        apply (fresh_cell (TUranus true) N o0 cPHIRL _ FR); [cbn; tauto|].
        pose proof (zlen_nonneg (data_lines (TUranus true) s)). lia. }
      exists u. rewrite (ERU _ E2). cbn [bind].
      rewrite (sh_flag _ _ S2), Ef, (sh_n _ _ S2), En. cbn [flag_of]. rewrite Eu. reflexivity.
    - (* merged *)
      destruct (file_lines s) as [|line r] eqn:EL; [congruence|].
      assert (NE : line <> []).
      { apply (fgets_nonempty (List.length s) s). fold (file_lines s). rewrite EL; left; reflexivity. }
      destruct line as [|c0 line]; [congruence|].
      assert (HH : has_header s = (Ascii.eqb c0 "B" || Ascii.eqb c0 "b")%bool)
        by (unfold has_header; rewrite EL; reflexivity).
      assert (Q2 : (exists line, In line (data_lines TMerged s) /\ short k line) \/ N < zlen (data_lines TMerged s))
        by (destruct CASES as [Q|[Q|[Q _]]]; [tauto|tauto|discriminate]).
      cbn [reader_of]. unfold read_merged. rewrite Er, N0. unfold hbind. rewrite AC. cbn [bind].
      rewrite EL. unfold hlift. rewrite (aread_nth _ 0 c0) by (rewrite zlen_cons; pose proof (zlen_nonneg line); lia).
      cbn [Z.to_nat nth bind]. rewrite EFR.
      destruct (Ascii.eqb c0 "B" || Ascii.eqb c0 "b")%bool eqn:HB.
      + assert (ED : data_lines TMerged s = r) by (unfold data_lines; rewrite HH, EL; reflexivity).
        destruct (LOOP Q2 (with_n o0 (wrap64 (o_n o0 - 1))) FA) as [u Eu].
        exists u. rewrite ED in Eu. rewrite Eu. reflexivity.
      + assert (ED : data_lines TMerged s = (c0 :: line) :: r) by (unfold data_lines; rewrite HH, EL; reflexivity).
        destruct (LOOP Q2 o0 FA) as [u Eu]. exists u. rewrite ED in Eu. rewrite Eu. reflexivity.
  Qed.

  (** ** Extraction *)
  Lemma lines_nonempty s : s <> [] -> file_lines s <> [].
  Proof.
    intros N E. unfold file_lines in E. destruct s as [|c r]; [congruence|].
    cbn [List.length fgets_all] in E. destruct (fgets_take buffer_room (c :: r)); discriminate.
  Qed.
  Lemma accepted t s h :
    good_heap h -> allocs_ok L (kind_of t) ->
    l_column_count L s = Z.of_nat (List.length (columns t)) ->
    0 < l_line_count L s ->
    exists o0 h0,
      extract_table L t (Some s) h =
        (do '(o, h1) <- reader_of t (format_of t) s o0 h0;
         Ok (Some o, mkHeap (live h1) (next h1) (files h1 - 1))) /\
      fresh t (l_line_count L s) o0 /\
      access_all (f_read (format_of t) (o_flag o0)) o0 h0 = Ok (tt, h0).
  Proof.
    intros G [A1 A2] CC LC. rewrite extract_table_eq.
    destruct (extract_start L (reader_of t) (format_of t) (flag_of t) s h (format_of_ok t) G)
      as [o0 [h0 [E [T [_ [F1 [F2 [F3 [F4 F5]]]]]]]]].
    - rewrite format_kind; exact A1.
    - intros c _; rewrite format_kind; apply A2.
    - rewrite format_need; exact CC.
    - lia.
    - exists o0, h0. split; [exact E|]. split; [repeat split; assumption|].
      exact (access_read _ _ _ _ _ (format_of_ok t) T).
  Qed.

  Definition result_ok (t : table) (s : text) (o : obj S) : Prop :=
    o_err o = false /\ o_n o = row_count L t s /\
    o_flag o = match t with TUranus _ => false | _ => flag_of t end /\
    (forall c, In c (f_malloc (format_of t) (flag_of t)) -> array o c (l_line_count L s)) /\
    (forall i j line c f, entry (data_lines t s) i line -> entry (columns t) j c ->
       entry (fields (cstring line)) j f -> holds_at o c i (stored_value L t c f)) /\
    (forall c i, In c (f_malloc (format_of t) (flag_of t)) ->
       0 <= i < l_line_count L s -> ~ In c (columns t) \/ zlen (data_lines t s) <= i ->
       unwritten o c i) /\
    (forall c, ~ In c (f_malloc (format_of t) (flag_of t)) -> o_col o c = None).

  Lemma row_count_eq t s : row_count L t s = l_line_count L s - rows_of t s.
  Proof. destruct t; cbn; try lia. destruct (has_header s); lia. Qed.

  Lemma extract_good t s h :
    good_heap h -> allocs_ok L (kind_of t) ->
    l_column_count L s = Z.of_nat (List.length (columns t)) ->
    0 < l_line_count L s < two64 -> s <> [] -> readable L t s ->
    exists o h1, extract_table L t (Some s) h = Ok (Some o, h1) /\ result_ok t s o.
  Proof.
    intros G A CC LC NE R0.
    destruct (accepted t s h G A CC ltac:(lia)) as [o0 [h0 [E [F AC]]]].
    destruct (reader_good t s _ o0 h0 LC F AC R0 (lines_nonempty s NE))
      as [o [E1 [X1 [X2 X]]]].
    rewrite E, E1. cbn [bind]. eexists o, _. split; [reflexivity|].
    split; [exact X1|]. split; [rewrite row_count_eq; exact X2|exact X].
  Qed.
  Lemma extract_bad t s h :
    good_heap h -> allocs_ok L (kind_of t) ->
    l_column_count L s = Z.of_nat (List.length (columns t)) ->
    0 < l_line_count L s < two64 -> s <> [] -> ~ readable L t s ->
    exists u, extract_table L t (Some s) h = UB u.
  Proof.
    intros G A CC LC NE R0.
    destruct (accepted t s h G A CC ltac:(lia)) as [o0 [h0 [E [F AC]]]].
    destruct (reader_bad t s _ o0 h0 LC F AC (lines_nonempty s NE) R0) as [u E1].
    exists u. rewrite E, E1. reflexivity.
  Qed.

  (** Files that are not accepted. *)
  Lemma reader_err t s o h : o_err o = true -> reader_of t (format_of t) s o h = Ok (o, h).
  Proof.
    intro E. destruct t; cbn [reader_of]; unfold read_table, read_merged, read_uranus;
      rewrite E; reflexivity.
  Qed.
  Lemma set_error_total k dup (o : obj S) h :
    exists o1 h1, set_error L k dup o h = Ok (o1, h1) /\ o_err o1 = true /\
      o_col o1 = o_col o /\ o_n o1 = o_n o.
  Proof.
    unfold set_error. destruct dup; [|eexists _, _; repeat split].
    unfold hbind, halloc. destruct (l_alloc L (SMsg k)); cbn; eexists _, _; repeat split.
  Qed.
  Definition rejected (t : table) (file : option text) : Prop :=
    match file with
    | None => True
    | Some s => l_column_count L s <> Z.of_nat (List.length (columns t)) \/ l_line_count L s = 0
    end.
  Lemma extract_rejected t file h :
    l_alloc L (SObj (kind_of t)) = true -> rejected t file ->
    exists o h1, extract_table L t file h = Ok (Some o, h1) /\ o_err o = true /\
      o_n o = 0 /\ forall c, o_col o c = None.
  Proof.
    intros A R0. rewrite extract_table_eq. unfold extract_with, hbind, halloc.
    rewrite format_kind, A. cbn [bind]. destruct file as [s|].
    - unfold hopen, hclose; cbn [bind live next files].
      set (o0 := init (next h) (flag_of t)). set (h0 := mkHeap _ _ (files h + 1)).
      unfold check_column_count at 1. change (o_err o0) with false. change (o_flag o0) with (flag_of t).
      rewrite format_need. cbn [rejected] in R0.
      destruct (Z.eqb_spec (l_column_count L s) (Z.of_nat (List.length (columns t)))) as [CC|CC].
      + destruct R0 as [R0|R0]; [contradiction|]. unfold hret at 1; cbn [bind].
        unfold malloc_table at 1. change (o_err o0) with false. cbn [with_n o_n].
        rewrite R0. cbn [Z.eqb].
        destruct (set_error_total (f_kind (format_of t)) (f_dup (format_of t))
                    (with_n o0 0) h0) as [o1 [h1 [E1 [X1 [X2 X3]]]]].
        rewrite E1; cbn [bind]. rewrite (reader_err t s o1 h1 X1). cbn [bind].
        eexists _, _. split; [reflexivity|]. split; [exact X1|]. split; [exact X3|].
        rewrite X2. reflexivity.
      + destruct (set_error_total (f_kind (format_of t)) (f_dup (format_of t)) o0 h0)
          as [o1 [h1 [E1 [X1 [X2 X3]]]]].
        rewrite E1; cbn [bind]. unfold malloc_table at 1. rewrite X1. unfold hret at 1; cbn [bind].
        rewrite (reader_err t s o1 h1 X1). cbn [bind].
        eexists _, _. split; [reflexivity|]. split; [exact X1|]. split; [exact X3|].
        rewrite X2. reflexivity.
    - destruct (set_error_total (kind_of t) (f_dup (format_of t)) (init (next h) (flag_of t))
                  (mkHeap (next h :: live h) (next h + 1) (files h))) as [o1 [h1 [E1 [X1 [X2 X3]]]]].
      rewrite E1. cbn. eexists _, _. split; [reflexivity|]. split; [exact X1|]. split; [exact X3|].
      rewrite X2. reflexivity.
  Qed.

  (** Tables made of rows. *)
  Lemma well_readable t rows :
    csv_laws L -> well_formed (List.length (columns t)) rows -> rows <> [] ->
    (t = TMerged -> ~ starts_with_B (table_text rows)) ->
    data_lines t (table_text rows) = map row_text rows /\
    row_count L t (table_text rows) = zlen rows.
  Proof.
    intros LW W NE NB. pose proof (file_lines_table _ _ W) as FL.
    assert (HH : t = TMerged -> has_header (table_text rows) = false).
    { intro Ht. specialize (NB Ht). unfold has_header. rewrite FL.
      destruct rows as [|fs r]; [congruence|]. cbn [map].
      destruct (row_text fs) as [|c l] eqn:E; [reflexivity|].
      destruct (Ascii.eqb_spec c "B"%char) as [->|]; [exfalso; apply NB; exists (l ++ table_text r); left; unfold table_text; cbn [flat_map]; rewrite E; reflexivity|].
      destruct (Ascii.eqb_spec c "b"%char) as [->|]; [exfalso; apply NB; exists (l ++ table_text r); right; unfold table_text; cbn [flat_map]; rewrite E; reflexivity|reflexivity]. }
    pose proof (law_lines L LW _ _ W) as LL.
    destruct t; cbn [data_lines row_count]; try (split; assumption).
    rewrite (HH eq_refl). split; assumption.
  Qed.
  Lemma columns_pos t : (0 < List.length (columns t))%nat.
  Proof. destruct t as [[]| |[]|[]|[]|]; cbn; lia. Qed.
  Lemma row_fields k fs : (0 < k)%nat -> good_row k fs ->
    fields (cstring (row_text fs)) = with_newline fs.
  Proof.
    intros Hk [E [P _]]. rewrite cstring_row by exact P. apply fields_row; [exact P|].
    intros ->; cbn in E; lia.
  Qed.
  Lemma newline_value fs : csv_laws L -> Forall plain fs -> forall j f f',
    entry fs j f -> entry (with_newline fs) j f' -> l_atof L f' = l_atof L f.
  Proof.
    intros LW P j f f' [Hj E] [_ E'].
    assert (Pf : plain f) by (rewrite Forall_forall in P; apply P; exact (nth_error_In _ _ E)).
    destruct (with_newline_nth fs (Z.to_nat j) f E) as [X|X]; rewrite X in E'; injection E' as <-;
      [reflexivity|apply (law_atof L LW); exact Pf].
  Qed.

  Lemma rows_pos {A} (rows : list A) : rows <> [] -> 0 < zlen rows.
  Proof. intro NE. destruct rows as [|a l]; [congruence|]. rewrite zlen_cons. pose proof (zlen_nonneg l). lia. Qed.
  Lemma text_nonempty rows : rows <> [] -> table_text rows <> [].
  Proof.
    intro NE. destruct rows as [|fs r]; [congruence|]. unfold table_text; cbn [flat_map].
    destruct fs as [|f [|g fs]]; cbn [row_text]; [discriminate|destruct f; discriminate|destruct f; discriminate].
  Qed.
  Lemma rows_columns t rows : csv_laws L -> well_formed (List.length (columns t)) rows -> rows <> [] ->
    l_column_count L (table_text rows) = Z.of_nat (List.length (columns t)).
  Proof.
    intros LW W NE. destruct rows as [|fs r]; [congruence|]. inversion W; subst.
    apply (law_columns L LW); [apply columns_pos|assumption|assumption].
  Qed.
  Section Rows.
    Variables (t : table) (rows : list (list text)).
    Hypothesis LW : csv_laws L.
    Hypothesis W : well_formed (List.length (columns t)) rows.
    Hypothesis NE : rows <> [].
    Hypothesis NB : t = TMerged -> ~ starts_with_B (table_text rows).
    Hypothesis SZ : zlen rows < two64.

    Lemma rows_readable : readable L t (table_text rows).
    Proof using LW W NE NB.
      destruct (well_readable t rows LW W NE NB) as [D _].
      unfold readable. rewrite D. rewrite (law_lines L LW _ _ W).
      split; [|split; [rewrite zlen_map; lia|intros _; apply zlen_map]].
      intros line I. apply in_map_iff in I as [fs [<- I]].
      unfold well_formed in W. rewrite Forall_forall in W. specialize (W fs I).
      unfold enough_fields. rewrite (row_fields _ _ (columns_pos t) W), with_newline_length.
      destruct W as [-> _]. lia.
    Qed.
    Lemma rows_extract h : good_heap h -> allocs_ok L (kind_of t) ->
      exists o h1, extract_table L t (Some (table_text rows)) h = Ok (Some o, h1) /\
        result_ok t (table_text rows) o.
    Proof using LW W NE NB SZ.
      intros G A. apply extract_good; [exact G|exact A|exact (rows_columns t rows LW W NE)| |exact (text_nonempty rows NE)|apply rows_readable].
      rewrite (law_lines L LW _ _ W). pose proof (rows_pos rows NE). lia.
    Qed.
    Lemma rows_stores o : result_ok t (table_text rows) o -> stores L t rows o.
    Proof using LW W NE NB.
      intros [_ [_ [_ [_ [X _]]]]] i j fs f c Ei Ej Ec.
      destruct (well_readable t rows LW W NE NB) as [D _]. rewrite D in X.
      assert (Wf : good_row (List.length (columns t)) fs).
      { unfold well_formed in W; rewrite Forall_forall in W. apply W. exact (entry_In _ _ _ Ei). }
      pose proof (row_fields _ _ (columns_pos t) Wf) as RF.
      destruct (entry_in (with_newline fs) j) as [f' Ef'].
      { pose proof (entry_bound _ _ _ Ej) as B. unfold zlen in *. rewrite with_newline_length. exact B. }
      assert (V : l_atof L f' = l_atof L f) by (destruct Wf as [_ [P _]]; exact (newline_value fs LW P j f f' Ej Ef')).
      specialize (X i j (row_text fs) c f'). rewrite RF in X.
      assert (El : entry (map row_text rows) i (row_text fs)).
      { destruct Ei as [Hi E]. split; [exact Hi|]. rewrite nth_error_map, E. reflexivity. }
      specialize (X El Ec Ef'). unfold stored_value in *. rewrite V in X. exact X.
    Qed.
  End Rows.
End Table.
