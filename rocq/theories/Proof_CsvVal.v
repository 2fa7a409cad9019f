(** * Proof_CsvVal: the values computed when tables are combined. *)
From Coq Require Import List ZArith Lia Bool Ascii FunctionalExtensionality.
From Verif Require Import Base BaseFacts Scalar Spec_Select Proof_Misc Model_Heap Model_Csv
  Model_CsvData Spec_Csv Spec_CsvData Proof_Heap Proof_CsvOwn Proof_CsvOwn2 Proof_CsvText Proof_Csv
  Proof_Csv2.
Import ListNotations.
Open Scope list_scope.
Open Scope Z_scope.

Lemma list_ext {A} (l m : list A) : (forall n, nth_error l n = nth_error m n) -> l = m.
Proof.
  revert m; induction l as [|a l IH]; intros [|b m] E.
  - reflexivity.
  - specialize (E 0%nat); discriminate.
  - specialize (E 0%nat); discriminate.
  - pose proof (E 0%nat) as E0; cbn in E0; injection E0 as ->. f_equal. apply IH. intro n. exact (E (Datatypes.S n)).
Qed.
Lemma map2_length {A B C} (f : A -> B -> C) l : forall m, List.length l = List.length m ->
  List.length (map2 f l m) = List.length l.
Proof. induction l as [|a l IH]; intros [|b m] E; try discriminate; cbn; [reflexivity|]. f_equal. apply IH. cbn in E; lia. Qed.
Lemma map2_entry {A B C} (f : A -> B -> C) l : forall m i a b, entry l i a -> entry m i b ->
  entry (map2 f l m) i (f a b).
Proof.
  induction l as [|x l IH]; intros m i a b E1 E2; [destruct (entry_nil _ _ E1)|].
  destruct m as [|y m]; [destruct (entry_nil _ _ E2)|]. cbn [map2].
  apply entry_cons in E1 as [[-> ->]|[Hi E1]].
  - apply entry_cons in E2 as [[_ ->]|[X _]]; [|lia]. apply entry_cons; left; auto.
  - apply entry_cons in E2 as [[-> _]|[_ E2]]; [lia|]. apply entry_cons; right; split; [exact Hi|]. exact (IH _ _ _ _ E1 E2).
Qed.

Section Val.
  Context {S : scalar}.
  Variable L : csvlib S.

  (** ** Computations up to memory faults *)
  Definition vh {A} (m : H A) (Q : A -> Prop) : Prop :=
    forall h, match m h with Ok (a, _) => Q a | UB u => memfault u end.
  Lemma v_ret {A} (a : A) (Q : A -> Prop) : Q a -> vh (hret a) Q.
  Proof. intros X h; exact X. Qed.
  Lemma v_bind {A B} (m : H A) (k : A -> H B) (P : A -> Prop) (Q : B -> Prop) :
    vh m P -> (forall a, P a -> vh (k a) Q) -> vh (hbind m k) Q.
  Proof.
    intros X Y h. specialize (X h). unfold hbind. destruct (m h) as [[a h1]|u]; [|exact X].
    exact (Y a X h1).
  Qed.
  Lemma v_impl {A} (m : H A) (P Q : A -> Prop) : vh m P -> (forall a, P a -> Q a) -> vh m Q.
  Proof. intros X Y h. specialize (X h). destruct (m h) as [[a h1]|u]; [auto|exact X]. Qed.
  Lemma v_lift {A} (r : res A) a (Q : A -> Prop) : r = Ok a -> Q a -> vh (hlift r) Q.
  Proof. intros -> X h; exact X. Qed.
  Lemma v_alloc b (Q : option Z -> Prop) : b = true -> (forall i, Q (Some i)) -> vh (halloc b) Q.
  Proof. intros -> X h; exact (X _). Qed.
  Lemma v_free p (Q : unit -> Prop) : Q tt -> vh (hfree p) Q.
  Proof. intros X h. unfold hfree. destruct p as [b|]; [|exact X]. destruct (is_live h b); [exact X|left; reflexivity]. Qed.
  Lemma v_access b (Q : unit -> Prop) : Q tt -> vh (haccess (Some b)) Q.
  Proof. intros X h. unfold haccess. destruct (is_live h b); [exact X|right; reflexivity]. Qed.
  Lemma v_open (Q : unit -> Prop) : Q tt -> vh hopen Q. Proof. intros X h; exact X. Qed.
  Lemma v_close (Q : unit -> Prop) : Q tt -> vh hclose Q. Proof. intros X h; exact X. Qed.
  Lemma v_done {A} (m : H A) Q h : vh m Q -> mem_ok m h -> exists a h1, m h = Ok (a, h1) /\ Q a.
  Proof.
    intros X M. specialize (X h). specialize (M). destruct (m h) as [[a h1]|u] eqn:E; [eauto|].
    exfalso. exact (M u E X).
  Qed.

  (** ** Objects *)
  Lemma with_col_twice (o : obj S) c p q : with_col (with_col o c p) c q = with_col o c q.
  Proof.
    unfold with_col; cbn. f_equal. apply functional_extensionality; intro d.
    destruct (col_beq d c); reflexivity.
  Qed.
  Lemma with_col_id (o : obj S) c : with_col o c (o_col o c) = o.
  Proof.
    destruct o as [a f b e m g]; unfold with_col; cbn. f_equal. apply functional_extensionality; intro d.
    destruct (col_beq d c) eqn:E; [apply col_beq_eq in E; subst|]; reflexivity.
  Qed.

  Lemma destroy_cols_err cs : forall (o : obj S), vh (destroy_cols cs o) (fun o1 => o_err o1 = o_err o).
  Proof.
    induction cs as [|c r IH]; intro o; cbn [destroy_cols]; [apply v_ret; reflexivity|].
    apply (v_bind _ _ (fun _ => True)); [apply v_free; exact I|]. intros _ _.
    exact (IH (with_col o c None)).
  Qed.
  Lemma destroy_none F (p : option (obj S)) : vh (destroy F p) (fun r => r = None).
  Proof.
    destruct p as [o|]; cbn [destroy]; [|apply v_ret; reflexivity].
    apply (v_bind _ _ (fun _ => True)).
    { unfold destroy_members. apply (v_bind _ _ (fun _ => True)); [apply v_access; exact I|].
      intros _ _. apply (v_impl _ _ _ (destroy_cols_err _ _)); auto. }
    intros o1 _. apply (v_bind _ _ (fun _ => True)); [destruct (f_dup F); [apply v_free|apply v_ret]; exact I|].
    intros _ _. apply (v_bind _ _ (fun _ => True)); [apply v_free; exact I|].
    intros _ _. apply v_ret; reflexivity.
  Qed.

  (** ** Extraction of one table *)
  Lemma access_cases cs (o : obj S) : forall h, access_all cs o h = Ok (tt, h) \/
    exists u, access_all cs o h = UB u /\ memfault u.
  Proof.
    induction cs as [|c r IH]; intro h; cbn [access_all]; [left; reflexivity|].
    destruct (o_col o c) as [[id l]|]; [|apply IH]. unfold hbind, haccess.
    destruct (is_live h id); [apply IH|right; exists UseAfterFree; split; [reflexivity|right; reflexivity]].
  Qed.
  Lemma malloc_cols_v F cs : forall (o : obj S),
    (forall c, In c cs -> l_alloc L (SArr (f_kind F) c) = true) -> NoDup cs ->
    vh (malloc_cols L F cs o) (fun o1 =>
      o_err o1 = o_err o /\ o_n o1 = o_n o /\ o_flag o1 = o_flag o /\
      (forall c, In c cs -> exists id, o_col o1 c = Some (id, repeat None (Z.to_nat (o_n o)))) /\
      (forall c, ~ In c cs -> o_col o1 c = o_col o c)).
  Proof.
    induction cs as [|c r IH]; intros o A ND; cbn [malloc_cols].
    { apply v_ret. repeat split; auto. intros c []. }
    inversion ND as [|? ? Nc Nr]; subst.
    apply (v_bind _ _ (fun b => exists i, b = Some i)).
    { apply v_alloc; [apply A; left; reflexivity|eauto]. }
    intros b [i ->].
    apply (v_impl _ _ _ (IH _ (fun d I => A d (or_intror I)) Nr)).
    intros o1 [X1 [X2 [X3 [X4 X5]]]]. split; [exact X1|]. split; [exact X2|]. split; [exact X3|]. split.
    - intros d [<-|I]; [|apply X4; exact I]. exists i. rewrite (X5 c Nc). apply with_col_same.
    - intros d Nd. rewrite (X5 d) by (intro; apply Nd; right; assumption).
      apply with_col_other. intros ->; apply Nd; left; reflexivity.
  Qed.

  Lemma extract_v t s :
    allocs_ok L (kind_of t) ->
    l_column_count L s = Z.of_nat (List.length (columns t)) ->
    0 < l_line_count L s < two64 -> s <> [] -> readable L t s ->
    vh (extract_table L t (Some s)) (fun p => exists o, p = Some o /\ result_ok L t s o).
  Proof.
    intros [A1 A2] CC LC NE R0. rewrite extract_table_eq. unfold extract_with.
    apply (v_bind _ _ (fun b => exists i, b = Some i)).
    { apply v_alloc; [rewrite format_kind; exact A1|eauto]. }
    intros b [id ->]. apply (v_bind _ _ (fun _ => True)); [apply v_open; exact I|]. intros _ _.
    set (o0 := init id (flag_of t)).
    apply (v_bind _ _ (fun o => o = o0)).
    { unfold check_column_count. change (o_err o0) with false. change (o_flag o0) with (flag_of t).
      rewrite format_need, CC, Z.eqb_refl. apply v_ret; reflexivity. }
    intros o ->. apply (v_bind _ _ (fresh t (l_line_count L s))).
    { unfold malloc_table. change (o_err o0) with false. cbn [with_n o_n o_flag o0 init].
      replace (l_line_count L s =? 0) with false by (symmetry; apply Z.eqb_neq; lia).
      apply (v_impl _ _ _ (malloc_cols_v (format_of t) (f_malloc (format_of t) (flag_of t)) _
        (fun c _ => eq_trans (f_equal (fun k => l_alloc L (SArr k c)) (format_kind t)) (A2 c))
        (fo_malloc _ (format_of_ok t) (flag_of t)))).
      cbn [o_err o_n o_flag o_col].
      intros o1 [X1 [X2 [X3 [X4 X5]]]]. repeat split; auto. }
    intros o1 FR. apply (v_bind _ _ (result_ok L t s)).
    { intro h. destruct (access_cases (f_read (format_of t) (o_flag o1)) o1 h) as [AC|[u [AC M]]].
      - destruct (reader_good L t s _ o1 h LC FR AC R0 (lines_nonempty s NE)) as [o [E1 [X1 [X2 X]]]].
        rewrite E1. split; [exact X1|]. split; [rewrite row_count_eq; exact X2|exact X].
      - assert (E : reader_of L t (format_of t) s o1 h = UB u); [|rewrite E; exact M].
        destruct FR as [Er [En _]].
        assert (N0 : (o_n o1 =? 0) = false) by (apply Z.eqb_neq; lia).
        destruct t; cbn [reader_of]; unfold read_table, read_merged, read_uranus;
          rewrite Er, N0; unfold hbind; rewrite AC; reflexivity. }
    intros o2 R2. apply (v_bind _ _ (fun _ => True)); [apply v_close; exact I|].
    intros _ _. apply v_ret; eauto.
  Qed.
  Lemma rejected_v t file :
    l_alloc L (SObj (kind_of t)) = true -> rejected L t file ->
    vh (extract_table L t file) (fun p => exists o, p = Some o /\ o_err o = true).
  Proof.
    intros A R0 h. destruct (extract_rejected L t file h A R0) as [o [h1 [E [X _]]]].
    rewrite E; eauto.
  Qed.

  (** Columns of a good table. *)
  Definition part_ok (t : table) (rows : list (list text)) (o : obj S) : Prop :=
    o_err o = false /\ o_n o = zlen rows /\
    forall c, In c (columns t) -> values_are o c (column L t rows c).

  Lemma position_entry c cs : In c cs -> entry cs (Z.of_nat (position c cs)) c.
  Proof.
    induction cs as [|d r IH]; cbn [position]; [intros []|]. intros I.
    destruct (col_beq d c) eqn:E.
    - apply col_beq_eq in E; subst. split; [lia|reflexivity].
    - destruct I as [->|I]; [rewrite col_beq_refl in E; discriminate|].
      destruct (IH I) as [_ X]. split; [lia|]. rewrite Nat2Z.id in *. exact X.
  Qed.
  Lemma array_values (o : obj S) c vs :
    array o c (zlen vs) -> (forall i v, entry vs i v -> holds_at o c i v) -> values_are o c vs.
  Proof.
    intros [id [l [E Z0]]] X. exists id. rewrite E. do 2 f_equal.
    apply list_ext. intro n. rewrite nth_error_map.
    destruct (nth_error vs n) as [v|] eqn:En; cbn.
    - destruct (X (Z.of_nat n) v) as [id' [l' [E' [_ Y]]]].
      { split; [lia|rewrite Nat2Z.id; exact En]. }
      rewrite E in E'; injection E' as <- <-. rewrite Nat2Z.id in Y. exact Y.
    - apply nth_error_None in En. apply nth_error_None. unfold zlen in Z0. lia.
  Qed.

  Lemma part_v t rows :
    t <> TMerged -> csv_laws L -> good_table t rows -> allocs_ok L (kind_of t) ->
    vh (extract_table L t (Some (table_text rows)))
       (fun p => exists o, p = Some o /\ part_ok t rows o).
  Proof.
    intros Nt LW [W [NE SZ]] A. change (2 ^ 64) with two64 in SZ.
    assert (NB : t = TMerged -> ~ starts_with_B (table_text rows)) by congruence.
    eapply v_impl.
    { apply extract_v; [exact A|exact (rows_columns L t rows LW W NE)| |exact (text_nonempty rows NE)|
        exact (rows_readable L t rows LW W NE NB)].
      rewrite (law_lines L LW _ _ W). pose proof (rows_pos rows NE). lia. }
    intros p [o [-> R0]]. exists o. split; [reflexivity|].
    pose proof (rows_stores L t rows LW W NE NB o R0) as ST.
    pose proof R0 as [X1 [X2 [_ [X3 _]]]].
    destruct (well_readable L t rows LW W NE NB) as [_ RC].
    split; [exact X1|]. split; [rewrite X2; exact RC|].
    intros c I. apply array_values.
    - unfold column. rewrite zlen_map, <- (law_lines L LW _ _ W). apply X3, columns_malloc, I.
    - intros i v [Hi E]. unfold column in E. rewrite nth_error_map in E.
      destruct (nth_error rows (Z.to_nat i)) as [fs|] eqn:Ef; [|discriminate].
      injection E as <-. pose proof (position_entry c _ I) as [_ P]. rewrite Nat2Z.id in P.
      apply (ST i (Z.of_nat (position c (columns t))) fs); [split; assumption| |apply position_entry; exact I].
      assert (G : good_row (List.length (columns t)) fs).
      { unfold well_formed in W; rewrite Forall_forall in W. apply W. exact (nth_error_In _ _ Ef). }
      split; [lia|]. rewrite Nat2Z.id. apply nth_error_nth'.
      destruct G as [-> _]. apply nth_error_Some. congruence.
  Qed.
End Val.
