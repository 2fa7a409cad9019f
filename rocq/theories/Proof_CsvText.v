(** * Proof_CsvText: lines, fields and the reading loops. *)
From Coq Require Import List ZArith Lia Bool Ascii.
From Verif Require Import Base BaseFacts Scalar Spec_Select Proof_Misc Model_Heap Model_Csv
  Model_CsvData Spec_Csv Proof_Heap Proof_CsvOwn Proof_CsvOwn2.
Import ListNotations.
Open Scope list_scope.
Open Scope Z_scope.

(** ** Fields *)
Lemma split_nonnil s : split_commas s <> [].
Proof. destruct s as [|c r]; cbn; [discriminate|]. destruct (Ascii.eqb c ","); [discriminate|]. destruct (split_commas r); discriminate. Qed.

Lemma fields_comma r : fields (comma :: r) = fields r.
Proof. reflexivity. Qed.
Lemma fields_skip s : fields (skip_commas s) = fields s.
Proof.
  induction s as [|c r IH]; [reflexivity|]. cbn [skip_commas].
  destruct (Ascii.eqb c comma) eqn:E; [|reflexivity].
  apply Ascii.eqb_eq in E; subst c. rewrite fields_comma; exact IH.
Qed.
Lemma skip_head s : match skip_commas s with [] => True | c :: _ => Ascii.eqb c comma = false end.
Proof. induction s as [|c r IH]; cbn; [exact I|]. destruct (Ascii.eqb c comma) eqn:E; [exact IH|exact E]. Qed.
Lemma split_until s : exists t, split_commas s = fst (until_comma s) :: t /\
  filter nonempty t = fields (snd (until_comma s)).
Proof.
  induction s as [|c r IH]; [exists []; split; reflexivity|]. cbn [until_comma split_commas].
  change (Ascii.eqb c ",") with (Ascii.eqb c comma).
  destruct (Ascii.eqb c comma).
  - exists (split_commas r); split; reflexivity.
  - destruct IH as [t [E F]]. rewrite E. destruct (until_comma r) as [a b]; cbn [fst snd] in *.
    exists t; split; [reflexivity|exact F].
Qed.
(** [strtok] takes the next field. *)
Lemma strtok_fields s :
  match strtok s with
  | None => fields s = []
  | Some (f, r) => fields s = f :: fields r
  end.
Proof.
  unfold strtok. pose proof (skip_head s) as H. rewrite <- (fields_skip s).
  destruct (skip_commas s) as [|c r] eqn:E; [reflexivity|].
  destruct (split_until (c :: r)) as [t [E1 E2]].
  destruct (until_comma (c :: r)) as [a b] eqn:U. cbn [fst snd] in *.
  assert (exists a', a = c :: a') as [a' ->].
  { cbn [until_comma] in U. rewrite H in U. destruct (until_comma r); injection U as <- _; eauto. }
  unfold fields at 1. rewrite E1. cbn [filter nonempty]. rewrite E2. reflexivity.
Qed.

(** ** Lines of a table *)
Lemma take_line (l r : text) k :
  ~ In newline l -> (List.length l < k)%nat ->
  fgets_take k (l ++ newline :: r) = (l ++ [newline], r).
Proof.
  revert k; induction l as [|c l IH]; intros k N K.
  - destruct k as [|k]; [cbn in K; lia|]. reflexivity.
  - destruct k as [|k]; [cbn in K; lia|]. cbn [app fgets_take].
    destruct (Ascii.eqb c newline) eqn:E.
    + apply Ascii.eqb_eq in E; exfalso; apply N; left; exact E.
    + rewrite IH; [reflexivity|intro I; apply N; right; exact I|cbn in K; lia].
Qed.

(** A row is a line without a newline inside, ended by one. *)
Fixpoint body_text (fs : list text) : text :=
  match fs with
  | [] => []
  | [f] => f
  | f :: r => f ++ comma :: body_text r
  end.
Lemma row_body fs : row_text fs = body_text fs ++ [newline].
Proof.
  induction fs as [|f r IH]; [reflexivity|]. destruct r as [|g r]; [reflexivity|].
  change (row_text (f :: g :: r)) with (f ++ comma :: row_text (g :: r)).
  change (body_text (f :: g :: r)) with (f ++ comma :: body_text (g :: r)).
  rewrite IH, <- app_assoc. reflexivity.
Qed.
Lemma body_plain fs : Forall plain fs ->
  forall c, In c (body_text fs) -> c <> newline /\ c <> nul.
Proof.
  induction fs as [|f r IH]; intros P c I; [destruct I|].
  inversion P as [|? ? [_ Pf] Pr]; subst. destruct r as [|g r].
  - cbn in I. split; apply (Pf c I).
  - change (body_text (f :: g :: r)) with (f ++ comma :: body_text (g :: r)) in I.
    apply in_app_or in I as [I|[<-|I]]; [split; apply (Pf c I)|split; discriminate|exact (IH Pr c I)].
Qed.
Lemma fgets_all_table k rows : forall fuel,
  well_formed k rows -> (List.length rows <= fuel)%nat ->
  fgets_all fuel (table_text rows) = map row_text rows.
Proof.
  induction rows as [|fs rows IH]; intros fuel W F.
  - destruct fuel; reflexivity.
  - destruct fuel as [|fuel]; [cbn in F; lia|].
    inversion W as [|? ? [Lk [P B]] Wr]; subst.
    cbn [table_text flat_map map]. rewrite row_body in *.
    rewrite app_length in B; cbn [List.length] in B.
    destruct ((body_text fs ++ [newline]) ++ flat_map row_text rows) eqn:E.
    { destruct (body_text fs); discriminate. }
    rewrite <- E. cbn [fgets_all]. rewrite E, <- E.
    rewrite <- app_assoc. cbn [app]. rewrite take_line.
    + f_equal. apply IH; [exact Wr|cbn in F; lia].
    + intro I; apply (proj1 (body_plain fs P _ I)); reflexivity.
    + unfold buffer_room. lia.
Qed.
Lemma rows_length rows : (List.length rows <= List.length (table_text rows))%nat.
Proof.
  induction rows as [|fs rows IH]; [cbn; lia|]. cbn [table_text flat_map List.length].
  rewrite app_length, row_body, app_length. cbn [List.length]. unfold table_text in IH. lia.
Qed.
Lemma file_lines_table k rows : well_formed k rows ->
  file_lines (table_text rows) = map row_text rows.
Proof. intro W; apply (fgets_all_table k); [exact W|apply rows_length]. Qed.

Lemma cstring_id s : (forall c, In c s -> c <> nul) -> cstring s = s.
Proof.
  induction s as [|c r IH]; intro N; [reflexivity|]. cbn [cstring].
  destruct (Ascii.eqb c nul) eqn:E.
  - apply Ascii.eqb_eq in E; exfalso; exact (N c (or_introl eq_refl) E).
  - rewrite IH; [reflexivity|]. intros d I; apply N; right; exact I.
Qed.
Lemma cstring_row fs : Forall plain fs -> cstring (row_text fs) = row_text fs.
Proof.
  intro P; apply cstring_id. intros c I. rewrite row_body in I.
  apply in_app_or in I as [I|[<-|[]]]; [apply (body_plain fs P c I)|discriminate].
Qed.

Lemma split_app f r : (forall c, In c f -> c <> comma) ->
  split_commas (f ++ comma :: r) = f :: split_commas r.
Proof.
  induction f as [|c f IH]; intro N; [reflexivity|]. cbn [app split_commas].
  change (Ascii.eqb c ",") with (Ascii.eqb c comma).
  destruct (Ascii.eqb c comma) eqn:E.
  - apply Ascii.eqb_eq in E; exfalso; exact (N c (or_introl eq_refl) E).
  - rewrite IH by (intros d I; apply N; right; exact I). reflexivity.
Qed.
Lemma split_none f : (forall c, In c f -> c <> comma) -> split_commas f = [f].
Proof.
  induction f as [|c f IH]; intro N; [reflexivity|]. cbn [split_commas].
  change (Ascii.eqb c ",") with (Ascii.eqb c comma).
  destruct (Ascii.eqb c comma) eqn:E.
  - apply Ascii.eqb_eq in E; exfalso; exact (N c (or_introl eq_refl) E).
  - rewrite IH by (intros d I; apply N; right; exact I). reflexivity.
Qed.
(** The fields of a row are its fields, the last one with the newline. *)
Fixpoint with_newline (fs : list text) : list text :=
  match fs with [] => [] | [f] => [f ++ [newline]] | f :: r => f :: with_newline r end.
Lemma fields_row fs : Forall plain fs -> fs <> [] -> fields (row_text fs) = with_newline fs.
Proof.
  induction fs as [|f r IH]; intros P N; [congruence|].
  inversion P as [|? ? [Ne Pf] Pr]; subst. destruct r as [|g r].
  - cbn [row_text with_newline]. unfold fields. rewrite split_none.
    + destruct f; [congruence|reflexivity].
    + intros c I; apply in_app_or in I as [I|[<-|[]]]; [apply (Pf c I)|discriminate].
  - change (row_text (f :: g :: r)) with (f ++ comma :: row_text (g :: r)).
    unfold fields. rewrite split_app by (intros c I; apply (Pf c I)).
    cbn [filter]. replace (nonempty f) with true by (destruct f; [congruence|reflexivity]).
    change (f :: fields (row_text (g :: r)) = f :: with_newline (g :: r)).
    rewrite (IH Pr) by discriminate. reflexivity.
Qed.
Lemma with_newline_length fs : List.length (with_newline fs) = List.length fs.
Proof. induction fs as [|f [|g r] IH]; try reflexivity. cbn [with_newline List.length] in *. rewrite IH; reflexivity. Qed.
Lemma with_newline_nth fs : forall j f, nth_error fs j = Some f ->
  nth_error (with_newline fs) j = Some f \/ nth_error (with_newline fs) j = Some (f ++ [newline]).
Proof.
  induction fs as [|g [|g2 r] IH]; intros j f E.
  - destruct j; discriminate.
  - destruct j as [|j]; [right; cbn in *; congruence|destruct j; discriminate].
  - destruct j as [|j]; [left; cbn in *; congruence|].
    change (with_newline (g :: g2 :: r)) with (g :: with_newline (g2 :: r)).
    cbn [nth_error] in *. exact (IH j f E).
Qed.

Lemma entry_cons {A} (a : A) l j x :
  entry (a :: l) j x <-> (j = 0 /\ x = a) \/ (0 < j /\ entry l (j - 1) x).
Proof.
  unfold entry. split.
  - intros [H E]. destruct (Z.eq_dec j 0) as [->|N]; [left; cbn in E; split; congruence|].
    right. split; [lia|]. split; [lia|].
    replace (Z.to_nat j) with (S (Z.to_nat (j - 1))) in E by lia. exact E.
  - intros [[-> ->]|[H [H2 E]]]; [split; [lia|reflexivity]|].
    split; [lia|]. replace (Z.to_nat j) with (S (Z.to_nat (j - 1))) by lia. exact E.
Qed.
Lemma entry_nil {A} j (x : A) : ~ entry [] j x.
Proof. unfold entry; intros [_ E]. destruct (Z.to_nat j); discriminate. Qed.
Lemma entry_In {A} (l : list A) j x : entry l j x -> In x l.
Proof. intros [_ E]; exact (nth_error_In _ _ E). Qed.
Lemma entry_bound {A} (l : list A) j x : entry l j x -> 0 <= j < zlen l.
Proof.
  intros [H E]. assert (Z.to_nat j < List.length l)%nat by (apply nth_error_Some; congruence).
  unfold zlen; lia.
Qed.
Lemma entry_in {A} (l : list A) j : 0 <= j < zlen l -> exists x, entry l j x.
Proof. intro H; destruct (aread_in l j H) as [x E]; exists x; apply entry_iff; exact E. Qed.
Lemma entry_fun {A} (l : list A) j x y : entry l j x -> entry l j y -> x = y.
Proof. intros [_ A1] [_ A2]; congruence. Qed.

(** ** The reading loops *)
Section Read.
  Context {S : scalar}.
  Variable L : csvlib S.

  Definition cell (o : obj S) (c : col) (i : Z) (v : option S) : Prop :=
    exists id l, o_col o c = Some (id, l) /\ entry l i v.
  Lemma cell_fun o c i v w : cell o c i v -> cell o c i w -> v = w.
  Proof. intros [a [b [E1 E2]]] [a' [b' [E1' E2']]]. rewrite E1 in E1'; injection E1' as <- <-. exact (entry_fun _ _ _ _ E2 E2'). Qed.

  Lemma store_ok (o : obj S) c N n v :
    array o c N -> 0 <= n < N ->
    exists o', store o c n v = Ok o' /\ same_shape o o' /\
      (forall d M, array o d M -> array o' d M) /\
      cell o' c n (Some v) /\
      (forall d i w, (d <> c \/ i <> n) -> (cell o d i w <-> cell o' d i w)).
  Proof.
    intros [id [l [E Z0]]] B. unfold store. rewrite E.
    destruct (awrite_in l n (Some v)) as [l1 W]; [lia|]. rewrite W. cbn [bind].
    pose proof (awrite_ok _ _ _ _ W) as [_ [Z1 [R1 R2]]].
    eexists; split; [reflexivity|].
    assert (Cc : o_col (with_col o c (Some (id, l1))) c = Some (id, l1)) by apply with_col_same.
    split.
    { split; try reflexivity. intro d; cbn [with_col o_col].
      destruct (col_beq d c) eqn:Q; [|reflexivity]. apply col_beq_eq in Q; subst; rewrite E; reflexivity. }
    split.
    { intros d M [id' [l' [E' Z']]]. destruct (col_eq_dec d c) as [->|N0].
      - exists id, l1. split; [exact Cc|]. rewrite E in E'; injection E' as <- <-. lia.
      - exists id', l'. split; [|exact Z']. rewrite with_col_other by exact N0. exact E'. }
    split.
    { exists id, l1. split; [exact Cc|]. apply entry_iff; exact R1. }
    intros d i w Q. destruct (col_eq_dec d c) as [->|N0].
    - assert (Ni : i <> n) by tauto. split; intros [id' [l' [E' X]]].
      + rewrite E in E'; injection E' as <- <-. exists id, l1; split; [exact Cc|].
        apply entry_iff. rewrite R2 by exact Ni. apply entry_iff; exact X.
      + rewrite Cc in E'; injection E' as <- <-. exists id, l; split; [exact E|].
        apply entry_iff. rewrite <- (R2 i Ni). apply entry_iff; exact X.
    - unfold cell. rewrite with_col_other by exact N0. reflexivity.
  Qed.

  Lemma read_fields_ok cs N n : NoDup cs -> 0 <= n < N -> forall s (o : obj S),
    (forall c, In c cs -> array o c N) -> (List.length cs <= List.length (fields s))%nat ->
    exists o', read_fields L cs s n o = Ok o' /\ same_shape o o' /\
      (forall d M, array o d M -> array o' d M) /\
      (forall j c f, entry cs j c -> entry (fields s) j f -> cell o' c n (Some (l_atof L f))) /\
      (forall d i w, (~ In d cs \/ i <> n) -> (cell o d i w <-> cell o' d i w)).
  Proof.
    intros ND B; induction ND as [|c r Nc Nr IH]; intros s o A K.
    - exists o; cbn. split; [reflexivity|]. split; [apply same_shape_refl|]. split; [auto|].
      split; [intros j c f X; destruct (entry_nil _ _ X)|]. reflexivity.
    - cbn [read_fields]. pose proof (strtok_fields s) as T.
      destruct (strtok s) as [[tok rest]|]; [|rewrite T in K; cbn in K; lia].
      rewrite T in K |- *. cbn [List.length] in K.
      destruct (store_ok o c N n (l_atof L tok) (A c (or_introl eq_refl)) B)
        as [o1 [E1 [S1 [A1 [C1 U1]]]]].
      rewrite E1; cbn [bind].
      destruct (IH rest o1) as [o2 [E2 [S2 [A2 [C2 U2]]]]].
      { intros d Hd; apply A1, A; right; exact Hd. }
      { lia. }
      exists o2. split; [exact E2|]. split; [exact (same_shape_trans _ _ _ S1 S2)|].
      split; [auto|]. split.
      + intros j d f J1 J2. apply entry_cons in J1 as [[-> ->]|[Hj J1]].
        * apply entry_cons in J2 as [[_ ->]|[X _]]; [|lia].
          apply U2; [left; exact Nc|exact C1].
        * apply entry_cons in J2 as [[-> _]|[_ J2]]; [lia|]. exact (C2 _ _ _ J1 J2).
      + intros d i w Q. rewrite (U1 d i w), (U2 d i w); [reflexivity| |].
        * destruct Q as [Q|Q]; [left; intro X; apply Q; right; exact X|right; exact Q].
        * destruct Q as [Q|Q]; [left; intros ->; apply Q; left; reflexivity|right; exact Q].
  Qed.

  Lemma read_fields_short cs n : forall s (o : obj S),
    (List.length (fields s) < List.length cs)%nat ->
    exists u, read_fields L cs s n o = UB u.
  Proof.
    induction cs as [|c r IH]; intros s o K; [cbn in K; lia|]. cbn [read_fields].
    pose proof (strtok_fields s) as T.
    destruct (strtok s) as [[tok rest]|]; [|eexists; reflexivity].
    destruct (store o c n (l_atof L tok)) as [o1|u] eqn:E; [|eexists; reflexivity].
    cbn [bind]. apply IH. rewrite T in K; cbn in K; lia.
  Qed.

  Definition short (k : nat) (line : text) : Prop := (List.length (fields (cstring line)) < k)%nat.

  Lemma read_rows_ok cs N : NoDup cs -> forall lines n (o : obj S),
    0 <= n -> n + zlen lines <= N -> (forall c, In c cs -> array o c N) ->
    (forall line, In line lines -> ~ short (List.length cs) line) ->
    exists o', read_rows L cs lines n o = Ok o' /\ same_shape o o' /\
      (forall d M, array o d M -> array o' d M) /\
      (forall i j line c f, entry lines i line -> entry cs j c ->
         entry (fields (cstring line)) j f -> cell o' c (n + i) (Some (l_atof L f))) /\
      (forall d i w, (~ In d cs \/ i < n \/ n + zlen lines <= i) -> (cell o d i w <-> cell o' d i w)).
  Proof.
    intro ND; induction lines as [|line r IH]; intros n o Hn HN A K.
    - exists o; cbn. split; [reflexivity|]. split; [apply same_shape_refl|]. split; [auto|].
      split; [intros i j l c f X; destruct (entry_nil _ _ X)|]. reflexivity.
    - rewrite zlen_cons in HN. pose proof (zlen_nonneg r) as Zr.
      destruct (read_fields_ok cs N n ND ltac:(lia) (cstring line) o A)
        as [o1 [E1 [S1 [A1 [C1 U1]]]]].
      { specialize (K line (or_introl eq_refl)). unfold short in K. lia. }
      cbn [read_rows]. rewrite E1; cbn [bind].
      destruct (IH (n + 1) o1) as [o2 [E2 [S2 [A2 [C2 U2]]]]]; [lia|lia|auto| |].
      { intros l Hl; apply K; right; exact Hl. }
      exists o2. split; [exact E2|]. split; [exact (same_shape_trans _ _ _ S1 S2)|].
      split; [auto|]. split.
      + intros i j l c f I1 J1 J2. apply entry_cons in I1 as [[-> ->]|[Hi I1]].
        * apply U2; [right; left; lia|]. rewrite Z.add_0_r. exact (C1 _ _ _ J1 J2).
        * replace (n + i) with (n + 1 + (i - 1)) by lia. exact (C2 _ _ _ _ _ I1 J1 J2).
      + intros d i w Q. rewrite zlen_cons in Q. rewrite (U1 d i w), (U2 d i w); [reflexivity| |].
        * destruct Q as [Q|[Q|Q]]; [left; exact Q|right; left; lia|right; right; lia].
        * destruct Q as [Q|[Q|Q]]; [left; exact Q|right; lia|right; lia].
  Qed.

  (** A short line, or more lines than rows were allocated: undefined. *)
  Lemma read_rows_short cs : forall lines n (o : obj S),
    (exists line, In line lines /\ short (List.length cs) line) ->
    exists u, read_rows L cs lines n o = UB u.
  Proof.
    induction lines as [|l r IH]; intros n o [line [I K]]; [destruct I|]. cbn [read_rows].
    destruct (read_fields L cs (cstring l) n o) as [o1|u] eqn:E; [|eexists; reflexivity].
    cbn [bind]. destruct I as [->|I].
    - destruct (read_fields_short cs n (cstring line) o K) as [u X]; congruence.
    - apply IH; exists line; split; assumption.
  Qed.
  Lemma store_over (o : obj S) c N n v : array o c N -> N <= n -> exists u, store o c n v = UB u.
  Proof.
    intros [id [l [E Z0]]] B. unfold store; rewrite E. rewrite awrite_out by lia. eexists; reflexivity.
  Qed.
  Lemma read_fields_over cs N n s (o : obj S) :
    cs <> [] -> (forall c, In c cs -> array o c N) -> N <= n ->
    exists u, read_fields L cs s n o = UB u.
  Proof.
    intros Ne A B. destruct cs as [|c r]; [congruence|]. cbn [read_fields].
    destruct (strtok s) as [[tok rest]|]; [|eexists; reflexivity].
    destruct (store_over o c N n (l_atof L tok) (A c (or_introl eq_refl)) B) as [u ->].
    eexists; reflexivity.
  Qed.
  Lemma read_rows_over cs N : NoDup cs -> cs <> [] -> forall lines n (o : obj S),
    0 <= n -> (forall c, In c cs -> array o c N) -> N < n + zlen lines ->
    (n <= N) ->
    exists u, read_rows L cs lines n o = UB u.
  Proof.
    intros ND Ne; induction lines as [|l r IH]; intros n o Hn A K HN.
    - rewrite zlen_nil in K; lia.
    - rewrite zlen_cons in K. cbn [read_rows].
      destruct (read_fields L cs (cstring l) n o) as [o1|u] eqn:E; [|eexists; reflexivity].
      cbn [bind]. destruct (Z.eq_dec n N) as [->|Nn].
      { destruct (read_fields_over cs N N (cstring l) o Ne A ltac:(lia)) as [u X]; congruence. }
      apply (IH (n + 1)); [lia| |lia|lia].
      intros c Hc. destruct (le_lt_dec (List.length cs) (List.length (fields (cstring l)))) as [G|G].
      + destruct (read_fields_ok cs N n ND ltac:(lia) (cstring l) o A G)
          as [o2 [E2 [_ [A2 _]]]].
        rewrite E in E2; injection E2 as <-. apply A2, A, Hc.
      + destruct (read_fields_short cs n (cstring l) o G) as [u X]; congruence.
  Qed.

  (** ** Extraction up to the loop *)
  Lemma extract_start read F flag s h :
    format_ok F -> good_heap h ->
    l_alloc L (SObj (f_kind F)) = true ->
    (forall c, In c (f_malloc F flag) -> l_alloc L (SArr (f_kind F) c) = true) ->
    l_column_count L s = f_need F flag -> l_line_count L s <> 0 ->
    exists o0 h0,
      extract_with L read F flag (Some s) h =
        (do '(o, h1) <- read F s o0 h0;
         Ok (Some o, mkHeap (live h1) (next h1) (files h1 - 1))) /\
      tinv (live h) F [] o0 h0 /\ files h0 = files h + 1 /\
      o_err o0 = false /\ o_n o0 = l_line_count L s /\ o_flag o0 = flag /\
      (forall c, In c (f_malloc F flag) ->
         exists id, o_col o0 c = Some (id, repeat None (Z.to_nat (l_line_count L s)))) /\
      (forall c, ~ In c (f_malloc F flag) -> o_col o0 c = None).
  Proof.
    intros FO G A1 A2 CC LC. unfold extract_with, hbind, halloc. rewrite A1. cbn [bind].
    pose proof (init_tinv (S := S) (live h) F [] flag h (owns_start h G)) as T.
    set (o0 := init (next h) flag) in *.
    unfold hopen; cbn [bind live next files].
    apply (tinv_files _ _ _ _ _ (files h + 1)) in T. cbn [live next files] in T.
    set (h1 := mkHeap (next h :: live h) (next h + 1) (files h + 1)) in *.
    destruct (check_column_tinv L (live h) F [] s o0 h1 T)
      as [o1 [ha [E1 [T1 [F1 [_ [_ [G3 [G4 G5]]]]]]]]].
    rewrite E1; cbn [bind].
    change (o_flag o0) with flag in *. change (o_err o0) with false in G5.
    rewrite CC, Z.eqb_refl in G5. cbn in G5.
    assert (Z1 : forall c, o_col o1 c = None) by (rewrite G4; reflexivity).
    destruct (malloc_table_tinv L (live h) F [] s o1 ha FO T1 Z1)
      as [o2 [hb [E2 [T2 [F2 [_ [K1 [_ [K3 [K4 [_ K6]]]]]]]]]]].
    rewrite E2; cbn [bind]. rewrite G3 in *.
    assert (Er : o_err o2 = false) by (apply K6; assumption).
    destruct (K4 Er) as [_ [_ [K4a K4b]]].
    exists o2, hb. split; [reflexivity|]. split; [exact T2|].
    split; [rewrite F2, F1; reflexivity|]. split; [exact Er|].
    split; [apply K3; exact G5|]. split; [exact K1|]. split; [exact K4a|exact K4b].
  Qed.

  Lemma start_array (o : obj S) c N id :
    0 <= N -> o_col o c = Some (id, repeat None (Z.to_nat N)) -> array o c N.
  Proof. intros P E; exists id, (repeat None (Z.to_nat N)); split; [exact E|apply zlen_repeat; exact P]. Qed.
End Read.
