(** * Proof_PyCsv: the Python classes that show CSV tables. *)
From Coq Require Import List ZArith Lia Bool String Ascii.
From Verif Require Import Base BaseFacts Dbl Scalar Spec_Select Model_Heap Model_Csv Model_CsvData Model_Py
  Model_PyCsv Spec_Csv Spec_CsvData Spec_Py Spec_PyCsv Proof_Misc Proof_Heap Proof_CsvOwn Proof_CsvOwn2 Proof_CsvOwn3
  Proof_Csv2 Proof_CsvVal5.
Import ListNotations.
Open Scope list_scope.
Open Scope Z_scope.

Section PyCsv.
  Context {S : scalar}.
  Variable L : csvlib S.
  Local Open Scope heap_scope.

  (** ** Showing the members of an object in a new instance *)
  Definition cut (n : Z) (p : ptr S) : ptr S :=
    match p with Some (id, l) => Some (id, firstn (Z.to_nat n) l) | None => None end.
  Lemma put_same (v : pycsv S) c p : put_col v c p c = p.
  Proof. unfold put_col. rewrite col_beq_refl. reflexivity. Qed.
  Lemma put_other (v : pycsv S) c p d : d <> c -> put_col v c p d = v d.
  Proof. intro E. unfold put_col. rewrite col_beq_neq by exact E. reflexivity. Qed.
  Lemma show_cols_new cs (o : obj S) : forall v h,
    NoDup cs -> (forall c, In c cs -> v c = None) ->
    match show_cols cs o v h with
    | Ok (v', h') => h' = h /\ (forall c, ~ In c cs -> v' c = v c) /\
        (forall c, In c cs -> v' c = cut (o_n o) (o_col o c))
    | UB u => u = OutOfBounds /\ exists c id l, In c cs /\ o_col o c = Some (id, l) /\ zlen l < o_n o
    end.
  Proof.
    induction cs as [|c r IH]; intros v h N Z0.
    - cbn. repeat split; try tauto.
    - inversion N as [|? ? Nc Nr]; subst. cbn [show_cols].
      assert (Vc := Z0 c (or_introl eq_refl)).
      assert (G : forall p, cut (o_n o) (o_col o c) = p ->
        match show_cols r o (put_col v c p) h with
        | Ok (v', h') => h' = h /\ (forall d, ~ In d (c :: r) -> v' d = v d) /\
            (forall d, In d (c :: r) -> v' d = cut (o_n o) (o_col o d))
        | UB u => u = OutOfBounds /\ exists d id l, In d (c :: r) /\ o_col o d = Some (id, l) /\ zlen l < o_n o
        end).
      { intros p Ep. specialize (IH (put_col v c p) h Nr).
        assert (Z1 : forall d, In d r -> put_col v c p d = None).
        { intros d Hd. rewrite put_other by (intros ->; contradiction). apply Z0; right; exact Hd. }
        specialize (IH Z1). destruct (show_cols r o (put_col v c p) h) as [[v' h']|u].
        - destruct IH as [-> [A B]]. split; [reflexivity|]. split.
          + intros d Hd. rewrite A by (intro X; apply Hd; right; exact X).
            apply put_other. intros ->. apply Hd; left; reflexivity.
          + intros d [->|Hd]; [|apply B; exact Hd]. rewrite A by exact Nc. rewrite put_same. symmetry; exact Ep.
        - destruct IH as [-> [d [id [l [A B]]]]]. split; [reflexivity|]. exists d, id, l. split; [right; exact A|exact B]. }
      unfold show_col, hbind. destruct (o_col o c) as [[id l]|] eqn:E.
      + destruct (o_n o <=? zlen l) eqn:Le.
        * unfold hret; cbn [bind]. apply G. reflexivity.
        * cbn. split; [reflexivity|]. exists c, id, l. split; [left; reflexivity|]. split; [exact E|]. lia.
      + rewrite Vc. cbn. apply G. reflexivity.
  Qed.
  Lemma steal_order_nodup : NoDup steal_order.
  Proof. unfold steal_order. nodup_tac. Qed.
  Lemma steal_all c name : In (name, c) member_names -> In c steal_order.
  Proof. unfold member_names, steal_order. cbn [In]. intuition (match goal with H : (_, _) = _ |- _ => injection H as <- <- end; tauto). Qed.
  Lemma shown_all (o : obj S) v h :
    show_cols steal_order o new_instance h = Ok (v, h) ->
    forall c, In c steal_order -> v c = cut (o_n o) (o_col o c).
  Proof.
    intro E. pose proof (show_cols_new steal_order o new_instance h steal_order_nodup (fun _ _ => eq_refl)) as X.
    rewrite E in X. apply X.
  Qed.
  Lemma show_succeeds (o : obj S) h :
    (forall c id l, In c steal_order -> o_col o c = Some (id, l) -> o_n o <= zlen l) ->
    exists v, show_cols steal_order o new_instance h = Ok (v, h).
  Proof.
    intro A. pose proof (show_cols_new steal_order o new_instance h steal_order_nodup (fun _ _ => eq_refl)) as X.
    destruct (show_cols steal_order o new_instance h) as [[v h1]|u].
    - destruct X as [-> _]. exists v; reflexivity.
    - destruct X as [_ [c [id [l [I [E Lt]]]]]]. specialize (A c id l I E). lia.
  Qed.

  (** ** Releasing an instance *)
  Definition vids (cs : list col) (v : pycsv S) : list Z := flat_map (fun c => pl (v c)) cs.
  Lemma drop_cols_ok base cs v : forall ids rest h,
    owns base ids h -> (forall b, cnt ids b = (cnt (vids cs v) b + cnt rest b)%nat) ->
    exists h1, drop_cols cs v h = Ok (tt, h1) /\ owns base rest h1 /\ files h1 = files h.
  Proof.
    induction cs as [|c r IH]; intros ids rest h O E.
    - exists h. split; [reflexivity|]. split; [|reflexivity]. apply (owns_perm _ _ _ _ O). intro b; rewrite E; reflexivity.
    - cbn [drop_cols]. unfold hbind.
      destruct (free_owned base (pid (v c)) ids (vids r v ++ rest) h O) as [h1 [F [O1 F1]]].
      { intro b. rewrite E, ml_pid. unfold vids. cbn [flat_map]. fold (vids r v). rewrite !cnt_app. lia. }
      rewrite F. cbn [bind].
      destruct (IH (vids r v ++ rest) rest h1 O1) as [h2 [E2 [O2 F2]]].
      { intro b. rewrite cnt_app. reflexivity. }
      exists h2. split; [exact E2|]. split; [exact O2|congruence].
  Qed.
  Lemma one_more base id h h2 : base = live h -> owns base [id] h2 -> files h2 = files h -> one_block_more h h2.
  Proof.
    intros -> [C O N] F. split; [|exact F]. exists id. split.
    - intro I. apply (count_occ_In Z.eq_dec) in I. specialize (C id). specialize (O id).
      rewrite cnt_same in C. unfold cnt in *. lia.
    - intro x. rewrite (count_occ_In Z.eq_dec (live h2)), (count_occ_In Z.eq_dec (live h)).
      specialize (C x). fold (cnt (live h2) x). fold (cnt (live h) x). rewrite C.
      destruct (Z.eq_dec id x) as [<-|Nx]; [rewrite cnt_same; split; [left; reflexivity|lia]|].
      rewrite (cnt_other _ _ Nx). split; [right; lia|intros [->|X]; [congruence|lia]].
  Qed.

  (** What is left after the C object was shown in a new instance. *)
  Lemma shown_memory base cs (o : obj S) v h h0 :
    base = live h0 -> files h = files h0 ->
    (forall v b, cnt (flat_map (fun c => pl (v c)) cs) b = cnt (vids destroy_order_py v) b) ->
    (forall x, In x cs -> In x steal_order) ->
    owns base (o_id o :: oids cs o) h ->
    show_cols steal_order o new_instance h = Ok (v, h) ->
    files h = files h0 /\ exists h2, py_csv_destroy v h = Ok (tt, h2) /\ one_block_more h0 h2.
  Proof.
    intros Eb Fl Pm Inc O Sh. split; [exact Fl|].
    assert (V : oids cs o = vids cs v).
    { unfold oids, vids. clear O Pm. induction cs as [|c r IH]; [reflexivity|]. cbn [flat_map]. f_equal.
      - rewrite (shown_all _ _ _ Sh c (Inc c (or_introl eq_refl))). destruct (o_col o c) as [[? ?]|]; reflexivity.
      - apply IH. intros x I; apply Inc; right; exact I. }
    destruct (drop_cols_ok base destroy_order_py v _ [o_id o] h O) as [h2 [E [O2 F2]]].
    { intro b. rewrite cnt_cons, V, <- Pm. unfold vids. lia. }
    exists h2. split; [exact E|]. apply (one_more base (o_id o)); [exact Eb|exact O2|congruence].
  Qed.
  Ltac perm := intros; unfold vids; cbn [flat_map csv_cols destroy_order_py merged_format f_destroy]; rewrite ?cnt_app; cbn [app]; rewrite ?cnt_nil; lia.
  Lemma csv_perm v b : cnt (flat_map (fun c => pl (v c)) csv_cols) b = cnt (vids destroy_order_py v) b.
  Proof. perm. Qed.
  Lemma merged_perm v b : cnt (flat_map (fun c => pl (v c)) (f_destroy merged_format)) b = cnt (vids destroy_order_py v) b.
  Proof. perm. Qed.
  Lemma csv_incl x : In x csv_cols -> In x steal_order.
  Proof. unfold csv_cols, steal_order. cbn [In]. tauto. Qed.
  Lemma merged_incl x : In x (f_destroy merged_format) -> In x steal_order.
  Proof. unfold merged_format, f_destroy, steal_order. cbn [In]. tauto. Qed.

  (** ** The constructors *)
  Definition finish (K : family) (self : pycsv S) (p : option (csv S)) : H (pycsv_result S) :=
    match p with
    | None => hret (@CsvRaised S)
    | Some c =>
        if c_err c
        then _ <~ csv_destroy K (Some c); hret (@CsvRaised S)
        else v <~ show_cols steal_order (c_obj c) self; hret (CsvMade v)
    end.
  Lemma extract_eq self g k d tau dep h :
    extract_csv_data_init L self (Some g) (Some k) (Some d) tau dep h
    = hbind (csv_extract L g k d tau dep) (finish csv_family self) h.
  Proof. reflexivity. Qed.
  Lemma uranus_eq self g d tau rad h :
    get_uranus_data_init L self (Some g) (Some d) tau rad h
    = hbind (uranus_csv_extract L g d tau rad) (finish uranus_family self) h.
  Proof. reflexivity. Qed.

  Lemma finish_memory K p h h0 :
    format_ok (fam_dlp K) -> returned (live h0) (files h0) p h ->
    constructor_memory h0 (finish K new_instance p h).
  Proof.
    intros KO R. destruct p as [c|]; cbn [finish].
    2:{ destruct R as [Fl O]. cbn. split; [exact (proj1 (owns_end _ _ O))|exact Fl]. }
    destruct (c_err c) eqn:Er.
    - destruct (csv_destroy_ok K _ _ _ _ KO R) as [h1 [E [O1 F1]]].
      unfold hbind. rewrite E. cbn. split; [exact (proj1 (owns_end _ _ O1))|exact F1].
    - destruct R as [Fl [O [B M]]]. unfold rids in O. rewrite (M Er) in O. cbn [ml app] in O.
      pose proof (show_cols_new steal_order (c_obj c) new_instance h steal_order_nodup (fun _ _ => eq_refl)) as X.
      unfold hbind. destruct (show_cols steal_order (c_obj c) new_instance h) as [[v h1]|u] eqn:E; cbn [bind hret constructor_memory].
      + destruct X as [-> _].
        exact (shown_memory (live h0) csv_cols (c_obj c) v h h0 eq_refl Fl csv_perm csv_incl O E).
      + destruct X as [-> _]. intros [|]; discriminate.
  Qed.
  Lemma cassini_memory_py geo cal dlp tau dep h :
    good_heap h ->
    (tau <> None -> l_alloc L (SObj KTau) = true) ->
    (forall x, In x [cD; cFSKY; cRHODOT; cRX; cRY; cRZ; cTAUPHASE; cTAUPOWER; cTAUV] ->
       l_alloc L (SArr KCsv x) = true) ->
    constructor_memory h (extract_csv_data_init L new_instance geo cal dlp tau dep h).
  Proof.
    intros G A B. destruct geo as [g|]; [|cbn; intros [|]; discriminate].
    destruct cal as [k|]; [|cbn; intros [|]; discriminate].
    destruct dlp as [d|]; [|cbn; intros [|]; discriminate].
    rewrite extract_eq. unfold hbind.
    destruct (csv_extract_own L (live h) h g k d tau dep (owns_start h G) A B) as [M Q].
    destruct (csv_extract L g k d tau dep h) as [[p h1]|u] eqn:E; cbn [bind].
    - apply finish_memory; [apply dlp_format_ok|exact (Q p h1 eq_refl)].
    - exact (M u E).
  Qed.
  Lemma uranus_memory_py geo dlp tau rad h :
    good_heap h ->
    (tau <> None -> l_alloc L (SObj KTau) = true) ->
    (forall x, In x [cRX; cRY; cRZ; cTAUPHASE; cTAUPOWER; cTAUV] ->
       l_alloc L (SArr KUranusCsv x) = true) ->
    constructor_memory h (get_uranus_data_init L new_instance geo dlp tau rad h).
  Proof.
    intros G A B. destruct geo as [g|]; [|cbn; intros [|]; discriminate].
    destruct dlp as [d|]; [|cbn; intros [|]; discriminate].
    rewrite uranus_eq. unfold hbind.
    destruct (uranus_csv_extract_own L (live h) h g d tau rad (owns_start h G) A B) as [M Q].
    destruct (uranus_csv_extract L g d tau rad h) as [[p h1]|u] eqn:E; cbn [bind].
    - apply finish_memory; [apply uranus_dlp_format_ok|exact (Q p h1 eq_refl)].
    - exact (M u E).
  Qed.
  Lemma merged_memory_py dlpm h :
    good_heap h -> constructor_memory h (get_merged_csv_data_init L new_instance dlpm h).
  Proof.
    intros G. destruct dlpm as [d|]; [|cbn; intros [|]; discriminate].
    pose proof (reader_both L TMerged) as [RO RS]. pose proof (owns_start h G) as O.
    unfold get_merged_csv_data_init, hbind, file_arg, hlift. cbn [bind].
    destruct (merged_extract L d h) as [[p h1]|u] eqn:E; cbn [bind].
    2:{ exact (extract_mem L _ [] _ _ _ _ _ merged_format_ok RS O u E). }
    destruct (extract_own L _ [] _ _ _ _ _ _ _ merged_format_ok RO O E) as [O1 [M [F [C _]]]].
    destruct p as [o|]; cbn [pids] in O1; rewrite app_nil_r in O1.
    2:{ cbn. split; [exact (proj1 (owns_end _ _ O1))|exact F]. }
    destruct (o_err o) eqn:Er.
    - destruct (destroy_own (live h) merged_format (Some o) [] h1 merged_format_ok M) as [h2 [E2 [O2 F2]]].
      { cbn [pids]. rewrite app_nil_r. exact O1. }
      rewrite E2. cbn. split; [exact (proj1 (owns_end _ _ O2))|congruence].
    - unfold tids in O1. rewrite (C o eq_refl Er) in O1. cbn [ml app] in O1.
      pose proof (show_cols_new steal_order o new_instance h1 steal_order_nodup (fun _ _ => eq_refl)) as X.
      destruct (show_cols steal_order o new_instance h1) as [[v h2]|u] eqn:E2; cbn [bind hret constructor_memory].
      + destruct X as [-> _].
        exact (shown_memory (live h) (f_destroy merged_format) o v h1 h eq_refl F merged_perm merged_incl O1 E2).
      + destruct X as [-> _]. intros [|]; discriminate.
  Qed.

  (** ** Without a TAU file its three members stay NULL *)
  Definition pok {A} (m : H A) (Q : A -> Prop) : Prop := forall h a h1, m h = Ok (a, h1) -> Q a.
  Lemma pok_ret {A} (a : A) (Q : A -> Prop) : Q a -> pok (hret a) Q.
  Proof. intros q h b h1 [= <- _]; exact q. Qed.
  Lemma pok_bind {A B} (m : H A) (k : A -> H B) Q1 (Q : B -> Prop) :
    pok m Q1 -> (forall a, Q1 a -> pok (k a) Q) -> pok (hbind m k) Q.
  Proof.
    intros M K h b h2 E. unfold hbind in E. apply bind_ok in E as [[a h1] [E1 E2]].
    exact (K a (M _ _ _ E1) _ _ _ E2).
  Qed.
  Lemma pok_any {A} (m : H A) : pok m (fun _ => True).
  Proof. intros h a h1 _; exact I. Qed.
  Lemma pok_lift {A} (r : res A) (Q : A -> Prop) : (forall a, r = Ok a -> Q a) -> pok (hlift r) Q.
  Proof. intros K h a h1 E. unfold hlift in E. apply bind_ok in E as [b [E1 E2]]. injection E2 as <- <-. exact (K b E1). Qed.
  Lemma pok_ub {A} u (Q : A -> Prop) : pok (hlift (UB u)) Q.
  Proof. intros h a h1 E. discriminate. Qed.

  Definition taus : list col := [cTAUPHASE; cTAUPOWER; cTAUV].
  Definition quiet (c : csv S) : Prop := c_tau c = None /\ forall x, In x taus -> o_col (c_obj c) x = None.
  Lemma csv_error_quiet K c : quiet c -> pok (csv_error L K c) quiet.
  Proof.
    intros [A B]. unfold csv_error. apply (pok_bind _ _ (fun o => o_col o = o_col (c_obj c))).
    - intros h o h1 E. exact (set_error_cols L _ _ _ _ _ _ E).
    - intros o E. apply pok_ret. split; [exact A|]. cbn [with_obj c_obj]. rewrite E. exact B.
  Qed.
  Lemma destroy_cols_none cs : forall (o : obj S), pok (destroy_cols cs o)
    (fun o' => forall x, o_col o x = None -> o_col o' x = None).
  Proof.
    induction cs as [|c r IH]; intros o; cbn [destroy_cols]; [apply pok_ret; auto|].
    eapply pok_bind; [apply pok_any|]. intros _ _ h a h1 E x X.
    apply (IH _ h a h1 E). cbn [with_col o_col]. destruct (col_beq x c); auto.
  Qed.
  Lemma destroy_members_quiet K c : quiet c -> pok (csv_destroy_members K c) quiet.
  Proof.
    intros [A B]. unfold csv_destroy_members.
    eapply pok_bind; [apply pok_any|]. intros _ _.
    eapply pok_bind; [apply destroy_cols_none|]. intros o Ho. cbn beta in Ho.
    do 3 (eapply pok_bind; [apply pok_any|]; intros ? _).
    rewrite A. cbn [destroy]. apply (pok_bind _ _ (fun p => p = None)); [apply pok_ret; reflexivity|].
    intros t ->. apply pok_ret. split; [reflexivity|]. intros x I. apply Ho, B, I.
  Qed.
  Lemma part_quiet K table put c :
    (forall p, quiet (put c p)) -> quiet c -> pok (extract_part L K table put c) quiet.
  Proof.
    intros P Q. unfold extract_part. destruct (c_err c); [apply pok_ret; exact Q|].
    eapply pok_bind; [apply pok_any|]. intros p _. cbv zeta. destruct p as [o|].
    - destruct (o_err o || (o_n o =? 0))%bool; [|apply pok_ret; apply P].
      eapply pok_bind; [apply csv_error_quiet; apply P|]. intros c2 Q2. apply destroy_members_quiet; exact Q2.
    - apply csv_error_quiet, P.
  Qed.
  Lemma dlp_part_quiet K table c : quiet c -> pok (extract_dlp_part L K table c) quiet.
  Proof.
    intros Q. unfold extract_dlp_part. eapply pok_bind.
    { apply part_quiet; [|exact Q]. intro p. destruct Q as [A B]; split; assumption. }
    intros c1 Q1. destruct (c_err c1); [apply pok_ret; exact Q1|].
    destruct (c_dlp c1); [|apply pok_ret; exact Q1]. apply pok_ret. destruct Q1 as [A B]; split; assumption.
  Qed.
  Lemma member_quiet K sel c k : quiet c -> (forall o, sel c = Some o -> pok (k o) quiet) ->
    pok (with_member L K sel c k) quiet.
  Proof.
    intros Q P. unfold with_member. destruct (c_err c); [apply pok_ret; exact Q|].
    destruct (sel c) as [o|] eqn:E; [|apply csv_error_quiet; exact Q].
    eapply pok_bind; [apply pok_any|]. intros _ _. destruct (o_err o); [apply csv_error_quiet; exact Q|]. apply P; reflexivity.
  Qed.
  Lemma steal_quiet pairs (d o : obj S) x : (forall p, In p pairs -> fst p <> x) ->
    o_col o x = None -> o_col (steal_cols pairs d o) x = None.
  Proof.
    unfold steal_cols. revert o. induction pairs as [|p r IH]; intros o N E; [exact E|]. cbn [fold_left].
    apply IH; [intros q I; apply N; right; exact I|]. rewrite with_col_other; [exact E|].
    intros ->. exact (N p (or_introl eq_refl) eq_refl).
  Qed.
  Lemma shaped_quiet c o : quiet c -> same_shape (c_obj c) o -> quiet (with_obj c o).
  Proof. intros [A B] Sh. split; [exact A|]. intros x I. exact (shape_none _ _ x Sh (B x I)). Qed.
  Lemma steal_cassini_quiet c : quiet c -> pok (steal_dlp_data L csv_family c) quiet.
  Proof.
    intro Q. apply member_quiet; [exact Q|]. intros d _. cbv zeta.
    set (o := steal_cols steal_pairs d (c_obj c)).
    assert (Zt : forall p x, In x taus -> o_col (with_col o cPNORM p) x = None).
    { intros p x I. rewrite with_col_other by (intros ->; cbn in I; intuition discriminate).
      apply steal_quiet; [|apply Q; exact I]. intros q Iq Eq.
      cbn in Iq, I. intuition (subst; cbn in *; discriminate). }
    destruct (negb (o_flag o)).
    - apply pok_ret. split; [apply Q|]. apply Zt.
    - eapply pok_bind; [apply pok_any|]. intros b _. destruct b as [id|].
      + set (o1 := with_col o cPNORM (Some (id, repeat None (Z.to_nat (o_n o))))).
        eapply pok_bind.
        { apply (pok_lift _ (fun o2 => same_shape o1 o2)). intros o2 E2.
          destruct (Z_lt_le_dec (o_n o1) 0) as [Hn|Hn].
          { rewrite for_range_0 in E2 by lia. injection E2 as <-; apply same_shape_refl. }
          revert E2.
          apply (for_range_partial (fun _ k => same_shape o1 k) 0 (o_n o1));
            [exact Hn|apply same_shape_refl|].
          intros j a a' _ Ha X.
          apply bind_ok in X as [f [_ X]]; apply bind_ok in X as [r [_ X]].
          exact (same_shape_trans _ _ _ Ha (store_shape _ _ _ _ _ X)). }
        intros o2 Sh. apply pok_ret. change (with_obj c o2) with (with_obj (with_obj c o1) o2).
        apply shaped_quiet; [|exact Sh]. split; [apply Q|apply Zt].
      + apply csv_error_quiet. split; [apply Q|apply Zt].
  Qed.
  Lemma steal_uranus_quiet c : quiet c -> pok (uranus_steal_dlp_data L uranus_family c) quiet.
  Proof.
    intro Q. apply member_quiet; [exact Q|]. intros d _. apply pok_ret. split; [apply Q|].
    intros x I. cbn [with_obj c_obj]. apply steal_quiet; [|apply Q; exact I]. intros q Iq Eq.
    cbn in Iq, I. intuition (subst; cbn in *; discriminate).
  Qed.
  Lemma malloc_cols_quiet K cs : forall c, (forall x, In x cs -> ~ In x taus) -> quiet c ->
    pok (csv_malloc_cols L K cs c) quiet.
  Proof.
    induction cs as [|x r IH]; intros c N Q; cbn [csv_malloc_cols]; [apply pok_ret; exact Q|].
    assert (P : forall p, quiet (with_obj c (with_col (c_obj c) x p))).
    { intro p. split; [apply Q|]. intros y I. cbn [with_obj c_obj]. rewrite with_col_other; [apply Q; exact I|].
      intros ->. exact (N x (or_introl eq_refl) I). }
    eapply pok_bind; [apply pok_any|]. intros b _. destruct b as [id|].
    - apply IH; [intros y I; apply N; right; exact I|apply P].
    - eapply pok_bind; [apply csv_error_quiet, P|]. intros c1 Q1. apply destroy_members_quiet; exact Q1.
  Qed.
  Lemma malloc_quiet K own c : (forall x, In x own -> ~ In x taus) -> quiet c -> pok (csv_malloc L K own c) quiet.
  Proof.
    intros N Q. unfold csv_malloc. destruct (c_err c); [apply pok_ret; exact Q|].
    destruct (c_n c =? 0); [apply csv_error_quiet; exact Q|]. rewrite (proj1 Q), app_nil_r.
    apply malloc_cols_quiet; assumption.
  Qed.
  Lemma chord_quiet K c : quiet c -> pok (check_chord_occ L K c) quiet.
  Proof.
    intro Q. apply member_quiet; [exact Q|]. intros g _.
    eapply pok_bind; [apply pok_any|]. intros [mn mx] _.
    destruct (slt mn s0 && sgt mx s0); [apply csv_error_quiet; exact Q|].
    destruct (seqb mn s0 || seqb mx s0); [apply csv_error_quiet; exact Q|].
    destruct (slt mx s0).
    - do 2 (eapply pok_bind; [apply pok_any|]; intros ? _). apply pok_ret. exact Q.
    - destruct (sgt mn s0); [|apply pok_ret; exact Q].
      eapply pok_bind; [apply pok_any|]; intros ? _. apply pok_ret. exact Q.
  Qed.
  Lemma interp_pok (src : obj S) x y from len at_ out dst o0 :
    same_shape o0 dst -> pok (hlift (interpolate L src x y from len at_ out dst)) (fun o => same_shape o0 o).
  Proof.
    intro Sh. apply pok_lift. intros o E. apply (same_shape_trans _ _ _ Sh).
    exact (interp_shape L _ _ _ _ _ _ _ _ _ E).
  Qed.
  Lemma interp_geo_quiet K c : quiet c -> pok (interpolate_geo L K c) quiet.
  Proof.
    intro Q. apply member_quiet; [exact Q|]. intros g _. cbv zeta.
    destruct (o_n g <? wrap64 (c_inc c + c_dec c)); [apply csv_error_quiet; exact Q|].
    eapply pok_bind; [apply (interp_pok _ _ _ _ _ _ _ _ (c_obj c)), same_shape_refl|]. intros o1 S1.
    eapply pok_bind; [apply (interp_pok _ _ _ _ _ _ _ _ (c_obj c)), S1|]. intros o2 S2.
    eapply pok_bind; [apply (interp_pok _ _ _ _ _ _ _ _ (c_obj c)), S2|]. intros o3 S3.
    eapply pok_bind; [apply (interp_pok _ _ _ _ _ _ _ _ (c_obj c)), S3|]. intros o4 S4.
    eapply pok_bind; [apply (interp_pok _ _ _ _ _ _ _ _ (c_obj c)), S4|]. intros o5 S5.
    apply pok_ret. apply shaped_quiet; assumption.
  Qed.
  Lemma interp_cal_quiet K c : quiet c -> pok (interpolate_cal L K c) quiet.
  Proof.
    intro Q. apply member_quiet; [exact Q|]. intros k _.
    eapply pok_bind; [apply pok_any|]. intros k1 _.
    eapply pok_bind; [apply (interp_pok _ _ _ _ _ _ _ _ (c_obj c)), same_shape_refl|]. intros o1 S1.
    apply pok_ret. apply (shaped_quiet (with_cal c (Some k1))); [destruct Q; split; assumption|exact S1].
  Qed.
  Definition no_taus (p : option (csv S)) : Prop :=
    forall c x, p = Some c -> In x taus -> o_col (c_obj c) x = None.
  Lemma quiet_put c c' : c_obj c' = c_obj c -> c_tau c' = c_tau c -> quiet c -> quiet c'.
  Proof. intros A B [C D]. split; [congruence|]. rewrite A; exact D. Qed.
  Ltac notau := intros x I J; cbn in I, J; intuition (subst; discriminate).
  Lemma csv_extract_quiet geo cal dlp dep : pok (csv_extract L geo cal dlp None dep) no_taus.
  Proof.
    unfold csv_extract. eapply pok_bind; [apply pok_any|]. intros b _. destruct b as [id|].
    2:{ apply pok_ret. intros c x E; discriminate. }
    cbv zeta.
    eapply pok_bind; [apply part_quiet; [|split; reflexivity]; intro p; split; reflexivity|]. intros c1 Q1.
    eapply pok_bind; [apply part_quiet; [|exact Q1]; intro p; apply (quiet_put c1); [reflexivity|reflexivity|exact Q1]|]. intros c2 Q2.
    eapply pok_bind; [apply dlp_part_quiet; exact Q2|]. intros c3 Q3.
    eapply pok_bind; [apply pok_ret; exact Q3|]. intros c4 Q4. cbn beta in Q4.
    eapply pok_bind; [apply steal_cassini_quiet; exact Q4|]. intros c5 Q5.
    eapply pok_bind; [apply malloc_quiet; [notau|exact Q5]|]. intros c6 Q6.
    eapply pok_bind; [apply chord_quiet; exact Q6|]. intros c7 Q7.
    eapply pok_bind; [apply interp_geo_quiet; exact Q7|]. intros c8 Q8.
    eapply pok_bind; [apply interp_cal_quiet; exact Q8|]. intros c9 Q9.
    eapply pok_bind; [apply pok_ret; exact Q9|]. intros c10 Q10. cbn beta in Q10.
    do 4 (eapply pok_bind; [apply pok_any|]; intros ? _). apply pok_ret.
    intros c x [= <-] I. cbn [c_obj]. apply Q10; exact I.
  Qed.
  Lemma uranus_extract_quiet geo dlp rad : pok (uranus_csv_extract L geo dlp None rad) no_taus.
  Proof.
    unfold uranus_csv_extract. eapply pok_bind; [apply pok_any|]. intros b _. destruct b as [id|].
    2:{ apply pok_ret. intros c x E; discriminate. }
    cbv zeta.
    eapply pok_bind; [apply part_quiet; [|split; reflexivity]; intro p; split; reflexivity|]. intros c1 Q1.
    eapply pok_bind; [apply dlp_part_quiet; exact Q1|]. intros c3 Q3.
    eapply pok_bind; [apply pok_ret; exact Q3|]. intros c4 Q4. cbn beta in Q4.
    eapply pok_bind; [apply steal_uranus_quiet; exact Q4|]. intros c5 Q5.
    eapply pok_bind; [apply malloc_quiet; [notau|exact Q5]|]. intros c6 Q6.
    eapply pok_bind; [apply chord_quiet; exact Q6|]. intros c7 Q7.
    eapply pok_bind; [apply interp_geo_quiet; exact Q7|]. intros c8 Q8.
    eapply pok_bind; [apply pok_ret; exact Q8|]. intros c10 Q10. cbn beta in Q10.
    do 2 (eapply pok_bind; [apply pok_any|]; intros ? _). destruct (c_dlp c10) as [d|]; [|apply pok_ub].
    do 3 (eapply pok_bind; [apply pok_any|]; intros ? _). apply pok_ret.
    intros c x [= <-] I. cbn [c_obj]. apply Q10; exact I.
  Qed.
End PyCsv.
