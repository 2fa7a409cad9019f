(** * Proof_CsvVal3: combined tables, values and errors. *)
From Coq Require Import List ZArith Lia Bool Ascii FunctionalExtensionality.
From Verif Require Import Base BaseFacts Scalar Spec_Select Proof_Misc Model_Heap Model_Csv
  Model_CsvData Spec_Csv Spec_CsvData Proof_Heap Proof_CsvOwn Proof_CsvOwn2 Proof_CsvText Proof_Csv
  Proof_Csv2 Proof_CsvVal Proof_CsvVal2.
Import ListNotations.
Open Scope list_scope.
Open Scope Z_scope.

Section Flow.
  Context {S : scalar}.
  Variable L : csvlib S.

  (** ** Errors *)
  Lemma v_error K (c : csv S) : vh (csv_error L K c) (fun c1 => c_err c1 = true).
  Proof.
    unfold csv_error. apply (v_bind _ _ (fun o => o_err o = true)).
    - intro h. destruct (set_error_total L (fam_kind K) true (c_obj c) h) as [o1 [h1 [E [X _]]]].
      rewrite E; exact X.
    - intros o X. apply v_ret. exact X.
  Qed.
  Lemma v_destroy_members K (c : csv S) :
    vh (csv_destroy_members K c) (fun c1 => c_err c1 = c_err c /\ c_dlp c1 = None).
  Proof.
    unfold csv_destroy_members. apply (v_bind _ _ (fun _ => True)); [apply v_access; exact I|]. intros _ _.
    apply (v_bind _ _ (fun o => o_err o = o_err (c_obj c))); [apply destroy_cols_err|]. intros o X.
    do 4 (apply (v_bind _ _ (fun r => r = None)); [apply (v_impl _ _ _ (destroy_none _ _)); auto|intros ? ->]).
    apply v_ret. split; [exact X|reflexivity].
  Qed.
  Lemma part_good K table put (c : csv S) P :
    c_err c = false ->
    vh table (fun p => exists o, p = Some o /\ o_err o = false /\ o_n o <> 0 /\ P o) ->
    vh (extract_part L K table put c) (fun c1 => exists o, c1 = put c (Some o) /\ P o).
  Proof.
    intros E V. unfold extract_part. rewrite E. apply (v_bind _ _ _ _ V).
    intros p [o [-> [X1 [X2 X3]]]]. rewrite X1. cbn [orb].
    destruct (Z.eqb_spec (o_n o) 0); [contradiction|]. apply v_ret; eauto.
  Qed.
  Lemma part_bad K table put (c : csv S) :
    c_err c = false ->
    vh table (fun p => exists o, p = Some o /\ o_err o = true) ->
    vh (extract_part L K table put c) (fun c1 => c_err c1 = true /\ c_dlp c1 = None).
  Proof.
    intros E V. unfold extract_part. rewrite E. apply (v_bind _ _ _ _ V).
    intros p [o [-> X1]]. rewrite X1. cbn [orb].
    apply (v_bind _ _ _ _ (v_error K _)). intros c2 X. apply (v_impl _ _ _ (v_destroy_members K c2)).
    intros c3 [Y Z]; split; [congruence|exact Z].
  Qed.
  Lemma part_skip K table put (c : csv S) :
    c_err c = true -> vh (extract_part L K table put c) (fun c1 => c1 = c).
  Proof. intro E. unfold extract_part. rewrite E. apply v_ret; reflexivity. Qed.
  Lemma dlp_skip K table (c : csv S) :
    c_err c = true -> vh (extract_dlp_part L K table c) (fun c1 => c1 = c).
  Proof.
    intro E. unfold extract_dlp_part. apply (v_bind _ _ _ _ (part_skip K table with_dlp c E)).
    intros c1 ->. rewrite E. apply v_ret; reflexivity.
  Qed.
  Lemma dlp_bad K table (c : csv S) :
    c_err c = false ->
    vh table (fun p => exists o, p = Some o /\ o_err o = true) ->
    vh (extract_dlp_part L K table c) (fun c1 => c_err c1 = true /\ c_dlp c1 = None).
  Proof.
    intros E V. unfold extract_dlp_part. apply (v_bind _ _ _ _ (part_bad K table with_dlp c E V)).
    intros c1 [X Y]. rewrite X. apply v_ret; split; assumption.
  Qed.
  Lemma dlp_good K table (c : csv S) P :
    c_err c = false ->
    vh table (fun p => exists o, p = Some o /\ o_err o = false /\ o_n o <> 0 /\ P o) ->
    vh (extract_dlp_part L K table c)
       (fun c1 => exists o, c1 = with_obj (with_dlp c (Some o)) (with_n (c_obj c) (o_n o)) /\ P o).
  Proof.
    intros E V. unfold extract_dlp_part. apply (v_bind _ _ _ _ (part_good K table with_dlp c P E V)).
    intros c1 [o [-> X]]. change (c_err (with_dlp c (Some o))) with (c_err c). rewrite E.
    apply v_ret. exists o. split; [reflexivity|exact X].
  Qed.
  Lemma member_skip K sel (c : csv S) k :
    c_err c = true -> vh (with_member L K sel c k) (fun c1 => c1 = c).
  Proof. intro E. unfold with_member. rewrite E. apply v_ret; reflexivity. Qed.
  Lemma member_ok K sel (c : csv S) k o Q :
    c_err c = false -> sel c = Some o -> o_err o = false -> vh (k o) Q ->
    vh (with_member L K sel c k) Q.
  Proof.
    intros E Es Eo V. unfold with_member. rewrite E, Es.
    apply (v_bind _ _ (fun _ => True)); [apply v_access; exact I|]. intros _ _. rewrite Eo. exact V.
  Qed.
  Lemma malloc_skip K base (c : csv S) :
    c_err c = true -> vh (csv_malloc L K base c) (fun c1 => c1 = c).
  Proof. intro E. unfold csv_malloc. rewrite E. apply v_ret; reflexivity. Qed.

  (** ** Allocation of the remaining members *)
  Lemma csv_malloc_cols_v K cs : forall (c : csv S),
    (forall x, l_alloc L (SArr (fam_kind K) x) = true) -> NoDup cs ->
    vh (csv_malloc_cols L K cs c) (fun c1 => exists o1, c1 = with_obj c o1 /\
      o_err o1 = c_err c /\ o_n o1 = c_n c /\ o_flag o1 = o_flag (c_obj c) /\
      (forall x, In x cs -> exists id, o_col o1 x = Some (id, repeat None (Z.to_nat (c_n c)))) /\
      (forall x, ~ In x cs -> o_col o1 x = o_col (c_obj c) x)).
  Proof.
    induction cs as [|x r IH]; intros c A ND; cbn [csv_malloc_cols].
    { apply v_ret. exists (c_obj c). split; [destruct c; reflexivity|]. repeat split; auto. intros x []. }
    inversion ND as [|? ? Nc Nr]; subst.
    apply (v_bind _ _ (fun b => exists i, b = Some i)); [apply v_alloc; [apply A|eauto]|].
    intros b [i ->].
    apply (v_impl _ _ _ (IH _ A Nr)).
    intros c1 [o1 [-> [X1 [X2 [X3 [X4 X5]]]]]]. exists o1. split; [reflexivity|].
    split; [exact X1|]. split; [exact X2|]. split; [exact X3|]. split.
    - intros d [<-|I]; [|apply X4; exact I]. exists i. rewrite (X5 x Nc). apply with_col_same.
    - intros d Nd. rewrite (X5 d) by (intro; apply Nd; right; assumption).
      apply with_col_other. intros ->; apply Nd; left; reflexivity.
  Qed.

  (** ** Known values *)
  Definition env : Type := col -> option (list S).
  Definition env_ok (o : obj S) (e : env) : Prop := forall c vs, e c = Some vs -> values_are o c vs.
  Definition upd (e : env) (c : col) (vs : list S) : env :=
    fun d => if col_beq d c then Some vs else e d.
  Lemma upd_ok (o : obj S) e c id vs : env_ok o e -> env_ok (with_col o c (Some (id, map Some vs))) (upd e c vs).
  Proof.
    intros E d ws. unfold upd. destruct (col_beq d c) eqn:Q.
    - apply col_beq_eq in Q; subst. intros [= <-]. apply values_same.
    - intro X. apply values_with; [exact (E d ws X)|]. intros ->. rewrite col_beq_refl in Q; discriminate.
  Qed.
  Definition same_meta (o o1 : obj S) : Prop :=
    o_err o1 = o_err o /\ o_n o1 = o_n o /\ o_flag o1 = o_flag o.
  Lemma array_with (o : obj S) c id vs d n : array o d n -> (d = c -> zlen vs = n) ->
    array (with_col o c (Some (id, map Some vs))) d n.
  Proof.
    intros [i [l [E Z0]]] X. destruct (col_eq_dec d c) as [->|N].
    - exists id, (map Some vs). split; [apply with_col_same|]. rewrite zlen_map. auto.
    - exists i, l. rewrite with_col_other by exact N. auto.
  Qed.

  Hypothesis IL : interp_law L.
  Lemma interp_env (src dst : obj S) (e : env) x y xs ys from len at_ out ps :
    values_are src x xs -> values_are src y ys -> zlen ys = zlen xs ->
    0 <= from <= zlen xs -> len = zlen xs - from ->
    env_ok dst e -> e at_ = Some ps -> o_n dst = zlen ps -> array dst out (zlen ps) ->
    exists dst', interpolate L src x y from len at_ out dst = Ok dst' /\
      env_ok dst' (upd e out (l_interp L (skipn (Z.to_nat from) xs) (skipn (Z.to_nat from) ys) ps)) /\
      same_meta dst dst' /\ (forall d, array dst d (zlen ps) -> array dst' d (zlen ps)).
  Proof using IL.
    intros X Y Zy B Ln EO Ea N [id [l0 [O Z0]]].
    rewrite (interpolate_ok L IL src dst x y from len at_ out xs ys ps id l0 X Y Zy B Ln (EO _ _ Ea) N O Z0).
    eexists. split; [reflexivity|]. split; [apply upd_ok; exact EO|]. split; [repeat split|].
    intros d Ad. apply array_with; [exact Ad|]. intros _. unfold zlen. rewrite IL. reflexivity.
  Qed.

  (** ** Orientation *)
  Definition orient (rv : bool) (l : list S) : list S := if rv then rev l else l.
  Definition test_chord (mn mx : S) : bool :=
    (slt mn s0 && sgt mx s0) || (seqb mn s0 || seqb mx s0).
  (** What the test of the radial velocities selects, and where the search
      stops. *)
  Definition selects (mn mx : S) (dots : list S) (rv : bool) (inc : Z) : Prop :=
    test_chord mn mx = false /\
    (if rv then slt mx s0 = true /\ first_at (fun v => sge v s0 = false) (rev dots) inc
     else slt mx s0 = false /\ sgt mn s0 = true /\ first_at (fun v => sle v s0 = false) dots inc).

  Definition geo_ok (rv : bool) (f : col -> list S) (n : Z) (g : obj S) : Prop :=
    o_err g = false /\ o_n g = n /\
    forall c, In c geo_cols -> values_are g c (orient rv (f c)).

  Lemma zlen_rev {A} (l : list A) : zlen (rev l) = zlen l.
  Proof. unfold zlen. rewrite rev_length. reflexivity. Qed.

  Lemma chord_ok K (c : csv S) g f n r t rv inc :
    c_err c = false -> c_geo c = Some g -> c_inc c = 0 -> geo_ok false f n g ->
    (forall x, In x geo_cols -> zlen (f x) = n) ->
    values_are (c_obj c) cRHO r -> values_are (c_obj c) cTSET t -> zlen r = zlen t ->
    c_n c = zlen r -> 0 < zlen r < two64 ->
    (let '(mn, mx) := fold_left step_range (speeds r t) (big, (- big)%S) in
     selects mn mx (f cRHODOT) rv inc) ->
    vh (check_chord_occ L K c) (fun c1 => exists g1,
      c1 = with_inc (with_geo c (Some g1)) inc /\ geo_ok rv f n g1).
  Proof.
    intros E Eg Ei [G1 [G2 G3]] Zf Vr Vt Zr N B D. unfold check_chord_occ.
    apply (member_ok K _ _ _ g _ E Eg G1).
    apply (v_bind _ _ (fun p => p = fold_left step_range (speeds r t) (big, (- big)%S))).
    { eapply v_lift; [exact (speed_range_ok (c_obj c) r t Vr Vt Zr N B)|reflexivity]. }
    intros p ->. destruct (fold_left step_range (speeds r t) (big, (- big)%S)) as [mn mx].
    destruct D as [T D]. unfold test_chord in T.
    apply Bool.orb_false_iff in T as [T1 T2]. rewrite T1, T2. rewrite Ei.
    destruct rv.
    - destruct D as [D1 D2]. rewrite D1.
      destruct (reverse_geo_ok g f) as [g1 [Er [Q1 [Q2 [_ Q4]]]]].
      { intros x I. split; [exact (G3 x I)|]. rewrite G2, (Zf x I). reflexivity. }
      apply (v_bind _ _ (fun x => x = g1)); [eapply v_lift; [exact Er|reflexivity]|]. intros x ->.
      apply (v_bind _ _ (fun x => x = inc)).
      { eapply v_lift; [|reflexivity].
        apply (seek_ok _ g1 (rev (f cRHODOT))); [apply Q4; cbn; tauto| |exact D2].
        rewrite Q2, G2, zlen_rev. symmetry; apply Zf; cbn; tauto. }
      intros x ->. apply v_ret. exists g1. split; [reflexivity|].
      split; [congruence|]. split; [congruence|exact Q4].
    - destruct D as [D1 [D2 D3]]. rewrite D1, D2.
      apply (v_bind _ _ (fun x => x = inc)).
      { eapply v_lift; [|reflexivity].
        apply (seek_ok _ g (f cRHODOT)); [apply (G3 cRHODOT); cbn; tauto| |exact D3].
        rewrite G2. symmetry; apply Zf; cbn; tauto. }
      intros x ->. apply v_ret. exists g. split; [|split; [exact G1|split; [exact G2|exact G3]]].
      unfold with_inc, with_geo; cbn. rewrite <- Eg. destruct c; reflexivity.
  Qed.
  Lemma chord_bad K (c : csv S) g r t :
    c_err c = false -> c_geo c = Some g -> o_err g = false ->
    values_are (c_obj c) cRHO r -> values_are (c_obj c) cTSET t -> zlen r = zlen t ->
    c_n c = zlen r -> 0 < zlen r < two64 ->
    (let '(mn, mx) := fold_left step_range (speeds r t) (big, (- big)%S) in
     test_chord mn mx = true) ->
    vh (check_chord_occ L K c) (fun c1 => c_err c1 = true).
  Proof.
    intros E Eg G1 Vr Vt Zr N B D. unfold check_chord_occ.
    apply (member_ok K _ _ _ g _ E Eg G1).
    apply (v_bind _ _ (fun p => p = fold_left step_range (speeds r t) (big, (- big)%S))).
    { eapply v_lift; [exact (speed_range_ok (c_obj c) r t Vr Vt Zr N B)|reflexivity]. }
    intros p ->. destruct (fold_left step_range (speeds r t) (big, (- big)%S)) as [mn mx].
    unfold test_chord in D. destruct (slt mn s0 && sgt mx s0); [apply v_error|].
    cbn [orb] in D. rewrite D. apply v_error.
  Qed.

  (** ** Geometry *)
  Lemma geo_interp K (c : csv S) g f n rv inc e ps :
    c_err c = false -> c_geo c = Some g -> c_inc c = inc -> c_dec c = 0 ->
    geo_ok rv f n g -> (forall x, In x geo_cols -> zlen (f x) = n) ->
    0 <= inc <= n -> n < two64 ->
    env_ok (c_obj c) e -> e cRHO = Some ps -> c_n c = zlen ps ->
    (forall x, In x [cD; cRHODOT; cRX; cRY; cRZ] -> array (c_obj c) x (zlen ps)) ->
    let v x := l_interp L (used rv inc (f cRHO)) (used rv inc (f x)) ps in
    vh (interpolate_geo L K c) (fun c1 => exists o1, c1 = with_obj c o1 /\
      same_meta (c_obj c) o1 /\ (forall d, array (c_obj c) d (zlen ps) -> array o1 d (zlen ps)) /\
      env_ok o1 (upd (upd (upd (upd (upd e cD (v cD)) cRHODOT (v cRHODOT)) cRX (v cRX)) cRY (v cRY)) cRZ (v cRZ))).
  Proof using IL.
    intros E Eg Ei Ed [G1 [G2 G3]] Zf B B64 EO ER N A v. unfold interpolate_geo.
    apply (member_ok K _ _ _ g _ E Eg G1). rewrite Ei, Ed, Z.add_0_r.
    assert (W : wrap64 inc = inc) by (unfold wrap64; apply Z.mod_small; lia). rewrite W, G2.
    destruct (Z.ltb_spec n inc); [lia|].
    assert (Zo : forall x, In x geo_cols -> zlen (orient rv (f x)) = n).
    { intros x I. destruct rv; cbn [orient]; rewrite ?zlen_rev; apply Zf; exact I. }
    assert (GR : In cRHO geo_cols) by (cbn; tauto).
    assert (ST : forall y o e1, In y geo_cols -> env_ok o e1 -> e1 cRHO = Some ps ->
      o_n o = zlen ps -> array o y (zlen ps) ->
      exists o', interpolate L g cRHO y inc (n - inc) cRHO y o = Ok o' /\
        env_ok o' (upd e1 y (v y)) /\ same_meta o o' /\
        (forall d, array o d (zlen ps) -> array o' d (zlen ps))).
    { intros y o e1 I EO1 Er1 N1 A1.
      apply (interp_env g o e1 cRHO y (orient rv (f cRHO)) (orient rv (f y)) inc (n - inc) cRHO y ps);
        try assumption.
      - exact (G3 _ GR).
      - exact (G3 _ I).
      - rewrite !Zo by assumption. reflexivity.
      - rewrite Zo by assumption. exact B.
      - rewrite Zo by assumption. reflexivity. }
    destruct (ST cD (c_obj c) e) as [o1 [E1 [H1 [M1 A1]]]]; [cbn; tauto|exact EO|exact ER|exact N|apply A; cbn; tauto|].
    destruct (ST cRHODOT o1 _ ltac:(cbn; tauto) H1 ER) as [o2 [E2 [H2 [M2 A2]]]];
      [destruct M1 as [_ [-> _]]; exact N|apply A1, A; cbn; tauto|].
    destruct (ST cRX o2 _ ltac:(cbn; tauto) H2 ER) as [o3 [E3 [H3 [M3 A3]]]];
      [destruct M1 as [_ [P1 _]], M2 as [_ [P2 _]]; rewrite P2, P1; exact N|apply A2, A1, A; cbn; tauto|].
    destruct (ST cRY o3 _ ltac:(cbn; tauto) H3 ER) as [o4 [E4 [H4 [M4 A4]]]];
      [destruct M1 as [_ [P1 _]], M2 as [_ [P2 _]], M3 as [_ [P3 _]]; rewrite P3, P2, P1; exact N|apply A3, A2, A1, A; cbn; tauto|].
    destruct (ST cRZ o4 _ ltac:(cbn; tauto) H4 ER) as [o5 [E5 [H5 [M5 A5]]]];
      [destruct M1 as [_ [P1 _]], M2 as [_ [P2 _]], M3 as [_ [P3 _]], M4 as [_ [P4 _]]; rewrite P4, P3, P2, P1; exact N|
       apply A4, A3, A2, A1, A; cbn; tauto|].
    apply (v_bind _ _ (fun o => o = o1)); [eapply v_lift; [exact E1|reflexivity]|]. intros ? ->.
    apply (v_bind _ _ (fun o => o = o2)); [eapply v_lift; [exact E2|reflexivity]|]. intros ? ->.
    apply (v_bind _ _ (fun o => o = o3)); [eapply v_lift; [exact E3|reflexivity]|]. intros ? ->.
    apply (v_bind _ _ (fun o => o = o4)); [eapply v_lift; [exact E4|reflexivity]|]. intros ? ->.
    apply (v_bind _ _ (fun o => o = o5)); [eapply v_lift; [exact E5|reflexivity]|]. intros ? ->.
    apply v_ret. exists o5. split; [reflexivity|]. split.
    { destruct M1 as [a1 [b1 c1]], M2 as [a2 [b2 c2]], M3 as [a3 [b3 c3]], M4 as [a4 [b4 c4]], M5 as [a5 [b5 c5]].
      unfold same_meta. repeat split; congruence. }
    split; [intros d X; exact (A5 d (A4 d (A3 d (A2 d (A1 d X)))))|exact H5].
  Qed.

  (** ** Calibration *)
  Lemma column_len t rows c : zlen (column L t rows c) = zlen rows.
  Proof. unfold column. apply zlen_map. Qed.
  Lemma cal_interp K (c : csv S) k rows e ps :
    c_err c = false -> c_cal c = Some k -> part_ok L TCal rows k ->
    env_ok (c_obj c) e -> e cTOET = Some ps -> c_n c = zlen ps ->
    array (c_obj c) cFSKY (zlen ps) ->
    vh (interpolate_cal L K c) (fun c1 => exists k1 o1, c1 = with_obj (with_cal c (Some k1)) o1 /\
      same_meta (c_obj c) o1 /\ (forall d, array (c_obj c) d (zlen ps) -> array o1 d (zlen ps)) /\
      env_ok o1 (upd e cFSKY (l_interp L (column L TCal rows cTOET)
         (map2 ssub (column L TCal rows cFPRED) (column L TCal rows cFRESID)) ps))).
  Proof using IL.
    intros E Ek [K1 [K2 K3]] EO ET N A. unfold interpolate_cal.
    apply (member_ok K _ _ _ k _ E Ek K1).
    assert (VF : values_are k cFPRED (column L TCal rows cFPRED)) by (apply K3; cbn; tauto).
    assert (VR : values_are k cFRESID (column L TCal rows cFRESID)) by (apply K3; cbn; tauto).
    assert (VT : values_are k cTOET (column L TCal rows cTOET)) by (apply K3; cbn; tauto).
    set (ws := map2 ssub (column L TCal rows cFPRED) (column L TCal rows cFRESID)).
    assert (Zw : zlen ws = zlen rows).
    { unfold zlen. unfold ws. rewrite map2_length.
      - unfold column. rewrite map_length. reflexivity.
      - unfold column. rewrite !map_length. reflexivity. }
    destruct VF as [id EF].
    assert (EL : for_range 0 (o_n k)
              (fun n k => do f <- fetch k cFPRED n; do r <- fetch k cFRESID n;
                          store k cFPRED n (f - r)%S) k = Ok (with_col k cFPRED (Some (id, map Some ws)))).
    { rewrite K2, <- Zw. apply (fill_loop _ cFPRED k id _ ws EF).
      { rewrite zlen_map, column_len. lia. }
      intros i w done Ew Zd.
      pose proof (entry_bound _ _ _ Ew) as Bi. rewrite Zw in Bi.
      destruct (entry_in (column L TCal rows cFPRED) i) as [f Ef]; [rewrite column_len; lia|].
      destruct (entry_in (column L TCal rows cFRESID) i) as [r Er]; [rewrite column_len; lia|].
      assert (Wf : w = (f - r)%S) by exact (entry_fun _ _ _ _ Ew (map2_entry ssub _ _ _ _ _ Ef Er)).
      set (k' := with_col k cFPRED _).
      assert (F1 : fetch k' cFPRED i = Ok f).
      { unfold fetch. unfold k'. rewrite with_col_same. rewrite aread_app2 by (rewrite zlen_map; lia).
        rewrite zlen_map, Zd, Z.sub_diag. rewrite aread_skipn by lia.
        rewrite Z.add_0_r.
        pose proof (entry_map_some _ _ _ Ef) as X. apply entry_iff in X. rewrite X. reflexivity. }
      assert (F2 : fetch k' cFRESID i = Ok r).
      { apply (fetch_values k' cFRESID (column L TCal rows cFRESID)); [|exact Er].
        destruct VR as [ir Eir]. exists ir. unfold k'. rewrite with_col_other by discriminate. exact Eir. }
      rewrite F1. cbn [bind]. rewrite F2. cbn [bind]. rewrite Wf. reflexivity. }
    set (k1 := with_col k cFPRED (Some (id, map Some ws))) in *.
    apply (v_bind _ _ (fun x => x = k1)); [eapply v_lift; [exact EL|reflexivity]|]. intros ? ->.
    destruct (interp_env k1 (c_obj c) e cTOET cFPRED (column L TCal rows cTOET) ws 0 (o_n k1) cTOET cFSKY ps)
      as [o1 [E1 [H1 [M1 A1]]]]; try assumption.
    - apply values_same.
    - rewrite Zw, column_len. reflexivity.
    - rewrite column_len. pose proof (zlen_nonneg rows). lia.
    - rewrite column_len. change (o_n k1) with (o_n k). lia.
    - apply (v_bind _ _ (fun x => x = o1)); [eapply v_lift; [exact E1|reflexivity]|]. intros ? ->.
      apply v_ret. exists k1, o1. split; [reflexivity|]. split; [exact M1|]. split; [exact A1|exact H1].
  Qed.

  (** ** Optical depth *)
  Lemma power_loop (o d : obj S) out src id l0 ts bs :
    o_col o out = Some (id, l0) -> zlen l0 = zlen ts -> zlen bs = zlen ts ->
    forall body, (forall i t b o', fetch o' src i = Ok t -> (forall x, x <> out -> o_col o' x = o_col o x) ->
        entry bs i b -> body i o' = store o' out i (power_of L t b)) ->
    (src = out /\ l0 = map Some ts \/ src <> out /\ values_are o src ts) ->
    for_range 0 (zlen ts) body o = Ok (with_col o out (Some (id, map Some (map2 (power L) ts bs)))).
  Proof.
    intros EO Z0 Zb body HB SR.
    set (ws := map2 (power L) ts bs).
    assert (Zw : zlen ws = zlen ts).
    { unfold zlen. f_equal. apply map2_length. unfold zlen in Zb. lia. }
    rewrite <- Zw. apply (fill_loop _ out o id l0 ws EO); [lia|].
    intros i w done Ew Zd. pose proof (entry_bound _ _ _ Ew) as Bi. rewrite Zw in Bi.
    destruct (entry_in ts i Bi) as [t Et]. destruct (entry_in bs i ltac:(lia)) as [b Eb].
    assert (Wf : w = power L t b) by exact (entry_fun _ _ _ _ Ew (map2_entry (power L) _ _ _ _ _ Et Eb)).
    rewrite Wf. apply HB; [| |exact Eb].
    - destruct SR as [[-> ->]|[Ns [is Es]]].
      + unfold fetch. rewrite with_col_same. rewrite aread_app2 by (rewrite zlen_map; lia).
        rewrite zlen_map, Zd, Z.sub_diag. rewrite aread_skipn by lia. rewrite Z.add_0_r.
        pose proof (entry_map_some _ _ _ Et) as X. apply entry_iff in X. rewrite X. reflexivity.
      + apply (fetch_values _ src ts); [|exact Et]. exists is. rewrite with_col_other by exact Ns. exact Es.
    - intros x Nx. apply with_col_other; exact Nx.
  Qed.

  Lemma tau_interp K legacy (c : csv S) t rows e ps bs :
    c_err c = false -> c_tau c = Some t -> part_ok L (TTau legacy) rows t ->
    env_ok (c_obj c) e -> e cRHO = Some ps -> e cB = Some bs -> zlen bs = zlen ps ->
    c_n c = zlen ps ->
    (forall x, In x [cTAUPHASE; cTAUV; cTAUPOWER] -> array (c_obj c) x (zlen ps)) ->
    let at_rho x := l_interp L (column L (TTau legacy) rows cRHO) (column L (TTau legacy) rows x) ps in
    vh (interpolate_tau L K legacy c) (fun c1 => exists o1, c1 = with_obj c o1 /\
      same_meta (c_obj c) o1 /\
      env_ok o1 (upd (upd (upd e cTAUPHASE (at_rho cPHASE)) cTAUV (at_rho cTAUV)) cTAUPOWER
        (if legacy then map2 (power L) (at_rho cTAUV) bs else at_rho cPOWER))).
  Proof using IL.
    intros E Et [T1 [T2 T3]] EO ER EB Zb N A at_rho. unfold interpolate_tau.
    apply (member_ok K _ _ _ t _ E Et T1).
    assert (ST : forall y out o e1, In y (columns (TTau legacy)) -> env_ok o e1 -> e1 cRHO = Some ps ->
      o_n o = zlen ps -> array o out (zlen ps) ->
      exists o', interpolate L t cRHO y 0 (o_n t) cRHO out o = Ok o' /\
        env_ok o' (upd e1 out (at_rho y)) /\ same_meta o o' /\
        (forall d, array o d (zlen ps) -> array o' d (zlen ps))).
    { intros y out o e1 I EO1 Er1 N1 A1.
      destruct (interp_env t o e1 cRHO y (column L (TTau legacy) rows cRHO) (column L (TTau legacy) rows y)
                 0 (o_n t) cRHO out ps) as [o' X]; try assumption.
      - apply T3. destruct legacy; cbn; tauto.
      - apply T3; exact I.
      - rewrite !column_len; reflexivity.
      - rewrite column_len. pose proof (zlen_nonneg rows). lia.
      - rewrite column_len. lia.
      - exists o'. exact X. }
    destruct (ST cPHASE cTAUPHASE (c_obj c) e) as [o1 [E1 [H1 [M1 A1]]]];
      [destruct legacy; cbn; tauto|exact EO|exact ER|exact N|apply A; cbn; tauto|].
    destruct (ST cTAUV cTAUV o1 _ ltac:(destruct legacy; cbn; tauto) H1 ER) as [o2 [E2 [H2 [M2 A2]]]];
      [destruct M1 as [_ [-> _]]; exact N|apply A1, A; cbn; tauto|].
    apply (v_bind _ _ (fun o => o = o1)); [eapply v_lift; [exact E1|reflexivity]|]. intros ? ->.
    apply (v_bind _ _ (fun o => o = o2)); [eapply v_lift; [exact E2|reflexivity]|]. intros ? ->.
    assert (N2 : o_n o2 = zlen ps) by (destruct M1 as [_ [P1 _]], M2 as [_ [P2 _]]; rewrite P2, P1; exact N).
    assert (A0 : array o2 cTAUPOWER (zlen ps)) by (apply A2, A1, A; cbn; tauto).
    destruct legacy.
    - destruct (ST cTAUV cTAUPOWER o2 _ ltac:(cbn; tauto) H2 ER N2 A0) as [o3 [E3 [H3 [M3 A3]]]].
      assert (VP : values_are o3 cTAUPOWER (at_rho cTAUV)) by (apply H3; reflexivity).
      assert (VB : values_are o3 cB bs) by (apply H3; exact EB).
      destruct VP as [ip EP].
      assert (Zt : zlen (at_rho cTAUV) = zlen ps) by (unfold zlen, at_rho; rewrite IL; reflexivity).
      assert (EL : for_range 0 (o_n o3)
                   (fun n o => do B <- fetch o cB n; do t <- fetch o cTAUPOWER n;
                               store o cTAUPOWER n (power_of L t B)) o3 =
                   Ok (with_col o3 cTAUPOWER (Some (ip, map Some (map2 (power L) (at_rho cTAUV) bs))))).
      { destruct M3 as [_ [P3 _]]. rewrite P3, N2, <- Zt.
        apply (power_loop o3 o3 cTAUPOWER cTAUPOWER ip _ (at_rho cTAUV) bs EP);
          [apply zlen_map|lia| |left; split; reflexivity].
        intros i t0 b o' F1 F2 Eb. cbv beta.
        rewrite (fetch_values o' cB bs i b); [|destruct VB as [ib Eib]; exists ib; rewrite (F2 cB) by discriminate; exact Eib|exact Eb].
        cbn [bind]. rewrite F1. reflexivity. }
      apply (v_bind _ _ (fun o => o = with_col o3 cTAUPOWER (Some (ip, map Some (map2 (power L) (at_rho cTAUV) bs))))).
      { apply (v_bind _ _ (fun o => o = o3)); [eapply v_lift; [exact E3|reflexivity]|]. intros ? ->.
        eapply v_lift; [exact EL|reflexivity]. }
      intros ? ->. apply v_ret. eexists. split; [reflexivity|]. split.
      + destruct M1 as [a1 [b1 c1]], M2 as [a2 [b2 c2]], M3 as [a3 [b3 c3]].
        unfold same_meta; cbn [with_col o_err o_n o_flag]. repeat split; congruence.
      + intros x vs X. destruct (col_eq_dec x cTAUPOWER) as [->|Nx].
        * unfold upd in X. rewrite col_beq_refl in X. injection X as <-. apply values_same.
        * apply values_with; [|exact Nx]. apply H3. unfold upd in X |- *. rewrite (col_beq_neq _ _ Nx) in X |- *. exact X.
    - destruct (ST cPOWER cTAUPOWER o2 _ ltac:(cbn; tauto) H2 ER N2 A0) as [o3 [E3 [H3 [M3 A3]]]].
      apply (v_bind _ _ (fun o => o = o3)); [eapply v_lift; [exact E3|reflexivity]|].
      intros ? ->. apply v_ret. eexists. split; [reflexivity|]. split; [|exact H3].
      destruct M1 as [a1 [b1 c1]], M2 as [a2 [b2 c2]], M3 as [a3 [b3 c3]].
      unfold same_meta. repeat split; congruence.
  Qed.
End Flow.
