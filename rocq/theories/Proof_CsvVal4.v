(** * Proof_CsvVal4: the whole extraction of combined tables. *)
From Coq Require Import List ZArith Lia Bool Ascii FunctionalExtensionality.
From Verif Require Import Base BaseFacts Scalar Spec_Select Proof_Misc Model_Heap Model_Csv
  Model_CsvData Spec_Csv Spec_CsvData Proof_Heap Proof_CsvOwn Proof_CsvOwn2 Proof_CsvText Proof_Csv
  Proof_Csv2 Proof_CsvVal Proof_CsvVal2 Proof_CsvVal3.
Import ListNotations.
Open Scope list_scope.
Open Scope Z_scope.

Section All.
  Context {S : scalar}.
  Variable L : csvlib S.
  Local Open Scope heap_scope.

  (** ** Copying the DLP columns *)
  Definition dlp_env (legacy : bool) (rows : list (list text)) : env (S := S) := fun c =>
    match c with
    | cRHO | cRAWTAU | cTRET | cTSET | cTOET | cCPOLE | cCTIM | cRAWTHR | cPHASE | cB | cPHIRL =>
        Some (column L (TDlp legacy) rows c)
    | cPHIDEG => Some (column L (TDlp legacy) rows cPHIORA)
    | cPNORM => Some (if legacy
                      then map2 (power L) (column L (TDlp true) rows cRAWTAU) (column L (TDlp true) rows cB)
                      else column L (TDlp false) rows cPNORM)
    | _ => None
    end.
  Lemma steal_v (c : csv S) d rows legacy :
    c_err c = false -> c_dlp c = Some d -> part_ok L (TDlp legacy) rows d ->
    o_flag (c_obj c) = legacy -> c_n c = zlen rows ->
    (forall x, l_alloc L (SArr KCsv x) = true) ->
    vh (steal_dlp_data L csv_family c) (fun c1 => exists o1, c1 = with_obj c o1 /\
      same_meta (c_obj c) o1 /\ env_ok o1 (dlp_env legacy rows)).
  Proof.
    intros E Ed [D1 [D2 D3]] Ef N A. unfold steal_dlp_data.
    apply (member_ok L csv_family _ _ _ d _ E Ed D1). cbv zeta.
    set (o := steal_cols steal_pairs d (c_obj c)).
    change (o_flag o) with (o_flag (c_obj c)). rewrite Ef.
    assert (V : forall x vs, x <> cPNORM -> dlp_env legacy rows x = Some vs -> values_are o x vs).
    { intros x vs Nx X.
      assert (Z : forall y z, o_col o y = o_col d z -> In z (columns (TDlp legacy)) ->
        Some (column L (TDlp legacy) rows z) = Some vs -> values_are o y vs).
      { intros y z Q I [= <-]. destruct (D3 z I) as [i Ei]. exists i. rewrite Q. exact Ei. }
      destruct x; try discriminate X; try contradiction;
        (eapply Z; [reflexivity| |exact X]; destruct legacy; cbn; tauto). }
    destruct legacy; cbn [negb].
    - apply (v_bind _ _ (fun b => exists i, b = Some i)); [apply v_alloc; [apply A|eauto]|].
      intros b [id ->]. cbv zeta.
      set (l0 := repeat None (Z.to_nat (o_n o))).
      set (o1 := with_col o cPNORM (Some (id, l0))).
      set (ts := column L (TDlp true) rows cRAWTAU). set (bs := column L (TDlp true) rows cB).
      assert (Zt : zlen ts = zlen rows) by apply column_len.
      assert (Zb : zlen bs = zlen rows) by apply column_len.
      assert (VB : values_are d cB bs) by (apply D3; cbn; tauto).
      assert (Zl : zlen l0 = zlen ts).
      { unfold l0. rewrite zlen_repeat; [|change (o_n o) with (c_n c); rewrite N; apply zlen_nonneg].
        change (o_n o) with (c_n c). lia. }
      assert (EL : for_range 0 (o_n o1)
                    (fun n o => do B <- fetch d cB n;
                                do t <- fetch o cRAWTAU n;
                                store o cPNORM n (power_of L t B)) o1 =
                   Ok (with_col o1 cPNORM (Some (id, map Some (map2 (power L) ts bs))))).
      { change (o_n o1) with (c_n c). rewrite N, <- Zt.
        apply (power_loop L o1 o1 cPNORM cRAWTAU id l0 ts bs); [apply with_col_same|exact Zl|lia| |].
        - intros i t b o' F1 F2 Eb. cbv beta. rewrite (fetch_values d cB bs i b VB Eb). cbn [bind].
          rewrite F1. reflexivity.
        - right. split; [discriminate|]. destruct (V cRAWTAU ts) as [ir Er]; [discriminate|reflexivity|].
          exists ir. unfold o1. rewrite with_col_other by discriminate. exact Er. }
      apply (v_bind _ _ (fun x => x = with_col o1 cPNORM (Some (id, map Some (map2 (power L) ts bs))))).
      { eapply v_lift; [exact EL|reflexivity]. }
      intros ? ->. apply v_ret. eexists. split; [reflexivity|]. split; [repeat split|].
      unfold o1. rewrite with_col_twice. intros x vs X. destruct (col_eq_dec x cPNORM) as [->|Nx].
      + cbn in X. injection X as <-. apply values_same.
      + apply values_with; [exact (V x vs Nx X)|exact Nx].
    - apply v_ret. eexists. split; [reflexivity|]. split; [repeat split|].
      intros x vs X. destruct (col_eq_dec x cPNORM) as [->|Nx].
      + cbn in X. injection X as <-. destruct (D3 cPNORM) as [i Ei]; [cbn; tauto|].
        exists i. rewrite with_col_same. exact Ei.
      + destruct (V x vs Nx X) as [i Ei]. exists i. rewrite with_col_other by exact Nx. exact Ei.
  Qed.
  Definition uranus_env (radians : bool) (rows : list (list text)) : env (S := S) := fun c =>
    match c with
    | cRHO | cRAWTAU | cTRET | cTSET | cTOET | cCPOLE | cCTIM | cRAWTHR | cPHASE | cB | cPHIRL
    | cPHIDEG | cPNORM | cRHODOT | cD | cFSKY => Some (column L (TUranus radians) rows c)
    | _ => None
    end.
  Lemma uranus_steal_v (c : csv S) d rows radians :
    c_err c = false -> c_dlp c = Some d -> part_ok L (TUranus radians) rows d ->
    vh (uranus_steal_dlp_data L uranus_family c) (fun c1 => exists o1, c1 = with_obj c o1 /\
      same_meta (c_obj c) o1 /\ env_ok o1 (uranus_env radians rows)).
  Proof.
    intros E Ed [D1 [D2 D3]]. unfold uranus_steal_dlp_data.
    apply (member_ok L uranus_family _ _ _ d _ E Ed D1).
    apply v_ret. eexists. split; [reflexivity|]. split; [repeat split|].
    set (o := steal_cols uranus_steal_pairs d (c_obj c)).
    intros x vs X.
    assert (Z : o_col o x = o_col d x -> In x (columns (TUranus radians)) ->
      Some (column L (TUranus radians) rows x) = Some vs -> values_are o x vs).
    { intros Q I [= <-]. destruct (D3 x I) as [i Ei]. exists i. rewrite Q. exact Ei. }
    destruct x; try discriminate X; (apply Z; [reflexivity|cbn; tauto|exact X]).
  Qed.

  (** ** The steps after the files have been read *)
  Definition tail (dep : bool) (tau : bool) (c : csv S) : H (option (csv S)) :=
    let K := csv_family in
    c <~ steal_dlp_data L K c;
    c <~ csv_malloc L K [cD; cFSKY; cRHODOT; cRX; cRY; cRZ] c;
    c <~ check_chord_occ L K c;
    c <~ interpolate_geo L K c;
    c <~ interpolate_cal L K c;
    c <~ (if tau then interpolate_tau L K dep c else hret c);
    g <~ destroy geo_format (c_geo c);
    k <~ destroy cal_format (c_cal c);
    t <~ destroy tau_format (c_tau c);
    _ <~ hfree (option_map o_id (c_dlp c));
    hret (Some (mkCsv (c_obj c) g k None t (c_inc c) (c_dec c))).
  Definition uranus_tail (tau : bool) (c : csv S) : H (option (csv S)) :=
    let K := uranus_family in
    c <~ uranus_steal_dlp_data L K c;
    c <~ csv_malloc L K [cRX; cRY; cRZ] c;
    c <~ check_chord_occ L K c;
    c <~ interpolate_geo L K c;
    c <~ (if tau then interpolate_tau L K false c else hret c);
    g <~ destroy geo_format (c_geo c);
    t <~ destroy tau_format (c_tau c);
    match c_dlp c with
    | None => hlift (UB NullDeref)
    | Some d =>
        _ <~ haccess (Some (o_id d));
        _ <~ hfree (pid (o_col d cF));
        _ <~ hfree (Some (o_id d));
        hret (Some (mkCsv (c_obj c) g (c_cal c) None t (c_inc c) (c_dec c)))
    end.

  Definition failed_csv (p : option (csv S)) : Prop := exists c, p = Some c /\ c_err c = true.
  Lemma finish_v (c : csv S) (Q : option (csv S) -> Prop) :
    (forall i j, Q (Some (mkCsv (c_obj c) None None None None i j))) ->
    vh (g <~ destroy geo_format (c_geo c);
        k <~ destroy cal_format (c_cal c);
        t <~ destroy tau_format (c_tau c);
        _ <~ hfree (option_map o_id (c_dlp c));
        hret (Some (mkCsv (c_obj c) g k None t (c_inc c) (c_dec c)))) Q.
  Proof.
    intro X.
    do 3 (apply (v_bind _ _ (fun r => r = None)); [apply destroy_none|intros ? ->]).
    apply (v_bind _ _ (fun _ => True)); [apply v_free; exact I|]. intros _ _. apply v_ret, X.
  Qed.
  Lemma tail_err dep tau (c : csv S) : c_err c = true -> vh (tail dep tau c) failed_csv.
  Proof.
    intro E. unfold tail. cbv zeta.
    apply (v_bind _ _ (fun x => x = c)); [apply member_skip; exact E|]. intros ? ->.
    apply (v_bind _ _ (fun x => x = c)); [apply malloc_skip; exact E|]. intros ? ->.
    apply (v_bind _ _ (fun x => x = c)); [apply member_skip; exact E|]. intros ? ->.
    apply (v_bind _ _ (fun x => x = c)); [apply member_skip; exact E|]. intros ? ->.
    apply (v_bind _ _ (fun x => x = c)); [apply member_skip; exact E|]. intros ? ->.
    apply (v_bind _ _ (fun x => x = c)); [destruct tau; [apply member_skip; exact E|apply v_ret; reflexivity]|]. intros ? ->.
    apply finish_v. intros i j. eexists; split; [reflexivity|exact E].
  Qed.
  (** From the chord test on. *)
  Lemma late_err dep tau (c : csv S) : c_err c = true ->
    vh (c <~ interpolate_geo L csv_family c;
        c <~ interpolate_cal L csv_family c;
        c <~ (if tau : bool then interpolate_tau L csv_family dep c else hret c);
        g <~ destroy geo_format (c_geo c);
        k <~ destroy cal_format (c_cal c);
        t <~ destroy tau_format (c_tau c);
        _ <~ hfree (option_map o_id (c_dlp c));
        hret (Some (mkCsv (c_obj c) g k None t (c_inc c) (c_dec c)))) failed_csv.
  Proof.
    intro E.
    apply (v_bind _ _ (fun x => x = c)); [apply member_skip; exact E|]. intros ? ->.
    apply (v_bind _ _ (fun x => x = c)); [apply member_skip; exact E|]. intros ? ->.
    apply (v_bind _ _ (fun x => x = c)); [destruct tau; [apply member_skip; exact E|apply v_ret; reflexivity]|]. intros ? ->.
    apply finish_v. intros i j. eexists; split; [reflexivity|exact E].
  Qed.

  (** Ends in the undefined behaviour [u0]. *)
  Definition vub {A} (u0 : ub) (m : H A) : Prop :=
    forall h, exists u, m h = UB u /\ (u = u0 \/ memfault u).
  Lemma vub_bind {A B} u0 (m : H A) (k : A -> H B) P :
    vh m P -> (forall a, P a -> vub u0 (k a)) -> vub u0 (hbind m k).
  Proof.
    intros V K h. specialize (V h). unfold hbind. destruct (m h) as [[a h1]|u] eqn:E.
    - apply (K a V).
    - exists u. auto.
  Qed.
  Lemma vub_first {A B} u0 (m : H A) (k : A -> H B) : vub u0 m -> vub u0 (hbind m k).
  Proof. intros V h. destruct (V h) as [u [E X]]. exists u. unfold hbind. rewrite E. auto. Qed.

  (** ** Good tables *)
  Hypothesis LW : csv_laws L.
  Hypothesis AL : all_allocs L.

  Lemma good_part t rows : t <> TMerged -> good_table t rows ->
    vh (extract_table L t (Some (table_text rows)))
       (fun p => exists o, p = Some o /\ o_err o = false /\ o_n o <> 0 /\ part_ok L t rows o).
  Proof using LW AL.
    intros Nt G. apply (v_impl _ _ _ (part_v L t rows Nt LW G (AL (kind_of t)))).
    intros p [o [-> P]]. exists o. split; [reflexivity|]. split; [apply P|]. split; [|exact P].
    destruct P as [_ [-> _]]. destruct G as [_ [NE _]]. pose proof (rows_pos rows NE). lia.
  Qed.
  Definition tau_ok (legacy : bool) (t : option (obj S)) (tau : option (list (list text))) : Prop :=
    match t, tau with
    | Some o, Some rows => part_ok L (TTau legacy) rows o
    | None, None => True
    | _, _ => False
    end.
  Definition is_some {A} (x : option A) : bool := match x with Some _ => true | None => false end.
  Definition range_of (r t : list S) : S * S := fold_left step_range (speeds r t) (big, (- big)%S).

  Lemma array_values_are (o : obj S) x vs n : values_are o x vs -> zlen vs = n -> array o x n.
  Proof. intros [i E] Z0. exists i, (map Some vs). rewrite zlen_map. auto. Qed.

  Lemma select_bound (mn mx : S) dots rv inc : selects mn mx dots rv inc -> 0 <= inc < zlen dots.
  Proof.
    intros [_ D]. destruct rv.
    - destruct D as [_ [[x [X _]] _]]. apply entry_bound in X. rewrite zlen_rev in X. exact X.
    - destruct D as [_ [_ [[x [X _]] _]]]. apply entry_bound in X. exact X.
  Qed.
  Lemma good_len t rows : good_table t rows -> 0 < zlen rows < two64.
  Proof. intros [_ [NE B]]. split; [exact (rows_pos rows NE)|exact B]. Qed.

  Lemma geo_part_ok legacy rows g : part_ok L (TGeo legacy) rows g ->
    geo_ok false (column L (TGeo legacy) rows) (zlen rows) g.
  Proof.
    intros [A [B C]]. split; [exact A|]. split; [exact B|]. intros c I. cbn [orient]. apply C.
    destruct legacy; cbn in I |- *; tauto.
  Qed.

  Hypothesis IL : interp_law L.

  Ltac cols := cbn; tauto.
  Ltac flat := unfold with_obj, with_geo, with_cal, with_inc, c_err, c_n in *;
    cbn [c_obj c_geo c_cal c_dlp c_tau c_inc c_dec] in *.
  Lemma tail_good legacy (o g k d : obj S) topt geo cal dlp tau rv inc :
    o_err o = false -> o_flag o = legacy -> o_n o = zlen dlp ->
    part_ok L (TGeo legacy) geo g -> part_ok L TCal cal k -> part_ok L (TDlp legacy) dlp d ->
    tau_ok legacy topt tau -> good_table (TGeo legacy) geo -> good_table (TDlp legacy) dlp ->
    (let '(mn, mx) := range_of (column L (TDlp legacy) dlp cRHO) (column L (TDlp legacy) dlp cTSET) in
     selects mn mx (column L (TGeo legacy) geo cRHODOT) rv inc) ->
    vh (tail legacy (is_some tau) (mkCsv o (Some g) (Some k) (Some d) topt 0 0))
       (fun p => exists c, p = Some c /\ combined L legacy rv inc geo cal dlp tau c).
  Proof using AL IL.
    intros E F N PG PK PD PT GG GD SL. unfold tail. cbv zeta.
    pose proof (good_len _ _ GG) as BG. pose proof (good_len _ _ GD) as BD.
    set (D := column L (TDlp legacy) dlp) in *.
    assert (ZD : forall x, zlen (D x) = zlen dlp) by (intro; apply column_len).
    assert (KA : forall x, l_alloc L (SArr KCsv x) = true) by (intro; apply AL).
    (* copy *)
    eapply v_bind; [apply (steal_v _ d dlp legacy); try reflexivity; try assumption|].
    intros ? [o1 [-> [[M1 [M2 M3]] EO1]]]. flat.
    (* allocation *)
    eapply v_bind.
    { unfold csv_malloc, c_err, c_n; cbn [c_obj c_tau]. flat. rewrite M1, E, M2, N.
      destruct (Z.eqb_spec (zlen dlp) 0); [lia|].
      apply csv_malloc_cols_v; [exact KA|].
      destruct topt; cbn; repeat constructor; cbn; intuition discriminate. }
    intros ? [o2 [-> [X1 [X2 [X3 [X4 X5]]]]]].
    flat.
    rewrite M2 in X2, X4. rewrite N in X2, X4. rewrite M1, E in X1. rewrite M3, F in X3.
    assert (AR : forall x, In x ([cD; cFSKY; cRHODOT; cRX; cRY; cRZ] ++ match topt with
                  Some _ => [cTAUPHASE; cTAUPOWER; cTAUV] | None => [] end) -> array o2 x (zlen dlp)).
    { intros x I. destruct (X4 x I) as [i Ei]. eexists i, _. split; [exact Ei|]. apply zlen_repeat. lia. }
    assert (EO2 : env_ok o2 (dlp_env legacy dlp)).
    { intros x vs X. destruct (EO1 x vs X) as [i Ei]. exists i. rewrite X5; [exact Ei|].
      destruct x; try discriminate X; destruct topt; cbn; intuition discriminate. }
    (* orientation *)
    eapply v_bind.
    { apply (chord_ok L csv_family _ g (column L (TGeo legacy) geo) (zlen geo) (D cRHO) (D cTSET) rv inc);
        try reflexivity.
      - flat. exact X1.
      - apply geo_part_ok; exact PG.
      - intros; apply column_len.
      - cbn. apply EO2. reflexivity.
      - cbn. apply EO2. reflexivity.
      - rewrite !ZD; reflexivity.
      - flat. rewrite ZD. exact X2.
      - rewrite ZD. exact BD.
      - exact SL. }
    intros ? [g1 [-> G1]]. flat.
    assert (IB : 0 <= inc < zlen geo).
    { destruct (range_of (D cRHO) (D cTSET)) as [mn mx]. apply select_bound in SL. rewrite column_len in SL. exact SL. }
    (* geometry *)
    eapply v_bind.
    { apply (geo_interp L IL csv_family _ g1 (column L (TGeo legacy) geo) (zlen geo) rv inc (dlp_env legacy dlp) (D cRHO));
        try reflexivity.
      - flat. exact X1.
      - exact G1.
      - intros; apply column_len.
      - lia.
      - lia.
      - exact EO2.
      - flat. rewrite ZD. exact X2.
      - rewrite ZD. intros x I. apply AR. apply in_or_app; left. cbn in I |- *. tauto. }
    intros ? [o3 [-> [[P1 [P2 P3]] [A3 EO3]]]].
    flat.
    rewrite ZD in A3.
    (* calibration *)
    eapply v_bind.
    { apply (cal_interp L IL csv_family _ k cal _ (D cTOET)) with (2 := eq_refl) (4 := EO3); try reflexivity.
      - flat. congruence.
      - exact PK.
      - flat. rewrite ZD. congruence.
      - cbn. rewrite ZD. apply A3, AR. cols. }
    intros ? [k1 [o4 [-> [[Q1 [Q2 Q3]] [A4 EO4]]]]].
    flat.
    rewrite ZD in A4.
    destruct tau as [trows|]; cbn [is_some].
    - destruct topt as [t|]; [|destruct PT]. cbn [tau_ok] in PT.
      eapply v_bind.
      { apply (tau_interp L IL csv_family legacy _ t trows _ (D cRHO) (D cB)) with (2 := eq_refl) (4 := EO4); try reflexivity.
        - flat. congruence.
        - exact PT.
        - rewrite !ZD; reflexivity.
        - flat. rewrite ZD. congruence.
        - cbn [c_obj]. rewrite ZD. intros x I. apply A4, A3, AR. apply in_or_app; right. cbn in I |- *; tauto. }
      intros ? [o5 [-> [[R1 [R2 R3]] EO5]]].
      flat.
      apply (finish_v (mkCsv o5 (Some g1) (Some k1) (Some d) (Some t) inc 0)). intros i j. eexists; split; [reflexivity|]. cbn [c_obj].
      constructor; flat.
      + congruence.
      + congruence.
      + intros x I. apply EO5. cbn in I. repeat destruct I as [<-|I]; try reflexivity. destruct I.
      + apply EO5. reflexivity.
      + apply EO5. reflexivity.
      + intros x I. apply EO5. cbn in I. repeat destruct I as [<-|I]; try reflexivity. destruct I.
      + apply EO5. reflexivity.
      + intros rows [= ->]. cbv zeta. split; [|split]; apply EO5; try reflexivity. unfold D. clear. destruct legacy; reflexivity.
    - destruct topt as [t|]; [destruct PT|].
      apply (v_bind _ _ (fun x => x = mkCsv o4 (Some g1) (Some k1) (Some d) None inc 0)); [apply v_ret; reflexivity|].
      intros ? ->.
      apply (finish_v (mkCsv o4 (Some g1) (Some k1) (Some d) None inc 0)). intros i j. eexists; split; [reflexivity|]. cbn [c_obj].
      constructor; flat.
      + congruence.
      + congruence.
      + intros x I. apply EO4. cbn in I. repeat destruct I as [<-|I]; try reflexivity. destruct I.
      + apply EO4. reflexivity.
      + apply EO4. reflexivity.
      + intros x I. apply EO4. cbn in I. repeat destruct I as [<-|I]; try reflexivity. destruct I.
      + apply EO4. reflexivity.
      + discriminate.
  Qed.

  Lemma tail_chord legacy (o g k d : obj S) topt geo dlp b :
    o_err o = false -> o_flag o = legacy -> o_n o = zlen dlp ->
    part_ok L (TGeo legacy) geo g -> part_ok L (TDlp legacy) dlp d ->
    good_table (TDlp legacy) dlp ->
    (let '(mn, mx) := range_of (column L (TDlp legacy) dlp cRHO) (column L (TDlp legacy) dlp cTSET) in
     test_chord mn mx = true) ->
    vh (tail legacy b (mkCsv o (Some g) (Some k) (Some d) topt 0 0)) failed_csv.
  Proof using AL.
    intros E F N PG PD GD SL. unfold tail. cbv zeta.
    pose proof (good_len _ _ GD) as BD.
    set (D := column L (TDlp legacy) dlp) in *.
    assert (ZD : forall x, zlen (D x) = zlen dlp) by (intro; apply column_len).
    assert (KA : forall x, l_alloc L (SArr KCsv x) = true) by (intro; apply AL).
    eapply v_bind; [apply (steal_v _ d dlp legacy); try reflexivity; try assumption|].
    intros ? [o1 [-> [[M1 [M2 M3]] EO1]]]. flat.
    eapply v_bind.
    { unfold csv_malloc, c_err, c_n; flat. rewrite M1, E, M2, N.
      destruct (Z.eqb_spec (zlen dlp) 0); [lia|].
      apply csv_malloc_cols_v; [exact KA|].
      destruct topt; cbn; repeat constructor; cbn; intuition discriminate. }
    intros ? [o2 [-> [X1 [X2 [X3 [X4 X5]]]]]]. flat.
    rewrite M2 in X2, X4. rewrite N in X2, X4. rewrite M1, E in X1. rewrite M3, F in X3.
    assert (EO2 : env_ok o2 (dlp_env legacy dlp)).
    { intros x vs X. destruct (EO1 x vs X) as [i Ei]. exists i. rewrite X5; [exact Ei|].
      destruct x; try discriminate X; destruct topt; cbn; intuition discriminate. }
    eapply v_bind.
    { apply (chord_bad L csv_family _ g (D cRHO) (D cTSET)); try reflexivity.
      - flat. exact X1.
      - apply PG.
      - cbn. apply EO2. reflexivity.
      - cbn. apply EO2. reflexivity.
      - rewrite !ZD; reflexivity.
      - flat. rewrite ZD. exact X2.
      - rewrite ZD. exact BD.
      - exact SL. }
    intros c X. apply late_err. exact X.
  Qed.

  (** No geometry sample goes in the direction of the data. *)
  Definition lost (mn mx : S) (dots : list S) : Prop :=
    test_chord mn mx = false /\
    (slt mx s0 = true /\ (forall v, In v dots -> sge v s0 = true) \/
     slt mx s0 = false /\ sgt mn s0 = true /\ (forall v, In v dots -> sle v s0 = true)).
  Lemma chord_lost K (c : csv S) g f n r t :
    c_err c = false -> c_geo c = Some g -> c_inc c = 0 -> geo_ok false f n g ->
    (forall x, In x geo_cols -> zlen (f x) = n) ->
    values_are (c_obj c) cRHO r -> values_are (c_obj c) cTSET t -> zlen r = zlen t ->
    c_n c = zlen r -> 0 < zlen r < two64 ->
    (let '(mn, mx) := range_of r t in lost mn mx (f cRHODOT)) ->
    vub OutOfBounds (check_chord_occ L K c).
  Proof.
    intros E Eg Ei [G1 [G2 G3]] Zf Vr Vt Zr N B D. unfold check_chord_occ, with_member.
    rewrite E, Eg.
    apply (vub_bind _ _ _ (fun _ => True)); [apply v_access; exact I|]. intros _ _. rewrite G1.
    apply (vub_bind _ _ _ (fun p => p = range_of r t)).
    { eapply v_lift; [exact (speed_range_ok (c_obj c) r t Vr Vt Zr N B)|reflexivity]. }
    intros p ->. destruct (range_of r t) as [mn mx].
    destruct D as [T D]. unfold test_chord in T.
    apply Bool.orb_false_iff in T as [T1 T2]. rewrite T1, T2. rewrite Ei.
    destruct D as [[D1 D2]|[D1 [D2 D3]]]; rewrite D1.
    - destruct (reverse_geo_ok g f) as [g1 [Er [Q1 [Q2 [_ Q4]]]]].
      { intros x I. split; [exact (G3 x I)|]. rewrite G2, (Zf x I). reflexivity. }
      apply (vub_bind _ _ _ (fun x => x = g1)); [eapply v_lift; [exact Er|reflexivity]|]. intros x ->.
      apply vub_first. rewrite (seek_none _ g1 (rev (f cRHODOT))).
      + intro h. exists OutOfBounds. split; [reflexivity|left; reflexivity].
      + apply Q4; cbn; tauto.
      + rewrite Q2, G2, zlen_rev. symmetry; apply Zf; cbn; tauto.
      + intros v I. apply D2. apply in_rev. exact I.
    - rewrite D2. apply vub_first. rewrite (seek_none _ g (f cRHODOT)).
      + intro h. exists OutOfBounds. split; [reflexivity|left; reflexivity].
      + apply (G3 cRHODOT); cbn; tauto.
      + rewrite G2. symmetry; apply Zf; cbn; tauto.
      + exact D3.
  Qed.
  Lemma tail_lost legacy (o g k d : obj S) topt geo dlp b :
    o_err o = false -> o_flag o = legacy -> o_n o = zlen dlp ->
    part_ok L (TGeo legacy) geo g -> part_ok L (TDlp legacy) dlp d ->
    good_table (TDlp legacy) dlp ->
    (let '(mn, mx) := range_of (column L (TDlp legacy) dlp cRHO) (column L (TDlp legacy) dlp cTSET) in
     lost mn mx (column L (TGeo legacy) geo cRHODOT)) ->
    vub OutOfBounds (tail legacy b (mkCsv o (Some g) (Some k) (Some d) topt 0 0)).
  Proof using AL.
    intros E F N PG PD GD SL. unfold tail. cbv zeta.
    pose proof (good_len _ _ GD) as BD.
    set (D := column L (TDlp legacy) dlp) in *.
    assert (ZD : forall x, zlen (D x) = zlen dlp) by (intro; apply column_len).
    assert (KA : forall x, l_alloc L (SArr KCsv x) = true) by (intro; apply AL).
    eapply vub_bind; [apply (steal_v _ d dlp legacy); try reflexivity; try assumption|].
    intros ? [o1 [-> [[M1 [M2 M3]] EO1]]]. flat.
    eapply vub_bind.
    { unfold csv_malloc, c_err, c_n; flat. rewrite M1, E, M2, N.
      destruct (Z.eqb_spec (zlen dlp) 0); [lia|].
      apply csv_malloc_cols_v; [exact KA|].
      destruct topt; cbn; repeat constructor; cbn; intuition discriminate. }
    intros ? [o2 [-> [X1 [X2 [X3 [X4 X5]]]]]]. flat.
    rewrite M2 in X2, X4. rewrite N in X2, X4. rewrite M1, E in X1. rewrite M3, F in X3.
    assert (EO2 : env_ok o2 (dlp_env legacy dlp)).
    { intros x vs X. destruct (EO1 x vs X) as [i Ei]. exists i. rewrite X5; [exact Ei|].
      destruct x; try discriminate X; destruct topt; cbn; intuition discriminate. }
    apply vub_first.
    apply (chord_lost csv_family _ g (column L (TGeo legacy) geo) (zlen geo) (D cRHO) (D cTSET)); try reflexivity.
    - flat. exact X1.
    - apply geo_part_ok; exact PG.
    - intros; apply column_len.
    - cbn. apply EO2. reflexivity.
    - cbn. apply EO2. reflexivity.
    - rewrite !ZD; reflexivity.
    - flat. rewrite ZD. exact X2.
    - rewrite ZD. exact BD.
    - exact SL.
  Qed.

  (** ** The same for Uranus *)
  Lemma uranus_tail_good radians (o g d : obj S) topt geo dlp tau rv inc :
    o_err o = false -> o_n o = zlen dlp ->
    part_ok L (TGeo false) geo g -> part_ok L (TUranus radians) dlp d ->
    tau_ok false topt tau -> good_table (TGeo false) geo -> good_table (TUranus radians) dlp ->
    (let '(mn, mx) := range_of (column L (TUranus radians) dlp cRHO) (column L (TUranus radians) dlp cTSET) in
     selects mn mx (column L (TGeo false) geo cRHODOT) rv inc) ->
    vh (uranus_tail (is_some tau) (mkCsv o (Some g) None (Some d) topt 0 0))
       (fun p => exists c, p = Some c /\ uranus_combined L radians rv inc geo dlp tau c).
  Proof using AL IL.
    intros E N PG PD PT GG GD SL. unfold uranus_tail. cbv zeta.
    pose proof (good_len _ _ GG) as BG. pose proof (good_len _ _ GD) as BD.
    set (D := column L (TUranus radians) dlp) in *.
    assert (ZD : forall x, zlen (D x) = zlen dlp) by (intro; apply column_len).
    assert (KA : forall x, l_alloc L (SArr KUranusCsv x) = true) by (intro; apply AL).
    eapply v_bind; [apply (uranus_steal_v _ d dlp radians); try reflexivity; try assumption|].
    intros ? [o1 [-> [[M1 [M2 M3]] EO1]]]. flat.
    eapply v_bind.
    { unfold csv_malloc, c_err, c_n; flat. rewrite M1, E, M2, N.
      destruct (Z.eqb_spec (zlen dlp) 0); [lia|].
      apply csv_malloc_cols_v; [exact KA|].
      destruct topt; cbn; repeat constructor; cbn; intuition discriminate. }
    intros ? [o2 [-> [X1 [X2 [X3 [X4 X5]]]]]]. flat.
    rewrite M2 in X2, X4. rewrite N in X2, X4. rewrite M1, E in X1.
    assert (AR : forall x, In x ([cRX; cRY; cRZ] ++ match topt with
                  Some _ => [cTAUPHASE; cTAUPOWER; cTAUV] | None => [] end) -> array o2 x (zlen dlp)).
    { intros x I. destruct (X4 x I) as [i Ei]. eexists i, _. split; [exact Ei|]. apply zlen_repeat. lia. }
    assert (EO2 : env_ok o2 (uranus_env radians dlp)).
    { intros x vs X. destruct (EO1 x vs X) as [i Ei]. exists i. rewrite X5; [exact Ei|].
      destruct x; try discriminate X; destruct topt; cbn; intuition discriminate. }
    eapply v_bind.
    { apply (chord_ok L uranus_family _ g (column L (TGeo false) geo) (zlen geo) (D cRHO) (D cTSET) rv inc);
        try reflexivity.
      - flat. exact X1.
      - apply geo_part_ok; exact PG.
      - intros; apply column_len.
      - cbn. apply EO2. reflexivity.
      - cbn. apply EO2. reflexivity.
      - rewrite !ZD; reflexivity.
      - flat. rewrite ZD. exact X2.
      - rewrite ZD. exact BD.
      - exact SL. }
    intros ? [g1 [-> G1]]. flat.
    assert (IB : 0 <= inc < zlen geo).
    { destruct (range_of (D cRHO) (D cTSET)) as [mn mx]. apply select_bound in SL. rewrite column_len in SL. exact SL. }
    eapply v_bind.
    { apply (geo_interp L IL uranus_family _ g1 (column L (TGeo false) geo) (zlen geo) rv inc (uranus_env radians dlp) (D cRHO));
        try reflexivity.
      - flat. exact X1.
      - exact G1.
      - intros; apply column_len.
      - lia.
      - lia.
      - exact EO2.
      - flat. rewrite ZD. exact X2.
      - rewrite ZD. cbn [c_obj]. intros x I. cbn in I.
        destruct I as [<-|[<-|I]].
        + apply (array_values_are _ _ (D cD)); [apply EO2; reflexivity|apply ZD].
        + apply (array_values_are _ _ (D cRHODOT)); [apply EO2; reflexivity|apply ZD].
        + apply AR. apply in_or_app; left. cbn in I |- *. tauto. }
    intros ? [o3 [-> [[P1 [P2 P3]] [A3 EO3]]]]. flat.
    rewrite ZD in A3.
    assert (FIN : forall o4 (Q : option (csv S) -> Prop),
      Q (Some (mkCsv o4 None None None None inc 0)) ->
      vh (g <~ destroy geo_format (Some g1);
          t <~ destroy tau_format topt;
          _ <~ haccess (Some (o_id d));
          _ <~ hfree (pid (o_col d cF));
          _ <~ hfree (Some (o_id d));
          hret (Some (mkCsv o4 g None None t inc 0))) Q).
    { intros o4 Q X.
      do 2 (apply (v_bind _ _ (fun r => r = None)); [apply destroy_none|intros ? ->]).
      apply (v_bind _ _ (fun _ => True)); [apply v_access; exact I|intros _ _].
      do 2 (apply (v_bind _ _ (fun _ => True)); [apply v_free; exact I|intros _ _]).
      apply v_ret. exact X. }
    destruct tau as [trows|]; cbn [is_some].
    - destruct topt as [t|]; [|destruct PT]. cbn [tau_ok] in PT.
      eapply v_bind.
      { apply (tau_interp L IL uranus_family false _ t trows _ (D cRHO) (D cB)) with (2 := eq_refl) (4 := EO3); try reflexivity.
        - flat. congruence.
        - exact PT.
        - rewrite !ZD; reflexivity.
        - flat. rewrite ZD. congruence.
        - cbn [c_obj]. rewrite ZD. intros x I. apply A3, AR. apply in_or_app; right. cbn in I |- *; tauto. }
      intros ? [o5 [-> [[R1 [R2 R3]] EO5]]]. flat.
      apply (FIN o5). eexists; split; [reflexivity|].
      constructor; flat.
      + congruence.
      + congruence.
      + intros x I. apply EO5. cbn in I. repeat destruct I as [<-|I]; try reflexivity. destruct I.
      + intros x I. apply EO5. cbn in I. repeat destruct I as [<-|I]; try reflexivity. destruct I.
      + intros rows [= ->]. cbv zeta. split; [|split]; apply EO5; reflexivity.
    - destruct topt as [t|]; [destruct PT|].
      apply (v_bind _ _ (fun x => x = mkCsv o3 (Some g1) None (Some d) None inc 0)); [apply v_ret; reflexivity|].
      intros ? ->. apply (FIN o3). eexists; split; [reflexivity|].
      constructor; flat.
      + congruence.
      + congruence.
      + intros x I. apply EO3. cbn in I. repeat destruct I as [<-|I]; try reflexivity. destruct I.
      + intros x I. apply EO3. cbn in I. repeat destruct I as [<-|I]; try reflexivity. destruct I.
      + discriminate.
  Qed.
  Lemma uranus_tail_chord radians (o g d : obj S) topt geo dlp b :
    o_err o = false -> o_n o = zlen dlp ->
    part_ok L (TGeo false) geo g -> part_ok L (TUranus radians) dlp d ->
    good_table (TUranus radians) dlp ->
    (let '(mn, mx) := range_of (column L (TUranus radians) dlp cRHO) (column L (TUranus radians) dlp cTSET) in
     test_chord mn mx = true) ->
    vh (uranus_tail b (mkCsv o (Some g) None (Some d) topt 0 0)) failed_csv.
  Proof using AL.
    intros E N PG PD GD SL. unfold uranus_tail. cbv zeta.
    pose proof (good_len _ _ GD) as BD.
    set (D := column L (TUranus radians) dlp) in *.
    assert (ZD : forall x, zlen (D x) = zlen dlp) by (intro; apply column_len).
    assert (KA : forall x, l_alloc L (SArr KUranusCsv x) = true) by (intro; apply AL).
    eapply v_bind; [apply (uranus_steal_v _ d dlp radians); try reflexivity; try assumption|].
    intros ? [o1 [-> [[M1 [M2 M3]] EO1]]]. flat.
    eapply v_bind.
    { unfold csv_malloc, c_err, c_n; flat. rewrite M1, E, M2, N.
      destruct (Z.eqb_spec (zlen dlp) 0); [lia|].
      apply csv_malloc_cols_v; [exact KA|].
      destruct topt; cbn; repeat constructor; cbn; intuition discriminate. }
    intros ? [o2 [-> [X1 [X2 [X3 [X4 X5]]]]]]. flat.
    rewrite M2 in X2, X4. rewrite N in X2, X4. rewrite M1, E in X1.
    assert (EO2 : env_ok o2 (uranus_env radians dlp)).
    { intros x vs X. destruct (EO1 x vs X) as [i Ei]. exists i. rewrite X5; [exact Ei|].
      destruct x; try discriminate X; destruct topt; cbn; intuition discriminate. }
    unfold check_chord_occ.
    eapply v_bind.
    { apply (v_impl (check_chord_occ L uranus_family
        (mkCsv o2 (Some g) None (Some d) topt 0 0)) (fun c => c_err c = true /\ c_dlp c = Some d)); [|intros a X; exact X].
      unfold check_chord_occ. apply (member_ok L uranus_family _ _ _ g _); [flat; exact X1|reflexivity|apply PG|].
      cbn [c_obj].
      apply (v_bind _ _ (fun p => p = range_of (D cRHO) (D cTSET))).
      { eapply v_lift; [apply (speed_range_ok o2 (D cRHO) (D cTSET)); rewrite ?ZD; try reflexivity; try assumption;
          apply EO2; reflexivity|reflexivity]. }
      intros p ->. destruct (range_of (D cRHO) (D cTSET)) as [mn mx].
      assert (ER : vh (csv_error L uranus_family (mkCsv o2 (Some g) None (Some d) topt 0 0))
        (fun c => c_err c = true /\ c_dlp c = Some d)).
      { unfold csv_error. apply (v_bind _ _ (fun o => o_err o = true)).
        - intro h. destruct (set_error_total L (fam_kind uranus_family) true o2 h) as [oe [h1 [Ee [Xe _]]]].
          cbn [c_obj]. rewrite Ee; exact Xe.
        - intros oe Xe. apply v_ret. split; [exact Xe|reflexivity]. }
      unfold test_chord in SL. destruct (slt mn s0 && sgt mx s0); [exact ER|].
      cbn [orb] in SL. rewrite SL. exact ER. }
    intros c [X Y].
    apply (v_bind _ _ (fun x => x = c)); [apply member_skip; exact X|]. intros ? ->.
    apply (v_bind _ _ (fun x => x = c)); [destruct b; [apply member_skip; exact X|apply v_ret; reflexivity]|]. intros ? ->.
    do 2 (apply (v_bind _ _ (fun r => r = None)); [apply destroy_none|intros ? ->]).
    rewrite Y.
    apply (v_bind _ _ (fun _ => True)); [apply v_access; exact I|intros _ _].
    do 2 (apply (v_bind _ _ (fun _ => True)); [apply v_free; exact I|intros _ _]).
    apply v_ret. eexists; split; [reflexivity|exact X].
  Qed.

  (** ** Reading the files *)
  Lemma csv_extract_eq geo cal dlp tau dep : csv_extract L geo cal dlp tau dep =
    (b <~ halloc (l_alloc L (SObj KCsv));
     match b with
     | None => hret None
     | Some id =>
        c <~ extract_part L csv_family (extract_table L (TGeo dep) geo) with_geo (csv_init id dep);
        c <~ extract_part L csv_family (extract_table L TCal cal) with_cal c;
        c <~ extract_dlp_part L csv_family (extract_table L (TDlp dep) dlp) c;
        c <~ (match tau with
              | Some t => extract_part L csv_family (extract_table L (TTau dep) t) with_tau c
              | None => hret c
              end);
        tail dep (is_some tau) c
     end).
  Proof. destruct tau; reflexivity. Qed.
  Lemma uranus_csv_extract_eq geo dlp tau rad : uranus_csv_extract L geo dlp tau rad =
    (b <~ halloc (l_alloc L (SObj KUranusCsv));
     match b with
     | None => hret None
     | Some id =>
        c <~ extract_part L uranus_family (extract_table L (TGeo false) geo) with_geo (csv_init id rad);
        c <~ extract_dlp_part L uranus_family (extract_table L (TUranus (o_flag (c_obj c))) dlp) c;
        c <~ (match tau with
              | Some t => extract_part L uranus_family (extract_table L (TTau false) t) with_tau c
              | None => hret c
              end);
        uranus_tail (is_some tau) c
     end).
  Proof. destruct tau; reflexivity. Qed.


  (** The object after the files of good tables have been read. *)
  Lemma parts_good legacy geo cal dlp tau id (Q : option (csv S) -> Prop) :
    good_table (TGeo legacy) geo -> good_table TCal cal -> good_table (TDlp legacy) dlp ->
    good_tau legacy tau ->
    (forall g k d t, part_ok L (TGeo legacy) geo g -> part_ok L TCal cal k ->
       part_ok L (TDlp legacy) dlp d -> tau_ok legacy t tau ->
       vh (tail legacy (is_some tau)
             (mkCsv (with_n (init id legacy) (o_n d)) (Some g) (Some k) (Some d) t 0 0)) Q) ->
    vh (c <~ extract_part L csv_family (extract_table L (TGeo legacy) (Some (table_text geo))) with_geo (csv_init id legacy);
        c <~ extract_part L csv_family (extract_table L TCal (Some (table_text cal))) with_cal c;
        c <~ extract_dlp_part L csv_family (extract_table L (TDlp legacy) (Some (table_text dlp))) c;
        c <~ (match tau_file tau with
              | Some t => extract_part L csv_family (extract_table L (TTau legacy) t) with_tau c
              | None => hret c
              end);
        tail legacy (is_some (tau_file tau)) c) Q.
  Proof using LW AL.
    intros GG GC GD GT X.
    eapply v_bind; [apply part_good; [reflexivity|apply good_part; [discriminate|exact GG]]|].
    intros ? [g [-> PG]].
    eapply v_bind; [apply part_good; [reflexivity|apply good_part; [discriminate|exact GC]]|].
    intros ? [k [-> PK]].
    eapply v_bind; [apply dlp_good; [reflexivity|apply good_part; [discriminate|exact GD]]|].
    intros ? [d [-> PD]].
    destruct tau as [rows|]; cbn [tau_file option_map is_some].
    - eapply v_bind; [apply part_good; [reflexivity|apply good_part; [discriminate|exact (GT rows eq_refl)]]|].
      intros ? [t [-> PT]]. exact (X g k d (Some t) PG PK PD PT).
    - exact (X g k d None PG PK PD I).
  Qed.
  Lemma flow_good legacy geo cal dlp tau rv inc :
    good_table (TGeo legacy) geo -> good_table TCal cal -> good_table (TDlp legacy) dlp ->
    good_tau legacy tau ->
    (let '(mn, mx) := range_of (column L (TDlp legacy) dlp cRHO) (column L (TDlp legacy) dlp cTSET) in
     selects mn mx (column L (TGeo legacy) geo cRHODOT) rv inc) ->
    vh (csv_extract L (Some (table_text geo)) (Some (table_text cal)) (Some (table_text dlp))
          (tau_file tau) legacy)
       (fun p => exists c, p = Some c /\ combined L legacy rv inc geo cal dlp tau c).
  Proof using LW AL IL.
    intros GG GC GD GT SL. rewrite csv_extract_eq.
    apply (v_bind _ _ (fun b => exists i, b = Some i)); [apply v_alloc; [apply AL|eauto]|].
    intros b [id ->]. apply parts_good; try assumption. intros g k d t PG PK PD PT.
    apply tail_good; try assumption; try reflexivity. apply PD.
  Qed.
  Lemma flow_chord legacy geo cal dlp tau :
    good_table (TGeo legacy) geo -> good_table TCal cal -> good_table (TDlp legacy) dlp ->
    good_tau legacy tau ->
    (let '(mn, mx) := range_of (column L (TDlp legacy) dlp cRHO) (column L (TDlp legacy) dlp cTSET) in
     test_chord mn mx = true) ->
    vh (csv_extract L (Some (table_text geo)) (Some (table_text cal)) (Some (table_text dlp))
          (tau_file tau) legacy) failed_csv.
  Proof using LW AL.
    intros GG GC GD GT SL. rewrite csv_extract_eq.
    apply (v_bind _ _ (fun b => exists i, b = Some i)); [apply v_alloc; [apply AL|eauto]|].
    intros b [id ->]. apply parts_good; try assumption. intros g k d t PG PK PD PT.
    apply tail_chord with (geo := geo) (dlp := dlp); try assumption; try reflexivity. apply PD.
  Qed.

  Lemma flow_lost legacy geo cal dlp tau :
    good_table (TGeo legacy) geo -> good_table TCal cal -> good_table (TDlp legacy) dlp ->
    good_tau legacy tau ->
    (let '(mn, mx) := range_of (column L (TDlp legacy) dlp cRHO) (column L (TDlp legacy) dlp cTSET) in
     lost mn mx (column L (TGeo legacy) geo cRHODOT)) ->
    vub OutOfBounds (csv_extract L (Some (table_text geo)) (Some (table_text cal)) (Some (table_text dlp))
          (tau_file tau) legacy).
  Proof using LW AL.
    intros GG GC GD GT SL. rewrite csv_extract_eq.
    apply (vub_bind _ _ _ (fun b => exists i, b = Some i)); [apply v_alloc; [apply AL|eauto]|].
    intros b [id ->].
    eapply vub_bind; [apply part_good; [reflexivity|apply good_part; [discriminate|exact GG]]|].
    intros ? [g [-> PG]].
    eapply vub_bind; [apply part_good; [reflexivity|apply good_part; [discriminate|exact GC]]|].
    intros ? [k [-> PK]].
    eapply vub_bind; [apply dlp_good; [reflexivity|apply good_part; [discriminate|exact GD]]|].
    intros ? [d [-> PD]].
    assert (Z0 : forall t b, vub OutOfBounds (tail legacy b
      (mkCsv (with_n (init id legacy) (o_n d)) (Some g) (Some k) (Some d) t 0 0))).
    { intros t b. apply tail_lost with (geo := geo) (dlp := dlp); try assumption; try reflexivity. apply PD. }
    destruct tau as [rows|]; cbn [tau_file option_map is_some].
    - eapply vub_bind; [apply part_good; [reflexivity|apply good_part; [discriminate|exact (GT rows eq_refl)]]|].
      intros ? [t [-> PT]]. exact (Z0 (Some t) true).
    - exact (Z0 None false).
  Qed.

  Lemma uranus_parts_good rad geo dlp tau id (Q : option (csv S) -> Prop) :
    good_table (TGeo false) geo -> good_table (TUranus rad) dlp -> good_tau false tau ->
    (forall g d t, part_ok L (TGeo false) geo g -> part_ok L (TUranus rad) dlp d -> tau_ok false t tau ->
       vh (uranus_tail (is_some tau)
             (mkCsv (with_n (init id rad) (o_n d)) (Some g) None (Some d) t 0 0)) Q) ->
    vh (c <~ extract_part L uranus_family (extract_table L (TGeo false) (Some (table_text geo))) with_geo (csv_init id rad);
        c <~ extract_dlp_part L uranus_family (extract_table L (TUranus (o_flag (c_obj c))) (Some (table_text dlp))) c;
        c <~ (match tau_file tau with
              | Some t => extract_part L uranus_family (extract_table L (TTau false) t) with_tau c
              | None => hret c
              end);
        uranus_tail (is_some (tau_file tau)) c) Q.
  Proof using LW AL.
    intros GG GD GT X.
    eapply v_bind; [apply part_good; [reflexivity|apply good_part; [discriminate|exact GG]]|].
    intros ? [g [-> PG]]. change (o_flag (c_obj (with_geo (csv_init id rad) (Some g)))) with rad.
    eapply v_bind; [apply dlp_good; [reflexivity|apply good_part; [discriminate|exact GD]]|].
    intros ? [d [-> PD]].
    destruct tau as [rows|]; cbn [tau_file option_map is_some].
    - eapply v_bind; [apply part_good; [reflexivity|apply good_part; [discriminate|exact (GT rows eq_refl)]]|].
      intros ? [t [-> PT]]. exact (X g d (Some t) PG PD PT).
    - exact (X g d None PG PD I).
  Qed.
  Lemma uranus_flow_good rad geo dlp tau rv inc :
    good_table (TGeo false) geo -> good_table (TUranus rad) dlp -> good_tau false tau ->
    (let '(mn, mx) := range_of (column L (TUranus rad) dlp cRHO) (column L (TUranus rad) dlp cTSET) in
     selects mn mx (column L (TGeo false) geo cRHODOT) rv inc) ->
    vh (uranus_csv_extract L (Some (table_text geo)) (Some (table_text dlp)) (tau_file tau) rad)
       (fun p => exists c, p = Some c /\ uranus_combined L rad rv inc geo dlp tau c).
  Proof using LW AL IL.
    intros GG GD GT SL. rewrite uranus_csv_extract_eq.
    apply (v_bind _ _ (fun b => exists i, b = Some i)); [apply v_alloc; [apply AL|eauto]|].
    intros b [id ->]. apply uranus_parts_good; try assumption. intros g d t PG PD PT.
    apply uranus_tail_good; try assumption; try reflexivity. apply PD.
  Qed.
  Lemma uranus_flow_chord rad geo dlp tau :
    good_table (TGeo false) geo -> good_table (TUranus rad) dlp -> good_tau false tau ->
    (let '(mn, mx) := range_of (column L (TUranus rad) dlp cRHO) (column L (TUranus rad) dlp cTSET) in
     test_chord mn mx = true) ->
    vh (uranus_csv_extract L (Some (table_text geo)) (Some (table_text dlp)) (tau_file tau) rad) failed_csv.
  Proof using LW AL.
    intros GG GD GT SL. rewrite uranus_csv_extract_eq.
    apply (v_bind _ _ (fun b => exists i, b = Some i)); [apply v_alloc; [apply AL|eauto]|].
    intros b [id ->]. apply uranus_parts_good; try assumption. intros g d t PG PD PT.
    apply uranus_tail_chord with (radians := rad) (geo := geo) (dlp := dlp); try assumption; try reflexivity. apply PD.
  Qed.

  (** ** Rejected files *)
  (** A file that is a good table or is rejected. *)
  Definition file_case (t : table) (f : option text) : Prop := rejected L t f \/ good_file t f.
  Lemma bad_part t f : rejected L t f ->
    vh (extract_table L t f) (fun p => exists o, p = Some o /\ o_err o = true).
  Proof using AL. intro X. apply rejected_v; [apply AL|exact X]. Qed.

  Lemma good_not_bad t rows : good_table t rows -> ~ rejected L t (Some (table_text rows)).
  Proof using LW.
    intros [W [NE B]] [X|X].
    - apply X. apply rows_columns; assumption.
    - rewrite (law_lines L LW _ _ W) in X. pose proof (rows_pos rows NE). lia.
  Qed.

  Lemma flow_bad legacy geo cal dlp tau :
    file_case (TGeo legacy) geo -> file_case TCal cal -> file_case (TDlp legacy) dlp ->
    (forall f, tau = Some f -> file_case (TTau legacy) f) ->
    (rejected L (TGeo legacy) geo \/ rejected L TCal cal \/ rejected L (TDlp legacy) dlp \/
     exists f, tau = Some f /\ rejected L (TTau legacy) f) ->
    vh (csv_extract L geo cal dlp tau legacy) failed_csv.
  Proof using LW AL.
    intros FG FC FD FT X. rewrite csv_extract_eq.
    apply (v_bind _ _ (fun b => exists i, b = Some i)); [apply v_alloc; [apply AL|eauto]|].
    intros b [id ->].
    assert (S4 : forall c, c_err c = true -> vh (tail legacy (is_some tau) c) failed_csv) by (intros; apply tail_err; assumption).
    assert (S3 : forall c, c_err c = true -> vh (c <~ (match tau with
              | Some t => extract_part L csv_family (extract_table L (TTau legacy) t) with_tau c
              | None => hret c
              end); tail legacy (is_some tau) c) failed_csv).
    { intros c E. apply (v_bind _ _ (fun x => x = c)); [|intros ? ->; apply S4; exact E].
      destruct tau; [apply part_skip; exact E|apply v_ret; reflexivity]. }
    assert (S2 : forall c, c_err c = true -> vh (
        c <~ extract_dlp_part L csv_family (extract_table L (TDlp legacy) dlp) c;
        c <~ (match tau with
              | Some t => extract_part L csv_family (extract_table L (TTau legacy) t) with_tau c
              | None => hret c
              end); tail legacy (is_some tau) c) failed_csv).
    { intros c E. apply (v_bind _ _ (fun x => x = c)); [|intros ? ->; apply S3; exact E]. apply dlp_skip; exact E. }
    destruct FG as [BG|[grows [-> GG]]].
    { eapply v_bind; [apply part_bad; [reflexivity|apply bad_part; exact BG]|].
      intros c [E _]. apply (v_bind _ _ (fun x => x = c)); [apply part_skip; exact E|intros ? ->; apply S2; exact E]. }
    eapply v_bind; [apply part_good; [reflexivity|apply good_part; [discriminate|exact GG]]|].
    intros ? [g [-> _]].
    destruct FC as [BC|[crows [-> GC]]].
    { eapply v_bind; [apply part_bad; [reflexivity|apply bad_part; exact BC]|]. intros c [E _]. apply S2; exact E. }
    eapply v_bind; [apply part_good; [reflexivity|apply good_part; [discriminate|exact GC]]|].
    intros ? [k [-> _]].
    destruct FD as [BD|[drows [-> GD]]].
    { eapply v_bind; [apply dlp_bad; [reflexivity|apply bad_part; exact BD]|]. intros c [E _]. apply S3; exact E. }
    eapply v_bind; [apply dlp_good; [reflexivity|apply good_part; [discriminate|exact GD]]|].
    intros ? [d [-> _]].
    destruct X as [X|[X|[X|[f [-> X]]]]];
      [destruct (good_not_bad _ _ GG X)|destruct (good_not_bad _ _ GC X)|
       destruct (good_not_bad _ _ GD X)|].
    eapply v_bind; [apply part_bad; [reflexivity|apply bad_part; exact X]|].
    intros c [E _]. apply S4; exact E.
  Qed.

  (** On the Uranus side the object read last is used after the members have been
      released. *)
  Lemma uranus_tail_null b (c : csv S) : c_err c = true -> c_dlp c = None -> vub NullDeref (uranus_tail b c).
  Proof.
    intros E D. unfold uranus_tail. cbv zeta.
    apply (vub_bind NullDeref _ _ (fun x => x = c)); [apply member_skip; exact E|]. intros ? ->.
    apply (vub_bind NullDeref _ _ (fun x => x = c)); [apply malloc_skip; exact E|]. intros ? ->.
    apply (vub_bind NullDeref _ _ (fun x => x = c)); [apply member_skip; exact E|]. intros ? ->.
    apply (vub_bind NullDeref _ _ (fun x => x = c)); [apply member_skip; exact E|]. intros ? ->.
    apply (vub_bind NullDeref _ _ (fun x => x = c)); [destruct b; [apply member_skip; exact E|apply v_ret; reflexivity]|]. intros ? ->.
    do 2 (apply (vub_bind NullDeref _ _ (fun r => r = None)); [apply destroy_none|intros ? ->]).
    rewrite D. intro h. exists NullDeref. split; [reflexivity|left; reflexivity].
  Qed.
  Lemma uranus_flow_bad rad geo dlp tau :
    file_case (TGeo false) geo -> file_case (TUranus rad) dlp ->
    (forall f, tau = Some f -> file_case (TTau false) f) ->
    (rejected L (TGeo false) geo \/ rejected L (TUranus rad) dlp \/
     exists f, tau = Some f /\ rejected L (TTau false) f) ->
    vub NullDeref (uranus_csv_extract L geo dlp tau rad).
  Proof using LW AL.
    intros FG FD FT X. rewrite uranus_csv_extract_eq.
    apply (vub_bind NullDeref _ _ (fun b => exists i, b = Some i)); [apply v_alloc; [apply AL|eauto]|].
    intros b [id ->].
    assert (S3 : forall c, c_err c = true -> c_dlp c = None -> vub NullDeref (c <~ (match tau with
              | Some t => extract_part L uranus_family (extract_table L (TTau false) t) with_tau c
              | None => hret c
              end); uranus_tail (is_some tau) c)).
    { intros c E N. apply (vub_bind NullDeref _ _ (fun x => x = c)); [|intros ? ->; apply uranus_tail_null; assumption].
      destruct tau; [apply part_skip; exact E|apply v_ret; reflexivity]. }
    destruct FG as [BG|[grows [-> GG]]].
    { eapply vub_bind; [apply part_bad; [reflexivity|apply bad_part; exact BG]|].
      intros c [E N]. apply (vub_bind NullDeref _ _ (fun x => x = c)); [apply dlp_skip; exact E|intros ? ->; apply S3; assumption]. }
    eapply vub_bind; [apply part_good; [reflexivity|apply good_part; [discriminate|exact GG]]|].
    intros ? [g [-> _]]. change (o_flag (c_obj (with_geo (csv_init id rad) (Some g)))) with rad.
    destruct FD as [BD|[drows [-> GD]]].
    { eapply vub_bind; [apply dlp_bad; [reflexivity|apply bad_part; exact BD]|]. intros c [E N]. apply S3; assumption. }
    eapply vub_bind; [apply dlp_good; [reflexivity|apply good_part; [discriminate|exact GD]]|].
    intros ? [d [-> _]].
    destruct X as [X|[X|[f [-> X]]]];
      [destruct (good_not_bad _ _ GG X)|destruct (good_not_bad _ _ GD X)|].
    eapply vub_bind; [apply part_bad; [reflexivity|apply bad_part; exact X]|].
    intros c [E N]. apply uranus_tail_null; assumption.
  Qed.
End All.
