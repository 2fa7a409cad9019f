(** * Proof_PyCsv2: the values that the Python CSV classes show. *)
From Coq Require Import List ZArith Lia Bool String Ascii Reals.
From Verif Require Import Base BaseFacts Dbl Scalar Model_TauRec Model_Create Spec_Tau Spec_Select Spec_Recon Model_Heap Model_Csv Model_CsvData Model_Py
  Model_PyCsv Spec_Csv Spec_CsvData Spec_Py Spec_PyCsv Proof_Misc Proof_Heap Proof_CsvOwn Proof_CsvOwn2 Proof_CsvOwn3
  Proof_Csv Proof_Csv2 Proof_CsvVal Proof_CsvVal2 Proof_CsvVal3 Proof_CsvVal4 Proof_CsvVal5 Proof_PyCsv.
Import ListNotations.
Open Scope list_scope.
Open Scope Z_scope.

Section Vals.
  Context {S : scalar}.
  Variable L : csvlib S.

  Lemma attr_of (o : obj S) v h name c vs :
    show_cols steal_order o new_instance h = Ok (v, h) -> In (name, c) member_names ->
    values_are o c vs -> zlen vs = o_n o -> attr_is v name vs.
  Proof.
    intros Sh I [id E] Z0. exists c, id. split; [exact I|].
    rewrite (shown_all o v h Sh c (steal_all c name I)), E. cbn [cut].
    rewrite firstn_all2; [reflexivity|]. rewrite map_length. unfold zlen in Z0. lia.
  Qed.
  Lemma none_of (o : obj S) v h name c :
    show_cols steal_order o new_instance h = Ok (v, h) -> In (name, c) member_names ->
    o_col o c = None -> attr_none v name.
  Proof.
    intros Sh I E. exists c. split; [exact I|].
    rewrite (shown_all o v h Sh c (steal_all c name I)), E. reflexivity.
  Qed.
  (** Every member is NULL or an array of the right length. *)
  Definition sized_obj (o : obj S) : Prop :=
    forall c, In c steal_order -> o_col o c = None \/ exists vs, values_are o c vs /\ zlen vs = o_n o.
  Lemma sized_shown (o : obj S) h : sized_obj o -> exists v, show_cols steal_order o new_instance h = Ok (v, h).
  Proof.
    intro Z0. apply show_succeeds. intros c id l I E. destruct (Z0 c I) as [X|[vs [[id' X] N]]]; [congruence|].
    rewrite E in X. injection X as <- ->. rewrite zlen_map. lia.
  Qed.
End Vals.

Ltac mem_name := unfold member_names; cbn [In]; tauto.
Section Shown.
  Context {S : scalar}.
  Variable L : csvlib S.
  Hypothesis IL : interp_law L.

  Lemma cassini_shows legacy rv first geo cal dlp tau (c : csv S) h :
    combined L legacy rv first geo cal dlp tau c ->
    (tau = None -> forall x, In x taus -> o_col (c_obj c) x = None) ->
    exists v, show_cols steal_order (c_obj c) new_instance h = Ok (v, h) /\
      shows_cassini L legacy rv first geo cal dlp tau v.
  Proof using IL.
    intros C T.
    assert (ZC : forall t y, zlen (column L t dlp y) = zlen dlp) by (intros; apply column_len).
    assert (N : o_n (c_obj c) = zlen dlp) by exact (cb_n _ _ _ _ _ _ _ _ _ C).
    assert (ZP : zlen (if legacy
        then map2 (power L) (column L (TDlp true) dlp cRAWTAU) (column L (TDlp true) dlp cB)
        else column L (TDlp false) dlp cPNORM) = zlen dlp).
    { destruct legacy; [rewrite map2_zlen|]; rewrite ?ZC; reflexivity. }
    assert (Z0 : sized_obj (c_obj c)).
    { intros x I. rewrite N.
      destruct (in_dec col_eq_dec x taus) as [Tx|Tx].
      - destruct tau as [rows|]; [|left; apply T; [reflexivity|exact Tx]]. right.
        destruct (cb_tau _ _ _ _ _ _ _ _ _ C rows eq_refl) as [T1 [T2 T3]].
        destruct Tx as [<-|[<-|[<-|[]]]].
        + eexists. split; [exact T1|]. rewrite interp_zlen by exact IL. apply ZC.
        + eexists. split; [exact T3|]. destruct legacy; [rewrite map2_zlen|]; rewrite ?interp_zlen, ?ZC by exact IL; reflexivity.
        + eexists. split; [exact T2|]. rewrite interp_zlen by exact IL. apply ZC.
      - right.
        assert (P1 : In x [cRHO; cRAWTAU; cTRET; cTSET; cTOET; cCPOLE; cCTIM; cRAWTHR; cPHASE; cB; cPHIRL] \/
                  x = cPHIDEG \/ x = cPNORM \/ In x [cD; cRHODOT; cRX; cRY; cRZ] \/ x = cFSKY).
        { unfold steal_order in I. cbn in I, Tx |- *. intuition congruence. }
        destruct P1 as [P|[->|[->|[P| ->]]]].
        + eexists. split; [exact (cb_same _ _ _ _ _ _ _ _ _ C x P)|apply ZC].
        + eexists. split; [exact (cb_phi _ _ _ _ _ _ _ _ _ C)|apply ZC].
        + eexists. split; [exact (cb_power _ _ _ _ _ _ _ _ _ C)|exact ZP].
        + eexists. split; [exact (cb_geo _ _ _ _ _ _ _ _ _ C x P)|]. rewrite interp_zlen by exact IL. apply ZC.
        + eexists. split; [exact (cb_sky _ _ _ _ _ _ _ _ _ C)|]. rewrite interp_zlen by exact IL. apply ZC. }
    destruct (sized_shown (c_obj c) h Z0) as [v Sh]. exists v. split; [exact Sh|].
    split.
    - intros name x I. apply (attr_of (c_obj c) v h name x); [exact Sh| | |rewrite N; apply ZC].
      + unfold dlp_attributes in I. unfold member_names. cbn [In] in *. tauto.
      + apply (cb_same _ _ _ _ _ _ _ _ _ C). unfold dlp_attributes in I. cbn [In] in *.
        intuition (match goal with H : (_, _) = _ |- _ => injection H as <- <- end; tauto).
    - apply (attr_of (c_obj c) v h _ cPHIDEG); [exact Sh|mem_name|exact (cb_phi _ _ _ _ _ _ _ _ _ C)|rewrite N; apply ZC].
    - apply (attr_of (c_obj c) v h _ cPNORM); [exact Sh|mem_name|exact (cb_power _ _ _ _ _ _ _ _ _ C)|rewrite N; exact ZP].
    - intros name x I. apply (attr_of (c_obj c) v h name x); [exact Sh| | |rewrite N, interp_zlen by exact IL; apply ZC].
      + unfold geo_attributes in I. unfold member_names. cbn [In] in *. tauto.
      + apply (cb_geo _ _ _ _ _ _ _ _ _ C). unfold geo_attributes in I. cbn [In] in *.
        intuition (match goal with H : (_, _) = _ |- _ => injection H as <- <- end; tauto).
    - apply (attr_of (c_obj c) v h _ cFSKY); [exact Sh|mem_name|exact (cb_sky _ _ _ _ _ _ _ _ _ C)|].
      rewrite N, interp_zlen by exact IL; apply ZC.
    - destruct tau as [rows|].
      + destruct (cb_tau _ _ _ _ _ _ _ _ _ C rows eq_refl) as [T1 [T2 T3]]. cbv zeta. split; [|split].
        * apply (attr_of (c_obj c) v h _ cTAUPHASE); [exact Sh|mem_name|exact T1|].
          rewrite N, interp_zlen by exact IL; apply ZC.
        * apply (attr_of (c_obj c) v h _ cTAUV); [exact Sh|mem_name|exact T2|].
          rewrite N, interp_zlen by exact IL; apply ZC.
        * apply (attr_of (c_obj c) v h _ cTAUPOWER); [exact Sh|mem_name|exact T3|].
          rewrite N. destruct legacy; [rewrite map2_zlen|]; rewrite ?interp_zlen, ?ZC by exact IL; reflexivity.
      + specialize (T eq_refl). split; [|split].
        * apply (none_of (c_obj c) v h _ cTAUPHASE Sh); [mem_name|apply T; cbn; tauto].
        * apply (none_of (c_obj c) v h _ cTAUV Sh); [mem_name|apply T; cbn; tauto].
        * apply (none_of (c_obj c) v h _ cTAUPOWER Sh); [mem_name|apply T; cbn; tauto].
  Qed.

  Lemma uranus_shows rad rv first geo dlp tau (c : csv S) h :
    uranus_combined L rad rv first geo dlp tau c ->
    (tau = None -> forall x, In x taus -> o_col (c_obj c) x = None) ->
    exists v, show_cols steal_order (c_obj c) new_instance h = Ok (v, h) /\
      shows_uranus L rad rv first geo dlp tau v.
  Proof using IL.
    intros C T.
    assert (ZC : forall t y, zlen (column L t dlp y) = zlen dlp) by (intros; apply column_len).
    assert (N : o_n (c_obj c) = zlen dlp) by exact (uc_n _ _ _ _ _ _ _ _ C).
    assert (Z0 : sized_obj (c_obj c)).
    { intros x I. rewrite N.
      destruct (in_dec col_eq_dec x taus) as [Tx|Tx].
      - destruct tau as [rows|]; [|left; apply T; [reflexivity|exact Tx]]. right.
        destruct (uc_tau _ _ _ _ _ _ _ _ C rows eq_refl) as [T1 [T2 T3]].
        destruct Tx as [<-|[<-|[<-|[]]]]; (eexists; split; [first [exact T1|exact T2|exact T3]|]);
          rewrite interp_zlen by exact IL; apply ZC.
      - right.
        assert (P1 : In x [cRHO; cRAWTAU; cTRET; cTSET; cTOET; cCPOLE; cCTIM; cRAWTHR; cPHASE; cPHIDEG; cB; cPHIRL; cPNORM; cFSKY]
                  \/ In x [cD; cRHODOT; cRX; cRY; cRZ]).
        { unfold steal_order in I. cbn in I, Tx |- *. intuition congruence. }
        destruct P1 as [P|P].
        + eexists. split; [exact (uc_same _ _ _ _ _ _ _ _ C x P)|apply ZC].
        + eexists. split; [exact (uc_geo _ _ _ _ _ _ _ _ C x P)|]. rewrite interp_zlen by exact IL. apply ZC. }
    destruct (sized_shown (c_obj c) h Z0) as [v Sh]. exists v. split; [exact Sh|].
    split.
    - intros name x I. apply (attr_of (c_obj c) v h name x); [exact Sh| | |rewrite N; apply ZC].
      + unfold dlp_attributes in I. unfold member_names. cbn [In app] in *. tauto.
      + apply (uc_same _ _ _ _ _ _ _ _ C). unfold dlp_attributes in I. cbn [In app] in *.
        intuition (match goal with H : (_, _) = _ |- _ => injection H as <- <- end; tauto).
    - intros name x I. apply (attr_of (c_obj c) v h name x); [exact Sh| | |rewrite N, interp_zlen by exact IL; apply ZC].
      + unfold geo_attributes in I. unfold member_names. cbn [In] in *. tauto.
      + apply (uc_geo _ _ _ _ _ _ _ _ C). unfold geo_attributes in I. cbn [In] in *.
        intuition (match goal with H : (_, _) = _ |- _ => injection H as <- <- end; tauto).
    - destruct tau as [rows|].
      + destruct (uc_tau _ _ _ _ _ _ _ _ C rows eq_refl) as [T1 [T2 T3]]. cbv zeta. split; [|split].
        * apply (attr_of (c_obj c) v h _ cTAUPHASE); [exact Sh|mem_name|exact T1|].
          rewrite N, interp_zlen by exact IL; apply ZC.
        * apply (attr_of (c_obj c) v h _ cTAUV); [exact Sh|mem_name|exact T2|].
          rewrite N, interp_zlen by exact IL; apply ZC.
        * apply (attr_of (c_obj c) v h _ cTAUPOWER); [exact Sh|mem_name|exact T3|].
          rewrite N, interp_zlen by exact IL; apply ZC.
      + specialize (T eq_refl). split; [|split].
        * apply (none_of (c_obj c) v h _ cTAUPHASE Sh); [mem_name|apply T; cbn; tauto].
        * apply (none_of (c_obj c) v h _ cTAUV Sh); [mem_name|apply T; cbn; tauto].
        * apply (none_of (c_obj c) v h _ cTAUPOWER Sh); [mem_name|apply T; cbn; tauto].
  Qed.
End Shown.

(** ** Merged tables *)
Lemma firstn_entry {A} (l : list A) : forall n i, (i < n)%nat -> nth_error (firstn n l) i = nth_error l i.
Proof.
  induction l as [|a l IH]; intros n i Hi; [rewrite firstn_nil; reflexivity|].
  destruct n as [|n]; [lia|]. destruct i as [|i]; [reflexivity|]. cbn. apply IH. lia.
Qed.
Section Merged.
  Context {S : scalar}.
  Variable L : csvlib S.

  Lemma merged_shows rows (o : obj S) h :
    well_formed 19 rows -> rows <> [] -> o_n o = zlen rows -> stores L TMerged rows o ->
    (forall c i, In c taus -> 0 <= i < zlen rows -> unwritten o c i) ->
    exists v, show_cols steal_order o new_instance h = Ok (v, h) /\ shows_merged L rows v /\
      (forall name, In name ["tau_phase_deg_vals"%string; "tau_power_vals"%string; "tau_vals"%string] ->
         shows_unwritten v name (zlen rows)).
  Proof.
    intros W NE N ST UN.
    assert (P0 : 0 < zlen rows) by (destruct rows; [congruence|unfold zlen; cbn [Datatypes.length]; lia]).
    assert (HC : forall c i fs, In c (columns TMerged) -> entry rows i fs ->
        holds_at o c i (stored_value L TMerged c (nth (position c (columns TMerged)) fs []))).
    { intros c i fs I [Hi Ef]. pose proof (position_entry c _ I) as [_ P]. rewrite Nat2Z.id in P.
      apply (ST i (Z.of_nat (position c (columns TMerged))) fs); [split; assumption| |apply position_entry; exact I].
      assert (G : good_row 19 fs).
      { unfold well_formed in W; rewrite Forall_forall in W. apply W. exact (nth_error_In _ _ Ef). }
      split; [lia|]. rewrite Nat2Z.id. apply nth_error_nth'.
      destruct G as [-> _]. change 19%nat with (Datatypes.length (columns TMerged)). apply nth_error_Some. congruence. }
    assert (Last : exists fs, entry rows (zlen rows - 1) fs).
    { destruct (nth_error rows (Z.to_nat (zlen rows - 1))) as [fs|] eqn:E; [exists fs; split; [lia|exact E]|].
      apply nth_error_None in E. unfold zlen in *. lia. }
    destruct Last as [fl Hl].
    assert (Le : forall c id l, In c steal_order -> o_col o c = Some (id, l) -> zlen rows <= zlen l).
    { intros c id l I E.
      assert (X : exists w, entry l (zlen rows - 1) w).
      { destruct (in_dec col_eq_dec c taus) as [Tx|Tx].
        - destruct (UN c (zlen rows - 1) Tx ltac:(lia)) as [id' [l' [E' X]]]. rewrite E in E'; injection E' as <- <-. eauto.
        - assert (Ic : In c (columns TMerged)) by (unfold steal_order in I; cbn in I, Tx |- *; tauto).
          destruct (HC c _ fl Ic Hl) as [id' [l' [E' X]]]. rewrite E in E'; injection E' as <- <-. eauto. }
      destruct X as [w [_ X]]. assert (X' : nth_error l (Z.to_nat (zlen rows - 1)) <> None) by congruence.
      apply nth_error_Some in X'. unfold zlen in *. lia. }
    destruct (show_succeeds o h) as [v Sh]; [rewrite N; exact Le|]. exists v. split; [exact Sh|].
    assert (Cut : forall c id l (f : nat -> option S), In c steal_order -> o_col o c = Some (id, l) ->
        (forall i, 0 <= i < zlen rows -> entry l i (f (Z.to_nat i))) ->
        v c = Some (id, map f (seq 0 (Z.to_nat (zlen rows))))).
    { intros c id l f I E F. rewrite (shown_all o v h Sh c I), E. cbn [cut]. rewrite N. do 2 f_equal.
      apply list_ext. intro k. rewrite nth_error_map.
      destruct (lt_dec k (Z.to_nat (zlen rows))) as [Lt|Ge].
      - rewrite firstn_entry by exact Lt. destruct (F (Z.of_nat k) ltac:(lia)) as [_ X]. rewrite Nat2Z.id in X.
        rewrite X. rewrite (nth_error_nth' _ 0%nat) by (rewrite seq_length; exact Lt). rewrite seq_nth by exact Lt. reflexivity.
      - pose proof (Le c id l I E) as Lc. transitivity (@None (option S)); [apply nth_error_None; rewrite firstn_length; lia|].
        symmetry. replace (nth_error (seq 0 (Z.to_nat (zlen rows))) k) with (@None nat); [reflexivity|].
        symmetry; apply nth_error_None; rewrite seq_length; lia. }
    split.
    - intros name x I Ic. pose proof (steal_all x name I) as Is.
      destruct (HC x _ fl Ic Hl) as [id [l [E _]]]. exists x, id. split; [exact I|].
      rewrite (Cut x id l (fun k => option_map (fun fs => stored_value L TMerged x (nth (position x (columns TMerged)) fs [])) (nth_error rows k)) Is E).
      + do 2 f_equal. apply list_ext. intro k. rewrite !nth_error_map. unfold column. rewrite nth_error_map.
        destruct (lt_dec k (Z.to_nat (zlen rows))) as [Lt|Ge].
        * rewrite (nth_error_nth' (seq 0 _) 0%nat) by (rewrite seq_length; exact Lt). rewrite seq_nth by exact Lt. cbn [option_map].
          replace (0 + k)%nat with k by lia.
          destruct (nth_error rows k) eqn:Ek; [reflexivity|]. apply nth_error_None in Ek. unfold zlen in Lt; lia.
        * replace (nth_error (seq 0 (Z.to_nat (zlen rows))) k) with (@None nat) by (symmetry; apply nth_error_None; rewrite seq_length; lia).
          replace (nth_error rows k) with (@None (list text)) by (symmetry; apply nth_error_None; unfold zlen in Ge; lia).
          reflexivity.
      + intros i Hi. destruct (nth_error rows (Z.to_nat i)) as [fs|] eqn:Ef.
        2:{ apply nth_error_None in Ef. unfold zlen in Hi; lia. }
        destruct (HC x i fs Ic (conj (proj1 Hi) Ef)) as [id' [l' [E' X]]]. rewrite E in E'; injection E' as <- <-. exact X.
    - assert (Rep : forall n b, map (fun _ : nat => @None S) (seq b n) = repeat None n).
      { induction n as [|n IH]; intro b; [reflexivity|]. cbn. f_equal. apply IH. }
      assert (G : forall name x, In (name, x) member_names -> In x taus -> shows_unwritten v name (zlen rows)).
      { intros name x I Tx. destruct (UN x 0 Tx ltac:(lia)) as [id [l [E _]]]. exists x, id. split; [exact I|].
        rewrite (Cut x id l (fun _ => None) (steal_all x name I) E); [rewrite Rep; reflexivity|].
        intros i Hi. destruct (UN x i Tx Hi) as [id' [l' [E' X]]]. rewrite E in E'; injection E' as <- <-. exact X. }
      intros name [<-|[<-|[<-|[]]]]; [apply (G _ cTAUPHASE)|apply (G _ cTAUPOWER)|apply (G _ cTAUV)]; first [mem_name|cbn; tauto].
  Qed.
  Lemma merged_init o h h1 d : merged_extract L d h = Ok (Some o, h1) -> o_err o = false ->
    forall v, show_cols steal_order o new_instance h1 = Ok (v, h1) ->
    get_merged_csv_data_init L new_instance (Some d) h = Ok (CsvMade v, h1).
  Proof.
    intros E Er v Sh. unfold get_merged_csv_data_init, hbind, file_arg, hlift. cbn [bind].
    rewrite E. cbn [bind]. rewrite Er, Sh. reflexivity.
  Qed.
  Lemma merged_py rows hd h :
    csv_laws L -> allocs_ok L KMerged -> good_heap h -> rows <> [] ->
    match hd with
    | None => well_formed 19 rows /\ zlen rows < 2 ^ 64 /\ ~ starts_with_B (table_text rows)
    | Some b => well_formed 19 (b :: rows) /\ zlen (b :: rows) < 2 ^ 64 /\ starts_with_B (row_text b)
    end ->
    exists v h1, get_merged_csv_data_init L new_instance
        (Some (Some (table_text (match hd with Some b => b :: rows | None => rows end)))) h = Ok (CsvMade v, h1) /\
      shows_merged L rows v /\
      (forall name, In name ["tau_phase_deg_vals"%string; "tau_power_vals"%string; "tau_vals"%string] ->
         shows_unwritten v name (zlen rows)).
  Proof.
    intros LW A G NE. destruct hd as [b|]; intros [W [SZ HB]].
    - destruct (header_rows L b rows h LW W SZ HB A G) as [o [h1 [E [Er [N [ST UN]]]]]].
      assert (W' : well_formed 19 rows) by (inversion W; assumption).
      destruct (merged_shows rows o h1 W' NE N ST) as [v [Sh X]].
      { intros c i I B. apply UN; [exact I|lia]. }
      exists v, h1. split; [eapply merged_init; [exact E|exact Er|exact Sh]|exact X].
    - destruct (no_header_unwritten L rows h LW W NE SZ HB A G) as [o [h1 [E [Er [N [ST UN]]]]]].
      destruct (merged_shows rows o h1 W NE N ST UN) as [v [Sh X]].
      exists v, h1. split; [eapply merged_init; [exact E|exact Er|exact Sh]|exact X].
  Qed.
End Merged.

(** ** Cassini and Uranus *)
Section Final.
  Variable L : csvlib dbl_scalar.
  Hypothesis LW : csv_laws L.
  Hypothesis AL : all_allocs L.

  Lemma raised_py K (c : csv dbl_scalar) h h0 : format_ok (fam_dlp K) ->
    returned (live h0) (files h0) (Some c) h -> c_err c = true ->
    exists h1, finish K new_instance (Some c) h = Ok (@CsvRaised dbl_scalar, h1).
  Proof using Type.
    intros KO R Er. destruct (csv_destroy_ok K _ _ _ _ KO R) as [h1 [E _]].
    exists h1. unfold finish. rewrite Er. unfold hbind. rewrite E. reflexivity.
  Qed.
  Lemma cassini_raised g k d tau dep h c h1 : good_heap h ->
    csv_extract L g k d tau dep h = Ok (Some c, h1) -> c_err c = true ->
    exists h2, extract_csv_data_init L new_instance (Some g) (Some k) (Some d) tau dep h = Ok (@CsvRaised dbl_scalar, h2).
  Proof using AL.
    intros G E Er. destruct (all_allocs_list L AL) as [A1 A2].
    destruct (csv_extract_own L (live h) h g k d tau dep (owns_start h G) (fun _ => A2 _) (fun x _ => A1 _ x)) as [M Q].
    rewrite extract_eq. unfold hbind. rewrite E. cbn [bind].
    exact (raised_py csv_family c h1 h dlp_format_ok (Q _ _ E) Er).
  Qed.
  Lemma uranus_raised g d tau rad h c h1 : good_heap h ->
    uranus_csv_extract L g d tau rad h = Ok (Some c, h1) -> c_err c = true ->
    exists h2, get_uranus_data_init L new_instance (Some g) (Some d) tau rad h = Ok (@CsvRaised dbl_scalar, h2).
  Proof using AL.
    intros G E Er. destruct (all_allocs_list L AL) as [A1 A2].
    destruct (uranus_csv_extract_own L (live h) h g d tau rad (owns_start h G) (fun _ => A2 _) (fun x _ => A1 _ x)) as [M Q].
    rewrite uranus_eq. unfold hbind. rewrite E. cbn [bind].
    exact (raised_py uranus_family c h1 h uranus_dlp_format_ok (Q _ _ E) Er).
  Qed.
  Hypothesis IL : interp_law L.
  Lemma cassini_py legacy rv first geo cal dlp tau h :
    good_heap h ->
    good_table (TGeo legacy) geo -> good_table TCal cal -> good_table (TDlp legacy) dlp ->
    good_tau legacy tau ->
    let V := speeds (column L (TDlp legacy) dlp cRHO) (column L (TDlp legacy) dlp cTSET) in
    let dots := column L (TGeo legacy) geo cRHODOT in
    numbers V -> numbers dots -> direction rv V ->
    first_at (toward rv) (if rv then rev dots else dots) first ->
    exists v h1, extract_csv_data_init L new_instance (Some (Some (table_text geo))) (Some (Some (table_text cal)))
        (Some (Some (table_text dlp))) (tau_file tau) legacy h = Ok (CsvMade v, h1) /\
      shows_cassini L legacy rv first geo cal dlp tau v.
  Proof using LW AL IL.
    intros G GG GC GD GT V dots NV ND DR FA.
    destruct (cassini_combined L LW IL AL legacy rv first geo cal dlp tau h G GG GC GD GT NV ND DR FA) as [c [h1 [E C]]].
    destruct (cassini_shows L IL legacy rv first geo cal dlp tau c h1 C) as [v [Sh X]].
    { intros -> x I. exact (csv_extract_quiet L _ _ _ _ h (Some c) h1 E c x eq_refl I). }
    exists v, h1. split; [|exact X]. rewrite extract_eq. unfold hbind. rewrite E. cbn [bind finish].
    rewrite (cb_err _ _ _ _ _ _ _ _ _ C). unfold hbind. rewrite Sh. reflexivity.
  Qed.
  Lemma uranus_py rad rv first geo dlp tau h :
    good_heap h ->
    good_table (TGeo false) geo -> good_table (TUranus rad) dlp -> good_tau false tau ->
    let V := speeds (column L (TUranus rad) dlp cRHO) (column L (TUranus rad) dlp cTSET) in
    let dots := column L (TGeo false) geo cRHODOT in
    numbers V -> numbers dots -> direction rv V ->
    first_at (toward rv) (if rv then rev dots else dots) first ->
    exists v h1, get_uranus_data_init L new_instance (Some (Some (table_text geo)))
        (Some (Some (table_text dlp))) (tau_file tau) rad h = Ok (CsvMade v, h1) /\
      shows_uranus L rad rv first geo dlp tau v.
  Proof using LW AL IL.
    intros G GG GD GT V dots NV ND DR FA.
    destruct (uranus_good L LW IL AL rad rv first geo dlp tau h G GG GD GT NV ND DR FA) as [c [h1 [E C]]].
    destruct (uranus_shows L IL rad rv first geo dlp tau c h1 C) as [v [Sh X]].
    { intros -> x I. exact (uranus_extract_quiet L _ _ _ h (Some c) h1 E c x eq_refl I). }
    exists v, h1. split; [|exact X]. rewrite uranus_eq. unfold hbind. rewrite E. cbn [bind finish].
    rewrite (uc_err _ _ _ _ _ _ _ _ C). unfold hbind. rewrite Sh. reflexivity.
  Qed.
  Lemma uranus_crash rad geo dlp tau h :
    good_heap h ->
    unusable L (TGeo false) geo \/ good_file (TGeo false) geo ->
    unusable L (TUranus rad) dlp \/ good_file (TUranus rad) dlp ->
    (forall f, tau = Some f -> unusable L (TTau false) f \/ good_file (TTau false) f) ->
    unusable L (TGeo false) geo \/ unusable L (TUranus rad) dlp \/
      (exists f, tau = Some f /\ unusable L (TTau false) f) ->
    get_uranus_data_init L new_instance (Some geo) (Some dlp) tau rad h = UB NullDeref.
  Proof using LW AL.
    intros G A B C D. rewrite uranus_eq. unfold hbind.
    rewrite (uranus_unusable L LW AL rad geo dlp tau h G A B C D). reflexivity.
  Qed.
  Lemma cassini_unusable_py legacy geo cal dlp tau h :
    good_heap h ->
    unusable L (TGeo legacy) geo \/ good_file (TGeo legacy) geo ->
    unusable L TCal cal \/ good_file TCal cal ->
    unusable L (TDlp legacy) dlp \/ good_file (TDlp legacy) dlp ->
    (forall f, tau = Some f -> unusable L (TTau legacy) f \/ good_file (TTau legacy) f) ->
    unusable L (TGeo legacy) geo \/ unusable L TCal cal \/ unusable L (TDlp legacy) dlp \/
      (exists f, tau = Some f /\ unusable L (TTau legacy) f) ->
    exists h1, extract_csv_data_init L new_instance (Some geo) (Some cal) (Some dlp) tau legacy h = Ok (@CsvRaised dbl_scalar, h1).
  Proof using LW AL.
    intros G A B C D X. destruct (cassini_unusable L LW AL legacy geo cal dlp tau h G A B C D X) as [c [h1 [E Er]]].
    exact (cassini_raised _ _ _ _ _ h c h1 G E Er).
  Qed.
  Lemma cassini_chord_py legacy geo cal dlp tau h :
    good_heap h ->
    good_table (TGeo legacy) geo -> good_table TCal cal -> good_table (TDlp legacy) dlp ->
    good_tau legacy tau ->
    let V := speeds (column L (TDlp legacy) dlp cRHO) (column L (TDlp legacy) dlp cTSET) in
    numbers V -> chord V ->
    exists h1, extract_csv_data_init L new_instance (Some (Some (table_text geo))) (Some (Some (table_text cal)))
        (Some (Some (table_text dlp))) (tau_file tau) legacy h = Ok (@CsvRaised dbl_scalar, h1).
  Proof using LW AL.
    intros G A B C D V NV CV. destruct (cassini_chord L LW AL legacy geo cal dlp tau h G A B C D NV CV) as [c [h1 [E Er]]].
    exact (cassini_raised _ _ _ _ _ h c h1 G E Er).
  Qed.
  Lemma uranus_chord_py rad geo dlp tau h :
    good_heap h ->
    good_table (TGeo false) geo -> good_table (TUranus rad) dlp -> good_tau false tau ->
    let V := speeds (column L (TUranus rad) dlp cRHO) (column L (TUranus rad) dlp cTSET) in
    numbers V -> chord V ->
    exists h1, get_uranus_data_init L new_instance (Some (Some (table_text geo)))
        (Some (Some (table_text dlp))) (tau_file tau) rad h = Ok (@CsvRaised dbl_scalar, h1).
  Proof using LW AL.
    intros G A B C V NV CV. destruct (uranus_chord L LW AL rad geo dlp tau h G A B C NV CV) as [c [h1 [E Er]]].
    exact (uranus_raised _ _ _ _ h c h1 G E Er).
  Qed.
End Final.
Lemma merged_unusable_py {S : scalar} (L : csvlib S) f h :
  good_heap h -> l_alloc L (SObj KMerged) = true ->
  match f with None => True | Some s => l_column_count L s <> 19 end ->
  exists h1, get_merged_csv_data_init L new_instance (Some f) h = Ok (@CsvRaised S, h1).
Proof.
  intros G A B.
  assert (X : exists o h1, merged_extract L f h = Ok (Some o, h1) /\ o_err o = true).
  { destruct f as [s|].
    - destruct (wrong_columns L TMerged s h A B) as [o [h1 [E [Er _]]]]. exists o, h1. split; assumption.
    - destruct (unopened L TMerged h A) as [o [h1 [E [Er _]]]]. exists o, h1. split; assumption. }
  destruct X as [o [h1 [E Er]]].
  pose proof (reader_both L TMerged) as [RO RS]. pose proof (owns_start h G) as O.
  destruct (extract_own L _ [] _ _ _ _ _ _ _ merged_format_ok RO O E) as [O1 [M _]].
  destruct (destroy_own (live h) merged_format (Some o) [] h1 merged_format_ok M O1) as [h2 [E2 _]].
  exists h2. unfold get_merged_csv_data_init, hbind, file_arg, hlift. cbn [bind].
  rewrite E. cbn [bind]. rewrite Er, E2. reflexivity.
Qed.

(** ** An instance as the DLP argument of the reconstruction *)
Lemma written_some l : written (map Some l) = Some l.
Proof. induction l as [|x l IH]; [reflexivity|]. cbn. rewrite IH. reflexivity. Qed.
Lemma names_found name c : In (name, c) member_names ->
  find (fun x => String.eqb (fst x) name) member_names = Some (name, c).
Proof.
  unfold member_names. cbn [In]. intro I.
  repeat (destruct I as [I|I]; [injection I as <- <-; reflexivity|]). destruct I.
Qed.
Lemma attr_found (v : pycsv dbl_scalar) name vs :
  attr_is v name vs -> p_attr (instance_dlp v) name = AArray vs.
Proof.
  intros [c [id [I E]]]. unfold instance_dlp, instance_attr. cbn [p_attr].
  rewrite (names_found name c I), E. rewrite written_some. reflexivity.
Qed.
Ltac inl := cbn; tauto.
Lemma cassini_full (L : csvlib dbl_scalar) legacy rv first geo cal dlp tau v :
  interp_law L -> shows_cassini L legacy rv first geo cal dlp tau v -> full_dlp (instance_dlp v) (zlen dlp).
Proof.
  intros IL [A B C D E _] g.
  assert (ZC : forall t y, zlen (column L t dlp y) = zlen dlp) by (intros; apply column_len).
  assert (G : forall name vs, attr_is v name vs -> zlen vs = zlen dlp ->
    exists l, p_attr (instance_dlp v) name = AArray l /\ zlen l = zlen dlp).
  { intros name vs X Y. exists vs. split; [apply attr_found; exact X|exact Y]. }
  destruct g; unfold holds; cbn [attribute];
    first [eapply G; [eapply A; inl|apply ZC]
          |eapply G; [exact B|apply ZC]
          |eapply G; [exact C|destruct legacy; [rewrite map2_zlen|]; rewrite ?ZC; reflexivity]
          |eapply G; [eapply D; inl|rewrite interp_zlen by exact IL; apply ZC]
          |eapply G; [exact E|rewrite interp_zlen by exact IL; apply ZC]].
Qed.
Lemma uranus_full (L : csvlib dbl_scalar) rad rv first geo dlp tau v :
  interp_law L -> shows_uranus L rad rv first geo dlp tau v -> full_dlp (instance_dlp v) (zlen dlp).
Proof.
  intros IL [A D _] g.
  assert (ZC : forall t y, zlen (column L t dlp y) = zlen dlp) by (intros; apply column_len).
  assert (G : forall name vs, attr_is v name vs -> zlen vs = zlen dlp ->
    exists l, p_attr (instance_dlp v) name = AArray l /\ zlen l = zlen dlp).
  { intros name vs X Y. exists vs. split; [apply attr_found; exact X|exact Y]. }
  destruct g; unfold holds; cbn [attribute];
    first [eapply G; [eapply A; inl|apply ZC]
          |eapply G; [eapply D; inl|rewrite interp_zlen by exact IL; apply ZC]].
Qed.
Lemma merged_full (L : csvlib dbl_scalar) rows v :
  shows_merged L rows v -> full_dlp (instance_dlp v) (zlen rows).
Proof.
  intros A g.
  assert (G : forall name x, In (name, x) member_names -> In x (columns TMerged) ->
    exists l, p_attr (instance_dlp v) name = AArray l /\ zlen l = zlen rows).
  { intros name x I Ic. exists (column L TMerged rows x). split; [apply attr_found; exact (A name x I Ic)|exact (column_len L TMerged rows x)]. }
  destruct g; unfold holds; cbn [attribute]; (eapply G; [mem_name|inl]).
Qed.
