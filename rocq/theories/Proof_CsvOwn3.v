(** * Proof_CsvOwn3: extraction and release of the combined CSV objects. *)
From Coq Require Import List ZArith Lia Bool Ascii.
From Verif Require Import Base BaseFacts Scalar Model_Heap Model_Csv Model_CsvData
  Proof_Heap Proof_CsvOwn Proof_CsvOwn2.
Import ListNotations.
Open Scope list_scope.
Open Scope Z_scope.

Section Own3.
  Context {S : scalar}.
  Variable L : csvlib S.

  (** What is owned by a combined object that has been returned. *)
  Definition rids (c : csv S) : list Z :=
    o_id (c_obj c) :: ml (o_msg (c_obj c)) ++ oids csv_cols (c_obj c).
  Definition bare (c : csv S) : Prop :=
    c_geo c = None /\ c_cal c = None /\ c_dlp c = None /\ c_tau c = None.
  Definition returned (base : list Z) (fl : Z) (p : option (csv S)) (h : heap) : Prop :=
    files h = fl /\
    match p with
    | None => owns base [] h
    | Some c => owns base (rids c) h /\ bare c /\ (c_err c = false -> o_msg (c_obj c) = None)
    end.

  Lemma csv_destroy_ok K base fl p h :
    format_ok (fam_dlp K) -> returned base fl p h ->
    exists h1, csv_destroy K p h = Ok (None, h1) /\ owns base [] h1 /\ files h1 = fl.
  Proof.
    intros KO [Fl R]. destruct p as [c|]; cbn [csv_destroy].
    2:{ exists h; cbn in R; auto. }
    destruct R as [O [[B1 [B2 [B3 B4]]] _]].
    unfold csv_destroy_members, hbind.
    rewrite (access_owned _ _ _ _ O) by (left; reflexivity). cbn [bind].
    destruct (destroy_cols_ok base csv_cols (c_obj c) _
                (o_id (c_obj c) :: ml (o_msg (c_obj c))) h csv_cols_nodup O)
      as [o1 [h1 [D [O1 [F1 [I1 [I2 [I3 [I4 [I5 [I6 I7]]]]]]]]]]].
    { intro b. unfold rids.
      rewrite (cnt_cons _ (ml _ ++ _)), (cnt_cons _ (ml _)), !cnt_app. lia. }
    rewrite D, B1, B2, B3, B4. cbn [bind destroy hret c_obj].
    rewrite <- I1, <- I2 in O1.
    destruct (free_owned base (o_msg o1) _ [o_id o1] h1 O1) as [h2 [E2 [O2 F2]]].
    { intro b; rewrite (cnt_cons _ (ml _)); lia. }
    unfold hret; cbn [bind c_obj]. rewrite E2; cbn [bind].
    destruct (free_owned base (Some (o_id o1)) _ [] h2 O2) as [h3 [E3 [O3 F3]]].
    { intro b; cbn [ml]; rewrite cnt_nil; lia. }
    rewrite E3; cbn [bind]. exists h3; split; [reflexivity|]; split; [exact O3|congruence].
  Qed.

  (** ** Cassini *)
  Notation K := csv_family.
  Definition geo_list : list col := [cD; cFSKY; cRHODOT; cRX; cRY; cRZ].

  Record pre (dep : bool) (c : csv S) : Prop := {
    pr_cols : forall x, o_col (c_obj c) x = None;
    pr_flag : o_flag (c_obj c) = dep
  }.
  Lemma pre_put dep c put F sel o (K' : family) :
    slot (S := S) K' F put sel -> pre dep c -> pre dep (put c (Some o)).
  Proof.
    intros SL [A B]; split; rewrite (sl_obj _ _ _ _ SL); assumption.
  Qed.

  Lemma steal_cassini base fl dep c h :
    phaseA K base fl c h ->
    (c_err c = true -> c_dlp c = None) ->
    (c_err c = false -> pre dep c /\ exists d, c_dlp c = Some d /\ o_err d = false /\
       forall x, ~ In x (f_malloc dlp_format dep) -> o_col d x = None) ->
    hoare (steal_dlp_data L K c) h (fun c1 h1 =>
      phaseB K [] base fl c1 h1 /\
      (c_err c1 = false -> forall x, In x (malloc_list geo_list true) -> o_col (c_obj c1) x = None)).
  Proof.
    intros I Er Ok0. unfold steal_dlp_data, with_member.
    destruct (c_err c) eqn:E.
    { apply hoare_ret. split; [|congruence].
      unfold phaseB, dlp_rest. rewrite (Er eq_refl).
      unfold phaseA in I. rewrite (Er eq_refl) in I. exact I. }
    destruct (Ok0 eq_refl) as [[Z0 Fg] [d [Ed [Erd Ud]]]]. rewrite Ed.
    pose proof I as [O Fl G1 G2 G3 G4 C NC].
    eapply hoare_step.
    { apply (access_owned _ _ _ _ O). unfold cids. right. rewrite !in_app_iff, Ed.
      do 4 right; left; left; reflexivity. }
    rewrite Erd. cbv zeta.
    set (o := steal_cols steal_pairs d (c_obj c)).
    assert (Md : o_msg d = None) by (apply (G3 d Ed); reflexivity).
    change (o_flag o) with (o_flag (c_obj c)). rewrite Fg.
    assert (W : forall b, (cnt (oids csv_cols o) b + cnt (pl (o_col d cPNORM)) b
                 = cnt (oids (f_destroy dlp_format) d) b)%nat).
    { intro b. unfold oids, csv_cols, dlp_format, f_destroy. cbn [flat_map].
      unfold o, steal_cols, steal_pairs. cbn [fold_left fst snd with_col o_col].
      cbn [col_beq]. rewrite !Z0. cbn [pl]. rewrite ?app_nil_r.
      cbn [app]. rewrite !cnt_app. lia. }
    assert (Wc : forall x, In x (cPNORM :: malloc_list geo_list true) -> o_col o x = None).
    { intros x Hx. unfold o, steal_cols, steal_pairs. cbn [fold_left fst snd with_col o_col].
      cbn in Hx. intuition subst; cbn [col_beq]; apply Z0. }
    destruct dep; cbn [negb].
    - (* deprecated: the normalised power is computed *)
      assert (Zp : o_col d cPNORM = None).
      { apply Ud. cbn. intuition discriminate. }
      assert (I1 : phaseB K [] base fl (with_obj c (with_col o cPNORM None)) h).
      { split; cbn [with_obj c_obj c_geo c_cal c_dlp c_tau]; try assumption.
        - apply (owns_perm _ _ _ _ O); intro b. rewrite !cnt_cids.
          cbn [with_obj c_obj c_geo c_cal c_dlp c_tau]. unfold dlp_rest.
          cbn [c_dlp with_obj]. rewrite Ed. cbn [pids].
          change (fam_dlp csv_family) with dlp_format.
          rewrite (oids_none csv_cols (c_obj c)) by (intros; apply Z0).
        rewrite cnt_tids, Md. specialize (W b). rewrite Zp in W. cbn [pl] in W. cbn [ml].
          change (oids [] d) with (@nil Z).
          pose proof (oids_with csv_cols o cPNORM None b csv_cols_nodup ltac:(cbn; tauto)) as V.
          rewrite (Wc cPNORM (or_introl eq_refl)) in V. cbn [pl] in V.
          change (o_id (with_col o cPNORM None)) with (o_id (c_obj c)).
          change (o_msg (with_col o cPNORM None)) with (o_msg (c_obj c)).
          rewrite !cnt_nil in *. lia.
        }
      eapply (hoare_bind _ _ _ (fun b h1 =>
        match b with
        | Some id => phaseB K [] base fl
            (with_obj c (with_col o cPNORM (Some (id, repeat None (Z.to_nat (o_n o)))))) h1
        | None => h1 = h
        end)).
      { unfold halloc. destruct (l_alloc L (SArr (fam_kind csv_family) cPNORM)).
        - eapply hoare_eq; [reflexivity|].
          destruct I1 as [O1 Fl1 _ _ _ _ C1 NC1].
          split; cbn [with_obj c_obj c_geo c_cal c_dlp c_tau]; try assumption.
          apply (owns_perm _ _ _ _ (owns_alloc _ _ _ O1)); intro b.
          rewrite (cnt_cons _ (cids _ _)), !cnt_cids.
          cbn [with_obj c_obj c_geo c_cal c_dlp c_tau]. unfold dlp_rest.
          cbn [c_dlp with_obj]. rewrite Ed.
          pose proof (oids_with csv_cols o cPNORM None b csv_cols_nodup ltac:(cbn; tauto)) as V1.
          pose proof (oids_with csv_cols o cPNORM (Some (next h, repeat None (Z.to_nat (o_n o)))) b
                        csv_cols_nodup ltac:(cbn; tauto)) as V2.
          cbn [pl] in V1, V2. rewrite cnt_nil in V1.
          change (o_id (with_col o cPNORM None)) with (o_id o).
          change (o_msg (with_col o cPNORM None)) with (o_msg o).
          set (p := Some (next h, repeat None (Z.to_nat (o_n o)))) in *.
          change (o_id (with_col o cPNORM p)) with (o_id o).
          change (o_msg (with_col o cPNORM p)) with (o_msg o). lia.
        - eapply hoare_eq; reflexivity. }
      intros b h1 P. destruct b as [id|].
      + set (o1 := with_col o cPNORM (Some (id, repeat None (Z.to_nat (o_n o))))) in *.
        apply hoare_pure.
        { apply pure_for; intros n k. do 2 (apply pure_bind; [apply pure_fetch|intros ? _]).
          apply pure_store. }
        intros o2 E2.
        assert (Sh : same_shape o1 o2).
        { destruct (Z_lt_le_dec (o_n o1) 0) as [Hn|Hn].
          { rewrite for_range_0 in E2 by lia. injection E2 as <-; apply same_shape_refl. }
          revert E2.
          apply (for_range_partial (fun _ k => same_shape o1 k) 0 (o_n o1));
            [exact Hn|apply same_shape_refl|].
          intros j a a' _ Ha X.
          apply bind_ok in X as [f [_ X]]; apply bind_ok in X as [r [_ X]].
          exact (same_shape_trans _ _ _ Ha (store_shape _ _ _ _ _ X)). }
        apply hoare_ret. split.
        * change (with_obj c o2) with (with_obj (with_obj c o1) o2).
          apply with_obj_phaseB; [exact Sh|exact P].
        * intros _ x Hx. cbn [with_obj c_obj]. apply (shape_none o1 o2 x Sh).
          unfold o1. rewrite with_col_other; [apply Wc; right; exact Hx|].
          intros ->. cbn in Hx. intuition discriminate.
      + subst h1. eapply hoare_impl.
        { apply (csv_error_inv L K base fl _ _ h I1). exact E. }
        cbn beta. intros c1 h1 [I2 [E2 [_ [_ [Q _]]]]].
        split; [|rewrite E2; discriminate].
        unfold phaseB, dlp_rest. rewrite Q. exact I2.
    - (* current format: the normalised power is taken over too *)
      apply hoare_ret. split.
      + split; cbn [with_obj c_obj c_geo c_cal c_dlp c_tau]; try assumption.
        apply (owns_perm _ _ _ _ O); intro b. rewrite !cnt_cids.
        cbn [with_obj c_obj c_geo c_cal c_dlp c_tau]. unfold dlp_rest.
        cbn [c_dlp with_obj]. rewrite Ed. cbn [pids].
        change (fam_dlp csv_family) with dlp_format.
        rewrite (oids_none csv_cols (c_obj c)) by (intros; apply Z0).
        rewrite cnt_tids, Md. specialize (W b). cbn [ml]. change (oids [] d) with (@nil Z).
        pose proof (oids_with csv_cols o cPNORM (o_col d cPNORM) b csv_cols_nodup
                      ltac:(cbn; tauto)) as V.
        rewrite (Wc cPNORM (or_introl eq_refl)) in V. cbn [pl] in V.
        change (o_id (with_col o cPNORM (o_col d cPNORM))) with (o_id (c_obj c)).
        change (o_msg (with_col o cPNORM (o_col d cPNORM))) with (o_msg (c_obj c)).
        rewrite !cnt_nil in *. lia.
      + intros _ x Hx. cbn [with_obj c_obj]. rewrite with_col_other; [apply Wc; right; exact Hx|].
        intros ->. cbn in Hx. intuition discriminate.
  Qed.

  (** Reading the three or four tables. *)
  Lemma csv_extract_own base h geo cal dlp tau dep :
    owns base [] h ->
    (tau <> None -> l_alloc L (SObj KTau) = true) ->
    (forall x, In x (malloc_list geo_list true) -> l_alloc L (SArr KCsv x) = true) ->
    hoare (csv_extract L geo cal dlp tau dep) h (returned base (files h)).
  Proof.
    intros O HT HM. unfold csv_extract.
    eapply (hoare_bind _ _ _ (fun b h1 => files h1 = files h /\
      match b with Some id => owns base [id] h1 | None => owns base [] h1 end)).
    { unfold halloc. destruct (l_alloc L (SObj KCsv)); eapply hoare_eq; try reflexivity.
      - split; [reflexivity|]. apply owns_alloc; exact O.
      - split; [reflexivity|exact O]. }
    intros b h1 [F1 O1]. destruct b as [id|]; [|apply hoare_ret; split; assumption].
    cbv zeta. set (c0 := csv_init id dep).
    assert (I0 : phaseA K base (files h) c0 h1).
    { split; try (intros ? [=]); try assumption; try reflexivity. }
    assert (P0 : pre dep c0) by (split; reflexivity).
    (* geometry *)
    eapply hoare_bind.
    { apply (extract_part_inv L K dlp_format_ok base (files h) geo_format dep _ with_geo c_geo c0 h1
               (geo_slot K) (geo_table_ok L dep geo) I0). reflexivity. }
    cbn beta. intros c1 h2 [I1 [_ R1]]. specialize (R1 eq_refl).
    assert (S1 : (c_err c1 = true -> c_dlp c1 = None) /\
                 (c_err c1 = false -> pre dep c1 /\ c_cal c1 = None /\ c_dlp c1 = None /\ c_tau c1 = None)).
    { destruct R1 as [[E1 [o [-> [_ _]]]]|[[E1 [_ [_ [_ [D _]]]]]|[E1 D]]].
      - split; [congruence|]. intros _; split; [|repeat split].
        exact (pre_put _ _ _ _ _ _ _ (geo_slot K) P0).
      - split; [intros _; exact D|congruence].
      - split; [intros _; exact D|congruence]. }
    clear R1. destruct S1 as [S1 S1'].
    (* calibration *)
    eapply hoare_bind.
    { apply (extract_part_inv L K dlp_format_ok base (files h) cal_format false _ with_cal c_cal c1 h2
               (cal_slot K ltac:(discriminate)) (cal_table_ok L cal) I1). intro E; apply (S1' E). }
    cbn beta. intros c2 h3 [I2 [R2' R2]].
    assert (S2 : (c_err c2 = true -> c_dlp c2 = None) /\
                 (c_err c2 = false -> pre dep c2 /\ c_dlp c2 = None /\ c_tau c2 = None)).
    { destruct (c_err c1) eqn:E1.
      - rewrite (R2' eq_refl). split; [intros _; apply S1; reflexivity|congruence].
      - destruct (S1' eq_refl) as [Q1 [Q2 [Q3 Q4]]].
        destruct (R2 eq_refl) as [[E2 [o [-> [_ _]]]]|[[E2 [_ [_ [_ [D _]]]]]|[E2 D]]].
        + split; [congruence|]. intros _; split; [|repeat split; assumption].
          exact (pre_put _ _ _ _ _ _ _ (cal_slot K ltac:(discriminate)) Q1).
        + split; [intros _; rewrite D; exact Q3|congruence].
        + split; [intros _; exact D|congruence]. }
    clear R2 R2'. destruct S2 as [S2 S2'].
    (* power and phase *)
    eapply (hoare_bind _ _ _ (fun c3 h4 => phaseA K base (files h) c3 h4 /\
      (c_err c3 = true -> c_dlp c3 = None) /\
      (c_err c3 = false -> pre dep c3 /\ c_tau c3 = None /\
         exists d, c_dlp c3 = Some d /\ o_err d = false /\
           forall x, ~ In x (f_malloc dlp_format dep) -> o_col d x = None))).
    { unfold extract_dlp_part. eapply hoare_bind.
      { apply (extract_part_inv L K dlp_format_ok base (files h) dlp_format dep _ with_dlp c_dlp c2 h3
                 (dlp_slot K) (dlp_table_ok L dep dlp) I2). intro E; apply (S2' E). }
      cbn beta. intros c3 h4 [I3 [R3' R3]].
      destruct (c_err c3) eqn:E3.
      - apply hoare_ret. split; [exact I3|]. split; [|congruence]. intros _.
        destruct (c_err c2) eqn:E2.
        + rewrite (R3' eq_refl); apply S2; reflexivity.
        + destruct (R3 eq_refl) as [[E4 _]|[[_ [_ [_ [_ [D _]]]]]|[_ D]]]; [congruence|exact D|exact D].
      - destruct (c_err c2) eqn:E2; [rewrite (R3' eq_refl) in E3; congruence|].
        destruct (S2' eq_refl) as [Q1 [Q2 Q3]].
        destruct (R3 eq_refl) as [[E4 [d [-> [Ed [_ Ud]]]]]|[[E4 _]|[E4 _]]]; [|congruence|congruence].
        cbn [with_dlp c_dlp]. apply hoare_ret. split.
        { unfold phaseA in *. destruct I3 as [A1 A2 A3 A4 A5 A6 A7 A8]; split; assumption. }
        split; [intro X; change (c_err (with_dlp c2 (Some d)) = true) in X; congruence|].
        intros _. split.
        { destruct Q1 as [X Y]; split; assumption. }
        split; [exact Q3|]. exists d; split; [reflexivity|]; split; assumption. }
    cbn beta. intros c3 h4 [I3 [S3 S3']].
    (* reconstruction *)
    eapply (hoare_bind _ _ _ (fun c4 h5 => phaseA K base (files h) c4 h5 /\
      (c_err c4 = true -> c_dlp c4 = None) /\
      (c_err c4 = false -> pre dep c4 /\
         exists d, c_dlp c4 = Some d /\ o_err d = false /\
           forall x, ~ In x (f_malloc dlp_format dep) -> o_col d x = None))).
    { destruct tau as [t|].
      - eapply hoare_impl.
        { apply (extract_part_inv L K dlp_format_ok base (files h) tau_format dep _ with_tau c_tau c3 h4
                   (tau_slot K) (tau_table_ok L dep t) I3). intro E; apply (S3' E). }
        cbn beta. intros c4 h5 [I4 [R4' R4]]. split; [exact I4|].
        destruct (c_err c3) eqn:E3.
        + rewrite (R4' eq_refl). split; [intros _; apply S3; reflexivity|congruence].
        + destruct (S3' eq_refl) as [Q1 [Q2 Q3]].
          destruct (R4 eq_refl) as [[E4 [o [-> _]]]|[[_ [A _]]|[E4 D]]].
          * split; [congruence|]. intros _.
            split; [exact (pre_put _ _ _ _ _ _ _ (tau_slot K) Q1)|exact Q3].
          * cbn in A. rewrite HT in A by discriminate. discriminate.
          * split; [intros _; exact D|congruence].
      - apply hoare_ret. split; [exact I3|]. split; [exact S3|].
        intro E; destruct (S3' E) as [Q1 [Q2 Q3]]; split; assumption. }
    cbn beta. intros c4 h5 [I4 [S4 S4']].
    (* the arrays change hands *)
    eapply hoare_bind; [exact (steal_cassini base (files h) dep c4 h5 I4 S4 S4')|].
    cbn beta. intros c5 h6 [I5 Z5].
    eapply hoare_bind.
    { apply (csv_malloc_phaseB L K [] base (files h) geo_list c5 h6 I5).
      - intros [|]; cbn; nodup_tac.
      - intros x Hx; cbn in *; intuition subst; auto 30.
      - exact Z5.
      - exact HM. }
    cbn beta. intros c6 h7 [I6 _].
    eapply hoare_bind; [exact (check_chord_phaseB L K [] base (files h) c6 h7 I6)|].
    cbn beta. intros c7 h8 [I7 _].
    eapply hoare_bind; [exact (interpolate_geo_phaseB L K [] base (files h) c7 h8 I7)|].
    cbn beta. intros c8 h9 [I8 _].
    eapply hoare_bind; [exact (interpolate_cal_phaseB L K [] base (files h) c8 h9 I8)|].
    cbn beta. intros c9 h10 [I9 _].
    eapply (hoare_bind _ _ _ (fun c h => phaseB K [] base (files _) c h)).
    { destruct tau as [t|]; [|apply hoare_ret; exact I9].
      eapply hoare_impl; [exact (interpolate_tau_phaseB L K [] base (files h) dep c9 h10 I9)|].
      cbn beta. intros c10 h11 [I10 _]; exact I10. }
    cbn beta. clear I9. intros c h0 [O9 Fl G1 G2 G3 G4 C NC].
    (* the tables are released *)
    eapply (hoare_bind _ _ _ (fun p h' => p = None /\ owns base _ h' /\ files h' = _)).
    { apply (destroy_hoare base geo_format (c_geo c)
        (rids c ++ pids cal_format (c_cal c) ++ pids tau_format (c_tau c) ++ dlp_rest [] c) h0);
        [apply geo_format_ok|exact G1| |].
      - apply (owns_perm _ _ _ _ O9); intro b.
        unfold rids. rewrite cnt_app, cnt_cids. cbn [app].
        rewrite (cnt_cons _ ((ml _ ++ _) ++ _)), !cnt_app. lia.
      - intros h3' X Y; exact (conj eq_refl (conj X Y)). }
    intros g h3' [-> [O3 F3]].
    eapply (hoare_bind _ _ _ (fun p h' => p = None /\ owns base _ h' /\ files h' = _)).
    { apply (destroy_hoare base cal_format (c_cal c)
        (rids c ++ pids tau_format (c_tau c) ++ dlp_rest [] c) h3');
        [apply cal_format_ok|exact G2| |].
      - apply (owns_perm _ _ _ _ O3); intro b. rewrite !cnt_app. lia.
      - intros h4' X Y; exact (conj eq_refl (conj X Y)). }
    intros k h4' [-> [O4 F4]].
    eapply (hoare_bind _ _ _ (fun p h' => p = None /\ owns base _ h' /\ files h' = _)).
    { apply (destroy_hoare base tau_format (c_tau c) (rids c ++ dlp_rest [] c) h4');
        [apply tau_format_ok|exact G4| |].
      - apply (owns_perm _ _ _ _ O4); intro b. rewrite !cnt_app. lia.
      - intros h5' X Y; exact (conj eq_refl (conj X Y)). }
    intros t h5' [-> [O5 F5]].
    destruct (free_owned base (option_map o_id (c_dlp c)) _ (rids c) h5' O5) as [h6' [E6 [O6 F6]]].
    { intro b; rewrite cnt_app. unfold dlp_rest. destruct (c_dlp c) as [d|]; cbn [option_map ml];
      [change (oids [] d) with (@nil Z)|]; lia. }
    eapply hoare_step; [exact E6|]. apply hoare_ret.
    split; [congruence|]. split; [exact O6|]. split; [repeat split; reflexivity|exact C].
  Qed.

  (** ** Uranus *)
  Definition uranus_list : list col := [cRX; cRY; cRZ].

  Lemma steal_uranus base fl dep c h :
    phaseA uranus_family base fl c h ->
    (c_err c = true -> c_dlp c = None) ->
    (c_err c = false -> pre dep c /\ exists d, c_dlp c = Some d /\ o_err d = false /\ o_msg d = None) ->
    hoare (uranus_steal_dlp_data L uranus_family c) h (fun c1 h1 =>
      phaseB uranus_family [cF] base fl c1 h1 /\
      (c_err c1 = false -> forall x, In x (malloc_list uranus_list true) -> o_col (c_obj c1) x = None)).
  Proof.
    intros I Er Ok0. unfold uranus_steal_dlp_data, with_member.
    destruct (c_err c) eqn:E.
    { apply hoare_ret. split; [|congruence].
      unfold phaseB, dlp_rest. rewrite (Er eq_refl).
      unfold phaseA in I. rewrite (Er eq_refl) in I. exact I. }
    destruct (Ok0 eq_refl) as [[Z0 Fg] [d [Ed [Erd Md]]]]. rewrite Ed.
    pose proof I as [O Fl G1 G2 G3 G4 C NC].
    eapply hoare_step.
    { apply (access_owned _ _ _ _ O). unfold cids. right. rewrite !in_app_iff, Ed.
      do 4 right; left; left; reflexivity. }
    rewrite Erd. apply hoare_ret.
    set (o := steal_cols uranus_steal_pairs d (c_obj c)). split.
    - split; cbn [with_obj c_obj c_geo c_cal c_dlp c_tau]; try assumption.
      apply (owns_perm _ _ _ _ O); intro b. rewrite !cnt_cids.
      cbn [with_obj c_obj c_geo c_cal c_dlp c_tau]. unfold dlp_rest.
      cbn [c_dlp with_obj]. rewrite Ed. cbn [pids].
      change (fam_dlp uranus_family) with uranus_dlp_format.
      rewrite (oids_none csv_cols (c_obj c)) by (intros; apply Z0).
        rewrite cnt_tids, Md. cbn [ml].
      change (o_id o) with (o_id (c_obj c)). change (o_msg o) with (o_msg (c_obj c)).
      rewrite (cnt_cons _ (oids [cF] d)), !cnt_nil.
      assert (W : (cnt (oids csv_cols o) b + cnt (oids [cF] d) b
                   = cnt (oids (f_destroy uranus_dlp_format) d) b)%nat).
      { unfold oids, csv_cols, uranus_dlp_format, f_destroy. cbn [flat_map].
        unfold o, steal_cols, uranus_steal_pairs. cbn [fold_left fst snd with_col o_col].
        cbn [col_beq]. rewrite !Z0. cbn [pl]. rewrite ?app_nil_r.
        cbn [app]. rewrite !cnt_app. lia. }
      lia.
    - intros _ x Hx. cbn [with_obj c_obj].
      unfold o, steal_cols, uranus_steal_pairs. cbn [fold_left fst snd with_col o_col].
      cbn in Hx. intuition subst; cbn [col_beq]; apply Z0.
  Qed.

  Notation U := uranus_family.
  Lemma uranus_csv_extract_own base h geo dlp tau rad :
    owns base [] h ->
    (tau <> None -> l_alloc L (SObj KTau) = true) ->
    (forall x, In x (malloc_list uranus_list true) -> l_alloc L (SArr KUranusCsv x) = true) ->
    hoare (uranus_csv_extract L geo dlp tau rad) h (returned base (files h)).
  Proof.
    intros O HT HM. unfold uranus_csv_extract.
    eapply (hoare_bind _ _ _ (fun b h1 => files h1 = files h /\
      match b with Some id => owns base [id] h1 | None => owns base [] h1 end)).
    { unfold halloc. destruct (l_alloc L (SObj KUranusCsv)); eapply hoare_eq; try reflexivity.
      - split; [reflexivity|]. apply owns_alloc; exact O.
      - split; [reflexivity|exact O]. }
    intros b h1 [F1 O1]. destruct b as [id|]; [|apply hoare_ret; split; assumption].
    cbv zeta. set (c0 := csv_init id rad).
    assert (I0 : phaseA U base (files h) c0 h1).
    { split; try (intros ? [=]); try assumption; try reflexivity. }
    assert (P0 : pre rad c0) by (split; reflexivity).
    (* geometry *)
    eapply hoare_bind.
    { apply (extract_part_inv L U uranus_dlp_format_ok base (files h) geo_format false _ with_geo c_geo c0 h1
               (geo_slot U) (geo_table_ok L false geo) I0). reflexivity. }
    cbn beta. intros c1 h2 [I1 [_ R1]]. specialize (R1 eq_refl).
    assert (S1 : (c_err c1 = true -> c_dlp c1 = None) /\
                 (c_err c1 = false -> pre rad c1 /\ c_dlp c1 = None /\ c_tau c1 = None)).
    { destruct R1 as [[E1 [o [-> _]]]|[[E1 [_ [_ [_ [D _]]]]]|[E1 D]]].
      - split; [congruence|]. intros _; split; [|repeat split].
        exact (pre_put _ _ _ _ _ _ _ (geo_slot U) P0).
      - split; [intros _; exact D|congruence].
      - split; [intros _; exact D|congruence]. }
    clear R1. destruct S1 as [S1 S1'].
    (* power and phase *)
    eapply (hoare_bind _ _ _ (fun c3 h4 => phaseA U base (files h) c3 h4 /\
      (c_err c3 = true -> c_dlp c3 = None) /\
      (c_err c3 = false -> pre rad c3 /\ c_tau c3 = None /\
         exists d, c_dlp c3 = Some d /\ o_err d = false /\ o_msg d = None))).
    { unfold extract_dlp_part. eapply hoare_bind.
      { apply (extract_part_inv L U uranus_dlp_format_ok base (files h) uranus_dlp_format
                 (o_flag (c_obj c1)) _ with_dlp c_dlp c1 h2
                 (dlp_slot U) (uranus_table_ok L (o_flag (c_obj c1)) dlp) I1). intro E; apply (S1' E). }
      cbn beta. intros c3 h4 [I3 [R3' R3]].
      destruct (c_err c3) eqn:E3.
      - apply hoare_ret. split; [exact I3|]. split; [|congruence]. intros _.
        destruct (c_err c1) eqn:E2.
        + rewrite (R3' eq_refl); apply S1; reflexivity.
        + destruct (R3 eq_refl) as [[E4 _]|[[_ [_ [_ [_ [D _]]]]]|[_ D]]]; [congruence|exact D|exact D].
      - destruct (c_err c1) eqn:E2; [rewrite (R3' eq_refl) in E3; congruence|].
        destruct (S1' eq_refl) as [Q1 [Q2 Q3]].
        destruct (R3 eq_refl) as [[E4 [d [-> [Ed [Md _]]]]]|[[E4 _]|[E4 _]]]; [|congruence|congruence].
        cbn [with_dlp c_dlp]. apply hoare_ret. split.
        { unfold phaseA in *. destruct I3 as [A1 A2 A3 A4 A5 A6 A7 A8]; split; assumption. }
        split; [intro X; change (c_err (with_dlp c1 (Some d)) = true) in X; congruence|].
        intros _. split.
        { destruct Q1 as [X Y]; split; assumption. }
        split; [exact Q3|]. exists d; split; [reflexivity|]; split; assumption. }
    cbn beta. intros c3 h4 [I3 [S3 S3']].
    (* reconstruction *)
    eapply (hoare_bind _ _ _ (fun c4 h5 => phaseA U base (files h) c4 h5 /\
      (c_err c4 = true -> c_dlp c4 = None) /\
      (c_err c4 = false -> pre rad c4 /\
         exists d, c_dlp c4 = Some d /\ o_err d = false /\ o_msg d = None))).
    { destruct tau as [t|].
      - eapply hoare_impl.
        { apply (extract_part_inv L U uranus_dlp_format_ok base (files h) tau_format false _ with_tau c_tau c3 h4
                   (tau_slot U) (tau_table_ok L false t) I3). intro E; apply (S3' E). }
        cbn beta. intros c4 h5 [I4 [R4' R4]]. split; [exact I4|].
        destruct (c_err c3) eqn:E3.
        + rewrite (R4' eq_refl). split; [intros _; apply S3; reflexivity|congruence].
        + destruct (S3' eq_refl) as [Q1 [Q2 Q3]].
          destruct (R4 eq_refl) as [[E4 [o [-> _]]]|[[_ [A _]]|[E4 D]]].
          * split; [congruence|]. intros _.
            split; [exact (pre_put _ _ _ _ _ _ _ (tau_slot U) Q1)|exact Q3].
          * cbn in A. rewrite HT in A by discriminate. discriminate.
          * split; [intros _; exact D|congruence].
      - apply hoare_ret. split; [exact I3|]. split; [exact S3|].
        intro E; destruct (S3' E) as [Q1 [Q2 Q3]]; split; assumption. }
    cbn beta. intros c4 h5 [I4 [S4 S4']].
    (* the arrays change hands *)
    eapply hoare_bind; [exact (steal_uranus base (files h) rad c4 h5 I4 S4 S4')|].
    cbn beta. intros c5 h6 [I5 Z5].
    eapply hoare_bind.
    { apply (csv_malloc_phaseB L U [cF] base (files h) uranus_list c5 h6 I5).
      - intros [|]; cbn; nodup_tac.
      - intros x Hx; cbn in *; intuition subst; auto 30.
      - exact Z5.
      - exact HM. }
    cbn beta. intros c6 h7 [I6 _].
    eapply hoare_bind; [exact (check_chord_phaseB L U [cF] base (files h) c6 h7 I6)|].
    cbn beta. intros c7 h8 [I7 _].
    eapply hoare_bind; [exact (interpolate_geo_phaseB L U [cF] base (files h) c7 h8 I7)|].
    cbn beta. intros c9 h10 [I9 _].
    eapply (hoare_bind _ _ _ (fun c h' => phaseB U [cF] base (files h) c h')).
    { destruct tau as [t|]; [|apply hoare_ret; exact I9].
      eapply hoare_impl.
      { exact (interpolate_tau_phaseB L U [cF] base (files h) false c9 h10 I9). }
      cbn beta. intros c10 h11 [I10 _]; exact I10. }
    cbn beta. clear I9. intros c h0 [O9 Fl G1 G2 G3 G4 C NC].
    specialize (NC eq_refl).
    (* the tables are released *)
    eapply (hoare_bind _ _ _ (fun p h' => p = None /\ owns base _ h' /\ files h' = _)).
    { apply (destroy_hoare base geo_format (c_geo c)
        (rids c ++ pids tau_format (c_tau c) ++ dlp_rest [cF] c) h0);
        [apply geo_format_ok|exact G1| |].
      - apply (owns_perm _ _ _ _ O9); intro b.
        unfold rids. rewrite cnt_app, cnt_cids, NC. cbn [app pids].
        rewrite (cnt_cons _ ((ml _ ++ _) ++ _)), !cnt_app, !cnt_nil. lia.
      - intros h3 X Y; exact (conj eq_refl (conj X Y)). }
    intros g h3' [-> [O3 F3]].
    eapply (hoare_bind _ _ _ (fun p h' => p = None /\ owns base _ h' /\ files h' = _)).
    { apply (destroy_hoare base tau_format (c_tau c) (rids c ++ dlp_rest [cF] c) h3');
        [apply tau_format_ok|exact G4| |].
      - apply (owns_perm _ _ _ _ O3); intro b. rewrite !cnt_app. lia.
      - intros h4' X Y; exact (conj eq_refl (conj X Y)). }
    intros t h5' [-> [O5 F5]].
    unfold dlp_rest in O5. destruct (c_dlp c) as [d|] eqn:Ed.
    2:{ split; [|unfold hlift; discriminate].
        unfold mem_ok, hlift; cbn. intros u [= <-] [|]; discriminate. }
    eapply hoare_step.
    { apply (access_owned _ _ _ _ O5). apply in_or_app; right; left; reflexivity. }
    destruct (free_owned base (pid (o_col d cF)) _ (rids c ++ [o_id d]) h5' O5)
      as [h6' [E6 [O6 F6]]].
    { intro b; rewrite !cnt_app, ml_pid, (cnt_cons _ (oids [cF] d)).
      unfold oids; cbn [flat_map]. rewrite app_nil_r. lia. }
    eapply hoare_step; [exact E6|].
    destruct (free_owned base (Some (o_id d)) _ (rids c) h6' O6) as [h7' [E7 [O7 F7]]].
    { intro b; rewrite cnt_app; cbn [ml]. lia. }
    eapply hoare_step; [exact E7|]. apply hoare_ret.
    split; [congruence|]. split; [exact O7|]. split; [repeat split; try reflexivity; exact NC|exact C].
  Qed.
End Own3.
