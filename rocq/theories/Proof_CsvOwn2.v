(** * Proof_CsvOwn2: ownership of blocks in the combined CSV objects. *)
From Coq Require Import List ZArith Lia Bool Ascii.
From Verif Require Import Base BaseFacts Scalar Model_Heap Model_Csv Model_CsvData
  Proof_Heap Proof_CsvOwn.
Import ListNotations.
Open Scope list_scope.
Open Scope Z_scope.

Section Own2.
  Context {S : scalar}.
  Variable L : csvlib S.

  (** No access to released memory, and [Q] of what is returned. *)
  Definition hoare {A} (m : H A) (h : heap) (Q : A -> heap -> Prop) : Prop :=
    mem_ok m h /\ forall a h1, m h = Ok (a, h1) -> Q a h1.
  Lemma hoare_ret {A} (a : A) h (Q : A -> heap -> Prop) : Q a h -> hoare (hret a) h Q.
  Proof. intro q; split; [apply mem_ret|]. intros b h1 [= <- <-]; exact q. Qed.
  Lemma hoare_eq {A} (m : H A) h a h1 (Q : A -> heap -> Prop) :
    m h = Ok (a, h1) -> Q a h1 -> hoare m h Q.
  Proof.
    intros E q; split; [exact (mem_eq _ _ _ E)|].
    intros b h2 X; rewrite E in X; injection X as <- <-; exact q.
  Qed.
  Lemma hoare_lift {A} (r : res A) h (Q : A -> heap -> Prop) :
    pure_ok r -> (forall a, r = Ok a -> Q a h) -> hoare (hlift r) h Q.
  Proof.
    intros P q; split; [exact (mem_lift _ _ P)|].
    unfold hlift; intros a h1 E; apply bind_ok in E as [b [E1 E2]]; injection E2 as <- <-.
    exact (q b E1).
  Qed.
  Lemma hoare_bind {A B} (m : H A) (k : A -> H B) h Q1 (Q : B -> heap -> Prop) :
    hoare m h Q1 -> (forall a h1, Q1 a h1 -> hoare (k a) h1 Q) -> hoare (hbind m k) h Q.
  Proof.
    intros [M q1] K; split.
    - apply mem_bind; [exact M|]. intros a h1 E; apply (K a h1 (q1 a h1 E)).
    - unfold hbind; intros b h2 E; apply bind_ok in E as [[a h1] [E1 E2]].
      exact (proj2 (K a h1 (q1 a h1 E1)) b h2 E2).
  Qed.
  Lemma hoare_step {A B} (m : H A) (k : A -> H B) h a h1 (Q : B -> heap -> Prop) :
    m h = Ok (a, h1) -> hoare (k a) h1 Q -> hoare (hbind m k) h Q.
  Proof.
    intros E Kk. apply (hoare_bind m k h (fun a' h' => a' = a /\ h' = h1)).
    - exact (hoare_eq _ _ _ _ _ E (conj eq_refl eq_refl)).
    - intros a' h' [-> ->]; exact Kk.
  Qed.
  Lemma hoare_pure {A B} (r : res A) (k : A -> H B) h (Q : B -> heap -> Prop) :
    pure_ok r -> (forall a, r = Ok a -> hoare (k a) h Q) -> hoare (hbind (hlift r) k) h Q.
  Proof.
    intros P Kk. apply (hoare_bind _ k h (fun a' h' => r = Ok a' /\ h' = h)).
    - apply hoare_lift; [exact P|]. intros a E; exact (conj E eq_refl).
    - intros a' h' [E ->]; exact (Kk a' E).
  Qed.
  Lemma hoare_impl {A} (m : H A) h (Q Q' : A -> heap -> Prop) :
    hoare m h Q -> (forall a h1, Q a h1 -> Q' a h1) -> hoare m h Q'.
  Proof. intros [M q] I; split; [exact M|]. intros a h1 E; exact (I a h1 (q a h1 E)). Qed.

  (** A table extraction. *)
  Definition table_ok (F : format) (flag : bool) (table : H (option (obj S))) : Prop :=
    forall base rest h, owns base rest h ->
      hoare table h (fun p h1 =>
        owns base (pids F p ++ rest) h1 /\ (forall o, p = Some o -> msg_ok F o) /\
        files h1 = files h /\ (p = None <-> l_alloc L (SObj (f_kind F)) = false) /\
        (forall o c, p = Some o -> ~ In c (f_malloc F flag) -> o_col o c = None) /\
        (forall o, p = Some o -> o_err o = false -> o_msg o = None)).

  (** Members that are not allocated stay NULL. *)
  Lemma reader_none F read flag file h o h1 c :
    reader_ok F read ->
    (forall s o h o1 h1 c, read F s o h = Ok (o1, h1) -> o_col o c = None -> o_col o1 c = None) ->
    format_ok F -> owns (live h) [] h ->
    extract_with L read F flag file h = Ok (Some o, h1) ->
    ~ In c (f_malloc F flag) -> o_col o c = None.
  Proof.
    intros RO RN FO O E N. unfold extract_with, hbind, halloc in E.
    destruct (l_alloc L (SObj (f_kind F))); cbn [bind] in E; [|discriminate].
    pose proof (init_tinv (S := S) (live h) F [] flag h O) as T.
    set (h0 := mkHeap (next h :: live h) (next h + 1) (files h)) in *.
    set (o0 := init (next h) flag) in *.
    destruct file as [s|].
    - unfold hopen, hclose, hret in E. cbn [bind] in E.
      apply (tinv_files _ _ _ _ _ (files h0 + 1)) in T.
      destruct (check_column_tinv L (live h) F [] s o0 _ T)
        as [o1 [ha [E1 [T1 [_ [_ [_ [G3 [G4 _]]]]]]]]].
      change (mkHeap (live h0) (next h0) (files h0 + 1)) with
        (mkHeap (next h :: live h) (next h + 1) (files h + 1)) in E1.
      cbn [live next files h0] in E. unfold h0 in E; cbn [live next files] in E.
      rewrite E1 in E; cbn [bind] in E.
      assert (Z1 : forall c, o_col o1 c = None) by (rewrite G4; reflexivity).
      destruct (malloc_table_tinv L (live h) F [] s o1 ha FO T1 Z1)
        as [o2 [hb [E2 [T2 [_ [_ [_ [_ [_ [K1 [K2 _]]]]]]]]]]].
      rewrite E2 in E; cbn [bind] in E.
      apply bind_ok in E as [[o3 hc] [E3 E]]. injection E as <- _.
      apply (RN _ _ _ _ _ _ E3).
      destruct (o_err o2); [apply (K2 eq_refl)|].
      apply (K1 eq_refl). rewrite G3; exact N.
    - apply bind_ok in E as [[o1 ha] [E1 E]]. injection E as <- _.
      destruct (set_error_tinv L (live h) F [] o0 h0 T eq_refl)
        as [o2 [hb [E2 [_ [_ [_ [_ [_ [_ G]]]]]]]]].
      rewrite E2 in E1; injection E1 as <- _. rewrite G; reflexivity.
  Qed.

  Lemma shape_none (o o1 : obj S) c : same_shape o o1 -> o_col o c = None -> o_col o1 c = None.
  Proof.
    intros Sh E; pose proof (sh_col _ _ Sh c) as X; rewrite E in X.
    destruct (o_col o1 c) as [[? ?]|]; [discriminate|reflexivity].
  Qed.
  Lemma set_error_cols k dup (o : obj S) h o1 h1 :
    set_error L k dup o h = Ok (o1, h1) -> o_col o1 = o_col o.
  Proof.
    unfold set_error, hbind, halloc, hret; destruct dup; cbn [bind].
    - destruct (l_alloc L (SMsg k)); cbn; intros [= <- _]; reflexivity.
    - intros [= <- _]; reflexivity.
  Qed.

  Lemma read_table_none F s (o : obj S) h o1 h1 c :
    read_table L F s o h = Ok (o1, h1) -> o_col o c = None -> o_col o1 c = None.
  Proof.
    unfold read_table; destruct (o_err o); [intros [= <- _]; auto|].
    destruct (o_n o =? 0); [intro E; rewrite (set_error_cols _ _ _ _ _ _ E); auto|].
    unfold hbind, hlift; intro E. apply bind_ok in E as [[[] h2] [_ E]].
    apply bind_ok in E as [o2 [E1 E2]]; injection E2 as <- _.
    apply shape_none, (read_rows_shape L _ _ _ _ _ E1).
  Qed.
  Lemma read_uranus_none F s (o : obj S) h o1 h1 c :
    read_uranus L F s o h = Ok (o1, h1) -> o_col o c = None -> o_col o1 c = None.
  Proof.
    unfold read_uranus; destruct (o_err o); [intros [= <- _]; auto|].
    destruct (o_n o =? 0); [intro E; rewrite (set_error_cols _ _ _ _ _ _ E); auto|].
    unfold hbind, hlift, hret; intros E Z0. apply bind_ok in E as [[[] h2] [_ E]].
    apply bind_ok in E as [[o2 h3] [E1 E]]. apply bind_ok in E1 as [o3 [E1 E2]].
    injection E2 as <- <-. apply read_rows_shape in E1.
    destruct (o_flag o3).
    - apply bind_ok in E as [[o4 h4] [E2 E]]. apply bind_ok in E2 as [o5 [E2 E3]].
      injection E3 as <- <-. injection E as <- _. apply scale_all_shape in E2.
      cbn [with_flag o_col]. apply (shape_none o3); [exact E2|]. exact (shape_none _ _ _ E1 Z0).
    - injection E as <- _. exact (shape_none _ _ _ E1 Z0).
  Qed.

  Lemma extract_table_ok F read flag file :
    format_ok F -> reader_ok F read -> reader_safe F read ->
    (forall s o h o1 h1 c, read F s o h = Ok (o1, h1) -> o_col o c = None -> o_col o1 c = None) ->
    table_ok F flag (extract_with L read F flag file).
  Proof.
    intros FO RO RS RN base rest h O. split.
    - exact (extract_mem L base rest F read flag file h FO RS O).
    - intros p h1 E.
      destruct (extract_own L base rest F read flag file h p h1 FO RO O E)
        as [X1 [X2 [X3 [X5 [_ X4]]]]].
      split; [exact X1|]. split; [exact X2|]. split; [exact X3|]. split; [exact X4|].
      split; [|exact X5].
      intros o c ->. apply (reader_none F read flag file h o h1 c RO RN FO); [|exact E].
      apply owns_start. destruct O as [_ O2 O3]; split; [|exact O3].
      apply (NoDup_count_occ Z.eq_dec); exact O2.
  Qed.

  Lemma geo_table_ok flag file : table_ok geo_format flag (geo_extract L flag file).
  Proof.
    apply extract_table_ok; [apply geo_format_ok|apply read_table_ok, geo_format_ok|
      apply read_table_safe, geo_format_ok|apply read_table_none].
  Qed.
  Lemma cal_table_ok file : table_ok cal_format false (cal_extract L file).
  Proof.
    apply extract_table_ok; [apply cal_format_ok|apply read_table_ok, cal_format_ok|
      apply read_table_safe, cal_format_ok|apply read_table_none].
  Qed.
  Lemma dlp_table_ok flag file : table_ok dlp_format flag (dlp_extract L flag file).
  Proof.
    apply extract_table_ok; [apply dlp_format_ok|apply read_table_ok, dlp_format_ok|
      apply read_table_safe, dlp_format_ok|apply read_table_none].
  Qed.
  Lemma tau_table_ok flag file : table_ok tau_format flag (tau_extract L flag file).
  Proof.
    apply extract_table_ok; [apply tau_format_ok|apply read_table_ok, tau_format_ok|
      apply read_table_safe, tau_format_ok|apply read_table_none].
  Qed.
  Lemma uranus_table_ok flag file :
    table_ok uranus_dlp_format flag (uranus_dlp_extract L flag file).
  Proof.
    apply extract_table_ok; [apply uranus_dlp_format_ok|apply read_uranus_ok, uranus_dlp_format_ok|
      apply read_uranus_safe, uranus_dlp_format_ok|apply read_uranus_none].
  Qed.

  (** ** The combined object *)
  Variable K : family.
  Hypothesis KO : format_ok (fam_dlp K).

  Definition cids (dl : list Z) (c : csv S) : list Z :=
    o_id (c_obj c) :: ml (o_msg (c_obj c)) ++ oids csv_cols (c_obj c) ++
    pids geo_format (c_geo c) ++ pids cal_format (c_cal c) ++ dl ++ pids tau_format (c_tau c).
  Lemma cnt_cids dl c b :
    cnt (cids dl c) b =
    (cnt [o_id (c_obj c)] b + cnt (ml (o_msg (c_obj c))) b + cnt (oids csv_cols (c_obj c)) b
     + cnt (pids geo_format (c_geo c)) b + cnt (pids cal_format (c_cal c)) b
     + cnt dl b + cnt (pids tau_format (c_tau c)) b)%nat.
  Proof. unfold cids; rewrite cnt_cons, !cnt_app; lia. Qed.

  Definition slot_msg (F : format) (p : option (obj S)) : Prop :=
    forall o, p = Some o -> msg_ok F o.
  Record cinv (base : list Z) (fl : Z) (dl : list Z) (c : csv S) (h : heap) : Prop := {
    ci_own : owns base (cids dl c) h;
    ci_files : files h = fl;
    ci_geo : slot_msg geo_format (c_geo c);
    ci_cal : slot_msg cal_format (c_cal c);
    ci_dlp : slot_msg (fam_dlp K) (c_dlp c);
    ci_tau : slot_msg tau_format (c_tau c);
    ci_clean : c_err c = false -> o_msg (c_obj c) = None;
    ci_nocal : fam_kind K = KUranusCsv -> c_cal c = None
  }.

  Lemma csv_error_inv base fl dl c h :
    cinv base fl dl c h -> c_err c = false ->
    hoare (csv_error L K c) h (fun c1 h1 =>
      cinv base fl dl c1 h1 /\ c_err c1 = true /\ c_geo c1 = c_geo c /\ c_cal c1 = c_cal c /\
      c_dlp c1 = c_dlp c /\ c_tau c1 = c_tau c).
  Proof.
    intros [O Fl G1 G2 G3 G4 C NC] E. unfold csv_error.
    unfold csv_error, set_error, hbind, halloc, hret. cbn [bind].
    destruct (l_alloc L (SMsg (fam_kind K))) eqn:A.
    - eapply hoare_eq; [reflexivity|].
      split; [|repeat split; reflexivity].
      split; try assumption; [|discriminate].
      apply (owns_perm _ _ _ _ (owns_alloc _ _ _ O)); intro b.
      rewrite (cnt_cons _ (cids dl c)), !cnt_cids.
      cbn [with_obj c_obj c_geo c_cal c_tau o_id o_msg].
      rewrite (C E). cbn [ml]. rewrite cnt_nil. unfold oids; cbn [o_col]. lia.
    - eapply hoare_eq; [reflexivity|].
      split; [|repeat split; reflexivity].
      split; try assumption; [|discriminate].
      apply (owns_perm _ _ _ _ O); intro b.
      rewrite !cnt_cids.
      cbn [with_obj c_obj c_geo c_cal c_tau o_id o_msg]. rewrite (C E). cbn [ml]. unfold oids; cbn [o_col]. lia.
  Qed.

  Lemma destroy_hoare base F p rest h (Q : option (obj S) -> heap -> Prop) :
    format_ok F -> slot_msg F p -> owns base (pids F p ++ rest) h ->
    (forall h1, owns base rest h1 -> files h1 = files h -> Q None h1) ->
    hoare (destroy F p) h Q.
  Proof.
    intros FO M O q. destruct (destroy_own base F p rest h FO M O) as [h1 [E [O1 F1]]].
    exact (hoare_eq _ _ _ _ _ E (q h1 O1 F1)).
  Qed.

  Lemma csv_cols_nodup : NoDup csv_cols.
  Proof. unfold csv_cols; nodup_tac. Qed.

  Lemma csv_destroy_members_inv base fl c h :
    cinv base fl (pids (fam_dlp K) (c_dlp c)) c h ->
    hoare (csv_destroy_members K c) h (fun c1 h1 =>
      cinv base fl [] c1 h1 /\ c_err c1 = c_err c /\ c_geo c1 = None /\ c_cal c1 = None /\
      c_dlp c1 = None /\ c_tau c1 = None /\ oids csv_cols (c_obj c1) = [] /\
      o_id (c_obj c1) = o_id (c_obj c) /\ o_msg (c_obj c1) = o_msg (c_obj c)).
  Proof.
    intros [O Fl G1 G2 G3 G4 C NC]. unfold csv_destroy_members.
    eapply hoare_step; [apply (access_owned _ _ _ _ O); left; reflexivity|].
    destruct (destroy_cols_ok base csv_cols (c_obj c) _
                (o_id (c_obj c) :: ml (o_msg (c_obj c)) ++ pids geo_format (c_geo c) ++
                 pids cal_format (c_cal c) ++ pids (fam_dlp K) (c_dlp c) ++ pids tau_format (c_tau c))
                h csv_cols_nodup O)
      as [o1 [h1 [D [O1 [F1 [I1 [I2 [I3 [I4 [I5 [I6 I7]]]]]]]]]]].
    { intro b. rewrite cnt_cids, (cnt_cons _ (ml _ ++ _)), !cnt_app. lia. }
    eapply hoare_step; [exact D|].
    eapply (hoare_bind _ _ _ (fun p h' => p = None /\ owns base _ h' /\ files h' = _)).
    { apply (destroy_hoare base geo_format (c_geo c)
        (o_id (c_obj c) :: ml (o_msg (c_obj c)) ++ pids cal_format (c_cal c) ++
         pids (fam_dlp K) (c_dlp c) ++ pids tau_format (c_tau c)) h1); [apply geo_format_ok|exact G1| |].
      - apply (owns_perm _ _ _ _ O1); intro b.
        rewrite cnt_app, !(cnt_cons _ (ml _ ++ _)), !cnt_app. lia.
      - intros h3 X Y; exact (conj eq_refl (conj X Y)). }
    intros g h3 [-> [O3 F3]].
    eapply (hoare_bind _ _ _ (fun p h' => p = None /\ owns base _ h' /\ files h' = _)).
    { apply (destroy_hoare base cal_format (c_cal c)
        (o_id (c_obj c) :: ml (o_msg (c_obj c)) ++
         pids (fam_dlp K) (c_dlp c) ++ pids tau_format (c_tau c)) h3); [apply cal_format_ok|exact G2| |].
      - apply (owns_perm _ _ _ _ O3); intro b.
        rewrite cnt_app, !(cnt_cons _ (ml _ ++ _)), !cnt_app. lia.
      - intros h4 X Y; exact (conj eq_refl (conj X Y)). }
    intros k h4 [-> [O4 F4]].
    eapply (hoare_bind _ _ _ (fun p h' => p = None /\ owns base _ h' /\ files h' = _)).
    { apply (destroy_hoare base (fam_dlp K) (c_dlp c)
        (o_id (c_obj c) :: ml (o_msg (c_obj c)) ++ pids tau_format (c_tau c)) h4); [exact KO|exact G3| |].
      - apply (owns_perm _ _ _ _ O4); intro b.
        rewrite cnt_app, !(cnt_cons _ (ml _ ++ _)), !cnt_app. lia.
      - intros h5 X Y; exact (conj eq_refl (conj X Y)). }
    intros d h5 [-> [O5 F5]].
    eapply (hoare_bind _ _ _ (fun p h' => p = None /\ owns base _ h' /\ files h' = _)).
    { apply (destroy_hoare base tau_format (c_tau c)
        (o_id (c_obj c) :: ml (o_msg (c_obj c))) h5); [apply tau_format_ok|exact G4| |].
      - apply (owns_perm _ _ _ _ O5); intro b.
        rewrite cnt_app, (cnt_cons _ (ml _ ++ _)), (cnt_cons _ (ml _)), !cnt_app. lia.
      - intros h6 X Y; exact (conj eq_refl (conj X Y)). }
    intros t h6 [-> [O6 F6]].
    apply hoare_ret.
    assert (N : oids csv_cols o1 = []) by (apply oids_none; exact I6).
    split.
    { split; cbn; try (intros ? [=]); try congruence.
      - apply (owns_perm _ _ _ _ O6); intro b. rewrite cnt_cids.
        cbn [c_obj c_geo c_cal c_tau pids].
        rewrite N, I1, I2, (cnt_cons _ (ml _)), !cnt_nil. lia.
      - unfold c_err; cbn; rewrite I4, I2; exact C. }
    unfold c_err; cbn. repeat split; try assumption; auto.
  Qed.

  (** A slot of the combined object and how it is filled. *)
  Record slot (F : format) (put : csv S -> option (obj S) -> csv S)
      (sel : csv S -> option (obj S)) : Prop := {
    sl_ids : forall c p b, sel c = None ->
      cnt (cids (pids (fam_dlp K) (c_dlp (put c p))) (put c p)) b =
      (cnt (pids F p) b + cnt (cids (pids (fam_dlp K) (c_dlp c)) c) b)%nat;
    sl_obj : forall c p, c_obj (put c p) = c_obj c;
    sl_sel : forall c p, sel (put c p) = p;
    sl_geo : forall c p, slot_msg F p -> slot_msg geo_format (c_geo c) ->
      slot_msg geo_format (c_geo (put c p));
    sl_cal : forall c p, slot_msg F p -> slot_msg cal_format (c_cal c) ->
      slot_msg cal_format (c_cal (put c p));
    sl_dlp : forall c p, slot_msg F p -> slot_msg (fam_dlp K) (c_dlp c) ->
      slot_msg (fam_dlp K) (c_dlp (put c p));
    sl_tau : forall c p, slot_msg F p -> slot_msg tau_format (c_tau c) ->
      slot_msg tau_format (c_tau (put c p));
    sl_nocal : forall c p, fam_kind K = KUranusCsv -> c_cal c = None -> c_cal (put c p) = None
  }.
  Ltac slot_tac :=
    split; [intros c p b E; rewrite !cnt_cids;
      cbn [with_geo with_cal with_dlp with_tau c_obj c_geo c_cal c_dlp c_tau];
      rewrite E; cbn [pids]; rewrite ?cnt_nil; lia
    |auto|auto|cbn; auto|cbn; auto|cbn; auto|cbn; auto|cbn; auto; try congruence].
  Lemma geo_slot : slot geo_format with_geo c_geo.  Proof. slot_tac. Qed.
  Lemma cal_slot : fam_kind K <> KUranusCsv -> slot cal_format with_cal c_cal.
  Proof. intro NU; slot_tac. Qed.
  Lemma dlp_slot : slot (fam_dlp K) with_dlp c_dlp. Proof. slot_tac. Qed.
  Lemma tau_slot : slot tau_format with_tau c_tau.  Proof. slot_tac. Qed.

  (** The first phase: the tables are being read. *)
  Definition phaseA (base : list Z) (fl : Z) (c : csv S) (h : heap) : Prop :=
    cinv base fl (pids (fam_dlp K) (c_dlp c)) c h.

  Lemma extract_part_inv base fl F flag table put sel c h :
    slot F put sel -> table_ok F flag table -> phaseA base fl c h ->
    (c_err c = false -> sel c = None) ->
    hoare (extract_part L K table put c) h (fun c1 h1 =>
      phaseA base fl c1 h1 /\
      (c_err c = true -> c1 = c) /\
      (c_err c = false ->
         (c_err c1 = false /\ exists o, c1 = put c (Some o) /\ o_err o = false /\
            o_msg o = None /\
            (forall x, ~ In x (f_malloc F flag) -> o_col o x = None))
         \/ (c_err c1 = true /\ l_alloc L (SObj (f_kind F)) = false /\
             c_geo c1 = c_geo (put c None) /\ c_cal c1 = c_cal (put c None) /\
             c_dlp c1 = c_dlp (put c None) /\ c_tau c1 = c_tau (put c None))
         \/ (c_err c1 = true /\ c_dlp c1 = None))).
  Proof.
    intros SL TO I SN. unfold extract_part.
    destruct (c_err c) eqn:E.
    { apply hoare_ret. repeat split; auto; try apply I; discriminate. }
    specialize (SN eq_refl).
    pose proof I as [O Fl G1 G2 G3 G4 C NC].
    eapply hoare_bind; [exact (TO base _ h O)|].
    cbn beta. intros p h1 [O1 [M1 [F1 [N1 [U1 V1]]]]].
    assert (I1 : phaseA base fl (put c p) h1).
    { split; [|congruence|apply (sl_geo _ _ _ SL); assumption|apply (sl_cal _ _ _ SL); assumption|
        apply (sl_dlp _ _ _ SL); assumption|apply (sl_tau _ _ _ SL); assumption| |].
      - apply (owns_perm _ _ _ _ O1); intro b. rewrite (sl_ids _ _ _ SL) by exact SN.
        rewrite cnt_app; lia.
      - unfold c_err; rewrite (sl_obj _ _ _ SL). intros _; exact (C E).
      - intro X; apply (sl_nocal _ _ _ SL _ _ X), NC, X. }
    assert (E1 : c_err (put c p) = false) by (unfold c_err; rewrite (sl_obj _ _ _ SL); exact E).
    destruct p as [o|].
    - destruct (o_err o || (o_n o =? 0))%bool eqn:B.
      + eapply hoare_bind; [exact (csv_error_inv _ _ _ _ _ I1 E1)|].
        cbn beta. intros c2 h2 [I2 [E2 [Q1 [Q2 [Q3 Q4]]]]].
        rewrite <- Q3 in I2.
        eapply hoare_impl; [exact (csv_destroy_members_inv _ _ _ _ I2)|].
        cbn beta. intros c3 h3 [I3 [E3 [R1 [R2 [R3 [R4 _]]]]]].
        split; [unfold phaseA; rewrite R3; exact I3|]. split; [discriminate|].
        intros _; right; right. split; [congruence|exact R3].
      + apply hoare_ret. split; [exact I1|]. split; [discriminate|].
        intros _; left. split; [exact E1|]. exists o. split; [reflexivity|].
        apply orb_false_iff in B; split; [apply B|].
        split; [apply (V1 o eq_refl), B|]. intros x; exact (U1 o x eq_refl).
    - eapply hoare_impl; [exact (csv_error_inv _ _ _ _ _ I1 E1)|].
      cbn beta. intros c2 h2 [I2 [E2 [Q1 [Q2 [Q3 Q4]]]]].
      split; [unfold phaseA; rewrite Q3; exact I2|]. split; [discriminate|].
      intros _; right; left. repeat split; auto. apply N1; reflexivity.
  Qed.

  (** The last phase: of the DLP object only the struct and [extra] remain. *)
  Variable extra : list col.
  Definition dlp_rest (c : csv S) : list Z :=
    match c_dlp c with Some d => o_id d :: oids extra d | None => [] end.
  Definition phaseB (base : list Z) (fl : Z) (c : csv S) (h : heap) : Prop :=
    cinv base fl (dlp_rest c) c h.

  Definition oshape (p q : option (obj S)) : Prop :=
    match p, q with
    | None, None => True
    | Some a, Some b => same_shape a b
    | _, _ => False
    end.
  Lemma oshape_refl p : oshape p p.
  Proof. destruct p; cbn; auto using same_shape_refl. Qed.
  Lemma oshape_pids F p q : oshape p q -> pids F q = pids F p.
  Proof. destruct p, q; cbn; try tauto. apply same_shape_tids. Qed.
  Lemma oshape_msg F p q : oshape p q -> slot_msg F p -> slot_msg F q.
  Proof.
    destruct p as [a|], q as [b|]; cbn; try tauto; intros Sh M o [= <-] D.
    rewrite (sh_msg _ _ Sh). exact (M a eq_refl D).
  Qed.
  Lemma shape_inv base fl dl c c' h :
    same_shape (c_obj c) (c_obj c') -> oshape (c_geo c) (c_geo c') -> oshape (c_cal c) (c_cal c') ->
    c_dlp c' = c_dlp c -> c_tau c' = c_tau c -> cinv base fl dl c h -> cinv base fl dl c' h.
  Proof.
    intros S1 S2 S3 S4 S5 [O Fl G1 G2 G3 G4 C NC].
    split; [|exact Fl|exact (oshape_msg _ _ _ S2 G1)|exact (oshape_msg _ _ _ S3 G2)|
            rewrite S4; exact G3|rewrite S5; exact G4| |].
    - unfold cids. rewrite (oshape_pids _ _ _ S2), (oshape_pids _ _ _ S3), S5.
      rewrite (sh_id _ _ S1), (sh_msg _ _ S1).
      replace (oids csv_cols (c_obj c')) with (oids csv_cols (c_obj c)); [exact O|].
      apply oids_ext; intros; symmetry; apply (sh_col _ _ S1).
    - unfold c_err; rewrite (sh_err _ _ S1), (sh_msg _ _ S1). exact C.
    - intro X; specialize (NC X). rewrite NC in S3. destruct (c_cal c'); [destruct S3|reflexivity].
  Qed.

  Lemma with_member_hoare sel c h (k : obj S -> H (csv S)) (Q : csv S -> heap -> Prop) :
    (c_err c = true -> Q c h) ->
    (c_err c = false -> hoare (csv_error L K c) h Q) ->
    (forall o, c_err c = false -> sel c = Some o ->
       haccess (Some (o_id o)) h = Ok (tt, h) /\ (o_err o = false -> hoare (k o) h Q)) ->
    hoare (with_member L K sel c k) h Q.
  Proof.
    intros Q1 Q2 Q3; unfold with_member. destruct (c_err c) eqn:E; [apply hoare_ret; auto|].
    destruct (sel c) as [o|] eqn:Es; [|apply Q2; reflexivity].
    destruct (Q3 o eq_refl eq_refl) as [A Kk].
    eapply hoare_step; [exact A|].
    destruct (o_err o); [apply Q2; reflexivity|apply Kk; reflexivity].
  Qed.

  Lemma dlp_rest_eq c c' : c_dlp c' = c_dlp c -> dlp_rest c' = dlp_rest c.
  Proof. unfold dlp_rest; intros ->; reflexivity. Qed.

  Lemma error_phaseB base fl c h : phaseB base fl c h -> c_err c = false ->
    hoare (csv_error L K c) h (fun c1 h1 => phaseB base fl c1 h1 /\ c_dlp c1 = c_dlp c).
  Proof.
    intros I E. eapply hoare_impl; [exact (csv_error_inv _ _ _ _ _ I E)|].
    cbn beta. intros c1 h1 [I1 [_ [_ [_ [Q _]]]]].
    split; [|exact Q]. unfold phaseB; rewrite (dlp_rest_eq _ _ Q); exact I1.
  Qed.

  Lemma access_geo base fl dl c h g : cinv base fl dl c h -> c_geo c = Some g ->
    haccess (Some (o_id g)) h = Ok (tt, h).
  Proof.
    intros I E; apply (access_owned _ _ _ _ (ci_own _ _ _ _ _ I)).
    unfold cids; rewrite E; cbn [pids tids]. right.
    rewrite !in_app_iff. right; right; left; left; reflexivity.
  Qed.
  Lemma access_cal base fl dl c h g : cinv base fl dl c h -> c_cal c = Some g ->
    haccess (Some (o_id g)) h = Ok (tt, h).
  Proof.
    intros I E; apply (access_owned _ _ _ _ (ci_own _ _ _ _ _ I)).
    unfold cids; rewrite E; cbn [pids tids]. right.
    rewrite !in_app_iff. do 3 right; left; left; reflexivity.
  Qed.
  Lemma access_tau base fl dl c h g : cinv base fl dl c h -> c_tau c = Some g ->
    haccess (Some (o_id g)) h = Ok (tt, h).
  Proof.
    intros I E; apply (access_owned _ _ _ _ (ci_own _ _ _ _ _ I)).
    unfold cids; rewrite E; cbn [pids tids]. right.
    rewrite !in_app_iff. do 5 right; left; reflexivity.
  Qed.

  (** The loops keep the shape of the objects and never touch the heap. *)
  Lemma reverse_col_shape (o o1 : obj S) c : reverse_col o c = Ok o1 -> same_shape o o1.
  Proof.
    unfold reverse_col; destruct (o_col o c) as [[id l]|] eqn:E; [|discriminate].
    intro X; apply bind_ok in X as [p [_ X]]; injection X as <-.
    split; try reflexivity. intro d; cbn [with_col o_col].
    destruct (col_beq d c) eqn:B; [|reflexivity].
    apply col_beq_eq in B; subst; rewrite E; reflexivity.
  Qed.
  Lemma pure_aprefix {A} (l : list A) n : pure_ok (aprefix l n).
  Proof. unfold aprefix. destruct (_ && _)%bool; [apply pure_ret|apply pure_oob]. Qed.
  Lemma pure_reverse_col (o : obj S) c : pure_ok (reverse_col o c).
  Proof.
    unfold reverse_col; destruct (o_col o c) as [[id l]|]; [|apply pure_null].
    apply pure_bind; [apply pure_aprefix|intros; apply pure_ret].
  Qed.
  Lemma reverse_geo_shape (o o1 : obj S) : reverse_geo o = Ok o1 -> same_shape o o1.
  Proof.
    unfold reverse_geo; intro E.
    repeat (let o := fresh "o" in let X := fresh "X" in
            apply bind_ok in E as [o [X E]]; apply reverse_col_shape in X).
    apply reverse_col_shape in E. eauto 10 using same_shape_trans.
  Qed.
  Lemma pure_reverse_geo (o : obj S) : pure_ok (reverse_geo o).
  Proof.
    unfold reverse_geo. do 5 (apply pure_bind; [apply pure_reverse_col|intros ? _]).
    apply pure_reverse_col.
  Qed.
  Lemma pure_seek wrong (g : obj S) fuel : forall inc, pure_ok (seek fuel wrong g inc).
  Proof.
    induction fuel as [|k IH]; cbn; intro inc.
    - apply pure_ub; intros [|]; discriminate.
    - apply pure_bind; [apply pure_fetch|intros v _].
      destruct (wrong v); [|apply pure_ret]. destruct (o_n g <=? inc); [apply pure_ret|apply IH].
  Qed.
  Lemma pure_speed (o : obj S) : pure_ok (speed_range o).
  Proof.
    unfold speed_range. apply pure_for. intros i [mn mx]. unfold radial_speed.
    apply pure_bind; [|intros; apply pure_ret].
    do 4 (apply pure_bind; [apply pure_fetch|intros ? _]). apply pure_ret.
  Qed.

  Lemma check_chord_phaseB base fl c h : phaseB base fl c h ->
    hoare (check_chord_occ L K c) h (fun c1 h1 => phaseB base fl c1 h1 /\ c_dlp c1 = c_dlp c).
  Proof.
    intro I. unfold check_chord_occ. apply with_member_hoare.
    - intros _; split; [exact I|reflexivity].
    - intro E; exact (error_phaseB _ _ _ _ I E).
    - intros g E Eg. split; [exact (access_geo _ _ _ _ _ _ I Eg)|intros _].
      apply hoare_pure; [apply pure_speed|]. intros [mn mx] _. cbn beta iota.
      destruct (slt mn s0 && sgt mx s0)%bool; [exact (error_phaseB _ _ _ _ I E)|].
      destruct (seqb mn s0 || seqb mx s0)%bool; [exact (error_phaseB _ _ _ _ I E)|].
      destruct (slt mx s0).
      + apply hoare_pure; [apply pure_reverse_geo|]. intros g1 Eg1. apply reverse_geo_shape in Eg1.
        apply hoare_pure; [apply pure_seek|]. intros i _. apply hoare_ret. split; [|reflexivity].
        unfold phaseB. change (dlp_rest (with_inc (with_geo c (Some g1)) i)) with (dlp_rest c).
        revert I; apply shape_inv; cbn; try reflexivity; try apply same_shape_refl.
        * rewrite Eg; exact Eg1.
        * apply oshape_refl.
      + destruct (sgt mn s0).
        * apply hoare_pure; [apply pure_seek|]. intros i _. apply hoare_ret. split; [|reflexivity].
          unfold phaseB. change (dlp_rest (with_inc c i)) with (dlp_rest c).
          revert I; apply shape_inv; cbn; try reflexivity; try apply same_shape_refl;
            apply oshape_refl.
        * apply hoare_ret. split; [exact I|reflexivity].
  Qed.

  Lemma pure_values (l : list (option S)) : pure_ok (values l).
  Proof.
    induction l as [|[x|] r IH]; cbn; [apply pure_ret| |apply pure_uninit].
    apply pure_bind; [exact IH|intros; apply pure_ret].
  Qed.
  Lemma pure_cells (o : obj S) c i n : pure_ok (cells o c i n).
  Proof.
    unfold cells; destruct (o_col o c) as [[id l]|]; [|apply pure_null].
    destruct (_ && _)%bool; [|apply pure_oob].
    apply pure_bind; [apply pure_aprefix|intros; apply pure_values].
  Qed.
  Lemma pure_store_list c (r : list S) : forall i (o : obj S), pure_ok (store_list o c i r).
  Proof.
    induction r as [|v t IH]; cbn; intros; [apply pure_ret|].
    apply pure_bind; [apply pure_store|intros; apply IH].
  Qed.
  Lemma store_list_shape c (r : list S) : forall i (o o1 : obj S),
    store_list o c i r = Ok o1 -> same_shape o o1.
  Proof.
    induction r as [|v t IH]; cbn; intros i o o1 E.
    - injection E as <-; apply same_shape_refl.
    - apply bind_ok in E as [o2 [E1 E2]].
      exact (same_shape_trans _ _ _ (store_shape _ _ _ _ _ E1) (IH _ _ _ E2)).
  Qed.
  Lemma pure_interp src x y i n at_ out (dst : obj S) :
    pure_ok (interpolate L src x y i n at_ out dst).
  Proof.
    unfold interpolate. do 3 (apply pure_bind; [apply pure_cells|intros ? _]).
    apply pure_store_list.
  Qed.
  Lemma interp_shape src x y i n at_ out (dst o1 : obj S) :
    interpolate L src x y i n at_ out dst = Ok o1 -> same_shape dst o1.
  Proof.
    unfold interpolate; intro E. apply bind_ok in E as [? [_ E]].
    apply bind_ok in E as [? [_ E]]. apply bind_ok in E as [? [_ E]].
    exact (store_list_shape _ _ _ _ _ E).
  Qed.

  (** One interpolation step on the combined object. *)
  Lemma interp_hoare src x y i n at_ out (dst : obj S) h (Q : csv S -> heap -> Prop)
      (k : obj S -> H (csv S)) :
    (forall o, same_shape dst o -> hoare (k o) h Q) ->
    hoare (hbind (hlift (interpolate L src x y i n at_ out dst)) k) h Q.
  Proof.
    intro Kk. apply hoare_pure; [apply pure_interp|].
    intros o E. exact (Kk o (interp_shape _ _ _ _ _ _ _ _ _ E)).
  Qed.

  Lemma with_obj_phaseB base fl c o h :
    same_shape (c_obj c) o -> phaseB base fl c h -> phaseB base fl (with_obj c o) h.
  Proof.
    intros Sh I. unfold phaseB. change (dlp_rest (with_obj c o)) with (dlp_rest c).
    revert I; apply shape_inv; cbn; try reflexivity; try exact Sh; apply oshape_refl.
  Qed.

  Lemma interpolate_geo_phaseB base fl c h : phaseB base fl c h ->
    hoare (interpolate_geo L K c) h (fun c1 h1 => phaseB base fl c1 h1 /\ c_dlp c1 = c_dlp c).
  Proof.
    intro I. unfold interpolate_geo. apply with_member_hoare.
    - intros _; split; [exact I|reflexivity].
    - intro E; exact (error_phaseB _ _ _ _ I E).
    - intros g E Eg. split; [exact (access_geo _ _ _ _ _ _ I Eg)|intros _].
      cbv zeta. destruct (o_n g <? wrap64 (c_inc c + c_dec c)); [exact (error_phaseB _ _ _ _ I E)|].
      apply interp_hoare; intros o1 S1. apply interp_hoare; intros o2 S2.
      apply interp_hoare; intros o3 S3. apply interp_hoare; intros o4 S4.
      apply interp_hoare; intros o5 S5. apply hoare_ret. split; [|reflexivity].
      apply with_obj_phaseB; [|exact I]. eauto 10 using same_shape_trans.
  Qed.

  Lemma interpolate_cal_phaseB base fl c h : phaseB base fl c h ->
    hoare (interpolate_cal L K c) h (fun c1 h1 => phaseB base fl c1 h1 /\ c_dlp c1 = c_dlp c).
  Proof.
    intro I. unfold interpolate_cal. apply with_member_hoare.
    - intros _; split; [exact I|reflexivity].
    - intro E; exact (error_phaseB _ _ _ _ I E).
    - intros g E Eg. split; [exact (access_cal _ _ _ _ _ _ I Eg)|intros _].
      apply hoare_pure.
      { apply pure_for; intros n k. do 2 (apply pure_bind; [apply pure_fetch|intros ? _]).
        apply pure_store. }
      intros k1 Ek.
      assert (Sk : same_shape g k1).
      { destruct (Z_lt_le_dec (o_n g) 0) as [Hn|Hn].
        { rewrite for_range_0 in Ek by lia. injection Ek as <-; apply same_shape_refl. }
        revert Ek.
        apply (for_range_partial (fun _ k => same_shape g k) 0 (o_n g));
          [exact Hn|apply same_shape_refl|].
        intros j a a' _ Ha X.
        apply bind_ok in X as [f [_ X]]; apply bind_ok in X as [r [_ X]].
        exact (same_shape_trans _ _ _ Ha (store_shape _ _ _ _ _ X)). }
      apply interp_hoare; intros o1 S1. apply hoare_ret. split; [|reflexivity].
      unfold phaseB.
      change (dlp_rest (with_obj (with_cal c (Some k1)) o1)) with (dlp_rest c).
      revert I; apply shape_inv; cbn; try reflexivity; try exact S1.
      + apply oshape_refl.
      + rewrite Eg; exact Sk.
  Qed.

  Lemma interpolate_tau_phaseB base fl legacy c h : phaseB base fl c h ->
    hoare (interpolate_tau L K legacy c) h
      (fun c1 h1 => phaseB base fl c1 h1 /\ c_dlp c1 = c_dlp c).
  Proof.
    intro I. unfold interpolate_tau. apply with_member_hoare.
    - intros _; split; [exact I|reflexivity].
    - intro E; exact (error_phaseB _ _ _ _ I E).
    - intros t E Et. split; [exact (access_tau _ _ _ _ _ _ I Et)|intros _].
      cbv zeta. apply interp_hoare; intros o1 S1. apply interp_hoare; intros o2 S2.
      apply (hoare_bind _ _ _ (fun o h1 => same_shape o2 o /\ h1 = h)).
      + destruct legacy.
        * apply hoare_pure; [apply pure_interp|].
          intros o3 S3; apply interp_shape in S3. apply hoare_lift.
          { apply pure_for; intros n k. do 2 (apply pure_bind; [apply pure_fetch|intros ? _]).
            apply pure_store. }
          intros o4 E4. split; [|reflexivity].
          apply (same_shape_trans _ _ _ S3).
          destruct (Z_lt_le_dec (o_n o3) 0) as [Hn|Hn].
          { rewrite for_range_0 in E4 by lia. injection E4 as <-; apply same_shape_refl. }
          revert E4.
          apply (for_range_partial (fun _ k => same_shape o3 k) 0 (o_n o3));
            [exact Hn|apply same_shape_refl|].
          intros j a a' _ Ha X.
          apply bind_ok in X as [f [_ X]]; apply bind_ok in X as [r [_ X]].
          exact (same_shape_trans _ _ _ Ha (store_shape _ _ _ _ _ X)).
        * apply hoare_lift; [apply pure_interp|].
          intros a Ea; exact (conj (interp_shape _ _ _ _ _ _ _ _ _ Ea) (eq_refl h)).
      + intros o3 h1 [S3 ->]. apply hoare_ret. split; [|reflexivity].
        apply with_obj_phaseB; [|exact I]. eauto 10 using same_shape_trans.
  Qed.

  (** Allocation of the arrays of the combined object, when it succeeds. *)
  Lemma csv_malloc_cols_phaseB base fl : forall cs c h,
    phaseB base fl c h -> NoDup cs -> incl cs csv_cols ->
    (forall x, In x cs -> o_col (c_obj c) x = None) ->
    (forall x, In x cs -> l_alloc L (SArr (fam_kind K) x) = true) ->
    hoare (csv_malloc_cols L K cs c) h (fun c1 h1 => phaseB base fl c1 h1 /\ c_dlp c1 = c_dlp c).
  Proof.
    induction cs as [|x r IH]; intros c h I N Ic Z0 A; cbn [csv_malloc_cols].
    { apply hoare_ret; split; [exact I|reflexivity]. }
    inversion N as [|? ? Nx Nr]; subst.
    apply (hoare_step _ _ _ (Some (next h)) (mkHeap (next h :: live h) (next h + 1) (files h))).
    { unfold halloc; rewrite (A x (or_introl eq_refl)); reflexivity. }
    set (c1 := with_obj c (with_col (c_obj c) x (Some (next h, repeat None (Z.to_nat (c_n c)))))).
    eapply hoare_impl; [apply (IH c1)|].
    - destruct I as [O Fl G1 G2 G3 G4 C NC]. split; try assumption.
      apply (owns_perm _ _ _ _ (owns_alloc _ _ _ O)); intro b.
      rewrite (cnt_cons _ (cids _ _)), !cnt_cids.
      change (dlp_rest c1) with (dlp_rest c).
      pose proof (oids_with csv_cols (c_obj c) x (Some (next h, repeat None (Z.to_nat (c_n c)))) b
                    csv_cols_nodup (Ic x (or_introl eq_refl))) as W.
      rewrite (Z0 x (or_introl eq_refl)) in W. cbn [pl] in W. rewrite cnt_nil in W.
      unfold c1. cbn [c_obj with_obj c_geo c_cal c_tau with_col o_id o_msg] in *.
      unfold with_col in W |- *. cbn [o_id o_msg] in *. lia.
    - exact Nr.
    - intros y Hy; apply Ic; right; exact Hy.
    - intros y Hy; unfold c1; cbn [c_obj with_obj]. rewrite with_col_other.
      + apply Z0; right; exact Hy.
      + intros ->; contradiction.
    - intros y Hy; apply A; right; exact Hy.
    - cbn beta. intros c2 h2 [I2 D2]; split; [exact I2|]. rewrite D2; reflexivity.
  Qed.

  Definition malloc_list (own : list col) (tau : bool) : list col :=
    own ++ if tau then [cTAUPHASE; cTAUPOWER; cTAUV] else [].

  Lemma csv_malloc_phaseB base fl own c h :
    phaseB base fl c h ->
    (forall tau, NoDup (malloc_list own tau)) -> incl (malloc_list own true) csv_cols ->
    (c_err c = false -> forall x, In x (malloc_list own true) -> o_col (c_obj c) x = None) ->
    (forall x, In x (malloc_list own true) -> l_alloc L (SArr (fam_kind K) x) = true) ->
    hoare (csv_malloc L K own c) h (fun c1 h1 => phaseB base fl c1 h1 /\ c_dlp c1 = c_dlp c).
  Proof.
    intros I N Ic Z0 A. unfold csv_malloc.
    destruct (c_err c) eqn:E; [apply hoare_ret; split; [exact I|reflexivity]|].
    destruct (c_n c =? 0); [exact (error_phaseB _ _ _ _ I E)|].
    assert (X : exists t : bool, own ++ match c_tau c with
                 | Some _ => [cTAUPHASE; cTAUPOWER; cTAUV] | None => [] end = malloc_list own t).
    { destruct (c_tau c); [exists true|exists false]; reflexivity. }
    destruct X as [t ->].
    assert (J : incl (malloc_list own t) (malloc_list own true)).
    { unfold malloc_list; intros x; rewrite !in_app_iff. destruct t; cbn; tauto. }
    apply csv_malloc_cols_phaseB; [exact I|apply N| | |].
    - intros x Hx; apply Ic, J, Hx.
    - intros x Hx; apply (Z0 eq_refl), J, Hx.
    - intros x Hx; apply A, J, Hx.
  Qed.
End Own2.
