(** * Proof_Mem4: the life of a tau object and of a Python instance. *)
From Coq Require Import List ZArith Lia Bool String Permutation.
From Verif Require Import Base BaseFacts Scalar Dbl Spec_Tau Spec_Select Model_TauRec Model_Checks Model_Strings Model_Select
  Model_Transform Model_Recon Model_Heap Model_Create Model_Py Model_Mem Spec_Csv Spec_Create Spec_Mem
  Proof_Checks Proof_Heap Proof_Create Proof_Create3 Proof_Create4 Proof_Mem Proof_Mem3.
Import ListNotations.
Open Scope list_scope.
Open Scope Z_scope.

Ltac cx := cbn [ml app]; repeat cc1; try lia.

Section Life.
  Context {S : scalar} (L : tmpl S) (C : createlib S) (sep : bool).
  Notation tau := (tau S).
  Notation mobj := (@mobj S).

  Lemma view_blocks (o : @tobj S) t : view o = Ok t ->
    arr t WKM = None -> T_out t = None -> T_fwd t = None ->
    block o (MArr WKM) = None /\ block o MTout = None /\ block o MTfwd = None.
  Proof.
    unfold view. destruct (forallb _ _) eqn:Fb; [|discriminate]. intros E A B D. injection E as <-. cbn in A, B, D. cbn.
    rewrite forallb_forall in Fb. assert (Fw := Fb WKM ltac:(cbn; tauto)).
    destruct (x_arr o WKM) as [[b l]|] eqn:Ex; cbn in A, Fw.
    - rewrite A in Fw. discriminate Fw.
    - destruct (x_out o); [discriminate B|]. destruct (x_fwd o); [discriminate D|]. auto.
  Qed.

  (** Every created object owns its blocks and was not processed. *)
  Lemma created p res h o h1 : good_heap h -> ((exists d, p = Some d /\ usable d) \/ refused p res) ->
    create_from_dlp L C p res h = Ok (Some o, h1) ->
    files h1 = files h /\ owns (live h) (oblocks o) h1 /\
    (x_err o = None -> (exists t, view o = Ok t) /\ block o (MArr WKM) = None /\ block o MTout = None /\ block o MTfwd = None /\
       block o (MArr KV) <> None).
  Proof.
    intros G D E.
    assert (D' : (exists d, p = Some d /\ usable d /\ sle res s0 = false) \/ refused p res).
    { destruct D as [(d & -> & U)|R]; [|right; exact R]. destruct (sle res s0) eqn:X; [|left; eauto].
      right. right. exists d. auto. }
    clear D. destruct D' as [(d & -> & U & R)|R].
    - destruct (create_usable L C d res h U R G) as [(_ & E')|(_ & o' & h' & E' & O & F & X)]; rewrite E' in E; [discriminate|].
      injection E as -> ->. split; [exact F|]. split; [exact O|]. intro Hc.
      destruct X as [(X & _)|(_ & t0 & t & V & _ & _ & _ & _ & M & _)]; [contradiction|].
      destruct (mf_fresh _ _ _ _ M) as (A1 & A2 & A3 & _).
      destruct (view_blocks o t V A3 A1 A2) as (B1 & B2 & B3). split; [eauto|]. split; [exact B1|]. split; [exact B2|]. split; [exact B3|].
      destruct (mf_wave _ _ _ _ M) as [(l & K & _) _].
      unfold view in V. destruct (forallb _ _); [|discriminate V]. injection V as <-. cbn in K. cbn.
      destruct (x_arr o KV) as [[b l']|]; [discriminate|discriminate K].
    - destruct (create_refused L C p res h R G) as [(_ & E')|(_ & o' & h' & E' & O & F & X & _)]; rewrite E' in E; [discriminate|].
      injection E as -> ->. split; [exact F|]. split; [exact O|]. intro; contradiction.
  Qed.
  Lemma of_created (o : @tobj S) (t : tau) base h : owns base (oblocks o) h -> owns base (mb (of_tobj o t)) h.
  Proof. intro O. exact O. Qed.

  Lemma lifetime p res sch h o h1 t1 t2 : good_heap h -> ((exists d, p = Some d /\ usable d) \/ refused p res) ->
    create_from_dlp L C p res h = Ok (Some o, h1) ->
    (x_err o <> None -> err t1 <> None) ->
    reconstruction L sch t1 = Ok t2 ->
    exists o2 h2 q h3, reconstruction_h L sep sch (of_tobj o t1) h1 = Ok (o2, h2) /\ m_tau o2 = t2 /\
      tau_destroy (Some (to_tobj o2)) h2 = Ok (q, h3) /\
      blocks_more (lost L sep (of_tobj o t1) t2) h h3.
  Proof.
    intros G D E Hx R. destruct (created p res h o h1 G D E) as (F & O & K).
    assert (Un : unprocessed (of_tobj o t1)).
    { intros E1 _. cbn in E1. destruct (x_err o) eqn:X; [exfalso; apply Hx; [discriminate|exact E1]|].
      destruct (K eq_refl) as (_ & A & B & B' & _). auto. }
    pose proof (whole_ok L sep (live h) (of_tobj o t1) sch h1 (of_created o t1 _ _ O) Un) as A. unfold sim in A.
    cbn [m_tau of_tobj] in A. rewrite R in A. destruct A as (o2 & h2 & l & E2 & T2 & _ & N & O2 & F2 & _).
    rewrite app_nil_r in O2. apply owns_move in O2.
    destruct (destroy_mobj _ o2 h2 O2) as (q & h3 & E3 & O3 & F3).
    exists o2, h2, q, h3. split; [exact E2|]. split; [exact T2|]. split; [exact E3|].
    rewrite <- N. apply more_owns; [exact O3|congruence].
  Qed.

  (** The wave numbers keep a block. *)
  Let kv (o o' : mobj) := m_blk o (MArr KV) <> None -> m_blk o' (MArr KV) <> None.
  Lemma hb {A B} (m : H A) (k : A -> H B) h x : hbind m k h = Ok x ->
    exists a h', m h = Ok (a, h') /\ k a h' = Ok x.
  Proof. unfold hbind. intro E. apply bind_ok in E. destruct E as ([a h'] & E1 & E2). eauto. Qed.
  Lemma hl {A B} (r : res A) (k : A -> H B) h x : hbind (hlift r) k h = Ok x ->
    exists a, r = Ok a /\ k a h = Ok x.
  Proof.
    intro E. apply hb in E. destruct E as (a & h' & E1 & E2). unfold hlift in E1. destruct r; [|discriminate E1].
    injection E1 as <- <-. eauto.
  Qed.
  Ltac inv E := repeat match type of E with
    | hbind (hlift _) _ _ = Ok _ => let H := fresh in apply hl in E; destruct E as (? & H & E); clear H
    | hbind _ _ _ = Ok _ => let H := fresh in apply hb in E; destruct E as (? & ? & H & E); clear H
    | (let '(_, _) := ?p in _) _ = Ok _ => destruct p
    | (match ?x with _ => _ end) _ = Ok _ => destruct x
    end.
  Lemma kv_staged f (o : mobj) h o' h' : staged f o h = Ok (o', h') -> m_blk o' = m_blk o.
  Proof. unfold staged. intro E. inv E. injection E as <- <-. reflexivity. Qed.
  Lemma kv_widths (o : mobj) h o' w h' : gww_widths_h L sep o h = Ok ((o', w), h') -> kv o o'.
  Proof.
    unfold gww_widths_h, kv. cbv zeta. intros E K. inv E; injection E as <- <- <-; cbn [m_blk with_blk]; (rewrite put_other by discriminate; exact K).
  Qed.
  Lemma kv_trim (o : mobj) rho w h o' h' : gww_trim_h L sep o rho w h = Ok (o', h') -> m_blk o' = m_blk o.
  Proof. unfold gww_trim_h. cbv zeta. intro E. inv E; injection E as <- <-; reflexivity. Qed.
  Lemma kv_select (o : mobj) h o' h' : get_window_width_h L sep o h = Ok (o', h') -> kv o o'.
  Proof.
    unfold get_window_width_h, kv. cbv zeta. intros E K. destruct (err _); [injection E as <- <-; exact K|].
    apply hb in E. destruct E as (? & ? & _ & E). apply hl in E. destruct E as (? & _ & E). apply hl in E.
    destruct E as ([[? ?]|] & _ & E); [|inv E; injection E as <- <-; exact K].
    apply hl in E. destruct E as ([[? ?]|] & _ & E); [|inv E; injection E as <- <-; exact K].
    match type of E with (match ?x with _ => _ end) _ = _ => destruct x end; [inv E; injection E as <- <-; exact K|].
    apply hb in E. destruct E as ([o1 w] & ? & E1 & E). apply kv_widths in E1. apply kv_trim in E. rewrite E. cbn [m_blk with_val].
    apply E1. exact K.
  Qed.
  Lemma kv_dc sch (o : mobj) h o' h' : diffraction_correction_h L sch o h = Ok (o', h') -> m_blk o' = m_blk o.
  Proof. unfold diffraction_correction_h. intro E. inv E. injection E as <- <-. reflexivity. Qed.
  Lemma kv_forward sch (o : mobj) h r h' : forward_model_h L sch o h = Ok (r, h') ->
    match r with inl o' | inr o' => kv o o' end.
  Proof.
    unfold forward_model_h, kv. cbv zeta. intro E.
    do 5 (apply hb in E; destruct E as (? & ? & _ & E)).
    match type of E with (if ?x then _ else _) _ = _ => destruct x end.
    - inv E. injection E as <- <-. intro K. cbn. exact K.
    - apply hb in E. destruct E as (o4 & ? & E4 & E). injection E as <- <-. intro K. cbn.
      rewrite (kv_dc _ _ _ _ _ E4). cbn. exact K.
  Qed.
  Hypothesis Mem : t_alloc L 8 = true.
  Lemma kv_resize m f (o : mobj) h o' h' : resize_h L m f o h = Ok (o', h') -> kv o o'.
  Proof.
    unfold resize_h, kv. intros E K. apply hb in E. destruct E as (? & ? & _ & E).
    rewrite Mem in E. apply hb in E. destruct E as (b & ? & E1 & E). cbn in E1. injection E1 as <- _.
    inv E. injection E as <- <-. cbn. unfold put_blk. destruct (member_eqb _ _); [discriminate|exact K].
  Qed.
  Lemma kv_resize_all fs : forall (o : mobj) h o' h', resize_all_h L fs o h = Ok (o', h') -> kv o o'.
  Proof.
    induction fs as [|f fs IH]; intros o h o' h' E K; cbn [resize_all_h] in E; [injection E as <- <-; exact K|].
    apply hb in E. destruct E as (o1 & ? & E1 & E). apply kv_resize in E1. apply (IH _ _ _ _ E). apply E1. exact K.
  Qed.
  Lemma kv_finish (o : mobj) h o' h' : finish_h L o h = Ok (o', h') -> kv o o'.
  Proof.
    unfold finish_h. intros E K. destruct (err _); [injection E as <- <-; exact K|].
    apply hb in E. destruct E as (o1 & ? & E1 & E). apply kv_resize in E1.
    apply hb in E. destruct E as (o2 & ? & E2 & E). apply kv_resize in E2.
    apply hb in E. destruct E as (o3 & ? & E3 & E). apply kv_resize_all in E3. cbv zeta in E.
    specialize (E3 (E2 (E1 K))).
    match type of E with (if ?x then _ else _) _ = _ => destruct x end; [|injection E as <- <-; exact E3].
    apply kv_resize in E. apply E. exact E3.
  Qed.
  Lemma kv_whole sch (o : mobj) h o' h' : reconstruction_h L sep sch o h = Ok (o', h') -> kv o o'.
  Proof.
    unfold reconstruction_h. intros E K.
    apply hb in E. destruct E as (o1 & ? & E1 & E). apply kv_staged in E1. rewrite <- E1 in K.
    apply hb in E. destruct E as (o2 & ? & E2 & E). apply kv_staged in E2. rewrite <- E2 in K.
    apply hb in E. destruct E as (o3 & ? & E3 & E). apply kv_select in E3. apply E3 in K.
    apply hb in E. destruct E as (o4 & ? & E4 & E). apply kv_staged in E4. rewrite <- E4 in K.
    destruct (err _); [injection E as <- <-; exact K|].
    apply hb in E. destruct E as (b & ? & _ & E). cbv zeta in E.
    apply hb in E. destruct E as (o6 & ? & E6 & E). apply kv_staged in E6.
    assert (K6 : m_blk o6 (MArr KV) <> None) by (rewrite E6; cbn; exact K).
    destruct (err _); [injection E as <- <-; exact K6|].
    apply hb in E. destruct E as (o7 & ? & E7 & E). apply kv_dc in E7.
    assert (K7 : m_blk o7 (MArr KV) <> None) by (rewrite E7; exact K6).
    match type of E with (if ?x then _ else _) _ = _ => destruct x end.
    - apply hb in E. destruct E as ([o9|o9] & ? & E9 & E); apply kv_forward in E9; specialize (E9 K7).
      + apply kv_finish in E. apply E. exact E9.
      + injection E as <- <-. exact E9.
    - apply kv_finish in E. apply E. exact K7.
  Qed.
End Life.

Section Python.
  Variables (L : tmpl dbl_scalar) (sep : bool) (X : strlib) (C : createlib dbl_scalar).
  Local Notation dtau := (tau dbl_scalar).

  Lemma show_ok ms b : forall v h, (forall m, b m = None -> v m = None) ->
    exists v', show_members ms b v h = Ok (v', h) /\
      forall m, v' m = if existsb (member_eqb m) ms then b m else v m.
  Proof.
    induction ms as [|m ms IH]; intros v h B; cbn [show_members].
    - exists v. split; [reflexivity|]. reflexivity.
    - unfold hbind at 1.
      assert (E : (match b m with None => hfree (v m) | Some _ => hret tt end) h = Ok (tt, h)).
      { destruct (b m) eqn:Eb; [reflexivity|]. rewrite (B _ Eb). reflexivity. }
      rewrite E. cbn [bind].
      destruct (IH (put_blk v m (b m)) h) as (v' & E' & A').
      { intros n Hn. unfold put_blk. destruct (member_eqb n m) eqn:Em; [apply member_eqb_eq in Em; subst; auto|auto]. }
      exists v'. split; [exact E'|]. intro n. rewrite A'. cbn [existsb]. unfold put_blk.
      destruct (member_eqb n m) eqn:Em; cbn [orb]; [|reflexivity].
      apply member_eqb_eq in Em. subst. destruct (existsb _ _); reflexivity.
  Qed.
  Lemma drop_ok base ms v : forall rest h, owns base (flat_map (fun m => ml (v m)) ms ++ rest) h ->
    exists h', drop_members ms v h = Ok (tt, h') /\ owns base rest h' /\ files h' = files h.
  Proof.
    induction ms as [|m ms IH]; intros rest h O; cbn [drop_members].
    - exists h. split; [reflexivity|]. split; [exact O|reflexivity].
    - destruct (free_owned base (v m) _ (flat_map (fun m => ml (v m)) ms ++ rest) h O) as (h1 & E & O1 & F1).
      { intro x. cbn [flat_map]. rewrite <- app_assoc, cnt_app. reflexivity. }
      step E. destruct (IH rest h1 O1) as (h2 & E2 & O2 & F2). exists h2. split; [exact E2|]. split; [exact O2|congruence].
  Qed.

  Let res0 (a : pyargs) (r : double) : double := dmul (given (a_resolution a) r) (given (a_factor a) (dfrac 3 4)).

  Lemma python_rejected sch r a p v h : good_heap h -> p = None \/ (exists d, p = Some d /\ d_err d = true) ->
    exists m h1, diffrec_init_h L sep X C sch r a p v h = Ok (MRaised m, h1) /\ blocks_more 0 h h1.
  Proof.
    intros G [->|(d & -> & D)]; unfold diffrec_init_h.
    - eexists _, h. split; [reflexivity|]. split; [exists []; split; [reflexivity|apply Permutation_refl]|reflexivity].
    - pose proof (owns_start h G) as O0.
      destruct (hnew_ok _ _ _ O0) as (db & h1 & E1 & O1 & F1). step E1. rewrite D.
      destruct (hnew_ok _ _ _ O1) as (mb' & h2 & E2 & O2 & F2). step E2.
      destruct (free_owned _ (Some mb') _ [db] h2 O2) as (h3 & E3 & O3 & F3); [cn|]. step E3.
      destruct (free_owned _ (Some db) _ [] h3 O3) as (h4 & E4 & O4 & F4); [cn|]. step E4.
      eexists _, h4. split; [reflexivity|]. apply (more_owns h h4 []); [exact O4|congruence].
  Qed.

  Lemma one_more_owns h : good_heap h -> good_heap (one_more h) /\ hnew h = Ok (next h, one_more h).
  Proof.
    intros [N B]. split; [|reflexivity]. split; cbn.
    - constructor; [|exact N]. intro I. specialize (B _ I). lia.
    - intros b [<-|I]; [lia|]. specialize (B _ I). lia.
  Qed.

  Variables (sch : schedule) (r : double) (a : pyargs) (d : dlp dbl_scalar) (h : heap).
  Hypothesis G : good_heap h.
  Hypothesis D : d_err d = false.
  Hypothesis U : usable d \/ refused (Some d) (res0 a r).
  Lemma Ud : (exists d0, Some d = Some d0 /\ usable d0) \/ refused (Some d) (res0 a r).
  Proof. destruct U; [left; eauto|right; assumption]. Qed.

  Lemma python_failed q h0 v m : create_from_dlp L C (Some d) (res0 a r) (one_more h) = Ok (q, h0) ->
    match q with Some o => x_err o = Some m | None => m = "tau: NULL"%string end ->
    exists h1, diffrec_init_h L sep X C sch r a (Some d) v h = Ok (MRaised m, h1) /\ blocks_more 1 h h1.
  Proof.
    intros E Q. destruct (one_more_owns h G) as [G1 E1]. unfold diffrec_init_h. step E1. rewrite D.
    fold (res0 a r). step E. destruct q as [o|].
    - rewrite Q.
      destruct (created L C _ _ _ _ _ G1 Ud E) as (F & O & _).
      destruct (destroy_ok _ o h0 O) as (o' & h2 & E2 & _ & O2 & F2). step E2.
      exists h2. split; [reflexivity|]. apply (more_owns h h2 [next h]); [exact O2|]. rewrite F2, F. reflexivity.
    - destruct (memory L C (Some d) (res0 a r) (one_more h) G1 Ud) as (q' & h' & E' & _ & N & _).
      rewrite E in E'. injection E' as <- <-. rewrite (N eq_refl) in *.
      subst m. exists (one_more h). split; [reflexivity|]. apply (more_owns h (one_more h) [next h]); [|reflexivity].
      apply (owns_start (one_more h) G1).
  Qed.

  Lemma python_run o h0 t0 t5 b t6 : t_alloc L 8 = true ->
    create_from_dlp L C (Some d) (res0 a r) (one_more h) = Ok (Some o, h0) -> x_err o = None ->
    view o = Ok t0 -> configure L X a t0 = Ok (t5, b) -> reconstruction L sch t5 = Ok t6 ->
    match err t6 with
    | Some m => exists h1, diffrec_init_h L sep X C sch r a (Some d) no_blocks h = Ok (MRaised m, h1) /\
        blocks_more (1 + lost L sep (of_tobj o t5) t6) h h1
    | None => exists v h1 h2, diffrec_init_h L sep X C sch r a (Some d) no_blocks h = Ok (MConstructed t6 v, h1) /\
        diffrec_destroy v h1 = Ok (tt, h2) /\
        blocks_more (1 + lost L sep (of_tobj o t5) t6) h h2
    end.
  Proof.
    intros Mem E Ex V Cf R. destruct (one_more_owns h G) as [G1 E1].
    destruct (created L C _ _ _ _ _ G1 Ud E) as (F & O & K). destruct (K Ex) as (_ & K1 & K2 & K3 & K4).
    assert (Un : unprocessed (of_tobj o t5)) by (intros _ _; auto).
    pose proof (whole_ok L sep (live (one_more h)) (of_tobj o t5) sch h0 O Un) as A. unfold sim in A.
    cbn [m_tau of_tobj] in A. rewrite R in A. destruct A as (o6 & h6 & l & E6 & T6 & _ & N & O6 & F6 & _).
    rewrite app_nil_r in O6.
    assert (P : diffrec_init_h L sep X C sch r a (Some d) no_blocks h =
      match err (m_tau o6) with
      | Some m => hbind (tau_destroy (Some (to_tobj o6))) (fun _ => hret (MRaised m)) h6
      | None => hbind (show_members show_order (m_blk o6) no_blocks) (fun v1 => hbind (hfree (Some (m_id o6)))
                  (fun _ => hbind (hfree (Some (next h))) (fun _ => hret (MConstructed (m_tau o6) v1)))) h6
      end).
    { unfold diffrec_init_h. step E1. rewrite D. fold (res0 a r). step E. rewrite Ex.
      unfold hbind at 1; unfold hlift at 1; rewrite V; cbn [bind].
      unfold hbind at 1; unfold hlift at 1; rewrite Cf; cbn [bind]. step E6. destruct (err (m_tau o6)); reflexivity. }
    rewrite P, T6. destruct (err t6) as [m|] eqn:Ee.
    - assert (O6' : owns (l ++ next h :: live h) (mb o6) h6) by (apply owns_move; exact O6).
      destruct (destroy_mobj _ o6 h6 O6') as (q & h7 & E7 & O7 & F7). step E7.
      exists h7. split; [reflexivity|]. rewrite <- N.
      change (1 + List.length l)%nat with (List.length (next h :: l)). apply more_owns; [|rewrite F7, F6, F; reflexivity].
      destruct O7 as [OC OU OF]. constructor; auto. intro x. rewrite OC. cx.
    - destruct (show_ok show_order (m_blk o6) no_blocks h6) as (v & Ev & Av); [reflexivity|]. step Ev.
      assert (Av' : forall m, v m = m_blk o6 m) by (intros [[]| | |]; rewrite Av; reflexivity).
      assert (O6' : owns (live h) (m_id o6 :: next h :: bl (m_blk o6) ++ l) h6).
      { destruct O6 as [OC OU OF]. constructor; auto. intro x. rewrite OC. unfold mb. cbn [live one_more]. cx. }
      destruct (free_owned _ (Some (m_id o6)) _ (next h :: bl (m_blk o6) ++ l) h6 O6') as (h7 & E7 & O7 & F7); [cn|]. step E7.
      destruct (free_owned _ (Some (next h)) _ (bl (m_blk o6) ++ l) h7 O7) as (h8 & E8 & O8 & F8); [cn|]. step E8.
      destruct (m_blk o6 (MArr KV)) as [kb|] eqn:Ek; [|exfalso; exact (kv_whole L sep Mem sch _ _ _ _ E6 K4 Ek)].
      destruct (drop_ok (live h) drop_order v (kb :: l) h8) as (h9 & E9 & O9 & F9).
      { apply (owns_perm _ _ _ _ O8). intro x.
        unfold bl, drop_order, destroy_order. cbn [flat_map app]. rewrite !Av', Ek. cx. }
      exists v, h8, h9. split; [reflexivity|]. split; [exact E9|]. rewrite <- N.
      change (1 + List.length l)%nat with (List.length (kb :: l)). apply more_owns; [|rewrite F9, F8, F7, F6, F; reflexivity].
      destruct O9 as [OC OU OF]. constructor; auto. intro x. rewrite OC. cx.
  Qed.
End Python.
