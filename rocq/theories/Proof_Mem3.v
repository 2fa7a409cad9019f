(** * Proof_Mem3: the whole reconstruction, creation and destruction. *)
From Coq Require Import List ZArith Lia Bool String Permutation.
From Verif Require Import Base BaseFacts Scalar Spec_Tau Spec_Select Model_TauRec Model_Checks Model_Select
  Model_Transform Model_Recon Model_Heap Model_Create Model_Mem Spec_Csv Spec_Create Spec_Mem
  Proof_Checks Proof_Heap Proof_Create Proof_Recon Proof_Recon3 Proof_Mem Proof_Mem2.
Import ListNotations.
Open Scope list_scope.
Open Scope Z_scope.

Section Whole.
  Context {S : scalar} (L : tmpl S) (sep : bool).
  Notation tau := (tau S).
  Notation mobj := (@mobj S).

  Lemma select_again base rest (o : mobj) h w0 : owns base (mb o ++ rest) h -> err (m_tau o) = None ->
    arr (m_tau o) WKM = Some w0 ->
    sim base rest (m_id o) (files h) (fun _ => O) (fun o' => err (m_tau o') <> None)
      (get_window_width L (m_tau o)) (get_window_width_h L sep o h).
  Proof.
    intros O Hc Hw. unfold get_window_width_h, get_window_width, guarded. rewrite Hc.
    assert (Early : forall t' h0, h0 = h -> err t' <> None -> sim base rest (m_id o) (files h) (fun _ => 0%nat)
              (fun o' => err (m_tau o') <> None) (Ok t') (Ok (with_val o t', h0))).
    { intros t' h0 -> E. exists (with_val o t'), h, []. split; [reflexivity|]. split; [reflexivity|]. split; [reflexivity|].
      split; [reflexivity|]. split; [exact O|]. split; [reflexivity|]. exact E. }
    step (touch_ok _ _ _ _ O).
    unfold hbind at 1; unfold hlift at 1. destruct (deref (arr (m_tau o) RHO)) as [rho|u]; cbn [bind]; [|reflexivity].
    unfold hbind at 1; unfold hlift at 1. destruct (gww_start (m_tau o) rho) as [[[r0 s]|]|u]; cbn [bind]; [| |reflexivity].
    2: { apply Early; [reflexivity|discriminate]. }
    set (t1 := set_start (set_range0 (m_tau o) r0) s).
    unfold hbind at 1; unfold hlift at 1. destruct (gww_count t1 rho) as [[[r1 n]|]|u]; cbn [bind]; [| |reflexivity].
    2: { apply Early; [reflexivity|discriminate]. }
    set (t2 := set_n_used (set_range1 t1 r1) n).
    assert (W2 : arr t2 WKM = Some w0) by exact Hw. rewrite W2.
    apply Early; [reflexivity|discriminate].
  Qed.

  (** The window selection never reports the failure of the forward model; without
      an error the widths are there. *)
  Lemma select_result (t t' : tau) : get_window_width L t = Ok t' -> err t = None -> arr t WKM = None ->
    match err t' with
    | Some m => m <> "forward: not enough data"%string
    | None => arr t' WKM <> None
    end.
  Proof.
    unfold get_window_width, guarded. intros E Hc Hw. rewrite Hc in E. unfold fail in E.
    apply bind_ok in E. destruct E as (rho & _ & E). apply bind_ok in E. destruct E as ([[r0 s]|] & _ & E); [|injection E as <-; discriminate].
    apply bind_ok in E. destruct E as ([[r1 n]|] & _ & E); [|injection E as <-; discriminate].
    match type of E with match ?x with _ => _ end = _ => destruct x end; [injection E as <-; discriminate|].
    apply bind_ok in E. destruct E as (w & _ & E).
    pose proof (trim_wkm L _ _ _ _ E) as A.
    assert (M : match err t' with Some m => m <> "forward: not enough data"%string | None => True end).
    { unfold gww_trim, fail in E.
      repeat match type of E with
      | bind _ _ = Ok _ => apply bind_ok in E; destruct E as (? & ? & E)
      | match ?c with _ => _ end = Ok _ => destruct c
      end; injection E as <-; cbn [err set_err]; try discriminate.
      repeat match goal with |- context [if ?c then _ else _] => destruct c end; cbn; rewrite Hc; exact I. }
    destruct (err t'); [exact M|]. rewrite A. discriminate.
  Qed.
  Lemma resize_some {A} (p : option (list A)) st n v : resize L p st n = Ok v -> v <> None.
  Proof.
    unfold resize. intro E. apply bind_ok in E. destruct E as (? & _ & E). destruct p.
    - apply bind_ok in E. destruct E as (? & _ & E). injection E as <-. discriminate.
    - destruct (_ <=? _); [injection E as <-; discriminate|discriminate E].
  Qed.
  Lemma resize_all_wkm fs : forall t t' : tau, resize_all L fs t = Ok t' -> arr t WKM <> None ->
    arr t' WKM <> None /\ err t' = err t.
  Proof.
    induction fs as [|f fs IH]; intros t t' E Hw; cbn [resize_all] in E; [injection E as <-; auto|].
    apply bind_ok in E. destruct E as (t1 & E1 & E). unfold resize_f in E1.
    apply bind_ok in E1. destruct E1 as (v & Ev & E1). injection E1 as <-. apply resize_some in Ev.
    destruct (IH _ _ E) as [A B].
    - unfold set_f; cbn [arr set_arr]. destruct (rf_eqb _ _); assumption.
    - split; [exact A|exact B].
  Qed.
  Lemma finish_wkm (t t' : tau) : finish L t = Ok t' -> arr t WKM <> None -> arr t' WKM <> None /\ err t' = err t.
  Proof.
    unfold finish, guarded. intros E Hw. destruct (err t) eqn:Ee; [injection E as <-; auto|].
    apply bind_ok in E. destruct E as (a & _ & E). apply bind_ok in E. destruct E as (b & _ & E).
    apply bind_ok in E. destruct E as (t3 & E3 & E). apply resize_all_wkm in E3; [|exact Hw]. destruct E3 as [A B].
    cbn [err set_T_out set_T_in] in B. rewrite Ee in B.
    destruct (use_fwd _); [apply bind_ok in E; destruct E as (c & _ & E)|]; injection E as <-; split; assumption.
  Qed.
  Lemma dc_wkm sch (t t' : tau) : diffraction_correction L sch t = Ok t' -> arr t' WKM = arr t WKM.
  Proof.
    intro E. destruct (dc_frames L sch t t' E) as [(T & e & ->)|(_ & _ & t3 & (k & ->) & (T & e & ->))]; reflexivity.
  Qed.

  Lemma mb_pointed (o : mobj) others : forall x, cnt (m_id o :: pointed_to (m_blk o) array_members ++ others) x = cnt (mb o ++ others) x.
  Proof. intro x. reflexivity. Qed.
  Lemma owned_owns (o : mobj) others h : owned_by o others h <-> owns others (mb o) h.
  Proof.
    unfold owned_by, good_heap. split.
    - intros ([N F] & P). constructor; [|apply NoDup_count_occ; exact N|exact F].
      intro x. unfold cnt. rewrite (proj1 (Permutation_count_occ Z.eq_dec _ _) P). fold (cnt (m_id o :: pointed_to (m_blk o) array_members ++ others) x).
      rewrite mb_pointed. apply cnt_app.
    - intros [C U F]. split; [split; [apply (NoDup_count_occ Z.eq_dec); exact U|exact F]|].
      apply (Permutation_count_occ Z.eq_dec). intro x.
      change (cnt (live h) x = cnt (m_id o :: pointed_to (m_blk o) array_members ++ others) x).
      rewrite mb_pointed, C, cnt_app. reflexivity.
  Qed.
  Lemma owns_move base ids l h : owns base (ids ++ l) h <-> owns (l ++ base) ids h.
  Proof.
    split; intros [C U F]; constructor; auto; intro x; rewrite C, !cnt_app; lia.
  Qed.

  Lemma whole_ok base (o : mobj) sch h : owns base (mb o) h -> unprocessed o ->
    sim base [] (m_id o) (files h) (lost L sep o) (fun _ => True)
      (reconstruction L sch (m_tau o)) (reconstruction_h L sep sch o h).
  Proof.
    intros O Un. unfold reconstruction, reconstruction_h. cbv zeta.
    assert (O0 : owns base (mb o ++ []) h) by (rewrite app_nil_r; exact O). clear O.
    unfold hbind at 1.
    eapply (sim_then _ _ _ _ (fun o' => m_blk o' = m_blk o)); [apply staged_ok; exact O0|].
    intros o1 h1 B1 I1 F1 V1 O1. unfold hbind at 1. rewrite <- I1, <- F1.
    eapply (sim_then _ _ _ _ (fun o' => m_blk o' = m_blk o1)); [apply staged_ok; exact O1|].
    intros o2 h2 B2 I2 F2 V2 O2. rewrite <- I2, <- F2.
    assert (K : arr (m_tau o2) WKM = arr (m_tau o) WKM /\ bfac (m_tau o2) = bfac (m_tau o)).
    { apply occ_type_only in V2. destruct V2 as (A & d & e & -> & HA). cbn.
      rewrite HA by (cbn; intuition discriminate).
      destruct (checks_keywords _ _ V1) as [->|[m ->]]; split; reflexivity. }
    destruct K as [Kw Kb].
    assert (Ks : err (m_tau o2) = None -> err (m_tau o) = None).
    { intro E. destruct (err (m_tau o)) as [m|] eqn:Em; [exfalso|reflexivity].
      unfold check_keywords, guarded in V1. rewrite Em in V1. injection V1 as V1.
      unfold check_occ_type, guarded in V2. rewrite <- V1, Em in V2. injection V2 as V2. congruence. }
    assert (Same : sim base [] (m_id o2) (files h2) (fun _ => O) (fun _ => True) (Ok (m_tau o2)) (Ok (o2, h2))).
    { exists o2, h2, []. split; [reflexivity|]. repeat split; apply O2. }
    destruct (err (m_tau o2)) as [m2|] eqn:Ee2.
    { (* an error before the selection *)
      unfold get_window_width, get_window_width_h, guarded at 1. rewrite Ee2. cbn [bind]. unfold hbind at 1. cbn [hret bind].
      pose proof (staged_ok base [] check_data_range o2 h2 O2) as D. unfold sim in D.
      replace (check_data_range (m_tau o2)) with (Ok (m_tau o2)) in * by (unfold check_data_range, guarded; rewrite Ee2; reflexivity).
      destruct D as (o3 & h3 & l & E3 & T3 & I3 & N3 & O3 & F3 & _). step E3. cbn [bind]. unfold guarded. rewrite T3, Ee2.
      exists o3, h3, l. split; [reflexivity|]. split; [exact T3|]. split; [exact I3|].
      split; [|split; [exact O3|split; [exact F3|exact I]]]. rewrite N3. unfold lost. rewrite Kw.
      destruct (arr (m_tau o) WKM); reflexivity. }
    pose proof (Ks eq_refl) as Ee0. clear Ks.
    destruct (arr (m_tau o) WKM) as [w0|] eqn:Ew.
    { (* processed before *)
      pose proof (select_again base [] o2 h2 w0 O2 Ee2 Kw) as A. unfold sim in A.
      destruct (get_window_width L (m_tau o2)) as [t3|u]; [|unfold hbind; rewrite A; reflexivity].
      destruct A as (o3 & h3 & l & E3 & T3 & I3 & N3 & O3 & F3 & Q3). destruct l; [|discriminate N3]. step E3. subst t3.
      pose proof (staged_ok base [] check_data_range o3 h3 O3) as D. unfold sim in D.
      destruct (err (m_tau o3)) as [m3|] eqn:Ee3; [|contradiction].
      replace (check_data_range (m_tau o3)) with (Ok (m_tau o3)) in * by (unfold check_data_range, guarded; rewrite Ee3; reflexivity).
      destruct D as (o4 & h4 & l & E4 & T4 & I4 & N4 & O4 & F4 & _). step E4. cbn [bind]. unfold guarded. rewrite T4, Ee3.
      exists o4, h4, l. split; [reflexivity|]. split; [exact T4|]. split; [congruence|].
      split; [|split; [exact O4|split; [congruence|exact I]]]. rewrite N4. unfold lost. rewrite Ew. reflexivity. }
    destruct (Un Ee0 Ew) as (Uw & Uo & Uf).
    assert (B2o : m_blk o2 = m_blk o) by congruence.
    pose proof (select_ok L sep base [] o2 h2 O2 Ee2 Kw ltac:(rewrite B2o; exact Uw)) as A. unfold sim in A.
    destruct (get_window_width L (m_tau o2)) as [t3|u] eqn:G3; [|unfold hbind; rewrite A; reflexivity].
    destruct A as (o3 & h3 & l & E3 & T3 & I3 & N3 & O3 & F3 & Q3). step E3.
    pose proof (select_result _ _ G3 Ee2 Kw) as R3. subst t3.
    pose proof (staged_ok base (l ++ []) check_data_range o3 h3 O3) as D. unfold sim in D.
    destruct (err (m_tau o3)) as [m3|] eqn:Ee3.
    { replace (check_data_range (m_tau o3)) with (Ok (m_tau o3)) in * by (unfold check_data_range, guarded; rewrite Ee3; reflexivity).
      destruct D as (o4 & h4 & l4 & E4 & T4 & I4 & N4 & O4 & F4 & _). destruct l4; [|discriminate N4].
      step E4. cbn [bind]. unfold guarded. rewrite T4, Ee3.
      exists o4, h4, l. split; [reflexivity|]. split; [exact T4|]. split; [congruence|].
      split; [|split; [exact O4|split; [congruence|exact I]]]. rewrite N3. unfold lost, select_lost, trim_lost. rewrite Ew, Kb, Ee3.
      destruct (arr (m_tau o3) WKM); [|reflexivity].
      destruct (String.eqb m3 "window: left"); [unfold one; lia|]. destruct (String.eqb m3 "window: right"); [unfold one; lia|].
      rewrite (proj2 (String.eqb_neq _ _) R3). unfold one; lia. }
    assert (N3' : List.length l = (2 * (if sep then 1 else 0) + (if bfac (m_tau o) then if sep then 1 else 0 else 0))%nat).
    { rewrite N3. unfold select_lost, trim_lost. rewrite Ee3, Kb. destruct (arr (m_tau o3) WKM); [reflexivity|congruence]. }
    assert (LQ : forall t', arr t' WKM <> None -> quiet (err t') -> lost L sep o t' = List.length l).
    { intros t' W Q. rewrite N3'. unfold lost. rewrite Ew. destruct (arr t' WKM); [|congruence].
      destruct (err t') as [m|]; [|reflexivity]. destruct Q as (Q1 & Q2 & Q4).
      rewrite (proj2 (String.eqb_neq _ _) Q1), (proj2 (String.eqb_neq _ _) Q2), (proj2 (String.eqb_neq _ _) Q4). reflexivity. }
    (* the end of every path that loses nothing more *)
    assert (Stop : forall (v : res tau) (r : res (mobj * heap)) Qx, sim base (l ++ []) (m_id o2) (files h2) (fun _ => O) Qx v r ->
      (forall t', v = Ok t' -> arr t' WKM <> None /\ quiet (err t')) ->
      sim base [] (m_id o2) (files h2) (lost L sep o) (fun _ => True) v r).
    { intros v r Qx A Hq. unfold sim in *. destruct v as [t'|u]; [|exact A].
      destruct A as (ox & hx & lx & -> & Tx & Ix & Nx & Ox & Fx & _). destruct lx; [|discriminate Nx].
      exists ox, hx, l. split; [reflexivity|]. split; [exact Tx|]. split; [exact Ix|].
      destruct (Hq t' eq_refl) as [Hw Hq']. split; [symmetry; apply LQ; assumption|]. split; [exact Ox|]. split; [exact Fx|exact I]. }
    cbn [bind].
    destruct (check_data_range (m_tau o3)) as [t4|u] eqn:C4; [|unfold hbind; rewrite D; reflexivity].
    destruct D as (o4 & h4 & l4 & E4 & T4 & I4 & N4 & O4 & F4 & Q4). destruct l4; [|discriminate N4]. step E4. cbn [bind app] in *.
    assert (W4 : arr t4 WKM <> None /\ quiet (err t4)).
    { split; [|eapply quiet_range; [exact C4|rewrite Ee3; exact I]].
      destruct (checks_range _ _ C4) as [->|[m ->]]; exact R3. }
    subst t4. unfold guarded at 1. destruct (err (m_tau o4)) as [m4|] eqn:Ee4.
    { apply (Stop _ _ (fun _ => True)).
      - exists o4, h4, []. split; [reflexivity|]. split; [reflexivity|]. split; [congruence|]. split; [reflexivity|].
        split; [exact O4|]. split; [congruence|exact I].
      - intros t' E. injection E as <-. rewrite Ee4. exact W4. }
    destruct W4 as [W4 _].
    destruct (halloc_ok base _ h4 (t_alloc L 30) O4) as (b & h5 & E5 & O5 & F5 & _). step E5.
    set (t5 := set_T_out (m_tau o4) _).
    assert (B4 : forall m, m <> MArr WKM -> m_blk o4 m = m_blk o m) by (intros m Hm; rewrite Q4, Q3, B2o; [reflexivity|exact Hm]).
    set (o5 := with_blk (with_val o4 t5) MTout b).
    assert (O5' : owns base (mb o5 ++ l ++ []) h5).
    { apply (owns_perm _ _ _ _ O5). intro x. pose proof (cnt_mb_put (with_val o4 t5) MTout b x) as A.
      fold o5 in A. rewrite mb_val in A. cbn [m_blk with_val] in A. rewrite (B4 MTout ltac:(discriminate)), Uo in A. cbn [ml] in A. rewrite cnt_nil in A.
      repeat cc1. lia. }
    unfold hbind at 1.
    pose proof (staged_ok base (l ++ []) check_core_data o5 h5 O5') as D5. change (m_tau o5) with t5 in D5. unfold sim in D5.
    destruct (check_core_data t5) as [t6|u] eqn:C6; [|rewrite D5; reflexivity]. cbn [bind].
    destruct D5 as (o6 & h6 & l6 & E6 & T6 & I6 & N6 & O6 & F6 & Q6). destruct l6; [|discriminate N6]. rewrite E6. cbn [bind app] in *.
    assert (W6 : arr t6 WKM <> None /\ quiet (err t6)).
    { split; [|eapply quiet_core; [exact C6|change (err t5) with (err (m_tau o4)); rewrite Ee4; exact I]].
      destruct (checks_core _ _ C6) as [->|[m ->]]; exact W4. }
    change (m_id o5) with (m_id o4) in I6.
    subst t6. unfold guarded at 1. destruct (err (m_tau o6)) as [m6|] eqn:Ee6.
    { apply (Stop _ _ (fun _ => True)).
      - exists o6, h6, []. split; [reflexivity|]. split; [reflexivity|]. split; [congruence|]. split; [reflexivity|].
        split; [exact O6|]. split; [congruence|exact I].
      - intros t' E. injection E as <-. rewrite Ee6. exact W6. }
    destruct W6 as [W6 _].
    unfold hbind at 1.
    pose proof (dc_ok L base (l ++ []) sch (with_val o6 (set_use_fwd (m_tau o6) false)) h6 O6) as D6.
    cbn [m_tau with_val m_id m_blk] in D6. unfold sim in D6. cbn [m_tau with_val m_id m_blk] in *.
    destruct (diffraction_correction L sch (set_use_fwd (m_tau o6) false)) as [t7|u] eqn:C7; [|rewrite D6; reflexivity]. cbn [bind].
    destruct D6 as (o7 & h7 & l7 & E7 & T7 & I7 & N7 & O7 & F7 & Q7). destruct l7; [|discriminate N7]. rewrite E7. cbn [bind app] in *.
    assert (W7 : arr t7 WKM <> None /\ quiet (err t7)).
    { split; [rewrite (dc_wkm _ _ _ C7); exact W6|].
      apply (quiet_dc L sch _ _ C7). cbn [err set_use_fwd]. rewrite Ee6. exact I. }
    subst t7. destruct W7 as [W7 Y7].
    set (o8 := with_val o7 (set_use_fwd (m_tau o7) (use_fwd (m_tau o6)))).
    change (set_use_fwd (m_tau o7) (use_fwd (m_tau o6))) with (m_tau o8).
    destruct (use_fwd (m_tau o8)).
    - assert (Hf : m_blk o8 MTfwd = None).
      { change (m_blk o8) with (m_blk o7). rewrite Q7, Q6.
        change (m_blk o5) with (put_blk (m_blk o4) MTout b). rewrite put_other by discriminate.
        rewrite B4 by discriminate. exact Uf. }
      assert (Hi : m_blk o8 MTin = m_blk o MTin).
      { change (m_blk o8) with (m_blk o7). rewrite Q7, Q6.
        change (m_blk o5) with (put_blk (m_blk o4) MTout b). rewrite put_other by discriminate.
        apply B4. discriminate. }
      pose proof (forward_ok L base (l ++ []) sch o8 h7 O7 Hf) as D8. unfold simf in D8. unfold hbind at 1.
      destruct (forward_model L sch (m_tau o8)) as [[t9|t9]|u] eqn:C9; cbn [bind]; [| |rewrite D8; reflexivity].
      + destruct D8 as (o9 & h9 & E9 & T9 & I9 & O9 & F9). rewrite E9. cbn [bind].
        assert (W9 : arr t9 WKM <> None /\ quiet (err t9)).
        { unfold forward_model in C9. cbv zeta in C9. do 3 (apply bind_ok in C9; destruct C9 as (? & _ & C9)).
          destruct (_ <=? _); [apply bind_ok in C9; destruct C9 as (? & _ & C9); discriminate C9|].
          apply bind_ok in C9. destruct C9 as (t4 & D & C9). injection C9 as <-.
          change (arr t4 WKM <> None /\ quiet (err t4)).
          split; [rewrite (dc_wkm _ _ _ D); exact W7|]. apply (quiet_dc L sch _ _ D). exact Y7. }
        subst t9. apply (Stop _ _ (fun _ => True)).
        * pose proof (finish_ok L base (l ++ []) o9 h9 O9) as D. rewrite I9, F9 in D.
          change (m_id o8) with (m_id o7) in D. replace (m_id o2) with (m_id o7) by congruence.
          replace (files h2) with (files h7) by congruence. exact D.
        * intros t' E. destruct (finish_wkm _ _ E (proj1 W9)) as [A B]. rewrite B. split; [exact A|apply W9].
      + destruct D8 as (o9 & h9 & E9 & T9 & I9 & O9 & F9). rewrite E9. cbn [bind].
        exists o9, h9, (ml (m_blk o MTin) ++ l). split; [reflexivity|]. split; [exact T9|].
        split; [rewrite I9; change (m_id o8) with (m_id o7); congruence|].
        split.
        { rewrite app_length, N3'.
          unfold forward_model in C9. cbv zeta in C9. do 3 (apply bind_ok in C9; destruct C9 as (? & _ & C9)).
          destruct (_ <=? _).
          2: { apply bind_ok in C9. destruct C9 as (? & _ & C9). discriminate C9. }
          injection C9 as <-. unfold lost. rewrite Ew.
          cbn [arr err set_err set_T_out set_T_in].
          cbn [arr m_tau with_val o8 set_use_fwd].
          destruct (arr (m_tau o7) WKM); [|congruence]. cbn [String.eqb Ascii.eqb Bool.eqb].
          destruct (m_blk o MTin); cbn [ml List.length]; lia. }
        split; [|split; [congruence|exact I]]. apply (owns_perm _ _ _ _ O9). rewrite Hi. cn.
    - apply (Stop _ _ (fun _ => True)).
      + pose proof (finish_ok L base (l ++ []) o8 h7 O7) as D.
        change (m_id o8) with (m_id o7) in D. replace (m_id o2) with (m_id o7) by congruence.
        replace (files h2) with (files h7) by congruence. exact D.
      + intros t' E. destruct (finish_wkm _ _ E W7) as [A B]. rewrite B. split; [exact A|exact Y7].
  Qed.

  (** *** Destruction *)
  Lemma mids_bl (o : mobj) : mids destroy_order (to_tobj o) = bl (m_blk o).
  Proof.
    unfold mids, bl. apply flat_map_ext. intro m. f_equal. destruct m as [f| | |]; cbn.
    - destruct (m_blk o (MArr f)); reflexivity.
    - destruct (m_blk o MTin); reflexivity.
    - destruct (m_blk o MTout); reflexivity.
    - destruct (m_blk o MTfwd); reflexivity.
  Qed.
  Lemma destroy_mobj base (o : mobj) h : owns base (mb o) h ->
    exists q h', tau_destroy (Some (to_tobj o)) h = Ok (q, h') /\ owns base [] h' /\ files h' = files h.
  Proof.
    intro O. destruct (destroy_ok base (to_tobj o) h) as (o' & h' & E & _ & O' & F').
    - unfold oblocks. rewrite mids_bl. exact O.
    - eauto.
  Qed.
  Lemma more_owns (h h1 : heap) l : owns (l ++ live h) [] h1 -> files h1 = files h -> blocks_more (List.length l) h h1.
  Proof.
    intros [C U F] E. split; [|exact E]. exists l. split; [reflexivity|].
    apply (Permutation_count_occ Z.eq_dec). intro x. change (cnt (live h1) x = cnt (l ++ live h) x). rewrite C. rewrite cnt_nil. lia.
  Qed.

  Lemma reconstruction_memory (o : mobj) sch others h : owned_by o others h -> unprocessed o ->
    match reconstruction L sch (m_tau o) with
    | UB u => reconstruction_h L sep sch o h = UB u
    | Ok t' => exists o' h' forgotten, reconstruction_h L sep sch o h = Ok (o', h') /\ m_tau o' = t' /\
        m_id o' = m_id o /\ List.length forgotten = lost L sep o t' /\
        owned_by o' (forgotten ++ others) h' /\ files h' = files h
    end.
  Proof.
    intros O Un. apply owned_owns in O. pose proof (whole_ok others o sch h O Un) as A. unfold sim in A.
    destruct (reconstruction L sch (m_tau o)) as [t'|u]; [|exact A].
    destruct A as (o' & h' & l & E & T & I & N & O' & F & _). exists o', h', l.
    split; [exact E|]. split; [exact T|]. split; [exact I|]. split; [exact N|]. split; [|exact F].
    apply owned_owns. apply owns_move. rewrite app_nil_r in O'. exact O'.
  Qed.
  Lemma destroy_memory (o : mobj) others h : owned_by o others h ->
    exists q h', tau_destroy (Some (to_tobj o)) h = Ok (q, h') /\ good_heap h' /\
      Permutation (live h') others /\ files h' = files h.
  Proof.
    intros O. apply owned_owns in O. destruct (destroy_mobj others o h O) as (q & h' & E & [C U F] & F').
    exists q, h'. split; [exact E|]. split; [split; [apply (NoDup_count_occ Z.eq_dec); exact U|exact F]|]. split; [|exact F'].
    apply (Permutation_count_occ Z.eq_dec). intro x. change (cnt (live h') x = cnt others x). rewrite C, cnt_nil. lia.
  Qed.
End Whole.
