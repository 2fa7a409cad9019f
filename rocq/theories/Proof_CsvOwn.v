(** * Proof_CsvOwn: ownership of blocks in the table readers. *)
From Coq Require Import List ZArith Lia Bool Ascii.
From Verif Require Import Base BaseFacts Scalar Model_Heap Model_Csv Model_CsvData Proof_Heap.
Import ListNotations.
Open Scope list_scope.
Open Scope Z_scope.

(** What the ownership argument uses of a format. *)
Record format_ok (F : format) : Prop := {
  fo_nodup : NoDup (f_destroy F);
  fo_malloc : forall dep, NoDup (f_malloc F dep);
  fo_incl : forall dep, incl (f_malloc F dep) (f_destroy F);
  fo_read : forall dep, incl (f_read F dep) (f_malloc F dep)
}.

Ltac nodup_tac :=
  repeat constructor; cbn; intuition discriminate.
Ltac incl_tac := intros c Hc; cbn in *; intuition subst; auto 40.

Lemma geo_format_ok : format_ok geo_format.
Proof. split; cbn; [nodup_tac|intros []; cbn; nodup_tac|intros []; incl_tac|intros []; incl_tac]. Qed.
Lemma cal_format_ok : format_ok cal_format.
Proof. split; cbn; [nodup_tac|intros _; cbn; nodup_tac|intros _; incl_tac|intros _; incl_tac]. Qed.
Lemma dlp_format_ok : format_ok dlp_format.
Proof. split; cbn; [nodup_tac|intros []; cbn; nodup_tac|intros []; incl_tac|intros []; incl_tac]. Qed.
Lemma tau_format_ok : format_ok tau_format.
Proof. split; cbn; [nodup_tac|intros []; cbn; nodup_tac|intros []; incl_tac|intros []; incl_tac]. Qed.
Lemma uranus_dlp_format_ok : format_ok uranus_dlp_format.
Proof. split; cbn; [nodup_tac|intros _; cbn; nodup_tac|intros _; incl_tac|intros _; incl_tac]. Qed.
Lemma merged_format_ok : format_ok merged_format.
Proof. split; cbn; [nodup_tac|intros _; cbn; nodup_tac|intros _; incl_tac|intros _; incl_tac]. Qed.

Section Own.
  Context {S : scalar}.
  Variable L : csvlib S.

  (** All blocks of a table object. *)
  Definition tids (F : format) (o : obj S) : list Z :=
    o_id o :: ml (o_msg o) ++ oids (f_destroy F) o.
  Definition pids (F : format) (p : option (obj S)) : list Z :=
    match p with Some o => tids F o | None => [] end.

  (** Messages live on the heap only for the types that duplicate them. *)
  Definition msg_ok (F : format) (o : obj S) : Prop := f_dup F = false -> o_msg o = None.

  Lemma cnt_tids F o b :
    cnt (tids F o) b = (cnt [o_id o] b + cnt (ml (o_msg o)) b + cnt (oids (f_destroy F) o) b)%nat.
  Proof. unfold tids; rewrite cnt_cons, cnt_app; lia. Qed.

  (** Same object up to array contents. *)
  Record same_shape (o o' : obj S) : Prop := mkShape {
    sh_id : o_id o' = o_id o;
    sh_msg : o_msg o' = o_msg o;
    sh_n : o_n o' = o_n o;
    sh_err : o_err o' = o_err o;
    sh_flag : o_flag o' = o_flag o;
    sh_col : forall c, pl (o_col o' c) = pl (o_col o c);
  }.
  Lemma same_shape_refl o : same_shape o o.
  Proof. split; reflexivity. Qed.
  Lemma same_shape_trans a b c : same_shape a b -> same_shape b c -> same_shape a c.
  Proof. intros [? ? ? ? ? ?] [? ? ? ? ? H]; split; try congruence; intro; rewrite H; auto. Qed.

  Lemma store_shape (o o' : obj S) c n v : store o c n v = Ok o' -> same_shape o o'.
  Proof.
    unfold store; destruct (o_col o c) as [[id l]|] eqn:E; [|discriminate].
    destruct (awrite l n (Some v)); [|discriminate]; cbn; intros [= <-].
    split; try reflexivity. intro d; cbn [o_col with_col].
    destruct (col_beq d c) eqn:B; [|reflexivity].
    apply col_beq_eq in B; subst; rewrite E; reflexivity.
  Qed.
  Lemma read_fields_shape cs : forall s n (o o' : obj S),
    read_fields L cs s n o = Ok o' -> same_shape o o'.
  Proof.
    induction cs as [|c r IH]; cbn; intros s n o o' E.
    - injection E as <-; apply same_shape_refl.
    - destruct (strtok s) as [[tok rest]|]; [|discriminate].
      apply bind_ok in E as [o1 [E1 E2]].
      exact (same_shape_trans _ _ _ (store_shape _ _ _ _ _ E1) (IH _ _ _ _ E2)).
  Qed.
  Lemma read_rows_shape cs lines : forall n (o o' : obj S),
    read_rows L cs lines n o = Ok o' -> same_shape o o'.
  Proof.
    induction lines as [|l r IH]; cbn; intros n o o' E.
    - injection E as <-; apply same_shape_refl.
    - apply bind_ok in E as [o1 [E1 E2]].
      exact (same_shape_trans _ _ _ (read_fields_shape _ _ _ _ _ E1) (IH _ _ _ E2)).
  Qed.
  Lemma scale_shape c n (o o' : obj S) : scale_cell c n o = Ok o' -> same_shape o o'.
  Proof.
    unfold scale_cell; intro E; apply bind_ok in E as [v [_ E]].
    exact (store_shape _ _ _ _ _ E).
  Qed.

  Lemma same_shape_tids F o o' : same_shape o o' -> tids F o' = tids F o.
  Proof.
    intros [I M _ _ _ C]; unfold tids; rewrite I, M.
    do 2 f_equal. apply oids_ext; intros; apply C.
  Qed.

  (** Setting the error. *)
  Lemma set_error_own base F k dup o rest h :
    owns base (tids F o ++ rest) h -> o_msg o = None ->
    exists o1 h1, set_error L k dup o h = Ok (o1, h1) /\
      owns base (tids F o1 ++ rest) h1 /\ files h1 = files h /\
      (dup = false -> o_msg o1 = None) /\ o_err o1 = true /\
      o_id o1 = o_id o /\ o_n o1 = o_n o /\ o_flag o1 = o_flag o /\ o_col o1 = o_col o.
  Proof.
    intros O M; unfold set_error; destruct dup; unfold hbind, halloc, hret; cbn [bind].
    - destruct (l_alloc L (SMsg k)); cbn [bind]; eexists _, _; (split; [reflexivity|]).
      + split.
        { apply (owns_perm _ _ _ _ (owns_alloc _ _ _ O)); intro b.
          rewrite cnt_app, cnt_cons, cnt_app, !cnt_tids, M. cbn [o_id o_msg o_col ml].
          unfold oids; cbn [o_col]. rewrite cnt_nil. lia. }
        repeat split; try reflexivity; discriminate.
      + split.
        { apply (owns_perm _ _ _ _ O); intro b.
          rewrite !cnt_app, !cnt_tids, M. cbn [o_id o_msg o_col ml].
          unfold oids; cbn [o_col]. lia. }
        repeat split; reflexivity.
    - eexists _, _; split; [reflexivity|]. split.
      { apply (owns_perm _ _ _ _ O); intro b.
        rewrite !cnt_app, !cnt_tids, M. cbn [o_id o_msg o_col ml].
        unfold oids; cbn [o_col]. lia. }
      repeat split; reflexivity.
  Qed.

  (** Releasing all members. *)
  Lemma destroy_members_own base F o rest h :
    format_ok F -> owns base (tids F o ++ rest) h ->
    exists o1 h1, destroy_members F o h = Ok (o1, h1) /\
      owns base (tids F o1 ++ rest) h1 /\ files h1 = files h /\
      o_id o1 = o_id o /\ o_msg o1 = o_msg o /\ o_n o1 = o_n o /\ o_err o1 = o_err o /\
      o_flag o1 = o_flag o /\ (forall c, In c (f_destroy F) -> o_col o1 c = None) /\
      (forall c, ~ In c (f_destroy F) -> o_col o1 c = o_col o c).
  Proof.
    intros FO O; unfold destroy_members, hbind.
    rewrite (access_owned _ _ _ _ O) by (left; reflexivity). cbn [bind].
    destruct (destroy_cols_ok base (f_destroy F) o (tids F o ++ rest)
                (o_id o :: ml (o_msg o) ++ rest) h (fo_nodup _ FO) O)
      as [o1 [h1 [D [O1 [F1 [I1 [I2 [I3 [I4 [I5 [I6 I7]]]]]]]]]]].
    { intro b; rewrite (cnt_cons (o_id o) (ml (o_msg o) ++ rest)), !cnt_app, cnt_tids; lia. }
    rewrite D. exists o1, h1; split; [reflexivity|]. split.
    { apply (owns_perm _ _ _ _ O1); intro b.
      rewrite (cnt_cons (o_id o) (ml (o_msg o) ++ rest)), !cnt_app, cnt_tids, I1, I2.
      replace (oids (f_destroy F) o1) with (@nil Z); [rewrite cnt_nil; lia|].
      symmetry; clear -I6. unfold oids. revert I6; generalize (f_destroy F).
      induction l as [|c r IH]; cbn; intro I; [reflexivity|].
      rewrite I by (left; reflexivity). apply IH; intros; apply I; right; assumption. }
    repeat split; assumption.
  Qed.

  Lemma oids_none cs (o : obj S) : (forall c, In c cs -> o_col o c = None) -> oids cs o = [].
  Proof.
    induction cs as [|c r IH]; cbn; intro I; [reflexivity|].
    rewrite I by (left; reflexivity). apply IH; intros; apply I; right; assumption.
  Qed.

  (** Destroying an object through its handle. *)
  Lemma destroy_own base F p rest h :
    format_ok F -> (forall o, p = Some o -> msg_ok F o) -> owns base (pids F p ++ rest) h ->
    exists h1, destroy F p h = Ok (None, h1) /\ owns base rest h1 /\ files h1 = files h.
  Proof.
    intros FO M O. destruct p as [o|]; cbn [destroy pids] in *.
    2:{ exists h; cbn in *; auto. }
    unfold hbind.
    destruct (destroy_members_own base F o rest h FO O)
      as [o1 [h1 [D [O1 [F1 [I1 [I2 [I3 [I4 [I5 [I6 I7]]]]]]]]]]].
    rewrite D; cbn [bind].
    assert (M1 : msg_ok F o1) by (intro E; rewrite I2; apply (M o eq_refl E)).
    assert (X : exists h2, (if f_dup F then hfree (o_msg o1) else hret tt) h1 = Ok (tt, h2) /\
                 owns base (o_id o1 :: rest) h2 /\ files h2 = files h1).
    { assert (Z0 : oids (f_destroy F) o1 = []) by (apply oids_none; exact I6).
      destruct (f_dup F) eqn:ED.
      - apply (free_owned base (o_msg o1) (tids F o1 ++ rest)); [exact O1|].
        intro b; rewrite cnt_app, cnt_tids, (cnt_cons _ rest), Z0, cnt_nil; lia.
      - exists h1; split; [reflexivity|]; split; [|reflexivity].
        apply (owns_perm _ _ _ _ O1); intro b.
        rewrite cnt_app, cnt_tids, (cnt_cons _ rest), Z0, (M1 ED); cbn [ml]; rewrite !cnt_nil; lia. }
    destruct X as [h2 [E2 [O2 F2]]]. rewrite E2; cbn [bind].
    destruct (free_owned base (Some (o_id o1)) (o_id o1 :: rest) rest h2 O2) as [h3 [E3 [O3 F3]]].
    { intro b; cbn [ml]; rewrite cnt_cons; lia. }
    rewrite E3; cbn [bind]. exists h3; split; [reflexivity|]; split; [exact O3|congruence].
  Qed.

  (** Allocating the arrays: all of them, or an error with none left. *)
  Lemma malloc_cols_own base F rest : format_ok F -> forall cs o h,
    NoDup cs -> incl cs (f_destroy F) -> (forall c, In c cs -> o_col o c = None) ->
    o_msg o = None -> owns base (tids F o ++ rest) h ->
    exists o1 h1, malloc_cols L F cs o h = Ok (o1, h1) /\
      owns base (tids F o1 ++ rest) h1 /\ files h1 = files h /\ msg_ok F o1 /\
      o_id o1 = o_id o /\ o_flag o1 = o_flag o /\ o_n o1 = o_n o /\
      (((forall c, In c cs -> l_alloc L (SArr (f_kind F) c) = true) /\
        o_err o1 = o_err o /\ o_msg o1 = None /\
        (forall c, In c cs -> exists id, o_col o1 c = Some (id, repeat None (Z.to_nat (o_n o)))) /\
        (forall c, ~ In c cs -> o_col o1 c = o_col o c))
       \/ ((exists c, In c cs /\ l_alloc L (SArr (f_kind F) c) = false) /\
           o_err o1 = true /\ (forall c, In c (f_destroy F) -> o_col o1 c = None) /\
           (forall c, ~ In c (f_destroy F) -> o_col o1 c = o_col o c))).
  Proof.
    intro FO; induction cs as [|c r IH]; intros o h N I Z0 M O.
    - exists o, h; cbn. split; [reflexivity|]. split; [exact O|].
      do 2 (split; [reflexivity || (intro; exact M)|]).
      do 3 (split; [reflexivity|]). left.
      repeat split; try reflexivity; try tauto; exact M.
    - inversion N as [|? ? Nc Nr]; subst. cbn [malloc_cols]; unfold hbind, halloc.
      destruct (l_alloc L (SArr (f_kind F) c)) eqn:A; cbn [bind].
      + set (o1 := with_col o c (Some (next h, repeat None (Z.to_nat (o_n o))))).
        set (h1 := mkHeap (next h :: live h) (next h + 1) (files h)).
        destruct (IH o1 h1 Nr) as [o2 [h2 [E [O2 [F2 [M2 [J1 [J2 [J3 R]]]]]]]]].
        * intros d Hd; apply I; right; exact Hd.
        * intros d Hd; unfold o1; rewrite with_col_other; [apply Z0; right; exact Hd|].
          intros ->; contradiction.
        * exact M.
        * apply (owns_perm _ _ _ _ (owns_alloc _ _ _ O)); intro b.
          rewrite cnt_app, cnt_cons, cnt_app, !cnt_tids.
          pose proof (oids_with (f_destroy F) o c (Some (next h, repeat None (Z.to_nat (o_n o)))) b
                        (fo_nodup _ FO) (I c (or_introl eq_refl))) as W.
          fold o1 in W. rewrite (Z0 c (or_introl eq_refl)) in W. cbn [pl] in W.
          rewrite cnt_nil in W. change (o_id o1) with (o_id o); change (o_msg o1) with (o_msg o). lia.
        * exists o2, h2. split; [exact E|]. split; [exact O2|].
          split; [rewrite F2; reflexivity|]. split; [exact M2|].
          split; [rewrite J1; reflexivity|]. split; [rewrite J2; reflexivity|].
          split; [rewrite J3; reflexivity|].
          destruct R as [[RA [R1 [R2 [R3 R4]]]]|[[d [D1 D2]] [R1 [R2 R3]]]].
          -- left. split.
             { intros d [<-|Hd]; [exact A|exact (RA d Hd)]. }
             split; [exact R1|]. split; [exact R2|]. split.
             { intros d [<-|Hd]; [|exact (R3 d Hd)].
               rewrite (R4 c Nc). unfold o1; rewrite with_col_same; eexists; reflexivity. }
             intros d Nd. rewrite (R4 d) by (intro; apply Nd; right; assumption).
             unfold o1; apply with_col_other. intros ->; apply Nd; left; reflexivity.
          -- right. split; [exists d; split; [right; exact D1|exact D2]|].
             split; [exact R1|]. split; [exact R2|].
             intros e Ne. rewrite (R3 e Ne). unfold o1; apply with_col_other.
             intros ->; apply Ne, I; left; reflexivity.
      + assert (O0 : owns base (tids F (with_col o c None) ++ rest) h).
        { apply (owns_perm _ _ _ _ O); intro b. rewrite !cnt_app, !cnt_tids.
          pose proof (oids_with (f_destroy F) o c None b
                        (fo_nodup _ FO) (I c (or_introl eq_refl))) as W.
          rewrite (Z0 c (or_introl eq_refl)) in W. cbn [pl] in W. rewrite cnt_nil in W.
          change (o_id (with_col o c None)) with (o_id o).
          change (o_msg (with_col o c None)) with (o_msg o). lia. }
        destruct (set_error_own base F (f_kind F) (f_dup F) _ rest h O0 M)
          as [o1 [h1 [E1 [O1 [F1 [M1 [G1 [G2 [G3 [G4 G5]]]]]]]]]].
        rewrite E1; cbn [bind].
        destruct (destroy_members_own base F o1 rest h1 FO O1)
          as [o2 [h2 [E2 [O2 [F2 [K1 [K2 [K3 [K4 [K5 [K6 K7]]]]]]]]]]].
        rewrite E2. exists o2, h2. split; [reflexivity|]. split; [exact O2|].
        split; [congruence|]. split; [intro ED; rewrite K2; exact (M1 ED)|].
        split; [rewrite K1, G2; reflexivity|]. split; [rewrite K5, G4; reflexivity|].
        split; [rewrite K3, G3; reflexivity|].
        right. split; [exists c; split; [left; reflexivity|exact A]|].
        split; [rewrite K4; exact G1|]. split; [exact K6|].
        intros d Nd. rewrite (K7 d Nd), G5. apply with_col_other.
        intros ->; apply Nd, I; left; reflexivity.
  Qed.

  (** Ownership and the states a table goes through. *)
  Record tinv (base : list Z) (F : format) (rest : list Z) (o : obj S) (h : heap) : Prop := {
    ti_own : owns base (tids F o ++ rest) h;
    ti_msg : msg_ok F o;
    ti_clean : o_err o = false -> o_msg o = None;
    ti_out : forall c, ~ In c (f_destroy F) -> o_col o c = None
  }.

  Lemma set_error_tinv base F rest o h :
    tinv base F rest o h -> o_err o = false ->
    exists o1 h1, set_error L (f_kind F) (f_dup F) o h = Ok (o1, h1) /\
      tinv base F rest o1 h1 /\ files h1 = files h /\ o_err o1 = true /\
      o_id o1 = o_id o /\ o_n o1 = o_n o /\ o_flag o1 = o_flag o /\ o_col o1 = o_col o.
  Proof.
    intros [O M C U] E.
    destruct (set_error_own base F (f_kind F) (f_dup F) o rest h O (C E))
      as [o1 [h1 [E1 [O1 [F1 [M1 [G1 [G2 [G3 [G4 G5]]]]]]]]]].
    exists o1, h1. split; [exact E1|]. split.
    { split; [exact O1|exact M1|rewrite G1; discriminate|].
      intros c Nc; rewrite G5; exact (U c Nc). }
    repeat split; assumption.
  Qed.

  Lemma check_column_tinv base F rest s o h :
    tinv base F rest o h ->
    exists o1 h1, check_column_count L F s o h = Ok (o1, h1) /\
      tinv base F rest o1 h1 /\ files h1 = files h /\
      o_id o1 = o_id o /\ o_n o1 = o_n o /\ o_flag o1 = o_flag o /\ o_col o1 = o_col o /\
      o_err o1 = (o_err o || negb (l_column_count L s =? f_need F (o_flag o)))%bool.
  Proof.
    intro T; unfold check_column_count.
    destruct (o_err o) eqn:E; [exists o, h; repeat split; auto; apply T|].
    destruct (l_column_count L s =? f_need F (o_flag o)); cbn.
    - exists o, h; repeat split; auto; apply T.
    - destruct (set_error_tinv _ _ _ _ _ T E) as [o1 [h1 [E1 [T1 [F1 [G1 [G2 [G3 [G4 G5]]]]]]]]].
      exists o1, h1; repeat split; auto; apply T1.
  Qed.

  Lemma with_n_tids F (o : obj S) n : tids F (with_n o n) = tids F o.
  Proof. reflexivity. Qed.

  Lemma malloc_table_tinv base F rest s o h :
    format_ok F -> tinv base F rest o h -> (forall c, o_col o c = None) ->
    exists o1 h1, malloc_table L F s o h = Ok (o1, h1) /\
      tinv base F rest o1 h1 /\ files h1 = files h /\
      o_id o1 = o_id o /\ o_flag o1 = o_flag o /\
      (o_err o = true -> o1 = o) /\
      (o_err o = false -> o_n o1 = l_line_count L s) /\
      (o_err o1 = false ->
         o_n o1 <> 0 /\ (forall c, In c (f_malloc F (o_flag o)) ->
           l_alloc L (SArr (f_kind F) c) = true) /\
         (forall c, In c (f_malloc F (o_flag o)) ->
           exists id, o_col o1 c = Some (id, repeat None (Z.to_nat (l_line_count L s)))) /\
         (forall c, ~ In c (f_malloc F (o_flag o)) -> o_col o1 c = None)) /\
      (o_err o1 = true -> forall c, o_col o1 c = None) /\
      (o_err o = false -> l_line_count L s <> 0 ->
         (forall c, In c (f_malloc F (o_flag o)) -> l_alloc L (SArr (f_kind F) c) = true) ->
         o_err o1 = false).
  Proof.
    intros FO T Z0; unfold malloc_table.
    destruct (o_err o) eqn:E.
    { exists o, h; split; [reflexivity|]; split; [exact T|].
      repeat split; auto; try congruence. }
    set (o0 := with_n o (l_line_count L s)).
    assert (T0 : tinv base F rest o0 h).
    { destruct T as [O M C U]; split; [exact O|exact M|exact C|exact U]. }
    destruct (o_n o0 =? 0) eqn:N0; [apply Z.eqb_eq in N0|apply Z.eqb_neq in N0].
    - destruct (set_error_tinv _ _ _ _ _ T0 E) as [o1 [h1 [E1 [T1 [F1 [G1 [G2 [G3 [G4 G5]]]]]]]]].
      exists o1, h1. split; [exact E1|]. split; [exact T1|]. split; [exact F1|].
      split; [exact G2|]. split; [exact G4|]. split; [discriminate|].
      split; [intros _; rewrite G3; reflexivity|].
      split; [rewrite G1; discriminate|].
      split; [intros _ c; rewrite G5; apply Z0|].
      intros _ B; exfalso; exact (B N0).
    - destruct (malloc_cols_own base F rest FO (f_malloc F (o_flag o0)) o0 h
                  (fo_malloc _ FO _) (fo_incl _ FO _) (fun c _ => Z0 c)
                  (ti_clean _ _ _ _ _ T E) (ti_own _ _ _ _ _ T0))
        as [o1 [h1 [E1 [O1 [F1 [M1 [G1 [G2 [G3 R]]]]]]]]].
      exists o1, h1. split; [exact E1|].
      destruct R as [[RA [R1 [R2 [R3 R4]]]]|[[d [D1 D2]] [R1 [R2 R3]]]].
      + split.
        { split; [exact O1|exact M1|intros _; exact R2|].
          intros c Nc. rewrite R4; [apply Z0|]. intro I; apply Nc, (fo_incl _ FO _ c I). }
        split; [exact F1|]. split; [exact G1|]. split; [exact G2|]. split; [discriminate|].
        split; [intros _; exact G3|]. split.
        { intros _; split; [rewrite G3; exact N0|]. split; [exact RA|]. split; [exact R3|].
          intros c Nc; rewrite (R4 c Nc); apply Z0. }
        split; [|intros; rewrite R1; exact E].
        rewrite R1; change (o_err o0) with (o_err o); congruence.
      + split.
        { split; [exact O1|exact M1|rewrite R1; discriminate|].
          intros c Nc; rewrite (R3 c Nc); apply Z0. }
        split; [exact F1|]. split; [exact G1|]. split; [exact G2|]. split; [discriminate|].
        split; [intros _; exact G3|]. split; [rewrite R1; discriminate|]. split.
        { intros _ c. destruct (in_dec col_eq_dec c (f_destroy F)) as [i|n];
            [exact (R2 c i)|rewrite (R3 c n); apply Z0]. }
        intros _ _ A. rewrite (A d D1) in D2; discriminate.
  Qed.

  Lemma access_all_ok base F rest o h cs :
    owns base (tids F o ++ rest) h -> incl cs (f_destroy F) ->
    access_all cs o h = Ok (tt, h).
  Proof.
    intro O; induction cs as [|c r IH]; intro I; cbn [access_all]; [reflexivity|].
    destruct (o_col o c) as [[id l]|] eqn:E.
    - unfold hbind. rewrite (access_owned _ _ _ _ O).
      + cbn [bind]. apply IH. intros d Hd; apply I; right; exact Hd.
      + apply in_or_app; left. unfold tids. right. apply in_or_app; right.
        apply in_flat_map. exists c; split; [apply I; left; reflexivity|].
        rewrite E; left; reflexivity.
    - apply IH. intros d Hd; apply I; right; exact Hd.
  Qed.

  (** A reader keeps the ownership. *)
  Definition reader_ok (F : format) (read : format -> text -> obj S -> H (obj S)) : Prop :=
    forall base rest s o h o1 h1,
      tinv base F rest o h -> read F s o h = Ok (o1, h1) ->
      tinv base F rest o1 h1 /\ files h1 = files h /\ o_id o1 = o_id o /\
      (o_err o = true -> o1 = o).

  Lemma shape_tinv base F rest o o' h :
    same_shape o o' -> tinv base F rest o h -> tinv base F rest o' h.
  Proof.
    intros Sh [O M C U]. split.
    - rewrite (same_shape_tids F _ _ Sh); exact O.
    - intro E; rewrite (sh_msg _ _ Sh); exact (M E).
    - intro E; rewrite (sh_msg _ _ Sh); apply C; rewrite <- (sh_err _ _ Sh); exact E.
    - intros c Nc. pose proof (sh_col _ _ Sh c) as X. rewrite (U c Nc) in X.
      destruct (o_col o' c) as [[? ?]|]; [discriminate|reflexivity].
  Qed.

  Lemma read_table_ok F : format_ok F -> reader_ok F (read_table L).
  Proof.
    intros FO base rest s o h o1 h1 T E; unfold read_table in E.
    destruct (o_err o) eqn:Er; [injection E as <- <-; auto|].
    destruct (o_n o =? 0).
    - destruct (set_error_tinv _ _ _ _ _ T Er) as [o2 [h2 [E2 [T2 [F2 [_ [G2 _]]]]]]].
      rewrite E2 in E; injection E as <- <-; repeat split; auto; try apply T2; discriminate.
    - unfold hbind in E.
      rewrite (access_all_ok base F rest) in E; [|apply T|].
      2:{ intros c Hc; apply (fo_incl _ FO (o_flag o)), (fo_read _ FO _ _ Hc). }
      cbn [bind] in E. unfold hlift in E. apply bind_ok in E as [o2 [E1 E2]].
      injection E2 as <- <-. apply read_rows_shape in E1.
      split; [exact (shape_tinv _ _ _ _ _ _ E1 T)|]. split; [reflexivity|].
      split; [apply (sh_id _ _ E1)|discriminate].
  Qed.

  Lemma with_n_tinv base F rest o h n : tinv base F rest o h -> tinv base F rest (with_n o n) h.
  Proof. intros [O M C U]; split; [exact O|exact M|exact C|exact U]. Qed.
  Lemma with_flag_tinv base F rest o h n : tinv base F rest o h -> tinv base F rest (with_flag o n) h.
  Proof. intros [O M C U]; split; [exact O|exact M|exact C|exact U]. Qed.

  Lemma read_merged_ok F : format_ok F -> reader_ok F (read_merged L).
  Proof.
    intros FO base rest s o h o1 h1 T E; unfold read_merged in E.
    destruct (o_err o) eqn:Er; [injection E as <- <-; auto|].
    destruct (o_n o =? 0).
    - destruct (set_error_tinv _ _ _ _ _ T Er) as [o2 [h2 [E2 [T2 [F2 [_ [G2 _]]]]]]].
      rewrite E2 in E; injection E as <- <-; repeat split; auto; try apply T2; discriminate.
    - unfold hbind at 1 in E.
      rewrite (access_all_ok base F rest) in E; [|apply T|].
      2:{ intros c Hc; apply (fo_incl _ FO (o_flag o)), (fo_read _ FO _ _ Hc). }
      cbn [bind] in E.
      destruct (file_lines s) as [|line r].
      { destruct (set_error_tinv _ _ _ _ _ T Er) as [o2 [h2 [E2 [T2 [F2 [_ [G2 _]]]]]]].
        rewrite E2 in E; injection E as <- <-; repeat split; auto; try apply T2; discriminate. }
      unfold hbind, hlift in E. destruct (aread line 0); [|discriminate]. cbn [bind] in E.
      destruct (Ascii.eqb a "B" || Ascii.eqb a "b")%bool;
        apply bind_ok in E as [o2 [E1 E2]]; injection E2 as <- <-;
        apply read_rows_shape in E1.
      + split; [exact (shape_tinv _ _ _ _ _ _ E1 (with_n_tinv _ _ _ _ _ _ T))|].
        split; [reflexivity|]. split; [apply (sh_id _ _ E1)|discriminate].
      + split; [exact (shape_tinv _ _ _ _ _ _ E1 T)|]. split; [reflexivity|].
        split; [apply (sh_id _ _ E1)|discriminate].
  Qed.

  Lemma scale_all_shape n (o o' : obj S) :
    for_range 0 n
      (fun n o => do o <- scale_cell cPHIRL n o; do o <- scale_cell cPHIDEG n o;
                  do o <- scale_cell cPHASE n o; scale_cell cB n o) o = Ok o' ->
    same_shape o o'.
  Proof.
    intro E. destruct (Z_lt_le_dec n 0) as [Hn|Hn].
    { rewrite for_range_0 in E by lia. injection E as <-; apply same_shape_refl. }
    revert E.
    apply (for_range_partial (fun _ o' => same_shape o o') 0 n); [exact Hn|apply same_shape_refl|].
    intros i a a' _ Ha X.
    apply bind_ok in X as [b [X1 X]]; apply bind_ok in X as [c [X2 X]];
      apply bind_ok in X as [d [X3 X]].
    apply scale_shape in X1, X2, X3, X.
    exact (same_shape_trans _ _ _ Ha (same_shape_trans _ _ _ X1
      (same_shape_trans _ _ _ X2 (same_shape_trans _ _ _ X3 X)))).
  Qed.

  Lemma read_uranus_ok F : format_ok F -> reader_ok F (read_uranus L).
  Proof.
    intros FO base rest s o h o1 h1 T E; unfold read_uranus in E.
    destruct (o_err o) eqn:Er; [injection E as <- <-; auto|].
    destruct (o_n o =? 0).
    - destruct (set_error_tinv _ _ _ _ _ T Er) as [o2 [h2 [E2 [T2 [F2 [_ [G2 _]]]]]]].
      rewrite E2 in E; injection E as <- <-; repeat split; auto; try apply T2; discriminate.
    - unfold hbind at 1 in E.
      rewrite (access_all_ok base F rest) in E; [|apply T|].
      2:{ intros c Hc; apply (fo_incl _ FO (o_flag o)), (fo_read _ FO _ _ Hc). }
      cbn [bind] in E. unfold hbind at 1, hlift at 1 in E.
      destruct (read_rows L (f_read F (o_flag o)) (file_lines s) 0 o) as [o2|] eqn:E1;
        [|discriminate]. cbn [bind] in E. apply read_rows_shape in E1.
      assert (T2 := shape_tinv _ _ _ _ _ _ E1 T).
      destruct (o_flag o2).
      + unfold hbind, hlift, hret in E. apply bind_ok in E as [[o3 h3] [X E]].
        apply bind_ok in X as [o4 [X X']]. injection X' as <- <-. injection E as <- <-.
        apply scale_all_shape in X.
        split; [exact (with_flag_tinv _ _ _ _ _ _ (shape_tinv _ _ _ _ _ _ X T2))|].
        split; [reflexivity|]. split; [|discriminate].
        cbn. rewrite (sh_id _ _ X); apply (sh_id _ _ E1).
      + injection E as <- <-. split; [exact T2|]. split; [reflexivity|].
        split; [apply (sh_id _ _ E1)|discriminate].
  Qed.

  (** The reading loops never touch released memory. *)
  Definition memfault (u : ub) : Prop := u = DoubleFree \/ u = UseAfterFree.
  Definition pure_ok {A} (r : res A) : Prop := forall u, r = UB u -> ~ memfault u.
  Definition mem_ok {A} (m : H A) (h : heap) : Prop := forall u, m h = UB u -> ~ memfault u.

  Lemma pure_ret {A} (a : A) : pure_ok (Ok a).
  Proof. discriminate. Qed.
  Lemma pure_ub {A} u : ~ memfault u -> pure_ok (UB u : res A).
  Proof. intros N v [= <-]; exact N. Qed.
  Lemma pure_bind {A B} (r : res A) (k : A -> res B) :
    pure_ok r -> (forall a, r = Ok a -> pure_ok (k a)) -> pure_ok (bind r k).
  Proof.
    intros R K u; destruct r as [a|v]; cbn.
    - apply (K a eq_refl).
    - intros [= <-]; apply (R v eq_refl).
  Qed.
  Lemma pure_for {A} lo n (body : Z -> A -> res A) s :
    (forall i s, pure_ok (body i s)) -> pure_ok (for_range lo n body s).
  Proof.
    intro B. rewrite for_range_nat. revert lo s; induction (Z.to_nat n) as [|k IH]; intros lo s.
    - apply pure_ret.
    - apply pure_bind; [apply B|intros a _; apply IH].
  Qed.
  Lemma pure_oob {A} : pure_ok (UB OutOfBounds : res A).
  Proof. apply pure_ub; intros [|]; discriminate. Qed.
  Lemma pure_null {A} : pure_ok (UB NullDeref : res A).
  Proof. apply pure_ub; intros [|]; discriminate. Qed.
  Lemma pure_uninit {A} : pure_ok (UB Uninitialised : res A).
  Proof. apply pure_ub; intros [|]; discriminate. Qed.
  Lemma pure_aread {A} (l : list A) i : pure_ok (aread l i).
  Proof.
    destruct (Z_lt_le_dec i 0); [rewrite aread_out by lia; apply pure_oob|].
    destruct (Z_lt_le_dec i (zlen l)).
    - destruct (aread_in l i) as [x ->]; [lia|apply pure_ret].
    - rewrite aread_out by lia; apply pure_oob.
  Qed.
  Lemma pure_awrite {A} (l : list A) i (v : A) : pure_ok (awrite l i v).
  Proof.
    destruct (Z_lt_le_dec i 0); [rewrite awrite_out by lia; apply pure_oob|].
    destruct (Z_lt_le_dec i (zlen l)).
    - destruct (awrite_in l i v) as [x E]; [lia|rewrite E; apply pure_ret].
    - rewrite awrite_out by lia; apply pure_oob.
  Qed.
  Lemma pure_store (o : obj S) c n v : pure_ok (store o c n v).
  Proof.
    unfold store; destruct (o_col o c) as [[id l]|]; [|apply pure_null].
    apply pure_bind; [apply pure_awrite|intros; apply pure_ret].
  Qed.
  Lemma pure_fetch (o : obj S) c n : pure_ok (fetch o c n).
  Proof.
    unfold fetch; destruct (o_col o c) as [[id l]|]; [|apply pure_null].
    apply pure_bind; [apply pure_aread|intros [x|] _; [apply pure_ret|apply pure_uninit]].
  Qed.
  Lemma pure_fields cs : forall s n (o : obj S), pure_ok (read_fields L cs s n o).
  Proof.
    induction cs as [|c r IH]; cbn [read_fields]; intros; [apply pure_ret|].
    destruct (strtok s) as [[tok rest]|]; [|apply pure_null].
    apply pure_bind; [apply pure_store|intros; apply IH].
  Qed.
  Lemma pure_rows cs lines : forall n (o : obj S), pure_ok (read_rows L cs lines n o).
  Proof.
    induction lines as [|l r IH]; cbn [read_rows]; intros; [apply pure_ret|].
    apply pure_bind; [apply pure_fields|intros; apply IH].
  Qed.
  Lemma pure_scale c n (o : obj S) : pure_ok (scale_cell c n o).
  Proof. unfold scale_cell; apply pure_bind; [apply pure_fetch|intros; apply pure_store]. Qed.

  Lemma mem_ret {A} (a : A) h : mem_ok (hret a) h.
  Proof. discriminate. Qed.
  Lemma mem_eq {A} (m : H A) h r : m h = Ok r -> mem_ok m h.
  Proof. intros E u; rewrite E; discriminate. Qed.
  Lemma mem_lift {A} (r : res A) h : pure_ok r -> mem_ok (hlift r) h.
  Proof.
    intros R u; unfold hlift; destruct r; cbn; [discriminate|].
    intros [= <-]; apply R; reflexivity.
  Qed.
  Lemma mem_bind {A B} (m : H A) (k : A -> H B) h :
    mem_ok m h -> (forall a h1, m h = Ok (a, h1) -> mem_ok (k a) h1) -> mem_ok (hbind m k) h.
  Proof.
    intros M K u; unfold hbind; destruct (m h) as [[a h1]|v] eqn:E; cbn.
    - apply (K a h1 eq_refl).
    - intros [= <-]; apply M; exact E.
  Qed.

  Definition reader_safe (F : format) (read : format -> text -> obj S -> H (obj S)) : Prop :=
    forall base rest s o h, tinv base F rest o h -> mem_ok (read F s o) h.

  Lemma access_read base F rest o h : format_ok F -> tinv base F rest o h ->
    access_all (f_read F (o_flag o)) o h = Ok (tt, h).
  Proof.
    intros FO T. apply (access_all_ok base F rest); [apply T|].
    intros c Hc; apply (fo_incl _ FO (o_flag o)), (fo_read _ FO _ _ Hc).
  Qed.

  Lemma read_table_safe F : format_ok F -> reader_safe F (read_table L).
  Proof.
    intros FO base rest s o h T; unfold read_table.
    destruct (o_err o) eqn:Er; [apply mem_ret|].
    destruct (o_n o =? 0).
    { destruct (set_error_tinv _ _ _ _ _ T Er) as [o2 [h2 [E2 _]]]. exact (mem_eq _ _ _ E2). }
    apply mem_bind; [exact (mem_eq _ _ _ (access_read _ _ _ _ _ FO T))|].
    intros; apply mem_lift, pure_rows.
  Qed.
  Lemma read_merged_safe F : format_ok F -> reader_safe F (read_merged L).
  Proof.
    intros FO base rest s o h T; unfold read_merged.
    destruct (o_err o) eqn:Er; [apply mem_ret|].
    destruct (set_error_tinv _ _ _ _ _ T Er) as [o2 [h2 [E2 _]]].
    destruct (o_n o =? 0); [exact (mem_eq _ _ _ E2)|].
    pose proof (access_read _ _ _ _ _ FO T) as A.
    apply mem_bind; [exact (mem_eq _ _ _ A)|].
    intros [] h1 X; rewrite A in X; injection X as <-.
    destruct (file_lines s) as [|line r]; [exact (mem_eq _ _ _ E2)|].
    apply mem_bind; [apply mem_lift, pure_aread|intros a h1 _].
    destruct (Ascii.eqb a "B" || Ascii.eqb a "b")%bool; apply mem_lift, pure_rows.
  Qed.
  Lemma read_uranus_safe F : format_ok F -> reader_safe F (read_uranus L).
  Proof.
    intros FO base rest s o h T; unfold read_uranus.
    destruct (o_err o) eqn:Er; [apply mem_ret|].
    destruct (set_error_tinv _ _ _ _ _ T Er) as [o2 [h2 [E2 _]]].
    destruct (o_n o =? 0); [exact (mem_eq _ _ _ E2)|].
    apply mem_bind; [exact (mem_eq _ _ _ (access_read _ _ _ _ _ FO T))|intros _ h1 _].
    apply mem_bind; [apply mem_lift, pure_rows|intros o3 h3 _].
    destruct (o_flag o3); [|apply mem_ret].
    apply mem_bind; [|intros; apply mem_ret].
    apply mem_lift, pure_for. intros i a.
    do 3 (apply pure_bind; [apply pure_scale|intros ? _]). apply pure_scale.
  Qed.

  (** Extraction owns exactly what it returns and closes what it opens. *)
  Lemma extract_own base rest F read flag file h p h1 :
    format_ok F -> reader_ok F read -> owns base rest h ->
    extract_with L read F flag file h = Ok (p, h1) ->
    owns base (pids F p ++ rest) h1 /\ (forall o, p = Some o -> msg_ok F o) /\
    files h1 = files h /\
    (forall o, p = Some o -> o_err o = false -> o_msg o = None) /\
    (forall o c, p = Some o -> ~ In c (f_destroy F) -> o_col o c = None) /\
    (p = None <-> l_alloc L (SObj (f_kind F)) = false).
  Proof.
    intros FO RO O E. unfold extract_with, hbind, halloc in E.
    destruct (l_alloc L (SObj (f_kind F))) eqn:A; cbn [bind] in E.
    2:{ injection E as <- <-. cbn. split; [exact O|]. repeat split; congruence. }
    set (o := init (next h) flag) in E.
    set (h0 := mkHeap (next h :: live h) (next h + 1) (files h)) in E.
    assert (T : tinv base F rest o h0).
    { split; [|intro; reflexivity|intro; reflexivity|intros; reflexivity].
      apply (owns_perm _ _ _ _ (owns_alloc _ _ _ O)); intro b.
      rewrite cnt_app, cnt_tids, (cnt_cons _ rest). cbn [ml o_msg o o_id init].
      rewrite oids_none by reflexivity. rewrite cnt_nil; lia. }
    assert (X : exists o3, p = Some o3 /\ tinv base F rest o3 h1 /\ files h1 = files h).
    { destruct file as [s|].
      - unfold hopen, hclose, hret in E. cbn [bind] in E.
        set (h0' := mkHeap (live h0) (next h0) (files h0 + 1)) in E.
        assert (T' : tinv base F rest o h0').
        { destruct T as [[Oa Ob Oc] M C U]; split; [split; [exact Oa|exact Ob|exact Oc]|exact M|exact C|exact U]. }
        destruct (check_column_tinv base F rest s o h0' T')
          as [o1 [ha [E1 [T1 [F1 [G1 [G2 [G3 [G4 G5]]]]]]]]].
        rewrite E1 in E; cbn [bind] in E.
        destruct (malloc_table_tinv base F rest s o1 ha FO T1)
          as [o2 [hb [E2 [T2 [F2 _]]]]]; [rewrite G4; reflexivity|].
        rewrite E2 in E; cbn [bind] in E.
        apply bind_ok in E as [[o3 hc] [E3 E]].
        destruct (RO _ _ _ _ _ _ _ T2 E3) as [T3 [F3 _]].
        injection E as <- <-. exists o3. split; [reflexivity|]. split.
        + destruct T3 as [[Oa Ob Oc] M C U]; split; [split; [exact Oa|exact Ob|exact Oc]|exact M|exact C|exact U].
        + cbn [files]. rewrite F3, F2, F1. unfold h0', h0; cbn [files]. lia.
      - apply bind_ok in E as [[o1 ha] [E1 E]]. cbn in E. injection E as <- <-.
        destruct (set_error_tinv base F rest o h0 T eq_refl) as [o2 [hb [E2 [T2 [F2 _]]]]].
        rewrite E2 in E1; injection E1 as <- <-.
        exists o2; split; [reflexivity|]; split; [exact T2|exact F2]. }
    destruct X as [o3 [-> [[O3 M3 C3 U3] F3]]]. cbn [pids].
    split; [exact O3|]. split; [intros o' [= <-]; exact M3|]. split; [exact F3|].
    split; [intros o' [= <-]; exact C3|]. split; [intros o' c [= <-]; exact (U3 c)|].
    split; congruence.
  Qed.

  Lemma init_tinv base F rest flag h :
    owns base rest h ->
    tinv base F rest (init (next h) flag) (mkHeap (next h :: live h) (next h + 1) (files h)).
  Proof.
    intro O. split; [|intro; reflexivity|intro; reflexivity|intros; reflexivity].
    apply (owns_perm _ _ _ _ (owns_alloc _ _ _ O)); intro b.
    rewrite cnt_app, cnt_tids, (cnt_cons _ rest). cbn [ml o_msg o_id init].
    rewrite oids_none by reflexivity. rewrite cnt_nil; lia.
  Qed.
  Lemma tinv_files base F rest o h n :
    tinv base F rest o h -> tinv base F rest o (mkHeap (live h) (next h) n).
  Proof.
    intros [[Oa Ob Oc] M C U]; split; [split; [exact Oa|exact Ob|exact Oc]|exact M|exact C|exact U].
  Qed.

  Lemma extract_mem base rest F read flag file h :
    format_ok F -> reader_safe F read -> owns base rest h ->
    mem_ok (extract_with L read F flag file) h.
  Proof.
    intros FO RS O. unfold extract_with. apply mem_bind.
    { unfold halloc; intros u; destruct (l_alloc L (SObj (f_kind F))); discriminate. }
    unfold halloc; intros b h0.
    destruct (l_alloc L (SObj (f_kind F))); intros [= <- <-]; [|apply mem_ret].
    pose proof (init_tinv base F rest flag h O) as T.
    set (h0 := mkHeap (next h :: live h) (next h + 1) (files h)) in *.
    set (o := init (next h) flag) in *.
    destruct file as [s|].
    - apply mem_bind; [apply (mem_eq _ _ _ eq_refl)|]. intros [] h1 [= <-].
      apply (tinv_files _ _ _ _ _ (files h0 + 1)) in T.
      destruct (check_column_tinv base F rest s o _ T)
        as [o1 [ha [E1 [T1 [_ [_ [_ [_ [G4 _]]]]]]]]].
      apply mem_bind; [exact (mem_eq _ _ _ E1)|].
      intros a hh X. pose proof (eq_trans (eq_sym E1) X) as Y; injection Y as <- <-; clear X.
      destruct (malloc_table_tinv base F rest s o1 ha FO T1)
        as [o2 [hb [E2 [T2 _]]]]; [rewrite G4; reflexivity|].
      apply mem_bind; [exact (mem_eq _ _ _ E2)|].
      intros a hh X; rewrite E2 in X; injection X as <- <-.
      apply mem_bind; [exact (RS _ _ _ _ _ T2)|].
      intros a hh _. apply mem_bind; [apply (mem_eq _ _ _ eq_refl)|intros; apply mem_ret].
    - destruct (set_error_tinv base F rest o h0 T eq_refl) as [o2 [hb [E2 _]]].
      apply mem_bind; [exact (mem_eq _ _ _ E2)|intros; apply mem_ret].
  Qed.
End Own.
