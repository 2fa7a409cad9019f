(** * Proof_Heap: reasoning about ownership of heap blocks. *)
From Coq Require Import List ZArith Lia Bool Permutation.
From Verif Require Import Base BaseFacts Scalar Model_Heap Model_Csv Model_CsvData.
Import ListNotations.
Open Scope list_scope.
Open Scope Z_scope.

Definition cnt (l : list Z) (b : Z) : nat := count_occ Z.eq_dec l b.

(** The live blocks are exactly those of [base] and those of [ids], all
    different, and new names are fresh. *)
Record owns (base ids : list Z) (h : heap) : Prop := mkOwns {
  ow_cnt : forall b, cnt (live h) b = (cnt ids b + cnt base b)%nat;
  ow_one : forall b, (cnt (live h) b <= 1)%nat;
  ow_new : forall b, In b (live h) -> b < next h
}.

Definition heap_ok (h : heap) : Prop :=
  NoDup (live h) /\ forall b, In b (live h) -> b < next h.

Lemma owns_start h : heap_ok h -> owns (live h) [] h.
Proof.
  intros [N F]; constructor; [reflexivity| |exact F].
  intro b; apply NoDup_count_occ; exact N.
Qed.
Lemma owns_end base h :
  owns base [] h -> (forall b, In b (live h) <-> In b base) /\ heap_ok h.
Proof.
  intros [C O N]; split.
  - intro b. rewrite (count_occ_In Z.eq_dec), (count_occ_In Z.eq_dec base).
    specialize (C b); unfold cnt in C; cbn in C; rewrite C; reflexivity.
  - split; [|exact N]. apply (NoDup_count_occ Z.eq_dec); exact O.
Qed.
Lemma owns_perm base ids ids' h :
  owns base ids h -> (forall b, cnt ids' b = cnt ids b) -> owns base ids' h.
Proof. intros [C O N] E; constructor; auto. intro b; rewrite E; apply C. Qed.

Lemma cnt_app l1 l2 b : cnt (l1 ++ l2) b = (cnt l1 b + cnt l2 b)%nat.
Proof. apply count_occ_app. Qed.
Lemma cnt_cons x l b : cnt (x :: l) b = (cnt [x] b + cnt l b)%nat.
Proof. exact (count_occ_app Z.eq_dec [x] l b). Qed.
Lemma cnt_nil b : cnt [] b = 0%nat.
Proof. reflexivity. Qed.
Lemma cnt_same x : cnt [x] x = 1%nat.
Proof. unfold cnt; cbn; destruct (Z.eq_dec x x); congruence. Qed.
Lemma cnt_other x b : x <> b -> cnt [x] b = 0%nat.
Proof. intro E; unfold cnt; cbn; destruct (Z.eq_dec x b); congruence. Qed.

Lemma cnt_remove x l b :
  cnt (remove Z.eq_dec x l) b = if Z.eq_dec x b then 0%nat else cnt l b.
Proof.
  unfold cnt; induction l as [|a l IH]; cbn [remove count_occ].
  - destruct (Z.eq_dec x b); reflexivity.
  - destruct (Z.eq_dec x a) as [e|e]; cbn [count_occ]; rewrite ?IH.
    + subst; destruct (Z.eq_dec a b); [reflexivity|]. reflexivity.
    + destruct (Z.eq_dec a b) as [e2|e2], (Z.eq_dec x b) as [e3|e3];
        try congruence; try reflexivity.
Qed.

Lemma is_live_cnt h b : is_live h b = true <-> (0 < cnt (live h) b)%nat.
Proof.
  unfold is_live, cnt. rewrite existsb_exists.
  change (0 < count_occ Z.eq_dec (live h) b)%nat with (count_occ Z.eq_dec (live h) b > 0)%nat.
  rewrite <- count_occ_In.
  split.
  - intros [x [I E]]; apply Z.eqb_eq in E; subst; exact I.
  - intro I; exists b; split; [exact I|apply Z.eqb_refl].
Qed.

Lemma owns_live base ids h b : owns base ids h -> In b ids -> is_live h b = true.
Proof.
  intros O I; apply is_live_cnt. rewrite (ow_cnt _ _ _ O).
  apply (count_occ_In Z.eq_dec) in I; unfold cnt; lia.
Qed.

Lemma owns_alloc base ids h :
  owns base ids h ->
  owns base (next h :: ids) (mkHeap (next h :: live h) (next h + 1) (files h)).
Proof.
  intros [C O N].
  assert (Z0 : cnt (live h) (next h) = 0%nat).
  { destruct (cnt (live h) (next h)) eqn:E; [reflexivity|].
    assert (I : In (next h) (live h)) by (apply (count_occ_In Z.eq_dec); unfold cnt in E; lia).
    apply N in I; lia. }
  constructor; cbn [live next].
  - intro b; rewrite cnt_cons, (cnt_cons _ ids), C; lia.
  - intro b; rewrite cnt_cons. destruct (Z.eq_dec (next h) b) as [e|e].
    + subst b; rewrite cnt_same, Z0; lia.
    + rewrite cnt_other by exact e. apply O.
  - intros b [e|I]; [lia|]. apply N in I; lia.
Qed.

Lemma owns_free base ids ids' h b :
  owns base ids h -> (forall x, cnt ids x = (cnt [b] x + cnt ids' x)%nat) ->
  hfree (Some b) h = Ok (tt, mkHeap (remove Z.eq_dec b (live h)) (next h) (files h))
  /\ owns base ids' (mkHeap (remove Z.eq_dec b (live h)) (next h) (files h)).
Proof.
  intros O E. pose proof O as [C U N].
  assert (Eb := C b); rewrite E, cnt_same in Eb.
  split.
  - cbn. replace (is_live h b) with true; [reflexivity|].
    symmetry; apply is_live_cnt; lia.
  - constructor; cbn [live next].
    + intro x; rewrite cnt_remove. destruct (Z.eq_dec b x) as [e|e].
      * subst x; specialize (U b); lia.
      * rewrite C, E, (cnt_other _ _ e); lia.
    + intro x; rewrite cnt_remove; destruct (Z.eq_dec b x); [lia|apply U].
    + intros x I; apply N. apply in_remove in I; tauto.
Qed.

Definition pl {S : scalar} (p : ptr S) : list Z :=
  match p with Some (id, _) => [id] | None => [] end.
Definition ml (m : option Z) : list Z := match m with Some b => [b] | None => [] end.

Lemma ml_pid {S : scalar} (p : ptr S) : ml (pid p) = pl p.
Proof. destruct p as [[? ?]|]; reflexivity. Qed.

(** [free] of an owned pointer (or NULL) releases it. *)
Lemma free_owned base m ids ids' h :
  owns base ids h -> (forall x, cnt ids x = (cnt (ml m) x + cnt ids' x)%nat) ->
  exists h', hfree m h = Ok (tt, h') /\ owns base ids' h' /\ files h' = files h.
Proof.
  intros O E; destruct m as [b|]; cbn [ml] in E.
  - destruct (owns_free _ _ _ _ _ O E) as [F O']. rewrite F.
    eexists; split; [reflexivity|]; split; [exact O'|reflexivity].
  - cbn. exists h; split; [reflexivity|]; split; [|reflexivity].
    apply (owns_perm _ _ _ _ O). intro x; rewrite E; reflexivity.
Qed.

Lemma access_owned base ids h b :
  owns base ids h -> In b ids -> haccess (Some b) h = Ok (tt, h).
Proof. intros O I; cbn. rewrite (owns_live _ _ _ _ O I); reflexivity. Qed.

(** The blocks of a list of members. *)
Section Oids.
  Context {S : scalar}.
  Definition oids (cs : list col) (o : obj S) : list Z :=
    flat_map (fun c => pl (o_col o c)) cs.

  Lemma col_beq_refl c : col_beq c c = true.
  Proof. destruct c; reflexivity. Qed.
  Lemma col_beq_eq c d : col_beq c d = true -> c = d.
  Proof. apply internal_col_dec_bl. Qed.
  Lemma col_beq_neq c d : c <> d -> col_beq c d = false.
  Proof.
    intro E; destruct (col_beq c d) eqn:B; [|reflexivity].
    apply col_beq_eq in B; congruence.
  Qed.
  Lemma with_col_same (o : obj S) c p : o_col (with_col o c p) c = p.
  Proof. cbn; rewrite col_beq_refl; reflexivity. Qed.
  Lemma with_col_other (o : obj S) c p d : d <> c -> o_col (with_col o c p) d = o_col o d.
  Proof. intro E; cbn; rewrite col_beq_neq by exact E; reflexivity. Qed.

  Lemma oids_ext cs (o o' : obj S) :
    (forall c, In c cs -> pl (o_col o c) = pl (o_col o' c)) -> oids cs o = oids cs o'.
  Proof.
    induction cs as [|c r IH]; intro E; cbn; [reflexivity|].
    rewrite E by (left; reflexivity). f_equal. apply IH; intros; apply E; right; assumption.
  Qed.
  Lemma oids_with_notin cs (o : obj S) c p : ~ In c cs -> oids cs (with_col o c p) = oids cs o.
  Proof.
    intro N; apply oids_ext; intros d I; rewrite with_col_other; [reflexivity|].
    intros ->; contradiction.
  Qed.
  (** Setting a member replaces its blocks. *)
  Lemma oids_with cs (o : obj S) c p b :
    NoDup cs -> In c cs ->
    (cnt (oids cs (with_col o c p)) b + cnt (pl (o_col o c)) b
     = cnt (pl p) b + cnt (oids cs o) b)%nat.
  Proof.
    intros N I; induction cs as [|d r IH]; [destruct I|].
    inversion N as [|? ? Nd Nr]; subst. cbn [oids flat_map].
    fold (oids r (with_col o c p)); fold (oids r o).
    rewrite !cnt_app. destruct I as [->|I].
    - rewrite with_col_same, oids_with_notin by exact Nd. lia.
    - assert (d <> c) by (intros ->; contradiction).
      rewrite with_col_other by assumption. specialize (IH Nr I); lia.
  Qed.

  (** Releasing members: all of them are freed, once, and set to NULL. *)
  Lemma destroy_cols_ok base cs : forall (o : obj S) ids rest h,
    NoDup cs -> owns base ids h ->
    (forall b, cnt ids b = (cnt (oids cs o) b + cnt rest b)%nat) ->
    exists o' h', destroy_cols cs o h = Ok (o', h') /\ owns base rest h' /\
      files h' = files h /\ o_id o' = o_id o /\ o_msg o' = o_msg o /\
      o_n o' = o_n o /\ o_err o' = o_err o /\ o_flag o' = o_flag o /\
      (forall c, In c cs -> o_col o' c = None) /\
      (forall c, ~ In c cs -> o_col o' c = o_col o c).
  Proof.
    induction cs as [|c r IH]; intros o ids rest h N O E.
    - exists o, h; cbn. split; [reflexivity|]. split.
      { apply (owns_perm _ _ _ _ O); intro b; rewrite E; reflexivity. }
      repeat split; try reflexivity; tauto.
    - inversion N as [|? ? Nc Nr]; subst.
      cbn [destroy_cols]; unfold hbind.
      destruct (free_owned base (pid (o_col o c)) ids (oids r o ++ rest) h O) as [h1 [F [O1 F1]]].
      { intro b; rewrite E, ml_pid; cbn [oids flat_map]; fold (oids r o).
        rewrite !cnt_app; lia. }
      rewrite F; cbn [bind].
      destruct (IH (with_col o c None) (oids r o ++ rest) rest h1 Nr O1)
        as [o' [h' [D [O' [F' [I1 [I2 [I3 [I4 [I5 [I6 I7]]]]]]]]]]].
      { intro b; rewrite (oids_with_notin r o c None Nc), cnt_app; reflexivity. }
      rewrite D. exists o', h'. split; [reflexivity|]. split; [exact O'|].
      split; [congruence|]. split; [exact I1|]. split; [exact I2|].
      split; [exact I3|]. split; [exact I4|]. split; [exact I5|]. split.
      + intros d [<-|I]; [|apply I6; exact I].
        rewrite I7 by exact Nc. apply with_col_same.
      + intros d Nd. rewrite I7.
        * apply with_col_other. intros ->; apply Nd; left; reflexivity.
        * intro I; apply Nd; right; exact I.
  Qed.
End Oids.
