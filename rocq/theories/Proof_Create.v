(** * Proof_Create: creation and destruction of tau objects. *)
From Coq Require Import List ZArith Lia Bool String Permutation.
From Verif Require Import Base BaseFacts Scalar Spec_Tau Spec_Select Model_TauRec Model_Checks Model_Heap
  Spec_Csv Model_Create Spec_Create Proof_Checks Proof_Heap.
Import ListNotations.
Open Scope list_scope.
Open Scope Z_scope.

Section Facts.
  Context {S : scalar}.
  Notation tobj := (@tobj S).

  Lemma rf_eqb_eq a b : rf_eqb a b = true <-> a = b.
  Proof. destruct a, b; cbn; split; congruence. Qed.
  Lemma rf_eqb_refl a : rf_eqb a a = true.
  Proof. apply rf_eqb_eq; reflexivity. Qed.
  Lemma rf_eqb_neq a b : a <> b -> rf_eqb a b = false.
  Proof. intro N; destruct (rf_eqb a b) eqn:E; [apply rf_eqb_eq in E; congruence|reflexivity]. Qed.
  Definition member_dec (a b : member) : {a = b} + {a <> b}.
  Proof. repeat decide equality. Defined.

  Lemma with_arr_same (o : tobj) f p : x_arr (with_arr o f p) f = p.
  Proof. cbn. rewrite rf_eqb_refl. reflexivity. Qed.
  Lemma with_arr_other (o : tobj) f p g : g <> f -> x_arr (with_arr o f p) g = x_arr o g.
  Proof. intro N. cbn. rewrite rf_eqb_neq by exact N. reflexivity. Qed.

  Lemma block_set_same (o : tobj) m b n : block (set_block o m b n) m = Some b.
  Proof. destruct m; cbn; rewrite ?rf_eqb_refl; reflexivity. Qed.
  Lemma block_set_other (o : tobj) m b n m' : m' <> m -> block (set_block o m b n) m' = block o m'.
  Proof.
    intro N; destruct m, m'; cbn; try reflexivity; try congruence.
    rewrite rf_eqb_neq by congruence. reflexivity.
  Qed.
  Lemma block_null_same (o : tobj) m : block (set_null o m) m = None.
  Proof. destruct m; cbn; rewrite ?rf_eqb_refl; reflexivity. Qed.
  Lemma block_null_other (o : tobj) m m' : m' <> m -> block (set_null o m) m' = block o m'.
  Proof.
    intro N; destruct m, m'; cbn; try reflexivity; try congruence.
    rewrite rf_eqb_neq by congruence. reflexivity.
  Qed.

  (** The blocks of the members [ms]. *)
  Definition mids (ms : list member) (o : tobj) : list Z := flat_map (fun m => ml (block o m)) ms.
  Lemma mids_cons m ms (o : tobj) : mids (m :: ms) o = ml (block o m) ++ mids ms o.
  Proof. reflexivity. Qed.
  Lemma mids_ext ms (o o' : tobj) : (forall m, In m ms -> block o' m = block o m) -> mids ms o' = mids ms o.
  Proof.
    induction ms as [|m ms IH]; intro E; [reflexivity|]. rewrite !mids_cons.
    rewrite (E m) by (left; reflexivity). f_equal. apply IH. intros; apply E; right; assumption.
  Qed.
  Lemma mids_set ms (o : tobj) m b n x : NoDup ms -> In m ms -> block o m = None ->
    cnt (mids ms (set_block o m b n)) x = (cnt [b] x + cnt (mids ms o) x)%nat.
  Proof.
    intros ND I E. induction ms as [|a ms IH]; [destruct I|]. inversion ND as [|? ? NI ND']; subst.
    rewrite !mids_cons, !cnt_app. destruct I as [->|I].
    - rewrite block_set_same, E. cbn [ml]. rewrite (mids_ext ms o (set_block o m b n)).
      + rewrite cnt_nil. lia.
      + intros m' I'. apply block_set_other. intro X; subst; contradiction.
    - rewrite block_set_other by (intro X; subst; contradiction). rewrite IH by assumption. lia.
  Qed.

  Lemma free_each_ok base : forall ms (o : tobj) rest h,
    NoDup ms -> owns base (mids ms o ++ rest) h ->
    exists h', tau_free_each ms o h = Ok (fold_left set_null ms o, h') /\ owns base rest h' /\ files h' = files h.
  Proof.
    induction ms as [|m ms IH]; intros o rest h ND O.
    - exists h. repeat split; try apply O.
    - inversion ND as [|? ? NI ND']; subst. cbn [tau_free_each]. rewrite mids_cons in O.
      destruct (free_owned base (block o m) _ (mids ms o ++ rest) h O) as (h1 & E & O1 & F1).
      { intro x. rewrite !cnt_app. lia. }
      unfold hbind. rewrite E. cbn [bind].
      destruct (IH (set_null o m) rest h1 ND') as (h2 & E2 & O2 & F2).
      { rewrite (mids_ext ms o (set_null o m)); [exact O1|].
        intros m' I. apply block_null_other. intro X; subst; contradiction. }
      exists h2. cbn [fold_left]. rewrite E2. split; [reflexivity|]. split; [exact O2|congruence].
  Qed.

  Lemma fold_null_id ms : forall (o : tobj), x_id (fold_left set_null ms o) = x_id o.
  Proof.
    induction ms as [|m ms IH]; intro o; [reflexivity|]. cbn. rewrite IH. destruct m; reflexivity.
  Qed.

  Lemma destroy_NoDup : NoDup destroy_order.
  Proof. repeat (constructor; [cbn; let H := fresh in intro H; repeat (destruct H as [H|H]; [discriminate H|]); exact H|]). constructor. Qed.
  Lemma malloc_NoDup : NoDup malloc_order.
  Proof. repeat (constructor; [cbn; let H := fresh in intro H; repeat (destruct H as [H|H]; [discriminate H|]); exact H|]). constructor. Qed.
  Lemma malloc_in m : In m malloc_order -> In m destroy_order.
  Proof. intro H. repeat (destruct H as [<-|H]; [repeat (first [left; reflexivity|right])|]); destruct H. Qed.
  Lemma malloc_allocated m : In m malloc_order <-> In m allocated_members.
  Proof. split; intro H; repeat (destruct H as [<-|H]; [repeat (first [left; reflexivity|right])|]); destruct H. Qed.

  Definition oblocks (o : tobj) : list Z := x_id o :: mids destroy_order o.

  Lemma destroy_ok base (o : tobj) h :
    owns base (oblocks o) h ->
    exists o' h', tau_destroy (Some o) h = Ok (Some o', h') /\ x_id o' = x_id o /\
      owns base [] h' /\ files h' = files h.
  Proof.
    intro O. unfold tau_destroy, tau_destroy_members, hbind.
    rewrite (access_owned base (oblocks o) h (x_id o) O) by (left; reflexivity). cbn [bind].
    destruct (free_each_ok base destroy_order o [x_id o] h destroy_NoDup) as (h1 & E & O1 & F1).
    { apply (owns_perm _ _ _ _ O). intro x. unfold oblocks. rewrite cnt_app, (cnt_cons (x_id o) (mids _ o)). lia. }
    rewrite E. cbn [bind]. rewrite fold_null_id.
    destruct (free_owned base (Some (x_id o)) [x_id o] [] h1 O1) as (h2 & E2 & O2 & F2).
    { intro x. cbn [ml]. rewrite cnt_nil. lia. }
    rewrite E2. cbn [bind]. eexists _, h2. split; [reflexivity|]. rewrite fold_null_id.
    split; [reflexivity|]. split; [exact O2|congruence].
  Qed.
End Facts.

Section Create.
  Context {S : scalar}.
  Variable L : tmpl S.
  Variable C : createlib S.
  Notation tobj := (@tobj S).

  (** [o'] is [o] up to the error flag and to members of [ms] that were NULL. *)
  Definition grown (ms : list member) (o o' : tobj) : Prop :=
    x_id o' = x_id o /\ (exists e, x_tau o' = set_err (x_tau o) e) /\
    (forall f, ~ In (MArr f) ms -> x_arr o' f = x_arr o f) /\
    (~ In MTin ms -> x_in o' = x_in o) /\ (~ In MTout ms -> x_out o' = x_out o) /\
    (~ In MTfwd ms -> x_fwd o' = x_fwd o).
  (** A new array of [n] cells. *)
  Definition fresh_member (o : tobj) (n : Z) (m : member) : Prop :=
    match m with
    | MArr f => exists b, x_arr o f = Some (b, repeat None (Z.to_nat n))
    | MTin => exists b, x_in o = Some (b, repeat None (Z.to_nat n))
    | MTout => exists b, x_out o = Some (b, repeat None (Z.to_nat n))
    | MTfwd => exists b, x_fwd o = Some (b, repeat None (Z.to_nat n))
    end.

  Lemma set_err_same (t : tau S) : set_err t (err t) = t.
  Proof. destruct t; reflexivity. Qed.
  Lemma set_err_twice (t : tau S) a b : set_err (set_err t a) b = set_err t b.
  Proof. reflexivity. Qed.

  Lemma malloc_each_ok base : forall ms (o : tobj) h,
    NoDup ms -> (forall m, In m ms -> block o m = None) -> (forall m, In m ms -> In m destroy_order) ->
    owns base (oblocks o) h ->
    exists o' h', malloc_each C ms o h = Ok (o', h') /\ owns base (oblocks o') h' /\ files h' = files h /\
      grown ms o o' /\
      (x_err o' = None -> x_err o = None /\ forall m, In m ms -> k_mem C m = true /\
         fresh_member o' (arr_size (x_tau o)) m) /\
      (x_err o = None -> (forall m, In m ms -> k_mem C m = true) -> x_err o' = None).
  Proof.
    induction ms as [|m ms IH]; intros o h ND N D O.
    - exists o, h. split; [reflexivity|]. split; [exact O|]. split; [reflexivity|]. split.
      { split; [reflexivity|]. split; [exists (err (x_tau o)); rewrite set_err_same; reflexivity|]. auto. }
      split; [intro E; split; [exact E|intros ? []]|auto].
    - inversion ND as [|? ? NI ND']; subst. cbn [malloc_each]. unfold hbind, malloc_member at 1.
      destruct (x_err o) as [e|] eqn:Er.
      + cbn [hret bind]. destruct (IH o h ND') as (o' & h' & E & O' & F & G & A & B);
          [intros; apply N; right; assumption|intros; apply D; right; assumption|exact O|].
        exists o', h'. split; [exact E|]. split; [exact O'|]. split; [exact F|]. split.
        { destruct G as (G1 & G2 & G3 & G4 & G5 & G6). split; [exact G1|]. split; [exact G2|].
          repeat split; intros; [apply G3|apply G4|apply G5|apply G6]; intro X;
            match goal with H : ~ In _ (_ :: _) |- _ => apply H; right; exact X end. }
        split; [intro Z; destruct (A Z); congruence|intro Z; congruence].
      + rewrite (N m) by (left; reflexivity). unfold hbind, halloc.
        destruct (k_mem C m) eqn:K; cbn [bind hret].
        * set (h1 := mkHeap _ _ _).
          destruct (IH (set_block o m (next h) (arr_size (x_tau o))) h1 ND') as (o' & h' & E & O' & F & G & A & B).
          { intros m' I. rewrite block_set_other by (intro X; subst; contradiction). apply N; right; exact I. }
          { intros; apply D; right; assumption. }
          { apply (owns_perm base (next h :: oblocks o)); [apply owns_alloc; exact O|].
            intro x. unfold oblocks. rewrite (cnt_cons (x_id (set_block _ _ _ _)) (mids _ _)), (cnt_cons (next h) (_ :: _)), (cnt_cons (x_id o) (mids _ _)).
            rewrite mids_set; [|exact destroy_NoDup|apply D; left; reflexivity|apply N; left; reflexivity].
            replace (x_id (set_block o m (next h) (arr_size (x_tau o)))) with (x_id o) by (destruct m; reflexivity).
            lia. }
          exists o', h'. split; [exact E|]. split; [exact O'|]. split; [exact F|].
          assert (T : x_tau (set_block o m (next h) (arr_size (x_tau o))) = x_tau o) by (destruct m; reflexivity).
          destruct G as (G1 & G2 & G3 & G4 & G5 & G6). split.
          { split; [rewrite G1; destruct m; reflexivity|]. split; [rewrite T in G2; exact G2|].
            split; [|split; [|split]].
            - intros f NF. rewrite G3 by (intro X; apply NF; right; exact X). destruct m; try reflexivity.
              apply with_arr_other. intro X; subst; apply NF; left; reflexivity.
            - intros NF. rewrite G4 by (intro X; apply NF; right; exact X). destruct m; try reflexivity.
              exfalso; apply NF; left; reflexivity.
            - intros NF. rewrite G5 by (intro X; apply NF; right; exact X). destruct m; try reflexivity.
              exfalso; apply NF; left; reflexivity.
            - intros NF. rewrite G6 by (intro X; apply NF; right; exact X). destruct m; try reflexivity.
              exfalso; apply NF; left; reflexivity. }
          split.
          { intro Z. destruct (A Z) as [_ A']. split; [reflexivity|]. intros m' [->|I].
            - split; [exact K|]. destruct m' as [f| | |]; cbn [fresh_member set_block] in *.
              + exists (next h). rewrite G3 by exact NI. apply with_arr_same.
              + exists (next h). rewrite G4 by exact NI. reflexivity.
              + exists (next h). rewrite G5 by exact NI. reflexivity.
              + exists (next h). rewrite G6 by exact NI. reflexivity.
            - rewrite T in A'. apply A'; exact I. }
          { intros _ K'. apply B; [unfold x_err; rewrite T; exact Er|]. intros; apply K'; right; assumption. }
        * destruct (IH (x_fail o "malloc: failed"%string) h ND') as (o' & h' & E & O' & F & G & A & B);
            [intros; apply N; right; assumption|intros; apply D; right; assumption|exact O|].
          exists o', h'. split; [exact E|]. split; [exact O'|]. split; [exact F|]. split.
          { destruct G as (G1 & [e G2] & G3 & G4 & G5 & G6). split; [exact G1|]. split; [exists e; exact G2|].
            repeat split; intros; [apply G3|apply G4|apply G5|apply G6]; intro X;
              match goal with H : ~ In _ (_ :: _) |- _ => apply H; right; exact X end. }
          split; [intro Z; destruct (A Z) as [X _]; discriminate X|].
          intros _ K'. rewrite (K' m (or_introl eq_refl)) in K. discriminate.
  Qed.
End Create.
