(** * Proof_Mem2: the blocks of a whole reconstruction. *)
From Coq Require Import List ZArith Lia Bool String Permutation.
From Verif Require Import Base BaseFacts Scalar Spec_Tau Spec_Select Model_TauRec Model_Checks Model_Select
  Model_Transform Model_Recon Model_Heap Model_Create Model_Mem Spec_Csv Spec_Create Spec_Mem
  Proof_Checks Proof_Heap Proof_Create Proof_Recon Proof_Recon3 Proof_Mem.
Import ListNotations.
Open Scope list_scope.
Open Scope Z_scope.

(** ** Messages *)
Definition calm (m : string) : Prop :=
  m <> "window: left"%string /\ m <> "window: right"%string /\ m <> "forward: not enough data"%string.
Definition quiet (e : option string) : Prop := match e with Some m => calm m | None => True end.
Section Quiet.
  Context {S : scalar} (L : tmpl S).
  Notation tau := (tau S).
  Definition keeps_quiet (f : tau -> res tau) : Prop := forall t t', f t = Ok t' -> quiet (err t) -> quiet (err t').
  Ltac calm := cbn [err set_err quiet]; unfold calm; repeat split; discriminate.
  Ltac brq H := repeat match type of H with
    | (if ?c then _ else _) = Ok _ => destruct c
    | match ?c with _ => _ end = Ok _ => destruct c eqn:?
    | fail _ _ = Ok _ => injection H as <-; try calm
    | Ok _ = Ok _ => injection H as <-; try assumption
    | bind _ _ = Ok _ => apply bind_ok in H; destruct H as (? & ? & H)
    end.
  Lemma quiet_guarded (k : tau -> res tau) : keeps_quiet k -> keeps_quiet (fun t => guarded t (k t)).
  Proof. intros H t t' E Q. unfold guarded in E. destruct (err t) eqn:Ee; [injection E as <-; rewrite Ee; exact Q|]. apply (H t); [exact E|rewrite Ee; exact I]. Qed.
  Lemma quiet_seq f g : keeps_quiet f -> keeps_quiet g -> keeps_quiet (fun t => do t1 <- f t; g t1).
  Proof. intros Hf Hg t t' E Q. apply bind_ok in E. destruct E as (t1 & E1 & E). eauto. Qed.
  Lemma quiet_core : keeps_quiet check_core_data.
  Proof. apply quiet_guarded. intros t t' E Q. brq E. Qed.
  Lemma range_calm w r size k : forall n m, data_range_loop (S := S) w r size k n = Ok (Some m) -> calm m.
  Proof.
    induction k as [|k IH]; intros n m E; [discriminate E|]. cbn [data_range_loop] in E.
    do 2 (apply bind_ok in E; destruct E as (? & ? & E)).
    destruct (_ <? _); [injection E as <-; repeat split; discriminate|].
    destruct (_ <? _); [injection E as <-; repeat split; discriminate|]. eapply IH; exact E.
  Qed.
  Lemma quiet_range : keeps_quiet check_data_range.
  Proof.
    apply quiet_guarded. intros t t' E Q. cbv zeta in E. brq E. subst. eapply range_calm; eassumption.
  Qed.
  Lemma seq_calm f (t : tau) two_dx k : forall n p T e st,
    for_nat k n (seq_iter L f t two_dx) (p, T, e) = Ok st -> quiet e -> quiet (snd st).
  Proof.
    induction k as [|k IH]; intros n p T e st E Q; cbn [for_nat] in E; [injection E as <-; exact Q|].
    apply bind_ok in E. destruct E as ([[p1 T1] e1] & E1 & E). apply (IH _ _ _ _ _ E).
    unfold seq_iter in E1. destruct p as [[[wi nw] x] w]. destruct e as [m|]; [injection E1 as <- <- <-; exact Q|].
    apply bind_ok in E1. destruct E1 as (r & Er & E1).
    apply bind_ok in E1. destruct E1 as (q & Eq & E1).
    destruct q as [[[[a b] c] d]|m].
    - do 2 (apply bind_ok in E1; destruct E1 as (? & ? & E1)). injection E1 as <- <- <-. exact I.
    - injection E1 as <- <- <-. cbn [quiet].
      destruct r as [[xw|m']|]; [|injection Eq as <-|discriminate Eq].
      { do 2 (apply bind_ok in Eq; destruct Eq as (? & ? & Eq)). discriminate Eq. }
      unfold resize_half_window in Er. apply bind_ok in Er. destruct Er as (wc & _ & Er).
      destruct (sge _ _); [|discriminate Er]. apply bind_ok in Er. destruct Er as (nw' & _ & Er).
      destruct (_ && _); [discriminate Er|].
      destruct (negb _); [injection Er as <-; repeat split; discriminate|].
      destruct (negb _); [injection Er as <-; repeat split; discriminate|].
      apply bind_ok in Er. destruct Er as (? & _ & Er). discriminate Er.
  Qed.
  Lemma quiet_run f (t t' : tau) wi d n : seq_run L f t wi d n = Ok t' -> quiet (err t) -> quiet (err t').
  Proof.
    unfold seq_run. intros E Q. do 3 (apply bind_ok in E; destruct E as (? & ? & E)).
    rewrite for_range_nat in H1. apply seq_calm in H1; [|exact I].
    destruct x1 as [[p T] e]. cbn [snd] in H1. destruct e as [m|]; injection E as <-; [exact H1|exact Q].
  Qed.
  Lemma quiet_driver k : (forall t t', err t = None -> k t = Ok t' -> quiet (err t')) ->
    keeps_quiet (fun t => do t1 <- check_core_data t; do t2 <- check_data_range t1; guarded t2 (k t2)).
  Proof.
    intros H t t' E Q. apply bind_ok in E. destruct E as (t1 & E1 & E).
    apply bind_ok in E. destruct E as (t2 & E2 & E).
    pose proof (quiet_core _ _ E1 Q) as Q1. pose proof (quiet_range _ _ E2 Q1) as Q2.
    unfold guarded in E. destruct (err t2) eqn:Ee; [injection E as <-; rewrite Ee; exact Q2|eauto].
  Qed.
  Lemma quiet_dc sch : keeps_quiet (diffraction_correction L sch).
  Proof.
    unfold diffraction_correction. apply quiet_guarded. intros t t' E Q. cbv zeta in E.
    destruct (_ =? _); [|destruct (_ =? _); [|destruct (_ =? _); [|destruct (_ <=? _); [|destruct (_ <? _)]]]].
    - revert E Q. apply quiet_driver. clear t t'. intros t t' C E. cbv zeta in E. brq E. cbn. rewrite C. exact I.
    - unfold dc_legendre in E. unfold guarded in E at 1. destruct (err t) eqn:Ee; [injection E as <-; rewrite Ee; exact Q|].
      rewrite <- Ee in Q. revert E Q. apply quiet_driver. clear t t' Ee. intros t t' C E.
      apply bind_ok in E. destruct E as (f & Ef & E). apply bind_ok in E. destruct E as (t3 & E3 & E).
      assert (C3 : err t3 = None).
      { unfold flip_k in E3. destruct (use_fwd t); [|injection E3 as <-; exact C].
        do 2 (apply bind_ok in E3; destruct E3 as (? & ? & E3)). injection E3 as <-. exact C. }
      cbv zeta in E. do 4 (apply bind_ok in E; destruct E as (? & ? & E)).
      destruct (negb _); [injection E as <-; calm|]. eapply quiet_run; [exact E|rewrite C3; exact I].
    - revert E Q. apply quiet_driver. clear t t'. intros t t' C E. cbv zeta in E. brq E. cbn. rewrite C. exact I.
    - revert E Q. apply quiet_driver. clear t t'. intros t t' C E. cbv zeta in E.
      do 4 (apply bind_ok in E; destruct E as (? & ? & E)). apply bind_ok in E. destruct E as (sel & Es & E).
      destruct sel as [f|m].
      + brq E. cbn. rewrite C. exact I.
      + injection E as <-. cbn [err set_err quiet]. unfold select_newton in Es.
        repeat match type of Es with (if ?c then _ else _) = _ => destruct c end;
          try (injection Es as <-; repeat split; discriminate).
        apply bind_ok in Es. destruct Es as (? & _ & Es). discriminate Es.
    - revert E Q. apply quiet_driver. clear t t'. intros t t' C E. cbv zeta in E.
      do 4 (apply bind_ok in E; destruct E as (? & ? & E)). apply bind_ok in E. destruct E as (sel & Es & E).
      destruct sel as [[f|]|m].
      + destruct (negb _); [injection E as <-; calm|]. eapply quiet_run; [exact E|rewrite C; exact I].
      + injection E as <-. calm.
      + injection E as <-. cbn [err set_err quiet]. unfold select_interp in Es.
        repeat match type of Es with (if ?c then _ else _) = _ => destruct c end;
          try (injection Es as <-; repeat split; discriminate).
        apply bind_ok in Es. destruct Es as (? & _ & Es). discriminate Es.
    - brq E.
  Qed.
End Quiet.

Section Whole.
  Context {S : scalar} (L : tmpl S) (sep : bool).
  Notation tau := (tau S).
  Notation mobj := (@mobj S).

  Lemma cnt_mb_put (o : mobj) m p x :
    (cnt (mb (with_blk o m p)) x + cnt (ml (m_blk o m)) x = cnt (ml p) x + cnt (mb o) x)%nat.
  Proof.
    unfold mb. cbn [m_id m_blk with_blk]. pose proof (cnt_put (m_blk o) m p x). repeat cc1. lia.
  Qed.

  Lemma dc_ok base rest sch (o : mobj) h : owns base (mb o ++ rest) h ->
    sim base rest (m_id o) (files h) (fun _ => O) (fun o' => m_blk o' = m_blk o)
      (diffraction_correction L sch (m_tau o)) (diffraction_correction_h L sch o h).
  Proof.
    intro O. unfold diffraction_correction_h. step (touch_ok _ _ _ _ O).
    destruct (hnews_ok base (temporaries sch (m_tau o)) _ h O) as (l & h1 & E1 & O1 & F1 & _). step E1.
    unfold hbind at 1; unfold hlift at 1. destruct (diffraction_correction L sch (m_tau o)) as [t'|u]; cbn [bind]; [|reflexivity].
    destruct (hfrees_ok base l _ h1 O1) as (h2 & E2 & O2 & F2). step E2.
    exists (with_val o t'), h2, []. split; [reflexivity|]. repeat split; try reflexivity; try apply O2. congruence.
  Qed.

  Lemma resize_h_ok base rest m f (o : mobj) h : owns base (mb o ++ rest) h ->
    sim base rest (m_id o) (files h) (fun _ => O) (fun _ => True) (f (m_tau o)) (resize_h L m f o h).
  Proof.
    intro O. unfold resize_h. step (touch_ok _ _ _ _ O).
    destruct (halloc_ok base _ h (t_alloc L 8) O) as (b & h1 & E1 & O1 & F1 & _). step E1.
    unfold hbind at 1; unfold hlift at 1. destruct (f (m_tau o)) as [t'|u]; cbn [bind]; [|reflexivity].
    destruct (free_owned base (m_blk o m) _ (mb (with_blk o m b) ++ rest) h1 O1) as (h2 & E2 & O2 & F2).
    { intro x. pose proof (cnt_mb_put o m b x). repeat cc1. lia. }
    step E2. exists (with_blk (with_val o t') m b), h2, []. split; [reflexivity|]. split; [reflexivity|].
    split; [reflexivity|]. split; [reflexivity|]. split; [exact O2|]. split; [congruence|exact I].
  Qed.
  (** Composing a stage with the rest. *)
  Lemma sim_then base rest id fl Q1 Q2 n (v : res tau) (k : tau -> res tau) (r : res (mobj * heap)) (c : mobj -> H mobj) :
    sim base rest id fl (fun _ => O) Q1 v r ->
    (forall o' h', Q1 o' -> m_id o' = id -> files h' = fl -> v = Ok (m_tau o') -> owns base (mb o' ++ rest) h' ->
       sim base rest id fl n Q2 (k (m_tau o')) (c o' h')) ->
    sim base rest id fl n Q2 (bind v k) (bind r (fun '(o', h') => c o' h')).
  Proof.
    unfold sim at 1. intros A B. destruct v as [t1|u]; cbn [bind].
    - destruct A as (o1 & h1 & l & -> & T & Ii & N & O & F & Qq). destruct l; [|discriminate N]. subst t1. cbn [bind].
      apply B; auto.
    - rewrite A. reflexivity.
  Qed.
  Lemma resize_all_ok base rest : forall fs (o : mobj) h, owns base (mb o ++ rest) h ->
    sim base rest (m_id o) (files h) (fun _ => O) (fun _ => True) (resize_all L fs (m_tau o)) (resize_all_h L fs o h).
  Proof.
    induction fs as [|f fs IH]; intros o h O.
    - exists o, h, []. split; [reflexivity|]. repeat split; apply O.
    - cbn [resize_all resize_all_h]. unfold hbind.
      eapply (sim_then _ _ _ _ (fun _ => True)); [apply (resize_h_ok base rest (MArr f) (resize_f L f) o h O)|].
      intros o' h' _ Ii F _ O'. rewrite <- Ii, <- F. apply IH. exact O'.
  Qed.
  Lemma bind_assoc {A B C} (m : res A) (f : A -> res B) (g : B -> res C) :
    bind (bind m f) g = bind m (fun a => bind (f a) g).
  Proof. destruct m; reflexivity. Qed.
  Lemma sim_weaken base rest id fl (n : tau -> nat) Q v r : sim base rest id fl n Q v r -> sim base rest id fl n (fun _ => True) v r.
  Proof.
    unfold sim. destruct v; [|exact (fun x => x)]. intros (o & h & l & A & B & C & D & E & F & _).
    exists o, h, l. repeat (split; [assumption|]). exact I.
  Qed.
  Lemma finish_ok base rest (o : mobj) h : owns base (mb o ++ rest) h ->
    sim base rest (m_id o) (files h) (fun _ => O) (fun _ => True) (finish L (m_tau o)) (finish_h L o h).
  Proof.
    intro O. unfold finish, finish_h, guarded. destruct (err (m_tau o)).
    { exists o, h, []. split; [reflexivity|]. repeat split; apply O. }
    cbv zeta.
    pose proof (resize_h_ok base rest MTin (fun t => do a <- resize L (T_in t) (start t) (n_used t); Ok (set_T_in t a)) o h O) as A.
    unfold hbind at 1. cbv beta in A.
    replace (bind (resize L (T_in (m_tau o)) (start (m_tau o)) (n_used (m_tau o))) _) with
      (bind (bind (resize L (T_in (m_tau o)) (start (m_tau o)) (n_used (m_tau o))) (fun a => Ok (set_T_in (m_tau o) a)))
         (fun t => bind (bind (resize L (T_out t) (start t) (n_used t)) (fun b => Ok (set_T_out t b)))
            (fun t => bind (resize_all L finish_resized t) (fun t => let t := set_arr_size t (n_used t) in
               if use_fwd t then bind (resize L (T_fwd t) (start t) (n_used t)) (fun c => Ok (set_T_fwd t c)) else Ok t)))).
    2: { rewrite bind_assoc. destruct (resize L (T_in (m_tau o)) _ _); cbn [bind]; [|reflexivity]. rewrite bind_assoc.
         destruct (resize L (T_out _) _ _); reflexivity. }
    eapply (sim_then _ _ _ _ (fun _ => True)); [exact A|]. clear A. intros o1 h1 _ I1 F1 _ O1.
    unfold hbind at 1. rewrite <- I1, <- F1.
    eapply (sim_then _ _ _ _ (fun _ => True)).
    { apply (resize_h_ok base rest MTout (fun t => do a <- resize L (T_out t) (start t) (n_used t); Ok (set_T_out t a)) o1 h1 O1). }
    intros o2 h2 _ I2 F2 _ O2. unfold hbind at 1. rewrite <- I2, <- F2.
    eapply (sim_then _ _ _ _ (fun _ => True)); [apply resize_all_ok; exact O2|].
    intros o3 h3 _ I3 F3 _ O3. cbn [m_tau with_val]. rewrite <- I3, <- F3.
    destruct (use_fwd _).
    - exact (resize_h_ok base rest MTfwd (fun t => do a <- resize L (T_fwd t) (start t) (n_used t); Ok (set_T_fwd t a))
        (with_val o3 (set_arr_size (m_tau o3) (n_used (m_tau o3)))) h3 O3).
    - exists (with_val o3 (set_arr_size (m_tau o3) (n_used (m_tau o3)))), h3, []. split; [reflexivity|].
      repeat split; apply O3.
  Qed.

  (** ** The forward model *)
  Definition simf (base rest : list Z) (id fl : Z) (o : mobj) (v : res (tau + tau)) (r : res ((mobj + mobj) * heap)) : Prop :=
    match v with
    | UB u => r = UB u
    | Ok (inl t') => exists o' h', r = Ok (inl o', h') /\ m_tau o' = t' /\ m_id o' = id /\
        owns base (mb o' ++ rest) h' /\ files h' = fl
    | Ok (inr t') => exists o' h', r = Ok (inr o', h') /\ m_tau o' = t' /\ m_id o' = id /\
        owns base (mb o' ++ ml (m_blk o MTin) ++ rest) h' /\ files h' = fl
    end.
  Lemma forward_ok base rest sch (o : mobj) h : owns base (mb o ++ rest) h -> m_blk o MTfwd = None ->
    simf base rest (m_id o) (files h) o (forward_model L sch (m_tau o)) (forward_model_h L sch o h).
  Proof.
    intros O Hf. unfold forward_model_h, forward_model. cbv zeta. step (touch_ok _ _ _ _ O).
    set (o1 := with_blk (with_val o (set_T_in (m_tau o) (T_out (m_tau o)))) MTin (m_blk o MTout)).
    destruct (halloc_ok base _ h (t_alloc L 31) O) as (b & h1 & E1 & O1 & F1 & _). step E1.
    set (o2 := with_blk (with_val o1 _) MTout b).
    set (t2 := m_tau o2).
    change (set_T_out (set_T_in (m_tau o) (T_out (m_tau o))) _) with t2.
    assert (P2 : forall x, (cnt (mb o2) x = cnt (ml b) x + cnt (mb o) x - cnt (ml (m_blk o MTin)) x)%nat /\
                           (cnt (ml (m_blk o MTin)) x <= cnt (mb o) x)%nat).
    { intro x. pose proof (cnt_mb_put (with_val o (set_T_in (m_tau o) (T_out (m_tau o)))) MTin (m_blk o MTout) x) as A1.
      pose proof (cnt_mb_put (with_val o1 t2) MTout b x) as A2.
      change (mb (with_blk (with_val o1 t2) MTout b)) with (mb o2) in A2.
      rewrite mb_val in A1, A2. fold o1 in A1. cbn [m_blk with_val with_blk] in A1, A2.
      replace (m_blk o1 MTout) with (m_blk o MTout) in A2 by reflexivity.
      assert (cnt (ml (m_blk o MTin)) x <= cnt (mb o) x)%nat.
      { pose proof (cnt_mb_put o MTin None x) as A3. cbn [ml] in A3. rewrite cnt_nil in A3. lia. }
      lia. }
    assert (O2 : owns base (mb o2 ++ ml (m_blk o MTin) ++ rest) h1).
    { apply (owns_perm _ _ _ _ O1). intro x. destruct (P2 x). repeat cc1. lia. }
    unfold hbind at 1; unfold hlift at 1. destruct (rd t2 WKM (start t2)) as [wl|u]; cbn [bind]; [|reflexivity].
    unfold hbind at 1; unfold hlift at 1. destruct (rd t2 WKM (start t2 + n_used t2)) as [wr|u]; cbn [bind]; [|reflexivity].
    unfold hbind at 1; unfold hlift at 1. destruct (scast _) as [nw|u]; cbn [bind]; [|reflexivity].
    destruct (n_used t2 <=? wrap64 (2 * nw)).
    { unfold hbind, hlift, fail. cbn [bind]. eexists _, h1. split; [reflexivity|]. split; [reflexivity|].
      split; [reflexivity|]. split; [exact O2|exact F1]. }
    set (t3 := set_n_used _ _).
    pose proof (dc_ok base (ml (m_blk o MTin) ++ rest) sch (with_val o2 t3) h1 O2) as D. cbn [m_tau with_val m_id] in D.
    unfold sim in D. unfold hbind at 1.
    destruct (diffraction_correction L sch t3) as [t4|u]; cbn [bind]; [|rewrite D; reflexivity].
    destruct D as (o4 & h4 & l & -> & T4 & I4 & N4 & O4 & F4 & Q4). destruct l; [|discriminate N4]. cbn [bind app] in *. subst t4.
    eexists _, h4. split; [reflexivity|]. split; [reflexivity|]. split; [exact I4|]. split; [|congruence].
    apply (owns_perm _ _ _ _ O4). intro x. rewrite mb_val.
    pose proof (cnt_mb_put o4 MTfwd (m_blk o4 MTout) x) as A1.
    pose proof (cnt_mb_put (with_blk o4 MTfwd (m_blk o4 MTout)) MTout (m_blk o4 MTin) x) as A2.
    pose proof (cnt_mb_put (with_blk (with_blk o4 MTfwd (m_blk o4 MTout)) MTout (m_blk o4 MTin)) MTin (m_blk o MTin) x) as A3.
    change (m_blk (with_blk o4 MTfwd (m_blk o4 MTout)) MTout) with (m_blk o4 MTout) in A2.
    change (m_blk (with_blk (with_blk o4 MTfwd (m_blk o4 MTout)) MTout (m_blk o4 MTin)) MTin) with (m_blk o4 MTin) in A3.
    assert (Ef : m_blk o4 MTfwd = None) by (rewrite Q4; exact Hf).
    rewrite Ef in A1. cbn [ml] in A1. rewrite cnt_nil in A1. repeat cc1. lia.
  Qed.
End Whole.
