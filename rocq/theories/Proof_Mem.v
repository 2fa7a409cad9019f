(** * Proof_Mem: the blocks of a reconstruction. *)
From Coq Require Import List ZArith Lia Bool String Permutation.
From Verif Require Import Base BaseFacts Scalar Spec_Tau Spec_Select Model_TauRec Model_Checks Model_Select
  Model_Transform Model_Recon Model_Heap Model_Create Model_Mem Spec_Csv Spec_Create Spec_Mem
  Proof_Checks Proof_Heap Proof_Create.
Import ListNotations.
Open Scope list_scope.
Open Scope Z_scope.

Definition bl (b : blocks) : list Z := flat_map (fun m => ml (b m)) destroy_order.
Lemma member_eqb_eq a b : member_eqb a b = true <-> a = b.
Proof.
  destruct a, b; cbn; split; try congruence; try discriminate.
  - intro E. apply rf_eqb_eq in E. congruence.
  - intro E. injection E as ->. apply rf_eqb_refl.
Qed.
Lemma put_same b m p : put_blk b m p m = p.
Proof. unfold put_blk. rewrite (proj2 (member_eqb_eq m m) eq_refl). reflexivity. Qed.
Lemma put_other b m p n : n <> m -> put_blk b m p n = b n.
Proof.
  intro N. unfold put_blk. destruct (member_eqb n m) eqn:E; [apply member_eqb_eq in E; contradiction|reflexivity].
Qed.
Lemma in_destroy m : In m destroy_order.
Proof. destruct m as [[]| | |]; repeat (first [left; reflexivity|right]). Qed.
Lemma fm_put_notin ms b m p : ~ In m ms ->
  flat_map (fun n => ml (put_blk b m p n)) ms = flat_map (fun n => ml (b n)) ms.
Proof.
  induction ms as [|a ms IH]; intro N; [reflexivity|]. cbn [flat_map].
  rewrite put_other by (intros ->; apply N; left; reflexivity). f_equal. apply IH. intro I; apply N; right; exact I.
Qed.
Lemma cnt_put_list ms b m p x : NoDup ms -> In m ms ->
  (cnt (flat_map (fun n => ml (put_blk b m p n)) ms) x + cnt (ml (b m)) x
   = cnt (ml p) x + cnt (flat_map (fun n => ml (b n)) ms) x)%nat.
Proof.
  induction ms as [|a ms IH]; intros ND I; [destruct I|]. inversion ND as [|? ? NI ND']; subst.
  cbn [flat_map]. rewrite !cnt_app. destruct I as [->|I].
  - rewrite put_same, fm_put_notin by exact NI. lia.
  - rewrite put_other by (intros ->; contradiction). specialize (IH ND' I). lia.
Qed.
Lemma cnt_put b m p x :
  (cnt (bl (put_blk b m p)) x + cnt (ml (b m)) x = cnt (ml p) x + cnt (bl b) x)%nat.
Proof. apply cnt_put_list; [exact destroy_NoDup|apply in_destroy]. Qed.

Ltac cc1 := match goal with
  | |- context [cnt (?a ++ ?b) ?x] => rewrite (cnt_app a b x)
  | |- context [cnt (?a :: ?l) ?x] => lazymatch l with [] => fail | _ => rewrite (cnt_cons a l x) end
  | |- context [cnt [] ?x] => rewrite (cnt_nil x)
  end.
Ltac cn := intro; cbn [ml app]; repeat cc1; try lia.
(** Running a step whose result is known. *)
Ltac step E := unfold hbind at 1; rewrite E; cbn [bind].

Section HeapSteps.
  Lemma hnew_ok base ids h : owns base ids h ->
    exists b h', hnew h = Ok (b, h') /\ owns base (b :: ids) h' /\ files h' = files h.
  Proof. intro O. eexists _, _. split; [reflexivity|]. split; [apply owns_alloc; exact O|reflexivity]. Qed.
  Lemma halloc_ok base ids h ok : owns base ids h ->
    exists p h', halloc ok h = Ok (p, h') /\ owns base (ml p ++ ids) h' /\ files h' = files h /\ (ok = true -> p <> None).
  Proof.
    intro O. destruct ok; cbn.
    - eexists _, _. split; [reflexivity|]. split; [apply owns_alloc; exact O|]. split; [reflexivity|discriminate].
    - exists None, h. split; [reflexivity|]. split; [exact O|]. split; [reflexivity|discriminate].
  Qed.
  Lemma hnews_ok base n : forall ids h, owns base ids h ->
    exists l h', hnews n h = Ok (l, h') /\ owns base (l ++ ids) h' /\ files h' = files h /\ List.length l = n.
  Proof.
    induction n as [|n IH]; intros ids h O.
    - exists [], h. repeat split; try apply O.
    - destruct (hnew_ok base ids h O) as (b & h1 & E1 & O1 & F1).
      destruct (IH (b :: ids) h1 O1) as (l & h2 & E2 & O2 & F2 & N2).
      exists (b :: l), h2. cbn [hnews]. unfold hbind at 1. rewrite E1. cbn [bind]. unfold hbind. rewrite E2. cbn [bind].
      split; [reflexivity|]. split; [|split; [congruence|cbn; congruence]].
      apply (owns_perm _ _ _ _ O2). cn.
  Qed.
  Lemma hfrees_ok base : forall l ids h, owns base (l ++ ids) h ->
    exists h', hfrees l h = Ok (tt, h') /\ owns base ids h' /\ files h' = files h.
  Proof.
    induction l as [|b l IH]; intros ids h O.
    - exists h. repeat split; try apply O.
    - destruct (free_owned base (Some b) _ (l ++ ids) h O) as (h1 & E1 & O1 & F1).
      { cn. }
      destruct (IH ids h1 O1) as (h2 & E2 & O2 & F2).
      exists h2. cbn [hfrees]. unfold hbind. rewrite E1. cbn [bind]. rewrite E2. split; [reflexivity|]. split; [exact O2|congruence].
  Qed.
  Lemma where_ok base sep ids h : owns base ids h ->
    exists i p l h', where_blocks sep h = Ok ((i, p), h') /\ List.length l = (if sep then 1 else 0)%nat /\
      owns base (i :: p :: l ++ ids) h' /\ files h' = files h.
  Proof.
    intro O. destruct (hnew_ok base ids h O) as (i & h1 & E1 & O1 & F1).
    destruct (hnew_ok base _ h1 O1) as (p & h2 & E2 & O2 & F2).
    destruct (hnews_ok base (if sep then 1 else 0)%nat _ h2 O2) as (l & h3 & E3 & O3 & F3 & N3).
    exists i, p, l, h3. unfold where_blocks, hbind. rewrite E1. cbn [bind]. rewrite E2. cbn [bind].
    replace ((if sep then hnews 1 else hnews 0) h2) with (hnews (if sep then 1 else 0)%nat h2) by (destruct sep; reflexivity).
    rewrite E3. cbn [bind]. split; [reflexivity|]. split; [exact N3|]. split; [|congruence].
    apply (owns_perm _ _ _ _ O3). cn.
  Qed.
End HeapSteps.

Section Mem.
  Context {S : scalar} (L : tmpl S) (sep : bool).
  Notation tau := (tau S).
  Notation mobj := (@mobj S).

  Definition mb (o : mobj) : list Z := m_id o :: bl (m_blk o).

  Lemma touch_each_ok base ids (b : blocks) h : owns base ids h ->
    forall ms, (forall m x, In m ms -> b m = Some x -> In x ids) -> touch_each ms b h = Ok (tt, h).
  Proof.
    intros O. induction ms as [|m ms IH]; intro I; [reflexivity|]. cbn [touch_each].
    unfold hbind. destruct (b m) as [x|] eqn:E.
    - rewrite (access_owned base ids h x O); [cbn [bind]|apply (I m x); [left; reflexivity|exact E]].
      apply IH. intros; apply (I m0); [right|]; assumption.
    - cbn [bind hret]. apply IH. intros; apply (I m0); [right|]; assumption.
  Qed.
  Lemma touch_ok base (o : mobj) rest h : owns base (mb o ++ rest) h -> touch o h = Ok (tt, h).
  Proof.
    intro O. unfold touch, hbind.
    rewrite (access_owned base _ h (m_id o) O) by (left; reflexivity). cbn [bind].
    apply (touch_each_ok base _ _ _ O). intros m x _ E. right. apply in_or_app. left.
    unfold bl. apply in_flat_map. exists m. split; [apply in_destroy|]. rewrite E. left; reflexivity.
  Qed.

  Lemma mb_val (o : mobj) t : mb (with_val o t) = mb o.
  Proof. reflexivity. Qed.
  (** What a stage with result [r] on values and [hr] on the heap does: the same
      values, and the object owns its blocks; [n] more blocks are lost. *)
  Definition sim (base rest : list Z) (id fl : Z) (n : tau -> nat) (Q : mobj -> Prop) (v : res tau)
      (r : res (mobj * heap)) : Prop :=
    match v with
    | UB u => r = UB u
    | Ok t' => exists o' h' l, r = Ok (o', h') /\ m_tau o' = t' /\ m_id o' = id /\ List.length l = n t' /\
        owns base (mb o' ++ l ++ rest) h' /\ files h' = fl /\ Q o'
    end.

  Lemma staged_ok base rest (f : tau -> res tau) (o : mobj) h : owns base (mb o ++ rest) h ->
    sim base rest (m_id o) (files h) (fun _ => O) (fun o' => m_blk o' = m_blk o) (f (m_tau o)) (staged f o h).
  Proof.
    intro O. unfold staged. step (touch_ok _ _ _ _ O). unfold hbind, hlift, sim.
    destruct (f (m_tau o)) as [t'|u]; cbn [bind]; [|reflexivity].
    exists (with_val o t'), h, []. split; [reflexivity|]. repeat split; try reflexivity; apply O.
  Qed.

  (** ** The window selection *)
  Definition simw (base rest : list Z) (fl : Z) (o : mobj) (v : res (list S)) (r : res ((mobj * list S) * heap)) : Prop :=
    match v with
    | UB u => r = UB u
    | Ok w => exists b h' l, r = Ok ((with_blk o (MArr WKM) b, w), h') /\
        List.length l = (if bfac (m_tau o) then if sep then 1 else 0 else 0)%nat /\
        owns base (mb (with_blk o (MArr WKM) b) ++ l ++ rest) h' /\ files h' = fl
    end.
  Lemma widths_ok base rest (o : mobj) h : owns base (mb o ++ rest) h -> m_blk o (MArr WKM) = None ->
    simw base rest (files h) o (gww_widths L (m_tau o)) (gww_widths_h L sep o h).
  Proof.
    intros O Hn. unfold gww_widths_h. step (touch_ok _ _ _ _ O).
    destruct (halloc_ok base _ h (t_alloc L 1) O) as (b & h1 & E1 & O1 & F1 & _). step E1.
    assert (P : forall x, cnt (mb (with_blk o (MArr WKM) b)) x = (cnt (ml b) x + cnt (mb o) x)%nat).
    { intro x. unfold mb. cbn [m_id m_blk with_blk]. repeat cc1.
      pose proof (cnt_put (m_blk o) (MArr WKM) b x) as A. rewrite Hn in A. cbn [ml] in A. rewrite cnt_nil in A. lia. }
    destruct (bfac (m_tau o)) eqn:B.
    - destruct (halloc_ok base _ h1 (t_alloc L 2) O1) as (a & h2 & E2 & O2 & F2 & _). step E2.
      destruct (halloc_ok base _ h2 (t_alloc L 3) O2) as (q & h3 & E3 & O3 & F3 & _). step E3.
      unfold hbind at 1. unfold hlift at 1. destruct (gww_widths L (m_tau o)) as [w|u]; cbn [bind]; [|reflexivity].
      destruct (where_ok base sep _ h3 O3) as (i & p & l & h4 & E4 & N4 & O4 & F4). step E4.
      destruct (free_owned base q _ (ml a ++ i :: p :: l ++ ml b ++ mb o ++ rest) h4 O4) as (h5 & E5 & O5 & F5).
      { cn. }
      step E5.
      destruct (free_owned base a _ (i :: p :: l ++ ml b ++ mb o ++ rest) h5 O5) as (h6 & E6 & O6 & F6).
      { cn. }
      step E6.
      destruct (free_owned base (Some i) _ (p :: l ++ ml b ++ mb o ++ rest) h6 O6) as (h7 & E7 & O7 & F7).
      { cn. }
      step E7.
      destruct (free_owned base (Some p) _ (l ++ ml b ++ mb o ++ rest) h7 O7) as (h8 & E8 & O8 & F8).
      { cn. }
      step E8. exists b, h8, l. split; [reflexivity|]. split; [rewrite B; exact N4|]. split; [|congruence].
      apply (owns_perm _ _ _ _ O8). intro x. rewrite !cnt_app, P. lia.
    - unfold hbind, hlift. destruct (gww_widths L (m_tau o)) as [w|u]; cbn [bind]; [|reflexivity].
      exists b, h1, []. split; [reflexivity|]. split; [rewrite B; reflexivity|]. split; [|exact F1].
      apply (owns_perm _ _ _ _ O1). intro x. rewrite !cnt_app, P, cnt_nil. lia.
  Qed.

  Definition one : nat := if sep then 1%nat else 0%nat.
  Definition trim_lost (t' : tau) : nat :=
    match err t' with
    | Some m => if String.eqb m "window: left" then (if t_alloc L 5 then 1 else 0) + one
                else if String.eqb m "window: right" then 2 + 2 * one else 2 * one
    | None => 2 * one
    end%nat.
  Lemma free_two base i p X h : owns base (i :: p :: X) h -> exists h3 h4, hfree (Some i) h = Ok (tt, h3) /\
      hfree (Some p) h3 = Ok (tt, h4) /\ owns base X h4 /\ files h4 = files h.
  Proof.
    intros OX. destruct (free_owned base (Some i) _ (p :: X) h OX) as (h3 & E3 & O3 & F3); [cn|].
    destruct (free_owned base (Some p) _ X h3 O3) as (h4 & E4 & O4 & F4); [cn|].
    exists h3, h4. split; [exact E3|]. split; [exact E4|]. split; [exact O4|congruence].
  Qed.
  Lemma trim_ok base rest (o : mobj) rho w h : owns base (mb o ++ rest) h -> err (m_tau o) = None ->
    sim base rest (m_id o) (files h) trim_lost (fun o' => m_blk o' = m_blk o)
      (gww_trim L (m_tau o) rho w) (gww_trim_h L sep o rho w h).
  Proof.
    intros O Hc. unfold gww_trim_h, gww_trim. step (touch_ok _ _ _ _ O).
    destruct (halloc_ok base _ h (t_alloc L 5) O) as (q & h1 & E1 & O1 & F1 & Q1). step E1.
    unfold hbind at 1; unfold hlift at 1. destruct (need (t_alloc L 5) (n_used (m_tau o))) as [[]|u]; cbn [bind]; [|reflexivity].
    unfold hbind at 1; unfold hlift at 1. destruct (rho_legal ssub (m_tau o) rho w) as [left|u]; cbn [bind]; [|reflexivity].
    unfold hbind at 1; unfold hlift at 1. destruct (aread rho 0) as [r0|u]; cbn [bind]; [|reflexivity].
    unfold hbind at 1; unfold hlift at 1. destruct (need (t_alloc L 6) 1) as [[]|u]; cbn [bind]; [|reflexivity].
    destruct (where_ok base sep _ h1 O1) as (i & p & l & h2 & E2 & N2 & O2 & F2). step E2.
    destruct (free_two base i p _ h2 O2) as (h3 & h4 & E3 & E4 & O4 & F4).
    destruct (where_ (fun r => sgt r r0) left) as [|i0 tl].
    { step E3. step E4. unfold hbind, hlift, fail, sim. cbn [bind].
      eexists _, h4, (ml q ++ l). split; [reflexivity|]. split; [reflexivity|]. split; [reflexivity|].
      split.
      { cbn -[Nat.add]. rewrite app_length, N2. unfold one.
        destruct (t_alloc L 5).
        - destruct q; [reflexivity|]. exfalso; apply Q1; reflexivity.
        - cbn in E1. injection E1 as <- _. reflexivity. }
      split; [|split; [congruence|reflexivity]].
      apply (owns_perm _ _ _ _ O4). rewrite mb_val. cn. }
    step E3. step E4.
    set (t1 := if 0 <? i0 then _ else _).
    assert (C1 : err t1 = None) by (unfold t1; destruct (0 <? i0); exact Hc).
    unfold hbind at 1; unfold hlift at 1. destruct (rho_legal sadd t1 rho w) as [right|u]; cbn [bind]; [|reflexivity].
    unfold hbind at 1; unfold hlift at 1. destruct (aread rho (wrap64 (arr_size (m_tau o) - 1))) as [rl|u]; cbn [bind]; [|reflexivity].
    unfold hbind at 1; unfold hlift at 1. destruct (need (t_alloc L 7) 1) as [[]|u]; cbn [bind]; [|reflexivity].
    destruct (where_ok base sep _ h4 O4) as (i2 & p2 & l2 & h5 & E5 & N5 & O5 & F5). step E5.
    destruct (free_owned base q _ (i2 :: p2 :: l2 ++ l ++ mb o ++ rest) h5 O5) as (h6 & E6 & O6 & F6); [cn|]. step E6.
    destruct (where_ (fun r => slt r rl) right) as [|k r].
    { unfold hbind, hlift, fail, sim. cbn [bind].
      eexists _, h6, (i2 :: p2 :: l2 ++ l). split; [reflexivity|]. split; [reflexivity|]. split; [reflexivity|].
      split.
      { cbn -[Nat.add Nat.mul]. rewrite app_length, N2, N5. unfold one. destruct sep; reflexivity. }
      split; [|split; [congruence|reflexivity]].
      apply (owns_perm _ _ _ _ O6). rewrite mb_val. cn. }
    destruct (free_two base i2 p2 _ h6 O6) as (h7 & h8 & E7 & E8 & O8 & F8). step E7. step E8.
    set (t2 := if _ <? n_used t1 then _ else _).
    assert (C2 : err t2 = None) by (unfold t2; destruct (_ <? n_used t1); exact C1).
    set (v := if arr_size t2 <? start t2 then _ else _).
    assert (V : exists t', v = Ok t' /\ trim_lost t' = (2 * one)%nat).
    { unfold v, fail. destruct (arr_size t2 <? start t2); [eexists; split; [reflexivity|reflexivity]|].
      destruct (arr_size t2 <? wrap64 _); [eexists; split; [reflexivity|reflexivity]|].
      exists t2. split; [reflexivity|]. unfold trim_lost. rewrite C2. reflexivity. }
    destruct V as (t' & -> & V). unfold hbind, hlift, sim. cbn [bind].
    eexists _, h8, (l2 ++ l). split; [reflexivity|]. split; [reflexivity|]. split; [reflexivity|].
    split; [rewrite V, app_length, N2, N5; unfold one; destruct sep; reflexivity|].
    split; [|split; [congruence|reflexivity]].
    apply (owns_perm _ _ _ _ O8). rewrite mb_val. cn.
  Qed.

  Definition select_lost (t t' : tau) : nat :=
    match arr t' WKM with
    | Some _ => trim_lost t' + (if bfac t then one else 0)
    | None => 0
    end%nat.
  Definition kept (o o' : mobj) : Prop := forall m, m <> MArr WKM -> m_blk o' m = m_blk o m.

  Lemma trim_wkm (t t' : tau) rho w : gww_trim L t rho w = Ok t' -> arr t' = arr t.
  Proof.
    unfold gww_trim, fail. intro E.
    repeat match type of E with
    | bind _ _ = Ok _ => apply bind_ok in E; destruct E as (? & ? & E)
    | match ?c with _ => _ end = Ok _ => destruct c
    end; injection E as <-; try reflexivity;
    repeat match goal with |- context [if ?c then _ else _] => destruct c end; reflexivity.
  Qed.

  Lemma select_ok base rest (o : mobj) h : owns base (mb o ++ rest) h -> err (m_tau o) = None ->
    arr (m_tau o) WKM = None -> m_blk o (MArr WKM) = None ->
    sim base rest (m_id o) (files h) (select_lost (m_tau o)) (kept o)
      (get_window_width L (m_tau o)) (get_window_width_h L sep o h).
  Proof.
    intros O Hc Hw Hb. unfold get_window_width_h, get_window_width, guarded. rewrite Hc.
    assert (Early : forall t' h0, h0 = h -> arr t' WKM = None -> sim base rest (m_id o) (files h) (select_lost (m_tau o)) (kept o)
              (Ok t') (Ok (with_val o t', h0))).
    { intros t' h0 -> E. exists (with_val o t'), h, []. split; [reflexivity|]. split; [reflexivity|]. split; [reflexivity|].
      split; [unfold select_lost; rewrite E; reflexivity|]. split; [exact O|]. split; [reflexivity|]. intros m _; reflexivity. }
    step (touch_ok _ _ _ _ O).
    unfold hbind at 1; unfold hlift at 1. destruct (deref (arr (m_tau o) RHO)) as [rho|u]; cbn [bind]; [|reflexivity].
    unfold hbind at 1; unfold hlift at 1. destruct (gww_start (m_tau o) rho) as [[[r0 s]|]|u]; cbn [bind]; [| |reflexivity].
    2: { apply Early; [reflexivity|exact Hw]. }
    set (t1 := set_start (set_range0 (m_tau o) r0) s).
    unfold hbind at 1; unfold hlift at 1. destruct (gww_count t1 rho) as [[[r1 n]|]|u]; cbn [bind]; [| |reflexivity].
    2: { apply Early; [reflexivity|exact Hw]. }
    set (t2 := set_n_used (set_range1 t1 r1) n).
    assert (W2 : arr t2 WKM = None) by exact Hw. rewrite W2.
    pose proof (widths_ok base rest (with_val o t2) h O Hb) as W. cbn [m_tau with_val] in W.
    unfold simw in W. cbn [m_tau with_val] in W.
    destruct (gww_widths L t2) as [w|u].
    2: { unfold hbind. rewrite W. reflexivity. }
    destruct W as (b & h1 & l & E1 & N1 & O1 & F1). step E1.
    pose proof (trim_ok base (l ++ rest) (with_val (with_blk (with_val o t2) (MArr WKM) b) (set_f t2 WKM (Some w))) rho w h1 O1 Hc) as T.
    cbn [m_tau with_val m_id with_blk m_blk] in T.
    unfold sim in *. cbn [m_id m_tau m_blk with_val with_blk] in *.
    destruct (gww_trim L (set_f t2 WKM (Some w)) rho w) as [t'|u] eqn:ET; [|exact T].
    destruct T as (o' & h' & l' & E & A & B & N & O' & F & Q).
    exists o', h', (l' ++ l). split; [exact E|]. split; [exact A|]. split; [exact B|].
    split.
    { apply trim_wkm in ET. unfold select_lost. rewrite ET.
      replace (arr (set_f t2 WKM (Some w)) WKM) with (Some w) by reflexivity.
      rewrite app_length, N, N1. reflexivity. }
    split; [apply (owns_perm _ _ _ _ O'); cn|]. split; [congruence|].
    intros m Hm. rewrite Q. apply put_other. exact Hm.
  Qed.
End Mem.
