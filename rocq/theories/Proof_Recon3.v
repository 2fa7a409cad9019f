(** * Proof_Recon3: the whole reconstruction (C12, C23, C24). *)
From Coq Require Import List ZArith Bool String Reals Lia Lra.
From Flocq Require Import Core IEEE754.BinarySingleNaN.
From Verif Require Import Base BaseFacts Dbl DblFacts Scalar Model_TauRec Model_Checks Model_Select
  Model_Strings Model_Transform Model_Interp Model_Recon Spec_Tau Spec_Ops Spec_Select Spec_Recon
  Proof_Checks Proof_Sticky Proof_Select Proof_SafeDbl Proof_Recon Proof_Recon2.
Import ListNotations.
Open Scope Z_scope.

Section Pipeline.
  Context {S : scalar} (L : tmpl S).
  Local Notation tau := (tau S).

  Lemma sticky_range (t : tau) m : err t = Some m -> check_data_range t = Ok t.
  Proof. intros H. unfold check_data_range. apply (guarded_err t m); auto. Qed.
  Lemma sticky_occ (t : tau) m : err t = Some m -> check_occ_type L t = Ok t.
  Proof. intros H. unfold check_occ_type. apply (guarded_err t m); auto. Qed.
  Lemma sticky_gww (t : tau) m : err t = Some m -> get_window_width L t = Ok t.
  Proof. intros H. unfold get_window_width. apply (guarded_err t m); auto. Qed.
  Lemma sticky_core (t : tau) m : err t = Some m -> check_core_data t = Ok t.
  Proof. intros H. unfold check_core_data. apply (guarded_err t m); auto. Qed.
  Lemma sticky_dc sch (t : tau) m : err t = Some m -> diffraction_correction L sch t = Ok t.
  Proof. intros H. unfold diffraction_correction. apply (guarded_err t m); auto. Qed.
  Lemma sticky_finish (t : tau) m : err t = Some m -> finish L t = Ok t.
  Proof. intros H. unfold finish. apply (guarded_err t m); auto. Qed.
  Lemma clean_or (t : tau) : clean t \/ failed t.
  Proof. unfold clean, failed. destruct (err t); eauto. Qed.
  Lemma clean_not_failed (t : tau) : clean t -> failed t -> False.
  Proof. unfold clean, failed. intros E (m & E'). congruence. Qed.

  (** What the orientation check may change. *)
  Definition only (fs : list rf) (t t' : tau) : Prop :=
    exists A d e, t' = set_err (set_dx (set_arr t A) d) e /\ (forall f, ~ In f fs -> A f = arr t f).
  Lemma only_refl fs t : only fs t t.
  Proof. exists (arr t), (dx t), (err t). split; [destruct t; reflexivity|auto]. Qed.
  Lemma only_set_f fs t f v : In f fs -> only fs t (set_f t f v).
  Proof.
    intros H. exists (arr (set_f t f v)), (dx t), (err t). split; [destruct t; reflexivity|].
    intros g Hg. apply set_f_neq. intros ->; contradiction.
  Qed.
  Lemma only_trans fs a b c : only fs a b -> only fs b c -> only fs a c.
  Proof.
    intros (A & d & e & -> & H) (A' & d' & e' & -> & H'). exists A', d', e'. split; [reflexivity|].
    intros f Hf. rewrite H' by auto. cbn. auto.
  Qed.
  Lemma only_err fs t m : only fs t (set_err t m).
  Proof. exists (arr t), (dx t), m. split; [destruct t; reflexivity|auto]. Qed.
  Lemma only_dx fs t d : only fs t (set_dx t d).
  Proof. exists (arr t), d, (err t). split; [destruct t; reflexivity|auto]. Qed.
  Lemma reverse_all_only fs gs : incl gs fs -> forall t t' : tau, reverse_all gs t = Ok t' -> only fs t t'.
  Proof.
    induction gs as [|g gs IH]; intros Hi t t' E; cbn [reverse_all] in E.
    - injection E as <-. apply only_refl.
    - apply bind_ok in E. destruct E as (t1 & E1 & E). unfold reverse_f in E1.
      do 2 (apply bind_ok in E1; destruct E1 as (? & _ & E1)). injection E1 as <-.
      eapply only_trans; [|apply IH; [intros f Hf; apply Hi; right; auto|exact E]].
      apply only_set_f. apply Hi. left; auto.
  Qed.
  Lemma abs_only (t t' : tau) : abs_rho_dot t = Ok t' -> only occ_reversed t t'.
  Proof.
    unfold abs_rho_dot. intros E. do 2 (apply bind_ok in E; destruct E as (? & _ & E)). injection E as <-.
    apply only_set_f. cbn; tauto.
  Qed.
  Lemma occ_type_only (t t' : tau) : check_occ_type L t = Ok t' -> only occ_reversed t t'.
  Proof.
    unfold check_occ_type, guarded. intros E. destruct (err t); [injection E as <-; apply only_refl|].
    destruct (arr t RHODOT); [|injection E as <-; apply only_err].
    destruct (arr_size t <=? 1); [injection E as <-; apply only_err|].
    destruct (seqb (dx t) s0); [injection E as <-; apply only_err|].
    apply bind_ok in E. destruct E as (v & _ & E). destruct (t_minmax L v) as [mn mx].
    match type of E with (if ?c then _ else _) = _ => destruct c end; [injection E as <-; apply only_err|].
    match type of E with (if ?c then _ else _) = _ => destruct c end; [injection E as <-; apply only_err|].
    match type of E with (if ?c then _ else _) = _ => destruct c end; [injection E as <-; apply only_err|].
    match type of E with (if ?c then _ else _) = _ => destruct c end; [apply abs_only; exact E|].
    match type of E with (if ?c then _ else _) = _ => destruct c end; [|injection E as <-; apply only_refl].
    apply bind_ok in E. destruct E as (t1 & E1 & E). apply bind_ok in E. destruct E as (t2 & E2 & E).
    injection E as <-.
    eapply only_trans; [eapply reverse_all_only; [apply incl_refl|exact E1]|].
    eapply only_trans; [eapply abs_only; exact E2|]. apply only_dx.
  Qed.

  (** What window selection changes. *)
  Lemma where_in {A} (p : A -> bool) l : forall k j, In j (where_from p l k) -> k <= j < k + zlen l.
  Proof.
    induction l as [|a l IH]; intros k j H; cbn [where_from] in H; [contradiction|].
    rewrite zlen_cons. assert (Hl := zlen_nonneg l). destruct (p a); [destruct H as [<-|H]|]; try (specialize (IH _ _ H)); lia.
  Qed.
  Lemma gww_selects (t t' : tau) : get_window_width L t = Ok t' -> clean t ->
    (failed t' /\ exists r0 r1 s n e w, t' = set_err (set_n_used (set_start (set_range1 (set_range0 (set_arr t w) r0) r1) s) n) e /\
       (forall f, f <> WKM -> w f = arr t f)) \/
    (clean t' /\ 0 <= n_used t' /\ exists r0 r1 s w, t' = set_n_used (set_start (set_range1 (set_range0 (set_f t WKM (Some w)) r0) r1) s) (n_used t')
      /\ arr t WKM = None).
  Proof.
    unfold get_window_width. intros E Hc. rewrite guarded_clean in E by exact Hc.
    apply bind_ok in E. destruct E as (rho & Er & E).
    apply bind_ok in E. destruct E as ([[r0 s]|] & Es & E).
    2:{ injection E as <-. left. split; [eexists; reflexivity|].
        exists (range0 t), (range1 t), (start t), (n_used t), (Some "window: range[0] too large"%string), (arr t).
        split; [destruct t; reflexivity|auto]. }
    apply bind_ok in E. destruct E as ([[r1 n]|] & En & E).
    2:{ injection E as <-. left. split; [eexists; reflexivity|].
        exists r0, (range1 t), s, (n_used t), (Some "window: range[1] too small"%string), (arr t).
        split; [destruct t; reflexivity|auto]. }
    cbv zeta in E. cbn [arr set_n_used set_range1 set_start set_range0] in E.
    destruct (arr t WKM) eqn:Ew.
    { injection E as <-. left. split; [eexists; reflexivity|].
      exists r0, r1, s, n, (Some "window: already processed"%string), (arr t).
      split; [destruct t; reflexivity|auto]. }
    apply bind_ok in E. destruct E as (w & _ & E). unfold gww_trim in E.
    apply bind_ok in E. destruct E as (u & _ & E).
    apply bind_ok in E. destruct E as (lft & Elft & E).
    apply bind_ok in E. destruct E as (x0 & _ & E).
    apply bind_ok in E. destruct E as (u6 & _ & E).
    cbn [start n_used arr_size set_n_used set_range1 set_start set_range0 set_f set_arr] in E.
    set (t2 := set_f (set_n_used (set_range1 (set_start (set_range0 t r0) s) r1) n) WKM (Some w)) in *.
    assert (AW : forall f, f <> WKM -> arr t2 f = arr t f).
    { intros f Hf. unfold t2. rewrite set_f_neq by congruence. reflexivity. }
    destruct (where_ _ lft) as [|i0 tl] eqn:Ewh.
    { injection E as <-. left. split; [eexists; reflexivity|].
      exists r0, r1, s, n, (Some "window: left"%string), (arr t2). split; [reflexivity|exact AW]. }
    cbv zeta in E.
    apply bind_ok in E. destruct E as (rgt & _ & E).
    apply bind_ok in E. destruct E as (xl & _ & E).
    apply bind_ok in E. destruct E as (u7 & _ & E).
    assert (Hn : 0 <= n - i0 \/ 0 <= n).
    { left. assert (In i0 (where_ (fun r => sgt r x0) lft)) by (rewrite Ewh; left; auto).
      apply where_in in H. unfold rho_legal in Elft. unfold tabulate in Elft. apply tab_from_ok in Elft.
      destruct Elft as [Ln _]. change (n_used t2) with n in Ln. unfold zlen in H. rewrite Ln in H. lia. }
    set (t3 := if 0 <? i0 then set_n_used (set_start t2 (s + i0)) (n - i0) else t2) in *.
    assert (H3 : exists s' n', t3 = set_n_used (set_start t2 s') n').
    { unfold t3. destruct (0 <? i0); eexists; eexists; reflexivity. }
    destruct H3 as (s' & n' & H3).
    destruct (where_ _ rgt) as [|i r] eqn:Ewr.
    { injection E as <-. left. split; [eexists; reflexivity|]. rewrite H3.
      exists r0, r1, s', n', (Some "window: right"%string), (arr t2). split; [reflexivity|exact AW]. }
    cbv zeta in E.
    set (t4 := if List.last (i :: r) 0 <? n_used t3 then set_n_used t3 (zlen (i :: r) - 1) else t3) in *.
    assert (H4 : exists n2, t4 = set_n_used (set_start t2 s') n2 /\ 0 <= n2).
    { unfold t4. destruct (Z.ltb_spec (List.last (i :: r) 0) (n_used t3)).
      - rewrite H3. eexists. split; [reflexivity|]. rewrite zlen_cons. assert (Q := zlen_nonneg r). lia.
      - exists n'. split; [exact H3|].
        assert (Hl : In (List.last (i :: r) 0) (where_ (fun r => slt r xl) rgt)).
        { rewrite Ewr. apply last_In. discriminate. }
        apply where_in in Hl. unfold t3 in H3. destruct (Z.ltb_spec 0 i0).
        + assert (n' = n - i0) by (apply (f_equal n_used) in H3; cbn in H3; congruence). subst n'.
          assert (In i0 (where_ (fun r => sgt r x0) lft)) by (rewrite Ewh; left; auto).
          apply where_in in H1. unfold rho_legal in Elft. unfold tabulate in Elft. apply tab_from_ok in Elft.
          destruct Elft as [Ln _]. change (n_used t2) with n in Ln. unfold zlen in H1. rewrite Ln in H1. lia.
        + assert (n' = n) by (apply (f_equal n_used) in H3; cbn in H3; congruence). subst n'.
          assert (In i0 (where_ (fun r => sgt r x0) lft)) by (rewrite Ewh; left; auto).
          apply where_in in H1. unfold rho_legal in Elft. unfold tabulate in Elft. apply tab_from_ok in Elft.
          destruct Elft as [Ln _]. change (n_used t2) with n in Ln. unfold zlen in H1. rewrite Ln in H1. lia. }
    destruct H4 as (n2 & H4 & Hn2).
    destruct (arr_size t4 <? start t4); [|destruct (arr_size t4 <? wrap64 (start t4 + n_used t4))].
    - injection E as <-. left. split; [eexists; reflexivity|]. rewrite H4.
      exists r0, r1, s', n2, (Some "window: start"%string), (arr t2). split; [reflexivity|exact AW].
    - injection E as <-. left. split; [eexists; reflexivity|]. rewrite H4.
      exists r0, r1, s', n2, (Some "window: end"%string), (arr t2). split; [reflexivity|exact AW].
    - injection E as <-. right. rewrite H4. split; [exact Hc|]. split; [exact Hn2|].
      exists r0, r1, s', w. split; [reflexivity|auto].
  Qed.

  (** The forward model: an early error return, or back to where it started. *)
  Lemma forward_restores sch (t : tau) r : forward_model L sch t = Ok r ->
    match r with
    | inr t' => failed t' /\ n_used t' = n_used t
    | inl t' => T_in t' = T_in t /\ T_out t' = T_out t /\ start t' = start t /\ n_used t' = n_used t /\
        use_fwd t' = use_fwd t /\ dx t' = dx t /\ arr_size t' = arr_size t /\ range0 t' = range0 t /\
        range1 t' = range1 t /\ window t' = window t /\ psinum t' = psinum t /\ order t' = order t /\
        use_norm t' = use_norm t /\
        (forall f, f <> KV -> arr t' f = arr t f) /\
        (psinum t <> PsiLegendre -> arr t' KV = arr t KV)
    end.
  Proof.
    unfold forward_model. cbv zeta. intros E.
    apply bind_ok in E. destruct E as (wl & _ & E).
    apply bind_ok in E. destruct E as (wr & _ & E).
    apply bind_ok in E. destruct E as (nw & _ & E).
    match type of E with (if ?c then _ else _) = _ => destruct c end.
    - cbn [bind fail] in E. injection E as <-. split; [eexists; reflexivity|reflexivity].
    - apply bind_ok in E. destruct E as (t4 & E4 & E). injection E as <-.
      apply dc_frames in E4. destruct E4 as [(T & e & ->)|(Hu & Hp & t3 & (k & ->) & (T & e & ->))].
      + cbn. repeat (split; [reflexivity|]). split; auto.
      + cbn. repeat (split; [reflexivity|]). split; [|intros H; exfalso; apply H; exact Hp].
        intros f Hf. destruct f; try reflexivity. contradiction.
  Qed.

  (** C24 *)
  Lemma reconstruction_aligned sch (t t' : tau) :
    reconstruction L sch t = Ok t' -> failed t' \/ (clean t' /\ aligned t').
  Proof.
    unfold reconstruction. intros E.
    apply bind_ok in E. destruct E as (t1 & E1 & E).
    apply bind_ok in E. destruct E as (t2 & E2 & E).
    apply bind_ok in E. destruct E as (t3 & E3 & E).
    apply bind_ok in E. destruct E as (t4 & E4 & E).
    unfold guarded in E at 1. destruct (err t4) eqn:C4; [injection E as <-; left; exists s; exact C4|].
    assert (t4 = t3) by (destruct (checks_range _ _ E4) as [->|[m ->]]; auto; discriminate C4). subst t4.
    assert (Hn : 0 <= n_used t3).
    { destruct (clean_or t2) as [C2|[m C2]].
      - apply gww_selects in E3; auto. destruct E3 as [(F & _)|(_ & H & _)]; auto.
        destruct F as [m F]. congruence.
      - rewrite (sticky_gww t2 m C2) in E3. injection E3 as <-. congruence. }
    cbv zeta in E. apply bind_ok in E. destruct E as (t6 & E6 & E).
    unfold guarded in E. destruct (err t6) eqn:C6; [injection E as <-; left; exists s; exact C6|].
    assert (N6 : n_used t6 = n_used t3) by (destruct (checks_core _ _ E6) as [->|[m ->]]; reflexivity).
    apply bind_ok in E. destruct E as (t7 & E7 & E).
    apply dc_frames_inv in E7; [|reflexivity]. destruct E7 as (T & e & ->).
    cbn [use_fwd set_use_fwd set_err set_T_out] in E.
    assert (FIN : forall u u', n_used u = n_used t3 -> finish L u = Ok u' -> failed u' \/ (clean u' /\ aligned u')).
    { intros u u' Hu Eu. destruct (clean_or u) as [Cu|[m Cu]].
      - right. destruct (finish_pieces L u u' Cu) as (H1 & H2 & _); [lia|exact Eu|]. auto.
      - rewrite (sticky_finish u m Cu) in Eu. injection Eu as <-. left. exists m. exact Cu. }
    destruct (use_fwd t6) eqn:U6.
    - apply bind_ok in E. destruct E as (r & Er & E). apply forward_restores in Er.
      destruct r as [t9|t9].
      + eapply FIN; [|exact E]. destruct Er as (_ & _ & _ & H & _). rewrite H. exact N6.
      + injection E as <-. left. tauto.
    - eapply FIN; [|exact E]. exact N6.
  Qed.

  (** The stages of a successful reconstruction. *)
  Lemma reconstruction_stages sch (t t' : tau) :
    reconstruction L sch t = Ok t' -> clean t' ->
    exists t2 t3 t9, clean t /\ check_keywords t = Ok t /\ check_occ_type L t = Ok t2 /\ clean t2 /\
      get_window_width L t2 = Ok t3 /\ clean t3 /\ 0 <= n_used t3 /\
      clean t9 /\ finish L t9 = Ok t' /\
      (forall f, f <> KV -> arr t9 f = arr t3 f) /\ dx t9 = dx t3 /\ start t9 = start t3 /\
      n_used t9 = n_used t3 /\ T_in t9 = T_in t3 /\ use_fwd t9 = use_fwd t3 /\ arr_size t9 = arr_size t3.
  Proof.
    unfold reconstruction. intros E Hc.
    apply bind_ok in E. destruct E as (t1 & E1 & E).
    apply bind_ok in E. destruct E as (t2 & E2 & E).
    apply bind_ok in E. destruct E as (t3 & E3 & E).
    apply bind_ok in E. destruct E as (t4 & E4 & E).
    unfold guarded in E at 1. destruct (err t4) eqn:C4; [injection E as <-; unfold clean in Hc; congruence|].
    assert (t4 = t3) by (destruct (checks_range _ _ E4) as [->|[m ->]]; auto; discriminate C4). subst t4.
    assert (C2 : clean t2).
    { destruct (clean_or t2) as [C2|[m C2]]; auto.
      rewrite (sticky_gww t2 m C2) in E3. injection E3 as <-. congruence. }
    assert (C1 : clean t1).
    { destruct (clean_or t1) as [C1|[m C1]]; auto.
      rewrite (sticky_occ t1 m C1) in E2. injection E2 as <-. unfold clean in C2. congruence. }
    assert (t1 = t) by (destruct (checks_keywords _ _ E1) as [->|[m ->]]; auto; discriminate C1). subst t1.
    assert (Hn : 0 <= n_used t3).
    { apply gww_selects in E3; auto. destruct E3 as [(F & _)|(_ & H & _)]; auto.
      destruct F as [m F]. congruence. }
    cbv zeta in E. apply bind_ok in E. destruct E as (t6 & E6 & E).
    unfold guarded in E. destruct (err t6) eqn:C6; [injection E as <-; unfold clean in Hc; congruence|].
    set (u := set_T_out t3 (if t_alloc L 30 then Some (fresh (arr_size t3)) else None)) in *.
    assert (t6 = u) by (destruct (checks_core _ _ E6) as [->|[m ->]]; auto; discriminate C6). subst t6.
    apply bind_ok in E. destruct E as (t7 & E7 & E).
    apply dc_frames_inv in E7; [|reflexivity]. destruct E7 as (T & e & ->).
    set (t8 := set_use_fwd (set_err (set_T_out (set_use_fwd u false) T) e) (use_fwd u)) in *.
    assert (G : exists t9, finish L t9 = Ok t' /\ (forall f, f <> KV -> arr t9 f = arr t8 f) /\ dx t9 = dx t8 /\
        start t9 = start t8 /\ n_used t9 = n_used t8 /\ T_in t9 = T_in t8 /\ use_fwd t9 = use_fwd t8 /\ arr_size t9 = arr_size t8).
    { destruct (use_fwd t8) eqn:U8.
      - apply bind_ok in E. destruct E as (r & Er & E). apply forward_restores in Er. destruct r as [t9|t9].
        + exists t9. intuition congruence.
        + injection E as <-. destruct Er as [[m Er] _]. unfold clean in Hc. congruence.
      - exists t8. intuition congruence. }
    destruct G as (t9 & E9 & H1 & H2 & H3 & H4 & H5 & H6 & H7).
    assert (C9 : clean t9).
    { destruct (clean_or t9) as [C9|[m C9]]; auto.
      rewrite (sticky_finish t9 m C9) in E9. injection E9 as <-. unfold clean in Hc. congruence. }
    exists t2, t3, t9. repeat (split; [assumption|]). auto 10.
  Qed.

  (** C12: an object that already has window widths is refused. *)
  Lemma refused sch (t t' : tau) w : clean t -> arr t WKM = Some w ->
    reconstruction L sch t = Ok t' ->
    failed t' /\ T_in t' = T_in t /\ T_out t' = T_out t /\ T_fwd t' = T_fwd t /\ arr_size t' = arr_size t /\
    (forall f, ~ In f occ_reversed -> arr t' f = arr t f) /\
    (check_occ_type L t = Ok t \/ (exists m, check_occ_type L t = Ok (set_err t (Some m))) -> arr t' = arr t).
  Proof.
    intros Hc Hw. unfold reconstruction. intros E.
    apply bind_ok in E. destruct E as (t1 & E1 & E).
    apply bind_ok in E. destruct E as (t2 & E2 & E).
    apply bind_ok in E. destruct E as (t3 & E3 & E).
    apply bind_ok in E. destruct E as (t4 & E4 & E).
    assert (O := occ_type_only _ _ E2). destruct O as (A & d & e & O & HA).
    assert (F3 : failed t3 /\ arr t3 = arr t2 /\ T_in t3 = T_in t2 /\ T_out t3 = T_out t2 /\
      T_fwd t3 = T_fwd t2 /\ arr_size t3 = arr_size t2).
    { destruct (clean_or t2) as [C2|[m C2]].
      2:{ rewrite (sticky_gww t2 m C2) in E3. injection E3 as <-. split; [exists m; exact C2|]. auto. }
      assert (W2 : exists w2, arr t2 WKM = Some w2).
      { exists w. rewrite O. cbn [arr set_err set_dx set_arr]. rewrite HA by (cbn; intuition congruence).
        destruct (checks_keywords _ _ E1) as [->|[m ->]]; exact Hw. }
      destruct W2 as (w2 & W2). unfold get_window_width in E3. rewrite guarded_clean in E3 by exact C2.
      apply bind_ok in E3. destruct E3 as (rho & _ & E3).
      apply bind_ok in E3. destruct E3 as ([[r0 s]|] & _ & E3).
      2:{ injection E3 as <-. split; [eexists; reflexivity|]. auto. }
      apply bind_ok in E3. destruct E3 as ([[r1 n]|] & _ & E3).
      2:{ injection E3 as <-. split; [eexists; reflexivity|]. auto. }
      cbv zeta in E3. cbn [arr set_n_used set_range1 set_start set_range0] in E3. rewrite W2 in E3.
      injection E3 as <-. split; [eexists; reflexivity|]. auto. }
    destruct F3 as ((m3 & C3) & A3 & I3 & O3 & W3 & S3).
    rewrite (sticky_range t3 m3 C3) in E4. injection E4 as <-. unfold guarded in E. rewrite C3 in E.
    injection E as <-. split; [exists m3; exact C3|].
    assert (K1 : arr t1 = arr t /\ T_in t1 = T_in t /\ T_out t1 = T_out t /\ T_fwd t1 = T_fwd t /\ arr_size t1 = arr_size t).
    { destruct (checks_keywords _ _ E1) as [->|[m ->]]; auto. }
    destruct K1 as (K1 & K2 & K3 & K4 & K5). rewrite I3, O3, W3, S3, A3, O.
    cbn [T_in T_out T_fwd arr_size arr set_err set_dx set_arr]. repeat (split; [assumption|]).
    split; [intros f Hf; rewrite HA by auto; congruence|].
    intros Ho. destruct (checks_keywords _ _ E1) as [->|[m ->]].
    - assert (A = arr t2) by (rewrite O; reflexivity). subst A.
      destruct Ho as [Ho|[m Ho]]; rewrite Ho in E2; injection E2 as <-; reflexivity.
    - rewrite (sticky_occ (set_err t (Some m)) m eq_refl) in E2. injection E2 as <-.
      apply (f_equal arr) in O. cbn in O. symmetry; exact O.
  Qed.
End Pipeline.
