(** * Proof_Blind: the checks, the orientation and the window selection neither
    read nor write the profiles. *)
From Coq Require Import List ZArith Bool Reals String Lia Lra.
From Verif Require Import Base BaseFacts Scalar Model_TauRec Model_Checks Model_Select Model_Transform
  Model_Interp Model_Recon Proof_Recon4.
Import ListNotations.
Open Scope Z_scope.
Section Blind.
  Context {S : scalar} (L : tmpl S).
  Local Notation tau := (tau S).
  (** A stage that neither reads nor writes the three profiles. *)
  Definition profs : Type := (option (list (option (cplx S))) * option (list (option (cplx S))) * option (list (option (cplx S))))%type.
  Definition putt (t : tau) (b : profs) : tau := set_T_fwd (set_T_out (set_T_in t (fst (fst b))) (snd (fst b))) (snd b).
  Definition pblind (f : tau -> res tau) : Prop :=
    forall b t, f (putt t b) = rmap (fun u => putt u b) (f t).
  Lemma pblind_guarded k : pblind k -> pblind (fun t => guarded t (k t)).
  Proof. intros H b t. unfold guarded. cbn [err putt set_T_fwd set_T_out set_T_in]. destruct (err t); [reflexivity|apply H]. Qed.
  Lemma pblind_seq f g : pblind f -> pblind g -> pblind (fun t => do t1 <- f t; g t1).
  Proof.
    intros Hf Hg b t. rewrite Hf. unfold rmap. destruct (f t) as [t1|]; cbn [bind]; [|reflexivity]. apply Hg.
  Qed.
  Ltac blnd := repeat match goal with
    | |- (if ?c then _ else _) = _ => destruct c
    | |- match ?c with _ => _ end = _ => destruct c
    | |- bind ?c _ = _ => destruct c; cbn [bind]
    | |- _ = _ => reflexivity
    end.
  Lemma pblind_keywords : pblind check_keywords.
  Proof.
    unfold check_keywords. apply pblind_guarded.
    repeat (apply (pblind_seq _ (fun t1 => _))); apply pblind_guarded; intros b t; unfold rmap;
      cbn [sigma reso ecc peri range0 range1 putt set_T_fwd set_T_out set_T_in]; blnd.
  Qed.
  Lemma pblind_range : pblind check_data_range.
  Proof.
    unfold check_data_range. apply pblind_guarded. intros b t. unfold rmap.
    cbn [T_in T_out arr dx arr_size n_used start putt set_T_fwd set_T_out set_T_in]. cbv zeta.
    destruct (arr t WKM); [|reflexivity]. destruct (sle _ _); [reflexivity|].
    destruct (data_range_loop _ _ _ _ _) as [[m|]|]; reflexivity.
  Qed.
  Lemma pblind_reverse f : pblind (reverse_f f).
  Proof.
    intros b t. unfold reverse_f, rmap. cbn [arr arr_size putt set_T_fwd set_T_out set_T_in].
    destruct (deref (arr t f)) as [l|]; [|reflexivity]. cbn [bind]. destruct (aprefix l (arr_size t)); reflexivity.
  Qed.
  Lemma pblind_reverse_all fs : pblind (reverse_all fs).
  Proof. induction fs; intros b t; [reflexivity|]. cbn [reverse_all]. apply (pblind_seq _ _ (pblind_reverse a) IHfs). Qed.
  Lemma pblind_abs : pblind abs_rho_dot.
  Proof.
    intros b t. unfold abs_rho_dot, rmap. cbn [arr arr_size putt set_T_fwd set_T_out set_T_in].
    destruct (deref (arr t RHODOT)) as [l|]; [|reflexivity]. cbn [bind]. destruct (aprefix l (arr_size t)); reflexivity.
  Qed.
  Lemma pblind_occ : pblind (check_occ_type L).
  Proof.
    unfold check_occ_type. apply pblind_guarded. intros b t. cbn [arr arr_size dx putt set_T_fwd set_T_out set_T_in].
    destruct (arr t RHODOT); [|reflexivity]. destruct (_ <=? 1); [reflexivity|]. destruct (seqb _ _); [reflexivity|].
    destruct (aprefix _ _) as [v|]; [|reflexivity]. cbn [bind]. destruct (t_minmax L v) as [mn mx].
    do 3 (match goal with |- (if ?c then _ else _) = _ => destruct c end; [reflexivity|]).
    match goal with |- (if ?c then _ else _) = _ => destruct c end; [apply pblind_abs|].
    match goal with |- (if ?c then _ else _) = _ => destruct c end; [|reflexivity].
    assert (B : pblind (fun t => do t1 <- reverse_all occ_reversed t; do t2 <- abs_rho_dot t1; Ok (set_dx t2 (sabs (dx t2))))).
    { apply (pblind_seq _ (fun t1 => do t2 <- abs_rho_dot t1; Ok (set_dx t2 (sabs (dx t2))))); [apply pblind_reverse_all|].
      apply (pblind_seq _ (fun t2 => Ok (set_dx t2 (sabs (dx t2))))); [apply pblind_abs|]. intros b' t'. reflexivity. }
    apply (B b t).
  Qed.
  Lemma pblind_trim rho w : pblind (fun t => gww_trim L t rho w).
  Proof.
    intros b t. unfold gww_trim. 
    change (rho_legal ssub (putt t b) rho w) with (rho_legal ssub t rho w).
    cbn [arr arr_size start n_used putt set_T_fwd set_T_out set_T_in].
    destruct (need _ _); [|reflexivity]. cbn [bind].
    destruct (rho_legal ssub t rho w) as [lft|]; [|reflexivity]. cbn [bind].
    destruct (aread rho 0); [|reflexivity]. cbn [bind]. destruct (need _ _); [|reflexivity]. cbn [bind].
    destruct (where_ _ lft) as [|i0 tl]; [reflexivity|]. cbv zeta.
    set (t1 := if 0 <? i0 then set_n_used (set_start t (start t + i0)) (n_used t - i0) else t).
    replace (if 0 <? i0 then set_n_used (set_start (putt t b) (start t + i0)) (n_used t - i0) else putt t b)
      with (putt t1 b) by (unfold t1; destruct (0 <? i0); reflexivity).
    change (rho_legal sadd (putt t1 b) rho w) with (rho_legal sadd t1 rho w).
    destruct (rho_legal sadd t1 rho w) as [rgt|]; [|reflexivity]. cbn [bind].
    destruct (aread rho _); [|reflexivity]. cbn [bind]. destruct (need _ _); [|reflexivity]. cbn [bind].
    destruct (where_ _ rgt) as [|i r]; [reflexivity|]. cbn [n_used putt set_T_fwd set_T_out set_T_in].
    destruct (List.last (i :: r) 0 <? n_used t1); cbn [start n_used arr_size putt set_T_fwd set_T_out set_T_in set_n_used]; unfold rmap; blnd.
  Qed.
  Lemma pblind_fill b (t : tau) al Ps idx : forall n w,
    fill_w_bfac L (putt t b) al Ps idx n w = fill_w_bfac L t al Ps idx n w.
  Proof.
    induction idx as [|i idx IH]; intros n w; cbn [fill_w_bfac]; [reflexivity|].
    apply bind_ext; intros p _. apply bind_ext; intros a _. apply bind_ext; intros w1 _. apply IH.
  Qed.
  Lemma pblind_widths b (t : tau) : gww_widths L (putt t b) = gww_widths L t.
  Proof.
    unfold gww_widths. cbn [bfac arr_size n_used arr normeq reso start putt set_T_fwd set_T_out set_T_in].
    apply bind_ext; intros u _. cbv zeta. destruct (bfac t); [|reflexivity].
    do 4 (apply bind_ext; intros ? _).
    change (alpha_P (putt t b)) with (alpha_P t).
    apply bind_ext; intros ap _. apply bind_ext; intros u4 _. apply pblind_fill.
  Qed.
  Lemma pblind_gww : pblind (get_window_width L).
  Proof.
    unfold get_window_width. apply pblind_guarded. intros b t. unfold rmap.
    cbn [arr putt set_T_fwd set_T_out set_T_in]. destruct (deref (arr t RHO)) as [rho|]; [|reflexivity]. cbn [bind].
    change (gww_start (putt t b) rho) with (gww_start t rho).
    destruct (gww_start t rho) as [[[r0 s]|]|]; [|reflexivity|reflexivity]. cbn [bind]. cbv zeta.
    change (gww_count (set_start (set_range0 (putt t b) r0) s) rho) with (gww_count (set_start (set_range0 t r0) s) rho).
    destruct (gww_count _ rho) as [[[r1 n]|]|]; [|reflexivity|reflexivity]. cbn [bind].
    cbn [arr set_n_used set_range1 set_start set_range0 putt set_T_fwd set_T_out set_T_in]. destruct (arr t WKM); [reflexivity|].
    set (t2 := set_n_used (set_range1 (set_start (set_range0 t r0) s) r1) n).
    change (set_n_used (set_range1 (set_start (set_range0 (putt t b) r0) s) r1) n) with (putt t2 b).
    rewrite pblind_widths.
    destruct (gww_widths L t2) as [w|]; [|reflexivity]. cbn [bind].
    exact (pblind_trim rho w b (set_f t2 WKM (Some w))).
  Qed.

End Blind.
