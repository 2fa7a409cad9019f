(** * Proof_Py2: the pieces of C57. *)
From Coq Require Import List ZArith Bool String Reals Lia.
From Verif Require Import Base BaseFacts Dbl DblFacts Scalar Model_TauRec Model_Checks Model_Select Model_Strings
  Model_Transform Model_Interp Model_Recon Model_Heap Model_Create Model_Py
  Spec_Tau Spec_Select Spec_Strings Spec_Recon Spec_Csv Spec_Create Spec_Py Proof_Checks Proof_Strings Proof_Select Proof_Recon Proof_Recon2
  Proof_Recon3 Proof_Create3 Proof_Create4 Proof_Py.
Import ListNotations.
Open Scope Z_scope.

(** ** Lengths through the orientation check *)
Definition keeps (t t' : dtau) : Prop :=
  forall f l, arr t f = Some l -> exists l', arr t' f = Some l' /\ zlen l' = zlen l.
Lemma keeps_refl t : keeps t t.
Proof. intros f l E. eauto. Qed.
Lemma keeps_trans a b c : keeps a b -> keeps b c -> keeps a c.
Proof. intros H1 H2 f l E. destruct (H1 f l E) as (l1 & E1 & Z1). destruct (H2 f l1 E1) as (l2 & E2 & Z2). exists l2. split; [exact E2|congruence]. Qed.
Lemma keeps_set (t : dtau) f l l' : arr t f = Some l -> zlen l' = zlen l -> keeps t (set_f t f (Some l')).
Proof.
  intros E Z g m Em. destruct (rf_eqb f g) eqn:Q.
  - apply rf_eqb_eq in Q. subst g. exists l'. split; [apply set_f_eq|congruence].
  - exists m. split; [|reflexivity]. rewrite set_f_neq; [exact Em|]. intros ->. rewrite (proj2 (rf_eqb_eq g g) eq_refl) in Q. discriminate.
Qed.
Lemma prefix_zlen {A} (l p q : list A) n : aprefix l n = Ok p -> zlen q = zlen p ->
  zlen (q ++ skipn (Z.to_nat n) l)%list = zlen l.
Proof.
  unfold aprefix. intros E Hq. destruct (_ && _)%bool in E; [|discriminate]. injection E as <-.
  unfold zlen in *. rewrite app_length, Nat2Z.inj_add, Hq, <- Nat2Z.inj_add, <- app_length, firstn_skipn. reflexivity.
Qed.
Lemma reverse_keeps f (t t' : dtau) : reverse_f f t = Ok t' -> keeps t t'.
Proof.
  unfold reverse_f. intros E. apply bind_ok in E. destruct E as (l & El & E). apply bind_ok in E. destruct E as (p & Ep & E).
  injection E as <-. destruct (arr t f) as [l0|] eqn:Q; [|discriminate El]. injection El as ->.
  eapply keeps_set; [exact Q|]. eapply prefix_zlen; [exact Ep|]. unfold zlen. rewrite rev_length. reflexivity.
Qed.
Lemma reverse_all_keeps fs : forall t t' : dtau, reverse_all fs t = Ok t' -> keeps t t'.
Proof.
  induction fs as [|f fs IH]; intros t t' E; cbn [reverse_all] in E; [injection E as <-; apply keeps_refl|].
  apply bind_ok in E. destruct E as (t1 & E1 & E). eapply keeps_trans; [eapply reverse_keeps; exact E1|eauto].
Qed.
Lemma abs_keeps (t t' : dtau) : abs_rho_dot t = Ok t' -> keeps t t'.
Proof.
  unfold abs_rho_dot. intros E. apply bind_ok in E. destruct E as (l & El & E). apply bind_ok in E. destruct E as (p & Ep & E).
  injection E as <-. destruct (arr t RHODOT) as [l0|] eqn:Q; [|discriminate El]. injection El as ->.
  eapply keeps_set; [exact Q|]. eapply prefix_zlen; [exact Ep|]. unfold zlen. rewrite map_length. reflexivity.
Qed.
Lemma occ_keeps (L : dlib) (t t' : dtau) : check_occ_type L t = Ok t' -> keeps t t'.
Proof.
  unfold check_occ_type, guarded. destruct (err t); [intros E; injection E as <-; apply keeps_refl|].
  destruct (arr t RHODOT) as [rd|]; [|intros E; injection E as <-; apply (keeps_refl t)].
  destruct (arr_size t <=? 1); [intros E; injection E as <-; apply (keeps_refl t)|].
  destruct (seqb (dx t) s0); [intros E; injection E as <-; apply (keeps_refl t)|].
  intros E. apply bind_ok in E. destruct E as (l & _ & E). destruct (t_minmax L l) as [mn mx].
  destruct (_ && _)%bool; [injection E as <-; apply (keeps_refl t)|].
  destruct (_ || _)%bool; [injection E as <-; apply (keeps_refl t)|].
  destruct (_ && _)%bool; [injection E as <-; apply (keeps_refl t)|].
  destruct (_ && _)%bool; [apply (abs_keeps _ _ E)|].
  destruct (slt (dx t) s0); [|injection E as <-; apply (keeps_refl t)].
  apply bind_ok in E. destruct E as (t1 & E1 & E). apply bind_ok in E. destruct E as (t2 & E2 & E). injection E as <-.
  eapply keeps_trans; [eapply reverse_all_keeps; exact E1|]. apply (abs_keeps _ _ E2).
Qed.

(** ** What the reconstruction leaves alone *)
Lemma finish_fwd (L : dlib) (t t' : dtau) : use_fwd t = false -> finish L t = Ok t' -> T_fwd t' = T_fwd t.
Proof.
  intros U. unfold finish, guarded. destruct (err t); [intros E; injection E as <-; reflexivity|]. intros E.
  apply bind_ok in E. destruct E as (a & Ea & E).
  apply bind_ok in E. destruct E as (b & Eb & E).
  apply bind_ok in E. destruct E as (t3 & E3 & E).
  assert (K : forall (fs : list rf) (u u' : dtau), resize_all L fs u = Ok u' -> T_fwd u' = T_fwd u /\ use_fwd u' = use_fwd u).
  { induction fs as [|f fs IH]; intros u u' Eu; cbn [resize_all] in Eu; [injection Eu as <-; auto|].
    apply bind_ok in Eu. destruct Eu as (x & Ex & Eu). apply IH in Eu. unfold resize_f in Ex. apply bind_ok in Ex.
    destruct Ex as (v & _ & Ex). injection Ex as <-. exact Eu. }
  apply K in E3. destruct E3 as [E3 E4]. cbn [T_fwd use_fwd set_T_in set_T_out] in E3, E4.
  cbn [use_fwd set_arr_size] in E. rewrite E4, U in E. injection E as <-. exact E3.
Qed.
Lemma recon_fwd (L : dlib) sch (t t' : dtau) : use_fwd t = false -> reconstruction L sch t = Ok t' -> T_fwd t' = T_fwd t.
Proof.
  intros U. unfold reconstruction. intros E.
  apply bind_ok in E. destruct E as (t1 & E1 & E).
  apply bind_ok in E. destruct E as (t2 & E2 & E).
  apply bind_ok in E. destruct E as (t3 & E3 & E).
  apply bind_ok in E. destruct E as (t4 & E4 & E).
  assert (A1 : T_fwd t1 = T_fwd t /\ use_fwd t1 = false) by (destruct (checks_keywords _ _ E1) as [->|[m ->]]; auto).
  assert (A2 : T_fwd t2 = T_fwd t /\ use_fwd t2 = false) by (destruct (occ_type_only _ _ _ E2) as (A & d & e & -> & _); exact A1).
  assert (A3 : T_fwd t3 = T_fwd t /\ use_fwd t3 = false).
  { destruct (clean_or t2) as [C2|[m C2]].
    - apply gww_selects in E3; auto. destruct E3 as [(_ & r0 & r1 & s & n & e & w & -> & _)|(_ & _ & r0 & r1 & s & w & -> & _)]; exact A2.
    - rewrite (sticky_gww L t2 m C2) in E3. injection E3 as <-. exact A2. }
  assert (A4 : T_fwd t4 = T_fwd t /\ use_fwd t4 = false) by (destruct (checks_range _ _ E4) as [->|[m ->]]; exact A3).
  unfold guarded in E at 1. destruct (err t4) eqn:C4; [injection E as <-; tauto|].
  cbv zeta in E. apply bind_ok in E. destruct E as (t6 & E6 & E).
  assert (A6 : T_fwd t6 = T_fwd t /\ use_fwd t6 = false) by (destruct (checks_core _ _ E6) as [->|[m ->]]; exact A4).
  unfold guarded in E. destruct (err t6) eqn:C6; [injection E as <-; tauto|].
  apply bind_ok in E. destruct E as (t7 & E7 & E).
  apply dc_frames_inv in E7; [|reflexivity]. destruct E7 as (T & e & ->).
  cbn [use_fwd set_use_fwd set_err set_T_out] in E. destruct A6 as [A6 B6]. rewrite B6 in E.
  apply finish_fwd in E; [exact (eq_trans E A6)|reflexivity].
Qed.

(** ** The finished object as numpy arrays *)
Lemma numpy_some {A} (l : list A) n : n <= zlen l -> numpy (Some l) n = Ok (Some (firstn (Z.to_nat n) l)).
Proof. intros H. unfold numpy. rewrite (proj2 (Z.leb_le _ _) H). reflexivity. Qed.
Lemma numpy_all {A} (l : list A) n : zlen l = n -> numpy (Some l) n = Ok (Some l).
Proof. intros H. rewrite numpy_some by lia. rewrite (proj1 (firstn_zlen l n (eq_sym H))). reflexivity. Qed.
Lemma expose_ok (t : dtau) (v : rf -> option (list double)) : forall fs a,
  (forall f, In f fs -> numpy (arr t f) (arr_size t) = Ok (v f)) ->
  exists a', expose fs t a = Ok a' /\ (forall f, In f fs -> a' f = v f) /\ (forall f, ~ In f fs -> a' f = a f).
Proof.
  induction fs as [|f fs IH]; intros a H; cbn [expose]; [exists a; split; [reflexivity|]; split; [intros f []|auto]|].
  rewrite (H f ltac:(left; reflexivity)). cbn [bind].
  destruct (IH (fun g => if rf_eqb g f then v f else a g)) as (a' & E & A & B); [intros g Hg; apply H; right; exact Hg|].
  assert (Q : forall g, {g = f} + {g <> f}) by (intros g; decide equality).
  exists a'. split; [exact E|]. split.
  - intros g Hg. destruct (in_dec (fun x y : rf => ltac:(decide equality)) g fs) as [I|I]; [apply A; exact I|].
    rewrite B by exact I. destruct Hg as [->|Hg]; [|contradiction]. rewrite (proj2 (rf_eqb_eq g g) eq_refl). reflexivity.
  - intros g Hg. rewrite B by (intros I; apply Hg; right; exact I). destruct (rf_eqb g f) eqn:Z; [|reflexivity].
    apply rf_eqb_eq in Z. subst. exfalso. apply Hg. left; reflexivity.
Qed.
Lemma piece_size {A} (l l' : list A) s n : 0 <= n -> piece l s n l' -> n <= zlen l.
Proof.
  intros Hn [Z P]. destruct (Z.eq_dec n 0) as [->|Hn0]; [apply zlen_nonneg|].
  assert (exists a, entry l' 0 a) as [a Ha] by (apply entry_ex; lia).
  assert (exists b, entry l' (n - 1) b) as [b Hb] by (apply entry_ex; lia).
  apply (P 0 a ltac:(lia)) in Ha. apply (P (n - 1) b ltac:(lia)) in Hb.
  apply entry_range in Ha. apply entry_range in Hb. lia.
Qed.
Section Finished.
  Variables (L : dlib) (C : createlib dbl_scalar).
  Lemma made_finished sch d res (t t' : dtau) : made_from C d res t ->
    reconstruction L sch t = Ok t' -> clean t' ->
    aligned t' /\ arr_size t' <= d_n d /\ arr t' TTHR = None /\
    (forall f, In f [RX; RY; RZ] -> exists l, arr t' f = Some l /\ zlen l = d_n d) /\
    (use_fwd t = false -> T_fwd t' = None) /\ use_fwd t' = use_fwd t.
  Proof.
    intros M E Hc. destruct (reconstruction_stages L sch t t' E Hc) as
      (t2 & t3 & t9 & C0 & _ & E2 & C2 & E3 & C3 & Hn & C9 & E9 & A9 & _ & S9 & N9 & _ & F9 & Z9).
    assert (Al : aligned t') by (destruct (reconstruction_aligned L sch t t' E) as [[m F]|[_ Al]]; [unfold clean in Hc; congruence|exact Al]).
    assert (K := occ_keeps L t t2 E2). destruct (occ_type_only L t t2 E2) as (A2 & dx2 & e2 & T2 & H2).
    apply gww_selects in E3; [|exact C2]. destruct E3 as [([m F] & _)|(_ & _ & r0 & r1 & s & w & T3 & _)]; [unfold clean in C3; congruence|].
    assert (A3 : forall f, f <> WKM -> arr t3 f = arr t2 f).
    { intros f Hf. rewrite T3. cbn [arr set_n_used set_start set_range1 set_range0]. apply set_f_neq. congruence. }
    assert (N9' : 0 <= n_used t9) by lia.
    destruct (finish_pieces L t9 t' C9 N9' E9) as (_ & _ & N' & _ & U' & _ & P' & _ & _ & _ & B').
    assert (Sz : arr_size t' = n_used t9) by (destruct Al as [Al _]; lia).
    assert (Big : n_used t9 <= d_n d).
    { destruct (mf_copies _ _ _ _ M PHI dPHI) as [(l & El & Zl) _]; [cbn; tauto|].
      destruct (K PHI l El) as (l2 & E2' & Z2). rewrite <- (A3 PHI) in E2' by discriminate. rewrite <- (A9 PHI) in E2' by discriminate.
      destruct (P' PHI l2 ltac:(cbn; tauto) E2') as (l' & _ & Pc). apply piece_size in Pc; [|exact N9']. lia. }
    split; [exact Al|]. split; [lia|]. split; [|split; [|split]].
    - rewrite B' by (cbn; intuition discriminate). rewrite A9, A3 by discriminate. rewrite T2. cbn [arr set_err set_dx set_arr].
      rewrite H2 by (cbn; intuition discriminate). apply (mf_fresh _ _ _ _ M).
    - intros f Hf. assert (Q : exists g, In (f, g) same_arrays /\ ~ In f aligned_fields /\ f <> WKM /\ f <> KV).
      { destruct Hf as [<-|[<-|[<-|[]]]]; [exists dRX|exists dRY|exists dRZ]; (split; [cbn; tauto|split; [cbn; intuition discriminate|split; discriminate]]). }
      destruct Q as (g & Q1 & Q2 & Q3 & Q4). destruct (mf_copies _ _ _ _ M f g Q1) as [(l & El & Zl) _].
      destruct (K f l El) as (l2 & E2' & Z2). exists l2. split; [|lia]. rewrite B', A9, A3 by assumption. exact E2'.
    - intros U. rewrite (recon_fwd L sch t t' U E). apply (mf_fresh _ _ _ _ M).
    - rewrite U', F9, T3, T2. reflexivity.
  Qed.
End Finished.
