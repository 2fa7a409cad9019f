(** * Proof_Linear2: linearity of the drivers and of the reconstruction (C25). *)
From Coq Require Import List ZArith Bool Reals String Lia Lra.
From Verif Require Import Base BaseFacts Scalar Model_TauRec Model_Checks Model_Select Model_Transform
  Model_Interp Model_Recon Spec_Select Spec_Real Proof_Recon4 Proof_Blind Proof_Linear.
Import ListNotations.
Open Scope list_scope.
Open Scope Z_scope.

Section Drivers.
  Variable L : rlib.
  Variables a b : RC.
  Hypothesis HF : filon_linear L.
  Hypothesis HU : fourier_linear L.
  Local Notation lprof := (superposed a b).
  Local Notation lptr := (superposed_ptr a b).
  Local Notation lin := (lin a b).

  (** Objects that differ in the profiles only, the profiles being superposed. *)
  Definition rt (t1 t2 t3 : rtau) : Prop :=
    exists t P1 P2 P3 Q1 Q2 Q3 W1 W2 W3,
      t1 = put t P1 Q1 W1 /\ t2 = put t P2 Q2 W2 /\ t3 = put t P3 Q3 W3 /\
      lptr P1 P2 P3 /\ lptr Q1 Q2 Q3 /\ lptr W1 W2 W3.
  Lemma rt_put t P1 P2 P3 Q1 Q2 Q3 W1 W2 W3 :
    lptr P1 P2 P3 -> lptr Q1 Q2 Q3 -> lptr W1 W2 W3 -> rt (put t P1 Q1 W1) (put t P2 Q2 W2) (put t P3 Q3 W3).
  Proof. intros. exists t, P1, P2, P3, Q1, Q2, Q3, W1, W2, W3. tauto. Qed.
  Ltac rt_elim H := let t := fresh "t" in
    destruct H as (t & ? & ? & ? & ? & ? & ? & ? & ? & ? & -> & -> & -> & ? & ? & ?).

  Lemma rt_blind f : pblind f -> forall t1 t2 t3, rt t1 t2 t3 -> rel3 rt (f t1) (f t2) (f t3).
  Proof.
    intros Hb t1 t2 t3 H. rt_elim H.
    rewrite (Hb (x, x2, x5) t : f (put t x x2 x5) = _), (Hb (x0, x3, x6) t : f (put t x0 x3 x6) = _),
      (Hb (x1, x4, x7) t : f (put t x1 x4 x7) = _).
    unfold rmap. apply rel3_same. intros u _. apply rel3_ok. apply rt_put; auto.
  Qed.
  Lemma rt_guarded t1 t2 t3 k1 k2 k3 : rt t1 t2 t3 -> rel3 rt k1 k2 k3 ->
    rel3 rt (guarded t1 k1) (guarded t2 k2) (guarded t3 k3).
  Proof.
    intros H Hk. assert (H0 := H). rt_elim H. unfold guarded. cbn [err put set_T_fwd set_T_out set_T_in].
    destruct (err t); [apply rel3_ok; exact H0|exact Hk].
  Qed.
  Lemma rt_fail t1 t2 t3 m : rt t1 t2 t3 -> rel3 rt (fail t1 m) (fail t2 m) (fail t3 m).
  Proof. intros H. rt_elim H. apply rel3_ok. apply (rt_put (set_err t (Some m))); auto. Qed.
  Lemma rt_core t1 t2 t3 : rt t1 t2 t3 -> rel3 rt (check_core_data t1) (check_core_data t2) (check_core_data t3).
  Proof.
    intros H. unfold check_core_data. apply rt_guarded; [exact H|]. rt_elim H.
    cbn [T_in T_out arr put set_T_fwd set_T_out set_T_in].
    destruct x, x0, x1; try contradiction; [|apply rt_fail, rt_put; auto].
    destruct x2, x3, x4; try contradiction; [|apply rt_fail, rt_put; auto].
    match goal with |- context [existsb ?f ?l] => destruct (existsb f l) end;
      [apply rt_fail, rt_put|apply rel3_ok, rt_put]; auto.
  Qed.
  Lemma rt_out t P1 P2 P3 Q1 Q2 Q3 W1 W2 W3 T1 T2 T3 :
    lptr P1 P2 P3 -> lptr W1 W2 W3 -> lprof T1 T2 T3 ->
    rt (set_Tout (put t P1 Q1 W1) T1) (set_Tout (put t P2 Q2 W2) T2) (set_Tout (put t P3 Q3 W3) T3).
  Proof. intros. apply (rt_put t P1 P2 P3 (Some T1) (Some T2) (Some T3)); auto. Qed.

  Lemma rel3_threads {A} (P : A -> A -> A -> Prop) f g h cs : forall x y z, P x y z ->
    (forall c x y z, P x y z -> rel3 P (f c x) (g c y) (h c z)) ->
    rel3 P (run_threads f cs x) (run_threads g cs y) (run_threads h cs z).
  Proof.
    induction cs as [|c cs IH]; intros x y z H HB; cbn [run_threads]; [exact H|].
    eapply rel3_bind; [apply HB; exact H|]. intros; apply IH; auto.
  Qed.

  Section Fixed.
    Variable t : rtau.
    Variables P1 P2 P3 Q1 Q2 Q3 W1 W2 W3 : option (list (option RC)).
    Hypothesis HP : lptr P1 P2 P3.
    Hypothesis HQ : lptr Q1 Q2 Q3.
    Hypothesis HW : lptr W1 W2 W3.
    Local Notation t1 := (put t P1 Q1 W1).
    Local Notation t2 := (put t P2 Q2 W2).
    Local Notation t3 := (put t P3 Q3 W3).
    Ltac same := eapply rel3_same; intros ? _.
    Definition st3 {A} (s1 s2 s3 : A * cbuf) : Prop := eq3 (fst s1) (fst s2) (fst s3) /\ lprof (snd s1) (snd s2) (snd s3).

    Lemma lin_write T1 T2 T3 i v1 v2 v3 : lprof T1 T2 T3 -> lin v1 v2 v3 ->
      rel3 lprof (awrite T1 i (Some v1)) (awrite T2 i (Some v2)) (awrite T3 i (Some v3)).
    Proof. intros H Hv. apply lprof_write; auto. Qed.

    Lemma lin_fresnel_thread two_dx wm nm c T1 T2 T3 : lprof T1 T2 T3 ->
      rel3 lprof (fresnel_thread L t1 two_dx wm nm c T1) (fresnel_thread L t2 two_dx wm nm c T2) (fresnel_thread L t3 two_dx wm nm c T3).
    Proof.
      intros HT. unfold fresnel_thread. cbv zeta. eapply rel3_bind.
      - apply (rel3_for st3).
        + split; [split; reflexivity|exact HT].
        + intros i [[[[? ?] ?] ?] ?] [[[[? ?] ?] ?] ?] [[[[? ?] ?] ?] ?] [[E1 E2] HS]. cbn [fst snd] in *.
          inversion E1; inversion E2; subst. unfold fresnel_iter. cbv zeta. same.
          eapply rel3_same. intros [[[? ?] ?] ?] _.
          eapply rel3_bind; [apply lin_fresnel; exact HP|]. intros v1 v2 v3 Hv.
          eapply rel3_bind; [apply lin_write; [exact HS|exact Hv]|]. intros; apply rel3_ok. split; [split; reflexivity|assumption].
      - intros s1 s2 s3 [_ H]. exact H.
    Qed.
    Lemma lin_newton_fn f : In f (newton_table L) -> forall w n c,
      rel3 lin (f t1 w n c) (f t2 w n c) (f t3 w n c).
    Proof.
      intros [<-|[<-|[<-|[<-|[<-|[<-|[<-|[]]]]]]]] w n c;
      [apply lin_riemann|apply lin_filon01|apply lin_filon11|apply lin_filon02|apply lin_filon12|apply lin_elliptical|apply lin_perturbed]; auto.
    Qed.
    Lemma lin_newton_thread f two_dx nm c T1 T2 T3 : In f (newton_table L) -> lprof T1 T2 T3 ->
      rel3 lprof (newton_thread L f t1 two_dx nm c T1) (newton_thread L f t2 two_dx nm c T2) (newton_thread L f t3 two_dx nm c T3).
    Proof.
      intros Hf HT. unfold newton_thread. same. same. same. eapply rel3_bind.
      - apply (rel3_for st3).
        + split; [split; reflexivity|exact HT].
        + intros i [[[? ?] ?] ?] [[[? ?] ?] ?] [[[? ?] ?] ?] [[E1 E2] HS]. cbn [fst snd] in *.
          inversion E1; inversion E2; subst. unfold newton_iter. cbv zeta. same.
          eapply rel3_same. intros [[? ?] ?] _.
          eapply rel3_bind; [apply lin_newton_fn; exact Hf|]. intros v1 v2 v3 Hv.
          eapply rel3_bind; [apply lin_write; [exact HS|exact Hv]|]. intros; apply rel3_ok. split; [split; reflexivity|assumption].
      - intros s1 s2 s3 [_ H]. exact H.
    Qed.
    Lemma lin_seq_run f w two_dx n :
      (forall x w n c, rel3 lin (f t1 x w n c) (f t2 x w n c) (f t3 x w n c)) ->
      rel3 rt (seq_run L f t1 w two_dx n) (seq_run L f t2 w two_dx n) (seq_run L f t3 w two_dx n).
    Proof.
      intros Hf. unfold seq_run. eapply rel3_bind; [apply lptr_deref; exact HQ|]. intros T1 T2 T3 HT.
      cbn [start n_used put set_T_fwd set_T_out set_T_in].
      same. eapply rel3_bind.
      - apply (rel3_for (fun (s1 s2 s3 : seq_state) => eq3 (fst (fst s1)) (fst (fst s2)) (fst (fst s3)) /\
            eq3 (snd s1) (snd s2) (snd s3) /\ lprof (snd (fst s1)) (snd (fst s2)) (snd (fst s3)))).
        + split; [split; reflexivity|]. split; [split; reflexivity|exact HT].
        + intros i [[[[[? ?] ?] ?] ?] ?] [[[[[? ?] ?] ?] ?] ?] [[[[[? ?] ?] ?] ?] ?] [[E1 E2] [[E3 E4] HS]]. cbn [fst snd] in *.
          inversion E1; inversion E2; subst. unfold seq_iter. destruct o1 as [m|].
          { apply rel3_ok. cbn [fst snd]. split; [split; reflexivity|]. split; [split; reflexivity|exact HS]. }
          cbv zeta. eapply rel3_same; intros r _. eapply rel3_same.
          intros [[[[? ?] ?] ?]|m] _.
          * eapply rel3_bind; [apply Hf|]. intros v1 v2 v3 Hv.
            eapply rel3_bind; [apply lin_write; [exact HS|exact Hv]|]. intros; apply rel3_ok.
            split; [split; reflexivity|]. split; [split; reflexivity|assumption].
          * apply rel3_ok. split; [split; reflexivity|]. split; [split; reflexivity|assumption].
      - intros [[? ?] ?] [[? ?] ?] [[? ?] ?] [[E1 E2] [[E3 E4] HS]]. cbn [fst snd] in *. subst.
        match goal with |- context [match ?o with Some _ => _ | None => _ end] => destruct o as [m|] end.
        + apply rt_fail. apply rt_out; auto.
        + apply rel3_ok. apply rt_out; auto.
    Qed.
  End Fixed.

  Ltac same := eapply rel3_same; intros ? _.
  Ltac core_range H := eapply rel3_bind; [apply rt_core; exact H|]; intros ? ? ? ?;
    eapply rel3_bind; [apply (rt_blind _ pblind_range); eassumption|]; intros ? ? ? ?;
    apply rt_guarded; [assumption|].
  Ltac rt_last := match goal with H : rt _ _ _ |- _ => rt_elim H end.
  Lemma lin_dc_fresnel sch t1 t2 t3 : rt t1 t2 t3 -> rel3 rt (dc_fresnel L sch t1) (dc_fresnel L sch t2) (dc_fresnel L sch t3).
  Proof.
    intros H. unfold dc_fresnel. core_range H. clear H H0. rt_last. cbv zeta. same. same.
    destruct (negb _); [apply rt_fail, rt_put; auto|].
    cbn [T_out n_used put set_T_fwd set_T_out set_T_in].
    eapply rel3_bind; [apply lptr_deref; eassumption|]. intros T1 T2 T3 HT.
    eapply rel3_bind; [apply rel3_threads; [exact HT|]|].
    - intros; apply lin_fresnel_thread; auto.
    - intros; apply rel3_ok; apply rt_out; auto.
  Qed.
  Lemma select_newton_in p f : select_newton L p = Ok (inl f) -> In f (newton_table L).
  Proof.
    unfold select_newton. destruct (_ =? _); [discriminate|]. destruct (_ <? _); [discriminate|]. destruct (_ <? _); [discriminate|].
    intros E. apply bind_ok in E. destruct E as (g & Eg & E). inversion E; subst. apply aread_ok in Eg. destruct Eg as [_ Eg].
    apply nth_error_In in Eg. exact Eg.
  Qed.
  Lemma lin_dc_newton sch t1 t2 t3 : rt t1 t2 t3 -> rel3 rt (dc_newton L sch t1) (dc_newton L sch t2) (dc_newton L sch t3).
  Proof.
    intros H. unfold dc_newton. core_range H. clear H H0. rt_last. cbv zeta. same. same. same. same.
    cbn [psinum put set_T_fwd set_T_out set_T_in].
    eapply rel3_same. intros [f|m] Es; [|apply rt_fail, rt_put; auto]. apply select_newton_in in Es.
    destruct (negb _); [apply rt_fail, rt_put; auto|].
    cbn [T_out n_used put set_T_fwd set_T_out set_T_in].
    eapply rel3_bind; [apply lptr_deref; eassumption|]. intros T1 T2 T3 HT.
    eapply rel3_bind; [apply rel3_threads; [exact HT|]|].
    - intros; apply lin_newton_thread; auto.
    - intros; apply rel3_ok; apply rt_out; auto.
  Qed.
  Lemma select_interp_in p f : select_interp L p = Ok (inl (Some f)) -> f = newton4 L \/ f = newton8 L \/ f = newton16 L.
  Proof.
    unfold select_interp. destruct (_ =? _); [discriminate|]. destruct (_ <? _); [discriminate|]. destruct (_ <? _); [discriminate|].
    intros E. apply bind_ok in E. destruct E as (g & Eg & E). inversion E; subst. apply aread_ok in Eg. destruct Eg as [_ Eg].
    apply nth_error_In in Eg. cbn in Eg.
    destruct Eg as [Eg|[Eg|[Eg|[Eg|[Eg|[Eg|[]]]]]]]; try discriminate Eg; inversion Eg; auto.
  Qed.
  Lemma lin_dc_interp t1 t2 t3 : rt t1 t2 t3 -> rel3 rt (dc_interp L t1) (dc_interp L t2) (dc_interp L t3).
  Proof.
    intros H. unfold dc_interp. core_range H. clear H H0. rt_last. cbv zeta.
    cbn [psinum start put set_T_fwd set_T_out set_T_in]. same. same. same. same.
    eapply rel3_same. intros [ [f | ] | m] Es; [|apply rt_fail, rt_put; auto|apply rt_fail, rt_put; auto]. apply select_interp_in in Es.
    destruct (negb _); [apply rt_fail, rt_put; auto|].
    apply lin_seq_run; auto. intros. destruct Es as [-> | [-> | ->]]; [apply lin_newton4|apply lin_newton8|apply lin_newton16]; auto.
  Qed.
  Lemma lin_dc_legendre t1 t2 t3 : rt t1 t2 t3 -> rel3 rt (dc_legendre L t1) (dc_legendre L t2) (dc_legendre L t3).
  Proof.
    intros H. unfold dc_legendre. apply rt_guarded; [exact H|]. core_range H. clear H H0. rt_last.
    repeat match goal with |- context [legendre_index (put t ?p ?q ?w)] => change (legendre_index (put t p q w)) with (legendre_index t) end.
    eapply rel3_same. intros f Ef. apply aread_ok in Ef. destruct Ef as [_ Ef]. apply nth_error_In in Ef.
    apply (rel3_bind rt).
    { unfold flip_k. cbn [use_fwd arr n_used put set_T_fwd set_T_out set_T_in]. destruct (use_fwd t); [|apply rel3_ok, rt_put; auto].
      same. same. apply rel3_ok. apply (rt_put (set_f t KV _)); auto. }
    clear - HF Ef. intros t1 t2 t3 H. rt_elim H. cbv zeta. cbn [start put set_T_fwd set_T_out set_T_in]. same. same. same. same.
    destruct (negb _); [apply rt_fail, rt_put; auto|].
    apply lin_seq_run; auto. intros. unfold legendre_step. same. same. cbv zeta. apply (lin_legendre L); auto.
  Qed.

  (** FFT mode: lists of complex numbers. *)
  Definition llist (l1 l2 l3 : list RC) : Prop := List.length l1 = List.length l2 /\ l3 = combine_lists a b l1 l2.
  Lemma llist_cons x1 x2 x3 l1 l2 l3 : lin x1 x2 x3 -> llist l1 l2 l3 -> llist (x1 :: l1) (x2 :: l2) (x3 :: l3).
  Proof. intros -> (H1 & ->). split; [cbn; congruence|reflexivity]. Qed.
  Lemma llist_app l1 l2 l3 m1 m2 m3 : llist l1 l2 l3 -> llist m1 m2 m3 -> llist (l1 ++ m1) (l2 ++ m2) (l3 ++ m3).
  Proof.
    revert l2 l3. induction l1 as [|x l1 IH]; intros [|y l2] l3 (H1 & ->) Hm; cbn in H1; try discriminate; [exact Hm|].
    cbn. apply llist_cons; [reflexivity|]. apply IH; auto. split; [congruence|reflexivity].
  Qed.
  Lemma llist_zero n : llist (repeat c0 n) (repeat c0 n) (repeat c0 n).
  Proof.
    induction n; cbn [repeat]; [split; reflexivity|]. apply llist_cons; [apply lin_zero|exact IHn].
  Qed.
  Lemma llist_read l1 l2 l3 i : llist l1 l2 l3 -> rel3 lin (aread l1 i) (aread l2 i) (aread l3 i).
  Proof.
    intros (H1 & ->). unfold aread, zlen, combine_lists. rewrite map_length, combine_length, <- H1, Nat.min_id.
    destruct (i <? 0); [cbn; auto|].
    destruct (Z.leb_spec (Z.of_nat (List.length l1)) i); [cbn; auto|].
    assert (Hi : (Z.to_nat i < List.length l1)%nat \/ (List.length l1 <= Z.to_nat i)%nat) by lia.
    rewrite nth_error_map. generalize (Z.to_nat i). intros k. clear - H1.
    revert l2 k H1. induction l1 as [|x l1 IH]; intros [|y l2] k H1; cbn in H1; try discriminate.
    - destruct k; cbn; auto.
    - destruct k; cbn; [reflexivity|]. apply (IH l2 k). congruence.
  Qed.
  Lemma lin_dc_fft t1 t2 t3 : rt t1 t2 t3 -> rel3 rt (dc_fft L t1) (dc_fft L t2) (dc_fft L t3).
  Proof.
    intros H. unfold dc_fft. core_range H. clear H H0. rt_last. cbv zeta.
    cbn [start n_used dx put set_T_fwd set_T_out set_T_in]. same. same. same.
    destruct (negb _); [apply rt_fail, rt_put; auto|].
    eapply rel3_bind.
    { apply (rel3_tab (fun (p1 p2 p3 : RC * RC) => eq3 (fst p1) (fst p2) (fst p3) /\ lin (snd p1) (snd p2) (snd p3))).
      intros i. unfold fft_sample. cbv zeta. same. same. same. cbn [T_in put set_T_fwd set_T_out set_T_in].
      eapply rel3_bind; [apply lptr_rdT; eassumption|]. intros. apply rel3_ok. split; [split; reflexivity|assumption]. }
    intros k1 k2 k3 (L1 & L2 & Hk).
    assert (HK : map fst k1 = map fst k3 /\ map fst k2 = map fst k3 /\ llist (map snd k1) (map snd k2) (map snd k3)).
    { clear - L1 L2 Hk. revert k1 k2 L1 L2 Hk. induction k3 as [|[p3 q3] k3 IH]; intros [|[p1 q1] k1] [|[p2 q2] k2] L1 L2 Hk; cbn in L1, L2; try discriminate.
      - split; [reflexivity|]. split; [reflexivity|]. split; reflexivity.
      - destruct (IH k1 k2) as (I1 & I2 & I3); [congruence|congruence|intros i; exact (Hk (Datatypes.S i))|].
        specialize (Hk O). cbn in Hk. destruct Hk as [[E1 E2] E3]. subst. cbn [map fst snd]. split; [congruence|]. split; [congruence|].
        apply llist_cons; auto. }
    destruct HK as (K1 & K2 & K3). rewrite K1, K2.
    match goal with |- context [t_fft L (map fst k3 ++ ?p)] => set (pad := p) end.
    assert (Lp : forall f, llist (map snd k1 ++ pad) (map snd k2 ++ pad) (map snd k3 ++ pad) ->
       llist (t_ifft L (map (fun p => cmul (fst p) (snd p)) (combine f (t_fft L (map snd k1 ++ pad)))))
             (t_ifft L (map (fun p => cmul (fst p) (snd p)) (combine f (t_fft L (map snd k2 ++ pad)))))
             (t_ifft L (map (fun p => cmul (fst p) (snd p)) (combine f (t_fft L (map snd k3 ++ pad)))))).
    { destruct HU as (U1 & U2 & U3 & U4). intros f (Hl & Hc).
      rewrite Hc, U3 by exact Hl. assert (Hl' := Hl). rewrite <- (U1 (map snd k1 ++ pad)), <- (U1 (map snd k2 ++ pad)) in Hl'.
      revert Hl'. generalize (t_fft L (map snd k1 ++ pad)) (t_fft L (map snd k2 ++ pad)). intros m1 m2 Hm.
      split.
      - rewrite !U2, !map_length, !combine_length, Hm. reflexivity.
      - rewrite <- U4 by (rewrite !map_length, !combine_length, Hm; reflexivity). f_equal.
        clear - Hm. revert m1 m2 Hm. induction f as [|z f IH]; intros [|y m1] [|y' m2] Hm; try discriminate; try reflexivity.
        cbn. f_equal; [apply (lin_mul a b z y y'); reflexivity|]. apply IH. cbn in Hm. congruence. }
    specialize (Lp (t_fft L (map fst k3 ++ pad))).
    assert (L0 : llist (map snd k1 ++ pad) (map snd k2 ++ pad) (map snd k3 ++ pad)) by (apply llist_app; [exact K3|apply llist_zero]).
    specialize (Lp L0). revert Lp.
    generalize (t_ifft L (map (fun p => cmul (fst p) (snd p)) (combine (t_fft L (map fst k3 ++ pad)) (t_fft L (map snd k1 ++ pad))))).
    generalize (t_ifft L (map (fun p => cmul (fst p) (snd p)) (combine (t_fft L (map fst k3 ++ pad)) (t_fft L (map snd k2 ++ pad))))).
    generalize (t_ifft L (map (fun p => cmul (fst p) (snd p)) (combine (t_fft L (map fst k3 ++ pad)) (t_fft L (map snd k3 ++ pad))))).
    intros o3 o2 o1 Lp. cbn [T_out put set_T_fwd set_T_out set_T_in].
    eapply rel3_bind; [apply lptr_deref; eassumption|]. intros T1 T2 T3 HT.
    eapply rel3_bind.
    - apply (rel3_for lprof); [exact HT|]. intros i U1 U2 U3 HU'. eapply rel3_bind; [apply llist_read; exact Lp|].
      intros v1 v2 v3 Hv. apply lprof_write; auto.
    - intros; apply rel3_ok, rt_out; auto.
  Qed.

  Lemma lin_dc sch t1 t2 t3 : rt t1 t2 t3 ->
    rel3 rt (diffraction_correction L sch t1) (diffraction_correction L sch t2) (diffraction_correction L sch t3).
  Proof.
    intros H. unfold diffraction_correction. apply rt_guarded; [exact H|]. assert (H0 := H). rt_elim H. cbv zeta.
    cbn [psinum put set_T_fwd set_T_out set_T_in].
    destruct (_ =? _); [apply lin_dc_fresnel; exact H0|].
    destruct (_ =? _); [apply lin_dc_legendre; exact H0|].
    destruct (_ =? _); [apply lin_dc_fft; exact H0|].
    destruct (_ <=? _); [apply lin_dc_newton; exact H0|].
    destruct (_ <? _); [apply lin_dc_interp; exact H0|]. apply rt_fail; exact H0.
  Qed.

  Lemma prof_repeat (x : RC) n : lin x x x -> lprof (repeat (Some x) n) (repeat (Some x) n) (repeat (Some x) n).
  Proof.
    intros Hx. split; [reflexivity|]. split; [reflexivity|]. intros i.
    destruct (nth_error (repeat (Some x) n) i) eqn:E; [|exact I]. apply nth_error_In, repeat_spec in E. subst. exact Hx.
  Qed.
  Lemma prof_fresh n : lprof (fresh n) (fresh n) (fresh n).
  Proof.
    split; [reflexivity|]. split; [reflexivity|]. intros i. unfold fresh.
    destruct (nth_error (repeat None _) i) eqn:E; [|exact I]. apply nth_error_In, repeat_spec in E. subst. exact I.
  Qed.
  Definition rsum (r1 r2 r3 : rtau + rtau) : Prop :=
    match r1, r2, r3 with
    | inl x, inl y, inl z => rt x y z | inr x, inr y, inr z => rt x y z | _, _, _ => False end.
  Lemma lin_forward sch t1 t2 t3 : rt t1 t2 t3 ->
    rel3 rsum (forward_model L sch t1) (forward_model L sch t2) (forward_model L sch t3).
  Proof.
    intros H. rt_elim H. unfold forward_model. cbv zeta.
    cbn [T_in T_out arr_size start n_used dx put set_T_fwd set_T_out set_T_in]. same. same. same.
    set (z := if t_alloc L 31 then Some (repeat (Some c0) (Z.to_nat (arr_size t))) else None).
    assert (HZ : lptr z z z) by (unfold z; destruct (t_alloc L 31); [apply prof_repeat, lin_zero|exact I]).
    match goal with |- context [if ?c then _ else _] => destruct c end.
    - unfold fail. cbn [bind]. apply rel3_ok. cbn [rsum].
      apply (rt_put (set_err t (Some "forward: not enough data"%string)) x2 x3 x4 z z z x5 x6 x7); auto.
    - match goal with |- context [diffraction_correction L sch (set_n_used (set_start _ ?s) ?n)] => set (sp := s); set (np := n) end.
      eapply rel3_bind.
      + apply lin_dc. apply (rt_put (set_n_used (set_start t sp) np) x2 x3 x4 z z z x5 x6 x7); auto.
      + intros u1 u2 u3 HU'. apply rel3_ok. cbn [rsum]. clear sp np z HZ. rt_last.
        apply (rt_put (set_n_used (set_start t0 (start t)) (n_used t))); auto.
  Qed.
  Lemma resize_all_put fs : forall t P Q W,
    resize_all L fs (put t P Q W) = rmap (fun u => put u P Q W) (resize_all L fs t).
  Proof.
    induction fs as [|f fs IH]; intros t P Q W; cbn [resize_all]; [reflexivity|].
    unfold resize_f. cbn [arr start n_used put set_T_fwd set_T_out set_T_in].
    destruct (resize L (arr t f) (start t) (n_used t)) as [v|]; [|reflexivity]. cbn [bind].
    exact (IH (set_f t f v) P Q W).
  Qed.
  Lemma lin_resize P1 P2 P3 s n : lptr P1 P2 P3 -> rel3 lptr (resize L P1 s n) (resize L P2 s n) (resize L P3 s n).
  Proof.
    intros H. unfold resize. same. destruct P1 as [T1|], P2 as [T2|], P3 as [T3|]; try contradiction.
    - eapply rel3_bind; [apply (rel3_tab (lcell a b)); intros i; apply lprof_read; exact H|].
      intros l1 l2 l3 (H1 & H2 & H3). apply rel3_ok. cbn. split; [exact H1|]. split; [exact H2|]. intros i. specialize (H3 i).
      destruct (nth_error l1 i) as [[?|]|], (nth_error l2 i) as [[?|]|], (nth_error l3 i) as [[?|]|]; auto.
    - destruct (_ <=? 0); cbn; auto. split; [auto|]. split; [auto|]. intros [|i]; exact I.
  Qed.
  Lemma lin_finish t1 t2 t3 : rt t1 t2 t3 -> rel3 rt (finish L t1) (finish L t2) (finish L t3).
  Proof.
    intros H. unfold finish. apply rt_guarded; [exact H|]. rt_elim H.
    cbn [T_in start n_used put set_T_fwd set_T_out set_T_in].
    eapply rel3_bind; [apply lin_resize; eassumption|]. intros p1 p2 p3 Hp. cbv zeta.
    cbn [T_out start n_used set_T_in].
    eapply rel3_bind; [apply lin_resize; eassumption|]. intros q1 q2 q3 Hq.
    match goal with |- rel3 _ (bind (resize_all _ _ ?u) _) (bind (resize_all _ _ ?v) _) (bind (resize_all _ _ ?w) _) =>
      change u with (put t p1 q1 x5); change v with (put t p2 q2 x6); change w with (put t p3 q3 x7) end.
    rewrite !resize_all_put. unfold rmap. destruct (resize_all L finish_resized t) as [u|]; cbn [bind]; [|cbn; auto].
    cbn [use_fwd n_used T_fwd start put set_T_fwd set_T_out set_T_in set_arr_size].
    destruct (use_fwd u).
    - eapply rel3_bind; [apply lin_resize; eassumption|]. intros w1 w2 w3 Hw. apply rel3_ok.
      apply (rt_put (set_arr_size u (n_used u)) p1 p2 p3 q1 q2 q3 w1 w2 w3); auto.
    - apply rel3_ok. apply (rt_put (set_arr_size u (n_used u)) p1 p2 p3 q1 q2 q3 x5 x6 x7); auto.
  Qed.
  Lemma lin_reconstruction sch t1 t2 t3 : rt t1 t2 t3 ->
    rel3 rt (reconstruction L sch t1) (reconstruction L sch t2) (reconstruction L sch t3).
  Proof.
    intros H. unfold reconstruction.
    eapply rel3_bind; [apply (rt_blind _ pblind_keywords); exact H|]. clear H; intros.
    eapply rel3_bind; [apply (rt_blind _ (pblind_occ L)); eassumption|]. match goal with H : rt _ _ _ |- _ => clear H end; intros.
    eapply rel3_bind; [apply (rt_blind _ (pblind_gww L)); eassumption|]. match goal with H : rt _ _ _ |- _ => clear H end; intros.
    eapply rel3_bind; [apply (rt_blind _ pblind_range); eassumption|]. match goal with H : rt _ _ _ |- _ => clear H end; intros.
    apply rt_guarded; [assumption|]. cbv zeta.
    match goal with H : rt _ _ _ |- _ => clear - HF HU H;
      destruct H as (t & P1 & P2 & P3 & Q1 & Q2 & Q3 & W1 & W2 & W3 & -> & -> & -> & ? & ? & ?) end.
    cbn [arr_size put set_T_fwd set_T_out set_T_in].
    set (al := if t_alloc L 30 then Some (fresh (arr_size t)) else None).
    assert (HA : lptr al al al) by (unfold al; destruct (t_alloc L 30); [apply prof_fresh|exact I]).
    eapply rel3_bind.
    { apply rt_core. apply (rt_put t P1 P2 P3 al al al W1 W2 W3); auto. }
    clear - HF HU. intros t1 t2 t3 H. apply rt_guarded; [exact H|].
    eapply rel3_bind.
    { apply lin_dc. rt_elim H. apply (rt_put (set_use_fwd t false)); auto. }
    intros u1 u2 u3 HU'.
    assert (EU : use_fwd t2 = use_fwd t1 /\ use_fwd t3 = use_fwd t1) by (rt_elim H; split; reflexivity).
    destruct EU as [-> ->]. generalize (use_fwd t1). intros fw.
    assert (HV : rt (set_use_fwd u1 fw) (set_use_fwd u2 fw) (set_use_fwd u3 fw)).
    { clear H. rt_last. apply (rt_put (set_use_fwd t fw)); auto. }
    cbn [use_fwd set_use_fwd]. destruct fw.
    - eapply rel3_bind; [apply lin_forward; exact HV|]. intros [?|?] [?|?] [?|?] HR; try contradiction; cbn [rsum] in HR.
      + apply lin_finish; exact HR.
      + apply rel3_ok; exact HR.
    - apply lin_finish; exact HV.
  Qed.
End Drivers.
