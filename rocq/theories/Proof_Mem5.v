(** * Proof_Mem5: consequences. *)
From Coq Require Import List ZArith Lia Bool String Permutation.
From Verif Require Import Base BaseFacts Scalar Dbl Spec_Tau Spec_Select Model_TauRec Model_Checks Model_Strings Model_Select
  Model_Transform Model_Recon Model_Heap Model_Create Model_Py Model_Mem Spec_Csv Spec_Create Spec_Mem
  Proof_Checks Proof_Heap Proof_Create Proof_Create3 Proof_Create4 Proof_Mem Proof_Mem3 Proof_Mem4.
Import ListNotations.
Open Scope list_scope.
Open Scope Z_scope.

Lemma three_leaks {S : scalar} (L : tmpl S) (o : mobj (S := S)) (t' : tau S) :
  lost L false o t' <> 0%nat ->
  err t' = Some "window: left"%string \/ err t' = Some "window: right"%string \/
  err t' = Some "forward: not enough data"%string.
Proof.
  unfold lost. destruct (arr (m_tau o) WKM); [congruence|]. destruct (arr t' WKM); [|congruence]. cbv zeta.
  destruct (err t') as [m|]; [|destruct (bfac _); cbn; congruence].
  destruct (String.eqb m "window: left") eqn:A; [apply String.eqb_eq in A; subst; auto|].
  destruct (String.eqb m "window: right") eqn:B; [apply String.eqb_eq in B; subst; auto|].
  destruct (String.eqb m "forward: not enough data") eqn:D; [apply String.eqb_eq in D; subst; auto|].
  destruct (bfac _); cbn; congruence.
Qed.

Section Python.
  Variables (L : tmpl dbl_scalar) (sep : bool) (X : strlib) (C : createlib dbl_scalar).
  Variables (sch : schedule) (r : double) (a : pyargs) (d : dlp dbl_scalar) (h : heap).
  Notation res0 := (dmul (given (a_resolution a) r) (given (a_factor a) (dfrac 3 4))).
  Hypothesis G : good_heap h.

  Section Good.
  Hypothesis D : d_err d = false.
  Hypothesis U : usable d \/ refused (Some d) res0.
  Hypothesis Mem : t_alloc L 8 = true.

  Lemma python_leaks q h1 : diffrec_init_h L sep X C sch r a (Some d) no_blocks h = Ok (q, h1) ->
    match q with
    | MRaised _ => exists n, blocks_more (1 + n) h h1
    | MConstructed _ v => exists n h2, diffrec_destroy v h1 = Ok (tt, h2) /\ blocks_more (1 + n) h h2
    end.
  Proof.
    intro E. destruct (one_more_owns h G) as [G1 E1].
    assert (Ud : (exists d0, Some d = Some d0 /\ usable d0) \/ refused (Some d) res0) by (destruct U; eauto).
    destruct (memory L C (Some d) res0 (one_more h) G1 Ud) as (p & h0 & Ec & _).
    assert (Fail : forall m, match p with Some o => x_err o = Some m | None => m = "tau: NULL"%string end ->
      match q with MRaised _ => exists n, blocks_more (1 + n) h h1
      | MConstructed _ v => exists n h2, diffrec_destroy v h1 = Ok (tt, h2) /\ blocks_more (1 + n) h h2 end).
    { intros m F. destruct (python_failed L sep X C sch r a d h G D U p h0 no_blocks m Ec F) as (h' & E' & B).
      rewrite E in E'. injection E' as -> ->. exists O. exact B. }
    destruct p as [o|]; [|eapply Fail; reflexivity]. destruct (x_err o) eqn:Ex; [eapply Fail; reflexivity|]. clear Fail.
    destruct (created L C _ _ _ _ _ G1 Ud Ec) as (_ & _ & K). destruct (K Ex) as ((t0 & V) & _).
    assert (E' := E). unfold diffrec_init_h in E'. unfold hbind at 1 in E'. rewrite E1 in E'. cbn [bind] in E'. rewrite D in E'.
    unfold hbind at 1 in E'. rewrite Ec in E'. cbn [bind] in E'. rewrite Ex in E'.
    apply hl in E'. destruct E' as (t0' & V' & E'). rewrite V in V'. injection V' as <-.
    apply hl in E'. destruct E' as ([t5 b] & Cf & E').
    destruct (reconstruction L sch t5) as [t6|u] eqn:R.
    - pose proof (python_run L sep X C sch r a d h G D U o h0 t0 t5 b t6 Mem Ec Ex V Cf R) as P.
      destruct (err t6).
      + destruct P as (h' & P & B). rewrite E in P. injection P as -> ->. eauto.
      + destruct P as (v & h' & h2 & P & Q & B). rewrite E in P. injection P as -> ->. eauto.
    - exfalso. apply hb in E'. destruct E' as (o6 & h6 & E6 & _).
      destruct (created L C _ _ _ _ _ G1 Ud Ec) as (F & O & _). destruct (K Ex) as (_ & K1 & K2 & K3 & _).
      assert (Un : unprocessed (of_tobj o t5)) by (intros _ _; auto).
      pose proof (whole_ok L sep _ (of_tobj o t5) sch h0 O Un) as A. unfold sim in A. cbn [m_tau of_tobj] in A.
      rewrite R, E6 in A. discriminate A.
  Qed.
  End Good.

  Lemma expose_all (t : tau dbl_scalar) fs : forall b a', NoDup fs -> expose fs t b = Ok a' ->
    (forall f, In f fs -> numpy (arr t f) (arr_size t) = Ok (a' f)) /\ (forall f, ~ In f fs -> a' f = b f).
  Proof.
    induction fs as [|f fs IH]; intros b a' N E; cbn [expose] in E.
    - injection E as <-. split; [intros ? []|reflexivity].
    - apply bind_ok in E. destruct E as (v & Ev & E). inversion N as [|? ? N1 N2]; subst.
      destruct (IH _ _ N2 E) as [A B]. split.
      + intros g [<-|I]; [|auto]. rewrite (B f N1), rf_eqb_refl. exact Ev.
      + intros g Hg. rewrite B by (intro; apply Hg; right; assumption).
        destruct (rf_eqb g f) eqn:Eg; [|reflexivity]. apply rf_eqb_eq in Eg. exfalso. apply Hg. left. auto.
  Qed.

  Lemma python_same y : a_dlp a = Some y -> py_dlp_to_c true (Some y) = Ok (Some d) ->
    usable d \/ refused (Some d) res0 \/ d_err d = true -> t_alloc L 8 = true ->
    forall x, diffrec_init L X C true sch r a (one_more h) = Ok x ->
    exists q h1, diffrec_init_h L sep X C sch r a (Some d) no_blocks h = Ok (q, h1) /\
      match x, q with
      | Raised m, MRaised m' => m = m'
      | Constructed p, MConstructed t _ => forall f, In f exposed_fields -> numpy (arr t f) (arr_size t) = Ok (y_arr p f)
      | _, _ => False
      end.
  Proof.
    intros Ya Yd U Mem x E. unfold diffrec_init in E. rewrite Ya, Yd in E. cbn [bind] in E.
    destruct (one_more_owns h G) as [G1 E1].
    destruct (d_err d) eqn:D.
    { injection E as <-. unfold diffrec_init_h. step E1. rewrite D.
      pose proof (owns_start _ G1) as O0.
      destruct (hnew_ok _ _ _ O0) as (mb' & h2 & E2 & O2 & F2). step E2.
      destruct (free_owned _ (Some mb') _ [] h2 O2) as (h3 & E3 & O3 & F3); [cn|]. step E3.
      assert (O3' : owns (live h) [next h] h3).
      { destruct O3 as [OC OU OF]. constructor; auto. intro b. rewrite OC. cbn [live one_more]. cx. }
      destruct (free_owned _ (Some (next h)) _ [] h3 O3') as (h4 & E4 & O4 & F4); [cn|]. step E4.
      eexists _, h4. split; reflexivity. }
    assert (U' : usable d \/ refused (Some d) res0) by (destruct U as [U|[U|U]]; [auto|auto|discriminate U]).
    apply bind_ok in E. destruct E as ([p h0] & Ec & E).
    destruct p as [o|].
    2: { injection E as <-. destruct (python_failed L sep X C sch r a d h G D U' None h0 no_blocks _ Ec eq_refl) as (h1 & P & _).
         eexists _, h1. split; [exact P|reflexivity]. }
    destruct (x_err o) as [m|] eqn:Ex.
    { injection E as <-. destruct (python_failed L sep X C sch r a d h G D U' (Some o) h0 no_blocks m Ec Ex) as (h1 & P & _).
      eexists _, h1. split; [exact P|reflexivity]. }
    apply bind_ok in E. destruct E as (t0 & V & E). apply bind_ok in E. destruct E as ([t2 b1] & P2 & E).
    apply bind_ok in E. destruct E as ([t3 b2] & P3 & E). apply bind_ok in E. destruct E as (t4 & P4 & E).
    apply bind_ok in E. destruct E as (t5 & P5 & E). apply bind_ok in E. destruct E as (t6 & R & E).
    assert (Cf : configure L X a t0 = Ok (t5, b1 || b2)).
    { unfold configure. cbv zeta. rewrite P2. cbn [bind]. rewrite P3. cbn [bind]. rewrite P4. cbn [bind]. rewrite P5. reflexivity. }
    pose proof (python_run L sep X C sch r a d h G D U' o h0 t0 t5 _ t6 Mem Ec Ex V Cf R) as P.
    destruct (err t6) as [m|].
    - injection E as <-. destruct P as (h1 & P & _). eexists _, h1. split; [exact P|reflexivity].
    - destruct P as (v & h1 & h2 & P & _). eexists _, h1. split; [exact P|].
      apply bind_ok in E. destruct E as (vi & _ & E). apply bind_ok in E. destruct E as (vo & _ & E).
      apply bind_ok in E. destruct E as (va & Xa & E). apply bind_ok in E. destruct E as (vf & _ & E).
      destruct (p_history y); [|discriminate E]. injection E as <-. cbn [y_arr].
      apply (expose_all t6 exposed_fields _ _ ltac:(repeat constructor; cbn; intuition discriminate) Xa).
  Qed.
End Python.
