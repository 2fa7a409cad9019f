(** * Proof_Py3: C57, the constructor as a whole. *)
From Coq Require Import List ZArith Bool String Reals Lia.
From Verif Require Import Base BaseFacts Dbl DblFacts Scalar Model_TauRec Model_Checks Model_Select Model_Strings
  Model_Transform Model_Interp Model_Recon Model_Heap Model_Create Model_Py
  Spec_Tau Spec_Select Spec_Strings Spec_Recon Spec_Csv Spec_Create Spec_Safety Spec_Pipe Spec_Py Proof_Checks Proof_Strings
  Proof_Select Proof_Recon Proof_Recon2 Proof_Recon3 Proof_Create3 Proof_Create4 Proof_Py Proof_Py2 Proof_Pipe2.
Import ListNotations.
Open Scope Z_scope.

Lemma numbers_dec : forall l, (forall z, In (PInt z) l -> finite (dofZ z)) ->
  (exists xs, Forall2 number l xs) \/ (forall xs, ~ Forall2 number l xs).
Proof.
  induction l as [|v l IH]; intros Hz; [left; exists []; constructor|].
  destruct (py_number_cases v) as [(x & Hx & _)|[Hx _]]; [intros z ->; apply Hz; left; reflexivity| |].
  - destruct IH as [[xs H]|H]; [intros z Hi; apply Hz; right; exact Hi| |].
    + left. exists (x :: xs). constructor; auto.
    + right. intros xs Hxs. inversion Hxs; subst. eapply H; eauto.
  - right. intros xs Hxs. inversion Hxs; subst. eapply Hx; eauto.
Qed.
Lemma documented_methods_is : documented_methods = psi_table.
Proof. reflexivity. Qed.

Section Inv.
  Variables (L : dlib) (X : strlib).
  Lemma perturb_inv v (t t' : dtau) b : clean t -> zlen (perturb t) = 5 -> (forall p, v = Some p -> sized p) ->
    get_py_perturb v t = Ok (t', b) -> clean t' -> exists xs, perturb_value v xs /\ t' = set_perturb t xs /\ b = false.
  Proof.
    intros Hc Hp Hz E Hc'.
    assert (D : (exists xs, perturb_value v xs) \/ (forall xs, ~ perturb_value v xs)).
    { destruct v as [v|]; [|left; eexists; constructor].
      destruct v as [s|s|l|z|x|]; try (right; intros xs H; inversion H; fail).
      destruct (Z.eq_dec (zlen l) 5) as [Hl|Hl].
      - destruct (numbers_dec l) as [[xs H]|H]; [apply (Hz (PList l) eq_refl)|left; exists xs; constructor; auto|].
        right. intros xs H'. inversion H'; subst. eapply H; eauto.
      - right. intros xs H'. inversion H'; subst. contradiction. }
    destruct D as [[xs D]|D].
    - rewrite (perturb_value_ok v xs t Hc Hp D) in E. injection E as <- <-. eauto.
    - destruct (perturb_value_bad v t Hc Hp Hz D) as (t2 & b2 & E2 & [m F]). rewrite E in E2. injection E2 as <- <-.
      unfold clean in Hc'. congruence.
  Qed.
  Lemma range_string_inv s (t t' : dtau) : clean t -> set_range_from_string L X (Some s) t = Ok t' -> clean t' ->
    exists k lo hi, In (k, (lo, hi)) documented_ranges /\ spells (is_ws X) s k /\ t' = set_range1 (set_range0 t (dofZ lo)) (dofZ hi).
  Proof.
    intros Hc E Hc'. unfold set_range_from_string, guarded in E. rewrite Hc in E.
    apply bind_ok in E. destruct E as (u & _ & E).
    destruct (lookup range_table (normalise X s)) as [[lo hi]|] eqn:El.
    - injection E as <-. apply lookup_some in El. exists (normalise X s), lo, hi. split; [exact El|]. split; [apply spells_normalise|reflexivity].
    - injection E as <-. discriminate Hc'.
  Qed.
  Lemma range_inv v (t t' : dtau) b : clean t -> sized v -> get_py_range L X (Some v) t = Ok (t', b) -> clean t' ->
    exists lo hi, range_value X v lo hi /\ t' = set_range1 (set_range0 t lo) hi /\ b = false.
  Proof.
    intros Hc Hz E Hc'. unfold get_py_range in E. rewrite Hc in E.
    destruct v as [s|s|l|z|x|]; try (injection E as <- <-; discriminate Hc').
    - apply bind_ok in E. destruct E as (t1 & E1 & E). injection E as <- <-.
      destruct (range_string_inv s t t1 Hc E1 Hc') as (k & lo & hi & H1 & H2 & H3). exists (dofZ lo), (dofZ hi).
      split; [eapply rv_str; eauto|auto].
    - apply bind_ok in E. destruct E as (t1 & E1 & E). injection E as <- <-.
      destruct (range_string_inv s t t1 Hc E1 Hc') as (k & lo & hi & H1 & H2 & H3). exists (dofZ lo), (dofZ hi).
      split; [eapply rv_bytes; eauto|auto].
    - destruct (zlen l =? 2) eqn:El; cbn [negb] in E; [|injection E as <- <-; discriminate Hc'].
      apply Z.eqb_eq in El. destruct l as [|u [|w [|c l]]]; try (unfold zlen in El; cbn [List.length] in El; lia).
      cbn [sized] in Hz. cbn [py_numbers] in E.
      destruct (py_number_cases u) as [(x & Hx & Ex)|[_ Ex]]; [intros z ->; apply Hz; left; auto| |]; rewrite Ex in E;
        [|cbn [bind] in E; injection E as <- <-; discriminate Hc'].
      cbn [put_range Z.eqb bind orb] in E.
      destruct (py_number_cases w) as [(y & Hy & Ey)|[_ Ey]]; [intros z ->; apply Hz; right; left; auto| |]; rewrite Ey in E;
        [|cbn [bind] in E; injection E as <- <-; discriminate Hc'].
      injection E as <- <-. exists x, y. split; [constructor; auto|auto].
  Qed.
  Lemma window_inv s (t t' : dtau) : clean t -> set_window_type L X (Some s) t = Ok t' -> clean t' ->
    exists w, window_named X s w /\ t' = set_window (set_normeq t (t_normeq L w)) w.
  Proof.
    intros Hc E Hc'. unfold set_window_type, guarded in E. rewrite Hc in E.
    destruct (t_alloc L 10); cbn [negb] in E; [|injection E as <-; discriminate Hc'].
    destruct (lookup window_table (normalise X s)) as [w|] eqn:El.
    - injection E as <-. apply lookup_some in El. exists w. split; [|reflexivity]. exists (normalise X s). split; [exact El|apply spells_normalise].
    - injection E as <-. discriminate Hc'.
  Qed.
  Lemma window_ok s w (t : dtau) : clean t -> t_alloc L 10 = true -> window_named X s w ->
    set_window_type L X (Some s) t = Ok (set_window (set_normeq t (t_normeq L w)) w).
  Proof. intros Hc Ha (k & Hk & Hs). destruct (set_window_exact X L s t Hc Ha) as [H _]. eauto. Qed.
  Lemma method_inv s (t t' : dtau) : clean t -> order t = 0 -> set_psi_type L X (Some s) t = Ok t' -> clean t' ->
    exists p o, method_named X s p o /\ t' = set_order (set_psinum t p) o.
  Proof.
    intros Hc Ho E Hc'. unfold set_psi_type, guarded in E. rewrite Hc in E.
    destruct (t_alloc L 11); cbn [negb] in E; [|injection E as <-; discriminate Hc']. cbv zeta in E.
    destruct (lookup psi_table (normalise X s)) as [p|] eqn:El.
    - injection E as <-. apply lookup_some in El. exists p, 0. split.
      + eapply mn_documented; [exact El|apply spells_normalise].
      + rewrite <- Ho. destruct t; reflexivity.
    - destruct (String.eqb_spec (substring 0 7 (normalise X s)) "fresnel") as [Ef|Ef]; [|injection E as <-; discriminate Hc'].
      apply prefix7 in Ef. destruct Ef as [r Er].
      assert (Hl := lowercase_normalise X s). rewrite Er in El, E, Hl.
      assert (Hsp : spells (is_ws X) s ("fresnel" ++ r)) by (rewrite <- Er; apply spells_normalise).
      assert (Hr : lower r = r).
      { unfold lowercase in Hl. rewrite lower_app in Hl. cbn in Hl. injection Hl as Hl. exact Hl. }
      assert (Hd : forall k p, In (k, p) documented_methods -> k <> ("fresnel" ++ r)%string) by (intros k p Hk; eapply lookup_none; eauto).
      replace (substring 7 (String.length ("fresnel" ++ r) - 7) ("fresnel" ++ r)) with r in E
        by (simpl; rewrite Nat.sub_0_r; symmetry; apply substring_all).
      destruct (Z.eqb_spec (to_uchar X r) 0) as [U0|U0]; [injection E as <-; discriminate Hc'|].
      destruct (Z.eqb_spec (to_uchar X r) 1) as [U1|U1]; [injection E as <-; discriminate Hc'|].
      destruct (Z.eqb_spec (to_uchar X r) 2) as [U2|U2].
      + injection E as <-. exists PsiFresnel, 0. split; [eapply mn_two; eauto|reflexivity].
      + injection E as <-. exists PsiLegendre, (to_uchar X r - 1). split; [eapply mn_series; eauto|reflexivity].
  Qed.
  Lemma method_ok s p o (t : dtau) : clean t -> t_alloc L 11 = true -> order t = 0 -> method_named X s p o ->
    set_psi_type L X (Some s) t = Ok (set_order (set_psinum t p) o).
  Proof.
    intros Hc Ha Ho H. destruct H as [s k p Hk Hs|s r Hs Hl H2 Hd|s r Hs Hl H0 H1 H2 Hd].
    - destruct (set_psi_exact X L s t Hc Ha) as [H _]. rewrite (H k p Hk Hs). rewrite <- Ho. destruct t; reflexivity.
    - assert (Hn : normalise X s = ("fresnel" ++ r)%string).
      { apply spells_unique; [|exact Hs]. unfold lowercase. rewrite lower_app, Hl. reflexivity. }
      unfold set_psi_type, guarded. rewrite Hc, Ha. cbn [negb]. cbv zeta. rewrite Hn.
      destruct (lookup psi_table ("fresnel" ++ r)) as [p|] eqn:El; [apply lookup_some in El; exfalso; eapply Hd; eauto|].
      replace (substring 0 7 ("fresnel" ++ r)) with "fresnel"%string by (simpl; destruct r; reflexivity).
      rewrite String.eqb_refl.
      replace (substring 7 (String.length ("fresnel" ++ r) - 7) ("fresnel" ++ r)) with r
        by (simpl; rewrite Nat.sub_0_r; symmetry; apply substring_all).
      rewrite H2. reflexivity.
    - assert (Hn : normalise X s = ("fresnel" ++ r)%string).
      { apply spells_unique; [|exact Hs]. unfold lowercase. rewrite lower_app, Hl. reflexivity. }
      unfold set_psi_type, guarded. rewrite Hc, Ha. cbn [negb]. cbv zeta. rewrite Hn.
      destruct (lookup psi_table ("fresnel" ++ r)) as [p|] eqn:El; [apply lookup_some in El; exfalso; eapply Hd; eauto|].
      replace (substring 0 7 ("fresnel" ++ r)) with "fresnel"%string by (simpl; destruct r; reflexivity).
      rewrite String.eqb_refl.
      replace (substring 7 (String.length ("fresnel" ++ r) - 7) ("fresnel" ++ r)) with r
        by (simpl; rewrite Nat.sub_0_r; symmetry; apply substring_all).
      destruct (Z.eqb_spec (to_uchar X r) 0); [contradiction|]. destruct (Z.eqb_spec (to_uchar X r) 1); [contradiction|].
      destruct (Z.eqb_spec (to_uchar X r) 2); [contradiction|]. reflexivity.
  Qed.
  Lemma perturb_numbers_return msg : forall l n b (t : dtau), 0 <= n -> n + zlen l <= zlen (perturb t) ->
    exists t' b', py_numbers put_perturb msg l n b t = Ok (t', b').
  Proof.
    induction l as [|v l IH]; intros n b t Hn Hl; cbn [py_numbers]; [eauto|].
    assert (Hzl : zlen (v :: l) = zlen l + 1) by (unfold zlen; cbn [List.length]; lia).
    assert (Hp : 0 <= zlen l) by (unfold zlen; lia).
    destruct (py_number v) as [[x b']|]; [|cbn [bind]; eexists _, _; reflexivity].
    unfold put_perturb at 1. destruct (awrite_in (perturb t) n x) as [p' Ep]; [lia|]. rewrite Ep. cbn [bind].
    apply IH; [lia|]. change (perturb (set_perturb t p')) with p'. unfold awrite in Ep. destruct (_ && _); [|discriminate].
    injection Ep as <-. unfold zlen at 2. rewrite lset_length. change (Z.of_nat (List.length (perturb t))) with (zlen (perturb t)). lia.
  Qed.
  Lemma perturb_returns v (t : dtau) : clean t -> zlen (perturb t) = 5 -> exists t' b, get_py_perturb v t = Ok (t', b).
  Proof.
    intros Hc Hp. unfold get_py_perturb. rewrite Hc. destruct v as [v|]; [|rewrite perturb_none by exact Hp; cbn [bind]; eauto].
    destruct v as [s|s|l|z|x|]; try (eexists _, _; reflexivity).
    destruct (zlen l =? 5) eqn:El; cbn [negb]; [|eexists _, _; reflexivity]. apply Z.eqb_eq in El.
    apply perturb_numbers_return; lia.
  Qed.
  Lemma range_returns v (t : dtau) : clean t -> t_alloc L 12 = true -> exists t' b, get_py_range L X (Some v) t = Ok (t', b).
  Proof.
    intros Hc Ha. unfold get_py_range. rewrite Hc.
    assert (Hs : forall s, exists t', set_range_from_string L X (Some s) t = Ok t').
    { intros s. unfold set_range_from_string, guarded. rewrite Hc, Ha. cbn [need orb bind]. destruct (lookup _ _) as [[lo hi]|]; eexists; reflexivity. }
    destruct v as [s|s|l|z|x|]; try (eexists _, _; reflexivity).
    - destruct (Hs s) as (t' & ->). cbn [bind]. eauto.
    - destruct (Hs s) as (t' & ->). cbn [bind]. eauto.
    - destruct (zlen l =? 2) eqn:El; cbn [negb]; [|eexists _, _; reflexivity]. apply Z.eqb_eq in El.
      destruct l as [|u [|w [|c l]]]; try (unfold zlen in El; cbn [List.length] in El; lia). cbn [py_numbers].
      destruct (py_number u) as [[x b]|]; [|cbn [bind]; eexists _, _; reflexivity]. cbn [put_range Z.eqb bind].
      destruct (py_number w) as [[x' b']|]; cbn [bind]; eexists _, _; reflexivity.
  Qed.
  (** Each step returns, and keeps an error. *)
  Lemma steps_failed (t : dtau) sch v w a b : failed t ->
    get_py_perturb v t = Ok (t, false) /\ get_py_range L X w t = Ok (t, false) /\
    set_window_type L X a t = Ok t /\ set_psi_type L X b t = Ok t /\ reconstruction L sch t = Ok t.
  Proof.
    intros [m Hm]. unfold get_py_perturb, get_py_range, set_window_type, set_psi_type, guarded. rewrite Hm.
    do 4 (split; [reflexivity|]). unfold reconstruction.
    assert (K : check_keywords t = Ok t) by (unfold check_keywords, guarded; rewrite Hm; reflexivity).
    rewrite K. cbn [bind]. rewrite (sticky_occ L t m Hm). cbn [bind]. rewrite (sticky_gww L t m Hm). cbn [bind].
    rewrite (sticky_range t m Hm). cbn [bind]. unfold guarded. rewrite Hm. reflexivity.
  Qed.
End Inv.

Lemma nth_error_firstn_lt {A} (l : list A) : forall n i, (i < n)%nat -> nth_error (firstn n l) i = nth_error l i.
Proof.
  induction l as [|x l IH]; intros n i H; [rewrite firstn_nil; reflexivity|].
  destruct n; [lia|]. destruct i; [reflexivity|]. cbn. apply IH. lia.
Qed.
(** All options set. *)
Definition with_options (L : dlib) (t0 : dtau) (a : pyargs) (xs : list double) (lo hi : double) (w : wintype) (p : psitype) (o : Z) : dtau :=
  set_order (set_psinum (set_window (set_normeq (set_range1 (set_range0 (set_perturb
    (get_py_vars (given (a_sigma a) (dfrac 2 10000000000000)) (given (a_ecc a) (dofZ 0)) (given (a_peri a) (dofZ 0))
       (given (a_bfac a) true) (given (a_use_fwd a) false) (given (a_use_norm a) true) t0) xs) lo) hi) (t_normeq L w)) w) p) o.
Lemma with_options_clean L t0 a xs lo hi w p o : clean t0 -> clean (with_options L t0 a xs lo hi w p o).
Proof. unfold clean, with_options, get_py_vars. intros H. rewrite H. cbn. exact H. Qed.
Lemma with_options_configured (L : dlib) X (C : createlib dbl_scalar) (d : dlp dbl_scalar) self_res a (t0 : dtau) xs lo hi w p o : clean t0 ->
  made_from C d (effective_resolution a self_res) t0 -> default_parameters L t0 ->
  perturb_value (a_perturb a) xs -> range_value X (given (a_rng a) (PStr "all")) lo hi ->
  window_named X (given (a_wtype a) "kbmd20"%string) w -> method_named X (given (a_psitype a) "fresnel4"%string) p o ->
  configured L X C d self_res a (with_options L t0 a xs lo hi w p o).
Proof.
  intros Hc M D P R W N. unfold with_options, get_py_vars. rewrite Hc.
  destruct M as [M1 M2 M3 M4 M5 M6 M7 M8]. unfold default_parameters in D.
  constructor; cbn; try assumption; try reflexivity.
  - constructor; cbn; assumption.
  - split; [apply D|apply D].
Qed.
Section Init.
  Variables (L : dlib) (X : strlib) (C : createlib dbl_scalar).
  (** The conversion of a finished object. *)
  Lemma shown sch d self_res a t t' pend : configured L X C d self_res a t -> reconstruction L sch t = Ok t' -> clean t' ->
    exists vi vo va vf,
      numpy (T_in t') (arr_size t') = Ok vi /\ numpy (T_out t') (arr_size t') = Ok vo /\
      expose exposed_fields t' (fun _ => None) = Ok va /\ numpy (T_fwd t') (arr_size t') = Ok vf /\
      shows a self_res t' (mkPydiff va vi vo vf (given (a_resolution a) self_res) (given (a_rng a) (PStr "all"))
        (given (a_wtype a) "kbmd20"%string) (given (a_psitype a) "fresnel4"%string)
        (given (a_sigma a) (dfrac 2 10000000000000)) (given (a_ecc a) (dofZ 0)) (given (a_peri a) (dofZ 0))
        (given (a_factor a) (dfrac 3 4)) (given (a_use_norm a) true) (given (a_bfac a) true) pend).
  Proof.
    intros Cf E Hc. destruct (made_finished L C sch d _ t t' (cf_data _ _ _ _ _ _ _ Cf) E Hc) as (Al & Big & Th & Rx & Fw & U).
    destruct Al as (Sz & Af & (Ti & ETi & ZTi) & (To & ETo & ZTo) & Afw).
    assert (Nf : exists vf, numpy (T_fwd t') (arr_size t') = Ok vf /\ vf = T_fwd t').
    { destruct (use_fwd t) eqn:Ut.
      - destruct (Afw U) as (T & ET & ZT). rewrite ET. exists (Some T). split; [apply numpy_all; exact ZT|reflexivity].
      - rewrite (Fw eq_refl). exists None. auto. }
    destruct Nf as (vf & Nf & Ef).
    set (v := fun f => option_map (firstn (Z.to_nat (arr_size t'))) (arr t' f)).
    destruct (expose_ok t' v exposed_fields (fun _ => None)) as (va & Eva & Hva & _).
    { intros f Hf. unfold v.
      assert (Q : arr t' f = None \/ exists l, arr t' f = Some l /\ arr_size t' <= zlen l).
      { destruct (in_dec (fun x y : rf => ltac:(decide equality)) f aligned_fields) as [I|I].
        - right. destruct (Af f I) as (l & El & Zl). exists l. split; [exact El|lia].
        - destruct (in_dec (fun x y : rf => ltac:(decide equality)) f [RX; RY; RZ]) as [J|J].
          + right. destruct (Rx f J) as (l & El & Zl). exists l. split; [exact El|lia].
          + left. assert (f = TTHR) as -> by (destruct f; try reflexivity; exfalso; first [apply I; cbn; tauto|apply J; cbn; tauto]). exact Th. }
      destruct Q as [->|(l & -> & Q)]; [reflexivity|]. apply numpy_some. exact Q. }
    assert (All : forall f, va f = v f) by (intros f; apply Hva; destruct f; cbn; tauto).
    exists (Some Ti), (Some To), va, vf. rewrite ETi, ETo.
    split; [apply numpy_all; exact ZTi|]. split; [apply numpy_all; exact ZTo|]. split; [exact Eva|]. split; [exact Nf|].
    constructor; cbn [y_in y_out y_fwd y_arr y_resolution y_factor y_rng y_wtype y_psitype y_sigma y_ecc y_peri y_use_norm y_bfac];
      try (symmetry; assumption); try assumption; try (repeat split; reflexivity).
    - intros f Hf. rewrite All. unfold v. destruct (Af f Hf) as (l & El & Zl). rewrite El. cbn [option_map].
      rewrite (proj1 (firstn_zlen l _ (eq_sym Zl))). reflexivity.
    - intros f Hf. destruct (Rx f Hf) as (l & El & Zl). exists l, (firstn (Z.to_nat (arr_size t')) l).
      split; [exact El|]. rewrite All. unfold v. rewrite El. split; [reflexivity|].
      assert (0 <= arr_size t') by (rewrite <- ZTi; apply zlen_nonneg).
      split. { unfold zlen in *. rewrite firstn_length. lia. }
      intros i x Hi. unfold entry. rewrite nth_error_firstn_lt by lia. tauto.
    - rewrite All. unfold v. rewrite Th. reflexivity.
  Qed.

  Notation res_of := effective_resolution.
  (** The constructor after the object was created. *)
  Definition rest (sch : schedule) (self_res : double) (a : pyargs) (y : pydlp) (t0 : dtau) : res pyresult :=
    let t1 := get_py_vars (given (a_sigma a) (dfrac 2 10000000000000)) (given (a_ecc a) (dofZ 0)) (given (a_peri a) (dofZ 0))
                (given (a_bfac a) true) (given (a_use_fwd a) false) (given (a_use_norm a) true) t0 in
    do '(t2, b1) <- get_py_perturb (a_perturb a) t1;
    do '(t3, b2) <- get_py_range L X (Some (given (a_rng a) (PStr "all"))) t2;
    do t4 <- set_window_type L X (Some (given (a_wtype a) "kbmd20"%string)) t3;
    do t5 <- set_psi_type L X (Some (given (a_psitype a) "fresnel4"%string)) t4;
    do t6 <- reconstruction L sch t5;
    match err t6 with
    | Some m => Ok (Raised m)
    | None =>
        do vi <- numpy (T_in t6) (arr_size t6);
        do vo <- numpy (T_out t6) (arr_size t6);
        do va <- expose exposed_fields t6 (fun _ => None);
        do vf <- numpy (T_fwd t6) (arr_size t6);
        if p_history y
        then Ok (Constructed (mkPydiff va vi vo vf (given (a_resolution a) self_res) (given (a_rng a) (PStr "all"))
               (given (a_wtype a) "kbmd20"%string) (given (a_psitype a) "fresnel4"%string)
               (given (a_sigma a) (dfrac 2 10000000000000)) (given (a_ecc a) (dofZ 0)) (given (a_peri a) (dofZ 0))
               (given (a_factor a) (dfrac 3 4)) (given (a_use_norm a) true) (given (a_bfac a) true) (b1 || b2)))
        else UB NullDeref
    end.
  Lemma usable_dlp y n d : full_dlp y n -> carries y d -> d_n d = n -> d_err d = false -> 2 <= n < two64 -> usable d.
  Proof.
    intros F Cr En Ee Hn. split; [exact Ee|]. split; [lia|]. intros g _. destruct (F g) as (l & El & Zl).
    exists l. split; [apply Cr; exact El|rewrite En; apply Z.eq_le_incl; symmetry; exact Zl].
  Qed.
  Lemma conversion_any ok y d : py_dlp_to_c ok (Some y) = Ok (Some d) -> ok = true.
  Proof. destruct ok; [reflexivity|discriminate]. Qed.

  (** Soundness. *)
  Lemma rest_constructed sch self_res a y d t0 o : clean t0 -> sized_args a ->
    made_from C d (res_of a self_res) t0 -> default_parameters L t0 ->
    rest sch self_res a y t0 = Ok (Constructed o) ->
    p_history y = true /\ exists t t', configured L X C d self_res a t /\ clean t /\
      reconstruction L sch t = Ok t' /\ clean t' /\ shows a self_res t' o /\ y_pending o = false.
  Proof.
    intros Hc [Hz1 Hz2] M D E. unfold rest in E. cbv zeta in E.
    set (t1 := get_py_vars _ _ _ _ _ _ t0) in E.
    assert (C1 : clean t1) by (unfold t1, get_py_vars; rewrite Hc; exact Hc).
    assert (P1 : zlen (perturb t1) = 5).
    { unfold t1, get_py_vars. rewrite Hc. cbn [perturb set_use_norm set_use_fwd set_peri set_ecc set_bfac set_sigma].
      destruct D as (_ & _ & _ & -> & _). reflexivity. }
    assert (O1 : order t1 = 0).
    { unfold t1, get_py_vars. rewrite Hc. apply D. }
    apply bind_ok in E. destruct E as ([t2 b1] & E2 & E).
    apply bind_ok in E. destruct E as ([t3 b2] & E3 & E).
    apply bind_ok in E. destruct E as (t4 & E4 & E).
    apply bind_ok in E. destruct E as (t5 & E5 & E).
    apply bind_ok in E. destruct E as (t6 & E6 & E).
    destruct (err t6) as [m|] eqn:C6; [discriminate E|].
    assert (C5 : clean t5) by (destruct (reconstruction_stages L sch t5 t6 E6 C6) as (? & ? & ? & H & _); exact H).
    assert (C4 : clean t4).
    { destruct (clean_or t4) as [H|H]; [exact H|]. destruct (steps_failed L X t4 sch None None None (Some (given (a_psitype a) "fresnel4"%string)) H) as (_ & _ & _ & Q & _).
      rewrite E5 in Q. injection Q as ->. exact C5. }
    assert (C3 : clean t3).
    { destruct (clean_or t3) as [H|H]; [exact H|]. destruct (steps_failed L X t3 sch None None (Some (given (a_wtype a) "kbmd20"%string)) None H) as (_ & _ & Q & _).
      rewrite E4 in Q. injection Q as ->. exact C4. }
    assert (C2 : clean t2).
    { destruct (clean_or t2) as [H|H]; [exact H|]. destruct (steps_failed L X t2 sch None (Some (given (a_rng a) (PStr "all"))) None None H) as (_ & Q & _).
      rewrite E3 in Q. injection Q as -> _. exact C3. }
    destruct (perturb_inv (a_perturb a) t1 t2 b1 C1 P1 Hz2 E2 C2) as (xs & Vx & -> & ->).
    destruct (range_inv L X _ _ t3 b2 C2 Hz1 E3 C3) as (lo & hi & Vr & -> & ->).
    destruct (window_inv L X _ _ t4 C3 E4 C4) as (w & Vw & ->).
    destruct (method_inv L X _ _ t5 C4 O1 E5 C5) as (p & od & Vm & ->).
    pose proof (with_options_configured L X C d self_res a t0 xs lo hi w p od Hc M D Vx Vr Vw Vm) as Cf.
    destruct (shown sch d self_res a _ t6 false Cf E6 C6) as (vi & vo & va & vf & N1 & N2 & N3 & N4 & Sh).
    rewrite N1, N2, N3, N4 in E. cbn [bind] in E.
    destruct (p_history y); [|discriminate E]. split; [reflexivity|]. injection E as <-.
    exists (with_options L t0 a xs lo hi w p od), t6.
    split; [exact Cf|]. split; [exact C5|]. split; [exact E6|]. split; [exact C6|]. split; [exact Sh|reflexivity].
  Qed.
  Lemma init_created ok sch self_res a h y d : a_dlp a = Some y -> py_dlp_to_c ok (Some y) = Ok (Some d) -> d_err d = false ->
    usable d -> dle (res_of a self_res) (dofZ 0) = false -> good_heap h ->
    (k_obj C = false /\ diffrec_init L X C ok sch self_res a h = Ok (Raised "tau: NULL")) \/
    (exists m, diffrec_init L X C ok sch self_res a h = Ok (Raised m) /\ exists f, In f allocated_members /\ k_mem C f = false) \/
    (exists o h1 t0, create_from_dlp L C (Some d) (res_of a self_res) h = Ok (Some o, h1) /\ view o = Ok t0 /\
      made_from C d (res_of a self_res) t0 /\ default_parameters L t0 /\
      (forall m, err t0 = Some m -> diffrec_init L X C ok sch self_res a h = Ok (Raised m)) /\
      (clean t0 -> diffrec_init L X C ok sch self_res a h = rest sch self_res a y t0)).
  Proof.
    intros Ea Ed Ee U R G. unfold diffrec_init. rewrite Ea, Ed. cbn [bind]. rewrite Ee.
    cbv zeta. fold (res_of a self_res).
    destruct (create_usable L C d (res_of a self_res) h U R G) as [(K & E)|(K & o & h1 & E & _ & _ & Q)]; rewrite E; cbn [bind].
    - left. auto.
    - right. destruct Q as [(Er & m & I & Km)|(_ & t0 & t & V & Er & _ & _ & _ & M & D)].
      + left. destruct (x_err o) as [e|]; [|congruence]. exists e. split; [reflexivity|]. eauto.
      + right. exists o, h1, t. split; [reflexivity|]. split; [exact V|]. split; [exact M|]. split; [exact D|].
        rewrite Er. split.
        * intros e He. rewrite He. reflexivity.
        * intros Hc. rewrite Hc, V. cbn [bind]. reflexivity.
  Qed.
  Lemma init_refused ok sch self_res a h y d : a_dlp a = Some y -> py_dlp_to_c ok (Some y) = Ok (Some d) -> good_heap h ->
    (d_err d = true \/ d_n d <= 1 \/ dle (res_of a self_res) (dofZ 0) = true) ->
    exists m, diffrec_init L X C ok sch self_res a h = Ok (Raised m).
  Proof.
    intros Ea Ed G Q. unfold diffrec_init. rewrite Ea, Ed. cbn [bind]. destruct (d_err d) eqn:Ee; [eauto|].
    cbv zeta. fold (res_of a self_res).
    destruct (create_refused L C (Some d) (res_of a self_res) h) as [(K & E)|(K & o & h1 & E & _ & _ & Er & _)]; auto.
    - right. exists d. split; [reflexivity|]. destruct Q as [Q|[Q|Q]]; [discriminate Q|auto|auto].
    - rewrite E. cbn [bind]. eauto.
    - rewrite E. cbn [bind]. destruct (x_err o) as [e|]; [eauto|congruence].
  Qed.
  Lemma constructed ok sch self_res a h o : good_heap h -> sized_args a ->
    (forall y l, a_dlp a = Some y -> p_attr y "rho_km_vals" = AArray l -> zlen l < two64) ->
    diffrec_init L X C ok sch self_res a h = Ok (Constructed o) ->
    exists y d t t', a_dlp a = Some y /\ p_history y = true /\ full_dlp y (d_n d) /\ 2 <= d_n d /\ carries y d /\
      dle (res_of a self_res) (dofZ 0) = false /\
      configured L X C d self_res a t /\ clean t /\
      reconstruction L sch t = Ok t' /\ clean t' /\ shows a self_res t' o /\ y_pending o = false.
  Proof.
    intros G Hz Hs E. assert (E' := E). unfold diffrec_init in E. destruct (a_dlp a) as [y|] eqn:Ea; [|discriminate E].
    apply bind_ok in E. destruct E as (p & Ep & E). destruct p as [d|]; [|discriminate E].
    destruct (d_err d) eqn:Ee; [discriminate E|]. clear E.
    assert (ok = true) by (eapply conversion_any; exact Ep). subst ok.
    destruct (conversion_error y d Ep Ee) as [F Cr].
    assert (Hn : d_n d < two64).
    { destruct (F dRHO) as (l & El & Zl). cbn in El. specialize (Hs y l eq_refl El). lia. }
    assert (Q : ~ (d_err d = true \/ d_n d <= 1 \/ dle (res_of a self_res) (dofZ 0) = true)).
    { intros Q. destruct (init_refused true sch self_res a h y d Ea Ep G Q) as (m & E). rewrite E in E'. discriminate. }
    assert (R : dle (res_of a self_res) (dofZ 0) = false) by (destruct (dle (res_of a self_res) (dofZ 0)); [exfalso; apply Q; auto|reflexivity]).
    assert (Hn2 : 2 <= d_n d) by lia.
    assert (U : usable d) by (eapply usable_dlp; eauto; lia).
    destruct (init_created true sch self_res a h y d Ea Ep Ee U R G) as [(_ & E)|[(m & E & _)|(o' & h1 & t0 & _ & _ & M & D & Er & E)]];
      try (rewrite E' in E; discriminate E).
    destruct (clean_or t0) as [C0|[m C0]]; [|specialize (Er m C0); rewrite E' in Er; discriminate Er].
    rewrite (E C0) in E'. destruct (rest_constructed sch self_res a y d t0 o C0 Hz M D E') as (Hh & t & t' & Rr).
    exists y, d, t, t'. tauto.
  Qed.

  (** Completeness. *)
  Lemma rest_runs sch self_res a y d t0 xs lo hi w p od : clean t0 ->
    made_from C d (res_of a self_res) t0 -> default_parameters L t0 ->
    t_alloc L 10 = true -> t_alloc L 11 = true -> t_alloc L 12 = true ->
    perturb_value (a_perturb a) xs -> range_value X (given (a_rng a) (PStr "all")) lo hi ->
    window_named X (given (a_wtype a) "kbmd20"%string) w -> method_named X (given (a_psitype a) "fresnel4"%string) p od ->
    let t := with_options L t0 a xs lo hi w p od in
    configured L X C d self_res a t /\ clean t /\
    forall t', reconstruction L sch t = Ok t' ->
      (forall m, err t' = Some m -> rest sch self_res a y t0 = Ok (Raised m)) /\
      (clean t' -> p_history y = true -> exists o, rest sch self_res a y t0 = Ok (Constructed o) /\ shows a self_res t' o).
  Proof.
    intros Hc M D A10 A11 A12 Vx Vr Vw Vm t.
    assert (Cf : configured L X C d self_res a t) by (apply with_options_configured; auto).
    assert (Ct : clean t) by (apply with_options_clean; exact Hc).
    split; [exact Cf|]. split; [exact Ct|].
    assert (E : rest sch self_res a y t0 =
      do t6 <- reconstruction L sch t;
      match err t6 with
      | Some m => Ok (Raised m)
      | None =>
          do vi <- numpy (T_in t6) (arr_size t6);
          do vo <- numpy (T_out t6) (arr_size t6);
          do va <- expose exposed_fields t6 (fun _ => None);
          do vf <- numpy (T_fwd t6) (arr_size t6);
          if p_history y
          then Ok (Constructed (mkPydiff va vi vo vf (given (a_resolution a) self_res) (given (a_rng a) (PStr "all"))
                 (given (a_wtype a) "kbmd20"%string) (given (a_psitype a) "fresnel4"%string)
                 (given (a_sigma a) (dfrac 2 10000000000000)) (given (a_ecc a) (dofZ 0)) (given (a_peri a) (dofZ 0))
                 (given (a_factor a) (dfrac 3 4)) (given (a_use_norm a) true) (given (a_bfac a) true) false))
          else UB NullDeref
      end).
    { unfold rest. cbv zeta. set (t1 := get_py_vars _ _ _ _ _ _ t0).
      assert (C1 : clean t1) by (unfold t1, get_py_vars; rewrite Hc; exact Hc).
      assert (P1 : zlen (perturb t1) = 5).
      { unfold t1, get_py_vars. rewrite Hc. cbn [perturb set_use_norm set_use_fwd set_peri set_ecc set_bfac set_sigma].
        destruct D as (_ & _ & _ & -> & _). reflexivity. }
      assert (O1 : order t1 = 0) by (unfold t1, get_py_vars; rewrite Hc; apply D).
      rewrite (perturb_value_ok (a_perturb a) xs t1 C1 P1 Vx). cbn [bind].
      rewrite (range_value_ok L X _ lo hi (set_perturb t1 xs) C1 A12 Vr). cbn [bind].
      rewrite (window_ok L X _ w (set_range1 (set_range0 (set_perturb t1 xs) lo) hi) C1 A10 Vw). cbn [bind].
      rewrite (method_ok L X _ p od (set_window (set_normeq (set_range1 (set_range0 (set_perturb t1 xs) lo) hi) (t_normeq L w)) w) C1 A11 O1 Vm). cbn [bind].
      reflexivity. }
    intros t' Et. rewrite E, Et. cbn [bind]. split.
    - intros m Hm. rewrite Hm. reflexivity.
    - intros Hc' Hh. rewrite Hc', Hh.
      destruct (shown sch d self_res a t t' false Cf Et Hc') as (vi & vo & va & vf & N1 & N2 & N3 & N4 & Sh).
      rewrite N1, N2, N3, N4. cbn [bind]. eexists. split; [reflexivity|exact Sh].
  Qed.
  (** An option that names nothing. *)
  Lemma rest_invalid sch self_res a y d t0 : clean t0 -> sized_args a ->
    made_from C d (res_of a self_res) t0 -> default_parameters L t0 ->
    t_alloc L 10 = true -> t_alloc L 11 = true -> t_alloc L 12 = true ->
    some_option_invalid X a ->
    exists m, rest sch self_res a y t0 = Ok (Raised m).
  Proof.
    intros Hc [Hz1 Hz2] M D A10 A11 A12 Bad. unfold rest. cbv zeta. set (t1 := get_py_vars _ _ _ _ _ _ t0).
    assert (C1 : clean t1) by (unfold t1, get_py_vars; rewrite Hc; exact Hc).
    assert (P1 : zlen (perturb t1) = 5).
    { unfold t1, get_py_vars. rewrite Hc. cbn [perturb set_use_norm set_use_fwd set_peri set_ecc set_bfac set_sigma].
      destruct D as (_ & _ & _ & -> & _). reflexivity. }
    assert (O1 : order t1 = 0) by (unfold t1, get_py_vars; rewrite Hc; apply D).
    (* failed objects pass through *)
    assert (F5 : forall t5 b1 b2, failed t5 -> exists m, (do t6 <- reconstruction L sch t5;
      match err t6 with
      | Some m => Ok (Raised m)
      | None =>
          do vi <- numpy (T_in t6) (arr_size t6);
          do vo <- numpy (T_out t6) (arr_size t6);
          do va <- expose exposed_fields t6 (fun _ => None);
          do vf <- numpy (T_fwd t6) (arr_size t6);
          if p_history y
          then Ok (Constructed (mkPydiff va vi vo vf (given (a_resolution a) self_res) (given (a_rng a) (PStr "all"))
                 (given (a_wtype a) "kbmd20"%string) (given (a_psitype a) "fresnel4"%string)
                 (given (a_sigma a) (dfrac 2 10000000000000)) (given (a_ecc a) (dofZ 0)) (given (a_peri a) (dofZ 0))
                 (given (a_factor a) (dfrac 3 4)) (given (a_use_norm a) true) (given (a_bfac a) true) (b1 || b2)))
          else UB NullDeref
      end) = Ok (Raised m)).
    { intros t5 b1 b2 H. destruct (steps_failed L X t5 sch None None None None H) as (_ & _ & _ & _ & Q). rewrite Q. cbn [bind].
      destruct H as [m Hm]. rewrite Hm. eauto. }
    assert (S4 : forall t4, failed t4 -> set_psi_type L X (Some (given (a_psitype a) "fresnel4"%string)) t4 = Ok t4)
      by (intros t4 H; apply (steps_failed L X t4 sch None None None _ H)).
    assert (S3 : forall t3, failed t3 -> set_window_type L X (Some (given (a_wtype a) "kbmd20"%string)) t3 = Ok t3)
      by (intros t3 H; apply (steps_failed L X t3 sch None None _ None H)).
    assert (S2 : forall t2, failed t2 -> get_py_range L X (Some (given (a_rng a) (PStr "all"))) t2 = Ok (t2, false))
      by (intros t2 H; apply (steps_failed L X t2 sch None _ None None H)).
    destruct (perturb_returns (a_perturb a) t1 C1 P1) as (t2 & b1 & E2). rewrite E2. cbn [bind].
    destruct (clean_or t2) as [C2|H2].
    2:{ rewrite (S2 t2 H2). cbn [bind]. rewrite (S3 t2 H2). cbn [bind]. rewrite (S4 t2 H2). cbn [bind]. apply F5. exact H2. }
    destruct (perturb_inv (a_perturb a) t1 t2 b1 C1 P1 Hz2 E2 C2) as (xs & Vx & -> & ->).
    destruct Bad as [Bad|Bad]; [exfalso; eapply Bad; exact Vx|].
    destruct (range_returns L X (given (a_rng a) (PStr "all")) (set_perturb t1 xs) C2 A12) as (t3 & b2 & E3). rewrite E3. cbn [bind].
    destruct (clean_or t3) as [C3|H3].
    2:{ rewrite (S3 t3 H3). cbn [bind]. rewrite (S4 t3 H3). cbn [bind]. apply F5. exact H3. }
    destruct (range_inv L X _ _ t3 b2 C2 Hz1 E3 C3) as (lo & hi & Vr & -> & ->).
    destruct Bad as [Bad|Bad]; [exfalso; eapply Bad; exact Vr|].
    match goal with |- context[set_window_type L X ?s ?u] => assert (Q : exists t4, set_window_type L X s u = Ok t4) end.
    { unfold set_window_type, guarded. rewrite C3, A10. cbn [negb]. destruct (lookup _ _); eexists; reflexivity. }
    destruct Q as (t4 & E4). rewrite E4. cbn [bind].
    destruct (clean_or t4) as [C4|H4]; [|rewrite (S4 t4 H4); cbn [bind]; apply F5; exact H4].
    destruct (window_inv L X _ _ t4 C3 E4 C4) as (w & Vw & ->).
    destruct Bad as [Bad|Bad]; [exfalso; eapply Bad; exact Vw|].
    match goal with |- context[set_psi_type L X ?s ?u] => assert (Q : exists t5, set_psi_type L X s u = Ok t5) end.
    { unfold set_psi_type, guarded. rewrite C4, A11. cbn [negb]. cbv zeta. destruct (lookup _ _); [eexists; reflexivity|].
      destruct (String.eqb _ _); [|eexists; reflexivity]. destruct (_ =? 0); [eexists; reflexivity|]. destruct (_ =? 1); [eexists; reflexivity|]. destruct (_ =? 2); eexists; reflexivity. }
    destruct Q as (t5 & E5). rewrite E5. cbn [bind].
    destruct (clean_or t5) as [C5|H5]; [|apply F5; exact H5].
    destruct (method_inv L X _ _ t5 C4 O1 E5 C5) as (p & od & Vm & _). exfalso. eapply Bad; exact Vm.
  Qed.

  (** The whole call, in doubles. *)
  Lemma whole sch self_res a h y n d : minmax_law L -> min_law L ->
    a_dlp a = Some y -> full_dlp y n -> 2 <= n < two64 -> p_history y = true ->
    py_dlp_to_c true (Some y) = Ok (Some d) ->
    notnan (res_of a self_res) -> dle (res_of a self_res) (dofZ 0) = false -> good_heap h ->
    (forall g, In g [dPHI; dB; dD; dRHO] -> samples_are d g notnan) ->
    k_obj C = true -> (forall m, In m allocated_members -> k_mem C m = true) ->
    t_alloc L 10 = true -> t_alloc L 11 = true -> t_alloc L 12 = true ->
    (~ input_geometry_ok d (res_of a self_res) -> exists m, diffrec_init L X C true sch self_res a h = Ok (Raised m)) /\
    (sized_args a -> some_option_invalid X a -> exists m, diffrec_init L X C true sch self_res a h = Ok (Raised m)) /\
    (input_geometry_ok d (res_of a self_res) -> forall xs lo hi w p o,
       perturb_value (a_perturb a) xs -> range_value X (given (a_rng a) (PStr "all")) lo hi ->
       window_named X (given (a_wtype a) "kbmd20"%string) w -> method_named X (given (a_psitype a) "fresnel4"%string) p o ->
     exists t, configured L X C d self_res a t /\ clean t /\
       perturb t = xs /\ range0 t = lo /\ range1 t = hi /\ window t = w /\ psinum t = p /\ order t = o /\
       forall t', reconstruction L sch t = Ok t' ->
         (failed t' -> exists m, diffrec_init L X C true sch self_res a h = Ok (Raised m)) /\
         (clean t' -> exists o, diffrec_init L X C true sch self_res a h = Ok (Constructed o) /\ shows a self_res t' o)).
  Proof.
    intros LM LN Ea F Hn Hh Ep Rn R G NN K A A10 A11 A12.
    destruct (conversion y) as (Cv & _ & _). destruct (Cv n F) as (d' & Ep' & Ee & En & Cr). rewrite Ep in Ep'. injection Ep' as <-.
    assert (U : usable d) by (eapply usable_dlp; eauto).
    destruct (init_created true sch self_res a h y d Ea Ep Ee U R G) as [(K' & _)|[(m & _ & f & I & Kf)|(o & h1 & t0 & E & V & M & D & Er & Ec)]].
    { congruence. } { rewrite (A f I) in Kf. discriminate. }
    destruct (acceptance L LM LN C d (res_of a self_res) h U Rn R G NN K A) as (o' & h1' & t' & E' & V' & _ & Geo).
    rewrite E in E'. injection E' as <- <-. rewrite V in V'. injection V' as <-.
    split; [|split].
    - intros NG. destruct (clean_or t0) as [C0|[m C0]]; [exfalso; apply NG, Geo; exact C0|]. exists m. apply Er. exact C0.
    - intros Hz Bad. destruct (clean_or t0) as [C0|[m C0]]; [|exists m; apply Er; exact C0].
      rewrite (Ec C0). eapply rest_invalid; eauto.
    - intros Gk xs lo hi w p od Vx Vr Vw Vm. assert (C0 : clean t0) by (apply Geo; exact Gk).
      destruct (rest_runs sch self_res a y d t0 xs lo hi w p od C0 M D A10 A11 A12 Vx Vr Vw Vm) as (Cf & Ct & Run).
      eexists. split; [exact Cf|]. split; [exact Ct|]. do 6 (split; [reflexivity|]). rewrite (Ec C0).
      intros t' Et. destruct (Run t' Et) as [Q1 Q2]. split; [intros [m Hm]; eauto|auto].
  Qed.
  (** With C54. *)
  Lemma whole_posed sch self_res a h y n d xs lo hi w p o : minmax_law L -> min_law L -> max_law L ->
    a_dlp a = Some y -> full_dlp y n -> 2 <= n < two64 -> p_history y = true ->
    py_dlp_to_c true (Some y) = Ok (Some d) ->
    notnan (res_of a self_res) -> dle (res_of a self_res) (dofZ 0) = false -> good_heap h ->
    (forall g, In g [dPHI; dB; dD; dRHO] -> samples_are d g notnan) ->
    k_obj C = true -> (forall m, In m allocated_members -> k_mem C m = true) ->
    (forall site, t_alloc L site = true) -> valid_schedule sch ->
    input_geometry_ok d (res_of a self_res) ->
    perturb_value (a_perturb a) xs -> range_value X (given (a_rng a) (PStr "all")) lo hi ->
    window_named X (given (a_wtype a) "kbmd20"%string) w -> method_named X (given (a_psitype a) "fresnel4"%string) p o ->
    exists t, configured L X C d self_res a t /\ clean t /\
      perturb t = xs /\ range0 t = lo /\ range1 t = hi /\ window t = w /\ psinum t = p /\ order t = o /\
      forall rho Fk v h' W, posed L t rho Fk v h' W -> method_fits L t rho Fk v h' ->
      exists t' tw out, diffrec_init L X C true sch self_res a h = Ok (Constructed out) /\ shows a self_res t' out /\
        aligned t' /\ 0 < n_used t' /\ prepared_from L t tw Fk v (start t') (n_used t') /\
        (forall i, selected t' i <-> wanted t rho i /\ exists j, i < j /\ wanted t rho j) /\
        (forall f l, In f aligned_fields -> arr tw f = Some l ->
           exists l', y_arr out f = Some l' /\ piece l (start t') (n_used t') l') /\
        (exists T', y_out out = Some T' /\ forall k, 0 <= k < n_used t' ->
           exists x, entry T' k (Some x) /\ method_value L tw rho (start t' + k) x).
  Proof.
    intros LM LN LX Ea F Hn Hh Ep Rn R G NN K A AA Vs Gk Vx Vr Vw Vm.
    destruct (whole sch self_res a h y n d LM LN Ea F Hn Hh Ep Rn R G NN K A (AA 10) (AA 11) (AA 12)) as (_ & _ & Q).
    destruct (Q Gk xs lo hi w p o Vx Vr Vw Vm) as (t & Cf & Ct & H1 & H2 & H3 & H4 & H5 & H6 & Run).
    exists t. do 8 (split; [assumption|]). intros rho Fk v h' W P Mf.
    destruct (reconstruction_posed L sch t rho Fk v h' W LM LX AA Vs P Mf) as (t' & tw & E & C' & Al & N & Pf & Sel & Arr & _ & Out).
    destruct (Run t' E) as [_ Cn]. destruct (Cn C') as (out & Eo & Sh). exists t', tw, out.
    split; [exact Eo|]. split; [exact Sh|]. split; [exact Al|]. split; [exact N|]. split; [exact Pf|]. split; [exact Sel|]. split.
    - intros f l Hf El. rewrite (sh_arrays _ _ _ _ Sh f Hf). apply Arr; assumption.
    - rewrite (sh_out _ _ _ _ Sh). exact Out.
  Qed.


  (** The data of a configured object. *)
  Lemma entries_eq {A} : forall l m : list A, zlen l = zlen m ->
    (forall i, 0 <= i < zlen m -> exists x, entry l i x /\ entry m i x) -> l = m.
  Proof.
    induction l as [|u l IH]; intros [|w m] Hz H; try reflexivity; try (unfold zlen in Hz; cbn [List.length] in Hz; lia).
    assert (Hz' : zlen l = zlen m) by (unfold zlen in *; cbn [List.length] in *; lia).
    assert (Hs : zlen (w :: m) = zlen m + 1) by (unfold zlen; cbn [List.length]; lia).
    assert (Hp := zlen_nonneg m).
    f_equal.
    - destruct (H 0 ltac:(lia)) as (x & [_ H1] & [_ H2]). cbn in H1, H2. congruence.
    - apply IH; [exact Hz'|]. intros i Hi. destruct (H (i + 1) ltac:(lia)) as (x & [_ H1] & [_ H2]). exists x.
      replace (Z.to_nat (i + 1)) with (Datatypes.S (Z.to_nat i)) in H1, H2 by lia. split; split; try lia; assumption.
  Qed.
  Lemma made_data y n d res (t : dtau) : full_dlp y n -> d_n d = n -> carries y d -> made_from C d res t ->
    (forall f g l, In (f, g) same_arrays -> p_attr y (attribute g) = AArray l -> arr t f = Some l) /\
    has_sizes t sampled /\
    (exists T, T_in t = Some T /\ zlen T = arr_size t /\ forall c, In c T -> c <> None).
  Proof.
    intros F En Cr M. assert (Sz := mf_size _ _ _ _ M).
    assert (A : forall f g l, In (f, g) same_arrays -> p_attr y (attribute g) = AArray l -> arr t f = Some l).
    { intros f g l I El. destruct (mf_copies _ _ _ _ M f g I) as [(m & Em & Zm) Q]. rewrite Em. f_equal. apply entries_eq.
      - destruct (F g) as (l' & El' & Zl'). rewrite El in El'. injection El' as <-. change (car dbl_scalar) with double in *. lia.
      - destruct (F g) as (l' & El' & Zl'). rewrite El in El'. injection El' as <-. intros i Hi0. assert (Hi : 0 <= i < d_n d) by (change (car dbl_scalar) with double in *; lia).
        destruct (Q i Hi) as (x & (l1 & E1 & H1) & (l2 & E2 & H2)). rewrite (Cr g l El) in E1. injection E1 as <-.
        rewrite Em in E2. injection E2 as <-. eauto. }
    split; [exact A|]. split.
    - intros f Hf. rewrite Sz.
      assert (Q : f = KV \/ f = FKM \/ exists g, In (f, g) same_arrays).
      { cbn in Hf. repeat (destruct Hf as [<-|Hf]; [first [left; reflexivity|right; left; reflexivity|right; right; eexists; cbn; tauto]|]). contradiction. }
      destruct Q as [->|[->|(g & Q)]].
      + apply (mf_wave _ _ _ _ M).
      + apply (mf_scale _ _ _ _ M).
      + apply (mf_copies _ _ _ _ M f g Q).
    - destruct (mf_profile _ _ _ _ M) as (T & ET & ZT & Q). exists T. split; [exact ET|]. split; [congruence|].
      intros c Hc. apply In_nth_error in Hc. destruct Hc as [k Hk].
      assert (B : 0 <= Z.of_nat k < d_n d).
      { rewrite <- ZT. unfold zlen. split; [lia|]. apply inj_lt. apply nth_error_Some. congruence. }
      destruct (Q _ B) as (p & ph & _ & _ & [_ H]). rewrite Nat2Z.id in H. rewrite Hk in H. injection H as ->. discriminate.
  Qed.
End Init.
