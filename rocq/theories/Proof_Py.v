(** * Proof_Py: proofs of C55 and C56. *)
From Coq Require Import List ZArith Bool String Reals Lia.
From Verif Require Import Base BaseFacts Dbl DblFacts Scalar Model_TauRec Model_Checks Model_Strings Model_Create Model_Py
  Spec_Tau Spec_Select Spec_Strings Spec_Recon Spec_Create Spec_Py Proof_Checks Proof_Strings.
Import ListNotations.
Open Scope Z_scope.

(** ** C55 *)

Lemma extract_table_is : extract_table = map (fun g => (g, attribute g)) (tl reading_order).
Proof. reflexivity. Qed.
Lemma in_order g : In g reading_order.
Proof. destruct g; cbn; tauto. Qed.
Lemma dlpf_eqb_eq f g : dlpf_eqb f g = true <-> f = g.
Proof. split; [destruct f, g; cbn; congruence|intros ->; destruct g; reflexivity]. Qed.
Lemma dlpf_dec (f g : dlpf) : {f = g} + {f <> g}.
Proof. decide equality. Qed.
Lemma holds_dec y n g : holds y n g \/ ~ holds y n g.
Proof.
  unfold holds. destruct (p_attr y (attribute g)) as [| | |l] eqn:E; try (right; intros (l & H & _); discriminate).
  destruct (Z.eq_dec (zlen l) n) as [H|H]; [left; eauto|]. right. intros (l' & H' & H''). injection H' as <-. contradiction.
Qed.

Notation ext gs := (extract_all (map (fun g => (g, attribute g)) gs)).
Lemma extract_err y : forall gs d, d_err d = true -> exists d', ext gs y d = Ok d' /\ d_err d' = true.
Proof.
  induction gs as [|g gs IH]; intros d Hd; [exists d; split; auto|].
  cbn [map extract_all]. unfold extract_data. rewrite Hd. cbn [bind]. apply IH. exact Hd.
Qed.
Lemma extract_good y n : forall gs d, d_err d = false -> d_n d = n -> (forall g, In g gs -> holds y n g) ->
  exists d', ext gs y d = Ok d' /\ d_err d' = false /\ d_n d' = n /\
    (forall g l, In g gs -> p_attr y (attribute g) = AArray l -> d_arr d' g = Some l) /\
    (forall g, ~ In g gs -> d_arr d' g = d_arr d g).
Proof.
  induction gs as [|g gs IH]; intros d Hd Hn Hg; [exists d; repeat split; auto; intros g l []|].
  cbn [map extract_all]. unfold extract_data. rewrite Hd.
  destruct (Hg g ltac:(left; reflexivity)) as (l & El & Ll). rewrite El, Hn, Ll, Z.eqb_refl. cbn [bind].
  destruct (IH (d_put d (dlpf_eqb g) (Some l))) as (d' & E & A & B & Cc & D); auto.
  { intros g' Hg'. apply Hg. right; auto. }
  exists d'. split; [exact E|]. split; [exact A|]. split; [exact B|]. split.
  - intros g' l' Hg' El'. destruct (in_dec dlpf_dec g' gs) as [H|H]; [apply Cc; auto|].
    destruct Hg' as [->|Hg']; [|contradiction]. rewrite (D g' H). cbn. rewrite (proj2 (dlpf_eqb_eq g' g') eq_refl). congruence.
  - intros g' Hg'. rewrite D by (intros H; apply Hg'; right; auto). cbn.
    destruct (dlpf_eqb g g') eqn:Eg; auto. apply dlpf_eqb_eq in Eg. subst. exfalso. apply Hg'. left; auto.
Qed.
Lemma extract_problem y n g post : forall pre d, d_err d = false -> d_n d = n -> (forall g', In g' pre -> holds y n g') ->
  ~ holds y n g ->
  match p_attr y (attribute g) with
  | AOther | ABad => ext (pre ++ g :: post) y d = UB NullDeref
  | _ => exists d', ext (pre ++ g :: post) y d = Ok d' /\ d_err d' = true
  end.
Proof.
  induction pre as [|p pre IH]; intros d Hd Hn Hp Hg.
  - cbn [app map extract_all]. unfold extract_data. rewrite Hd.
    destruct (p_attr y (attribute g)) as [| | |l] eqn:E; try reflexivity.
    + cbn [bind]. apply extract_err. reflexivity.
    + destruct (zlen l =? d_n d) eqn:El.
      * exfalso. apply Hg. exists l. split; auto. apply Z.eqb_eq in El. congruence.
      * cbn [bind]. apply extract_err. reflexivity.
  - cbn [app map extract_all]. unfold extract_data at 1 2 3 4. rewrite Hd.
    destruct (Hp p ltac:(left; reflexivity)) as (l & El & Ll). rewrite El, Hn, Ll, Z.eqb_refl. cbn [bind].
    apply IH; auto. intros g' Hg'. apply Hp. right; auto.
Qed.

Lemma conversion y :
  (forall n, full_dlp y n -> exists d, py_dlp_to_c true (Some y) = Ok (Some d) /\
     d_err d = false /\ d_n d = n /\ carries y d) /\
  (forall n g, g <> dRHO -> first_problem y n g ->
     match p_attr y (attribute g) with
     | AOther | ABad => py_dlp_to_c true (Some y) = UB NullDeref
     | _ => exists d, py_dlp_to_c true (Some y) = Ok (Some d) /\ d_err d = true
     end) /\
  ((forall l, p_attr y "rho_km_vals" <> AArray l) ->
     exists d, py_dlp_to_c true (Some y) = Ok (Some d) /\ d_err d = true).
Proof.
  unfold py_dlp_to_c. cbn [negb]. rewrite extract_table_is. split; [|split].
  - intros n Hf. destruct (Hf dRHO) as (l & El & Ll). cbn in El. rewrite El.
    destruct (extract_good y n (tl reading_order) (mkDlp (S := dbl_scalar) (fun g => if dlpf_eqb dRHO g then Some l else None) (zlen l) false))
      as (d & E & A & B & Cc & D); auto.
    rewrite E. cbn [bind]. exists d. split; [reflexivity|]. split; [exact A|]. split; [exact B|].
    intros g l' El'. destruct (dlpf_dec g dRHO) as [->|Hg].
    + rewrite D by (cbn; intuition discriminate). cbn in El' |- *. congruence.
    + apply Cc; auto. destruct (in_order g) as [H|H]; [congruence|exact H].
  - intros n g Hg (before & after & E & Hb & Hn).
    destruct before as [|b before]; [cbn in E; injection E as E _; congruence|].
    cbn in E. injection E as <- E. change (tl reading_order) with [dPNORM; dPHASE; dPHI; dPHIRL; dB; dD; dFSKY; dRHODOT; dTOET; dTRET; dTSET;
   dRX; dRY; dRZ; dCPOLE; dCTIM; dRAWTHR]. rewrite E.
    destruct (Hb dRHO ltac:(left; reflexivity)) as (l & El & Ll). cbn in El. rewrite El.
    pose proof (extract_problem y n g after before (mkDlp (S := dbl_scalar) (fun g => if dlpf_eqb dRHO g then Some l else None) (zlen l) false)
      eq_refl Ll (fun g' H => Hb g' (or_intror H)) Hn) as P.
    destruct (p_attr y (attribute g)); try (rewrite P; reflexivity);
      destruct P as (d & Ed & Hd); rewrite Ed; cbn [bind]; exists d; auto.
  - intros H. destruct (p_attr y "rho_km_vals") as [| | |l]; try (exists (d_fail (mkDlp (S:=dbl_scalar) (fun _ => None) 0 false)); auto; fail).
    exfalso. eapply H; reflexivity.
Qed.
Lemma conversion_cases y :
  (exists n, full_dlp y n) \/ (exists n g, g <> dRHO /\ first_problem y n g) \/
  (forall l, p_attr y "rho_km_vals" <> AArray l).
Proof.
  destruct (p_attr y "rho_km_vals") as [| | |l] eqn:E; try (right; right; discriminate).
  set (n := zlen l).
  assert (H0 : holds y n dRHO) by (exists l; auto).
  assert (K : forall post pre, reading_order = (pre ++ post)%list -> (forall g, In g pre -> holds y n g) ->
    full_dlp y n \/ exists g, first_problem y n g).
  { induction post as [|g post IH]; intros pre Ep Hp.
    - left. intros g. apply Hp. rewrite app_nil_r in Ep. rewrite <- Ep. apply in_order.
    - destruct (holds_dec y n g) as [H|H].
      + apply (IH (pre ++ [g])%list); [rewrite <- app_assoc; exact Ep|]. intros g' Hg'. apply in_app_iff in Hg'.
        destruct Hg' as [Hg'|[<-|[]]]; auto.
      + right. exists g. exists pre, post. auto. }
  destruct (K reading_order [] eq_refl) as [F|[g F]]; [intros g []|left; eauto|].
  right. left. exists n, g. split; [|exact F]. intros ->. destruct F as (a & b & _ & _ & F). contradiction.
Qed.
Lemma conversion_error y d : py_dlp_to_c true (Some y) = Ok (Some d) -> d_err d = false ->
  full_dlp y (d_n d) /\ carries y d.
Proof.
  intros E Hd. destruct (conversion y) as (A & B & Cc). destruct (conversion_cases y) as [[n F]|[(n & g & Hg & F)|F]].
  - destruct (A n F) as (d' & E' & _ & Hn & Hc). rewrite E in E'. injection E' as <-. rewrite Hn. auto.
  - specialize (B n g Hg F). rewrite E in B.
    destruct (p_attr y (attribute g)); try discriminate B; destruct B as (d' & E' & Hd'); injection E' as <-; congruence.
  - destruct (Cc F) as (d' & E' & Hd'). rewrite E in E'. injection E' as <-. congruence.
Qed.

(** ** C56 *)

Lemma number_py v x : number v x -> py_number v = Some (x, false).
Proof. intros [y|z F]; [reflexivity|]. cbn. unfold finite in F. rewrite F. reflexivity. Qed.
Lemma py_number_none v : (forall x, ~ number v x) -> (forall z, v = PInt z -> finite (dofZ z)) -> py_number v = None.
Proof.
  intros H Hz. destruct v; try reflexivity.
  - exfalso. apply (H (dofZ z)). constructor. apply Hz. reflexivity.
  - exfalso. apply (H x). constructor.
Qed.
Lemma py_number_cases v : (forall z, v = PInt z -> finite (dofZ z)) ->
  (exists x, number v x /\ py_number v = Some (x, false)) \/ ((forall x, ~ number v x) /\ py_number v = None).
Proof.
  intros Hz. destruct v as [s|s|l|z|x|].
  1,2,3,6: right; split; [intros x Hx; inversion Hx|reflexivity].
  - left. assert (Hn : number (PInt z) (dofZ z)) by (constructor; apply Hz; reflexivity). eexists. split; [exact Hn|apply number_py; exact Hn].
  - left. exists x. split; [constructor|reflexivity].
Qed.

Section Values.
  Variables (L : dlib) (X : strlib).
  Lemma range_value_ok v lo hi (t : dtau) : clean t -> t_alloc L 12 = true -> range_value X v lo hi ->
    get_py_range L X (Some v) t = Ok (set_range1 (set_range0 t lo) hi, false).
  Proof.
    intros Hc Ha H. unfold get_py_range. rewrite Hc. destruct H as [s k l0 h0 Hk Hs|s k l0 h0 Hk Hs|u w x y Hx Hy].
    - destruct (set_range_exact X L s t Hc Ha) as [H _]. rewrite (H k l0 h0 Hk Hs). reflexivity.
    - destruct (set_range_exact X L s t Hc Ha) as [H _]. rewrite (H k l0 h0 Hk Hs). reflexivity.
    - cbn [py_numbers zlen List.length Z.of_nat negb Z.eqb]. change (negb (zlen [u; w] =? 2)) with false. cbn iota.
      cbn [py_numbers]. rewrite (number_py u x Hx). cbn [put_range Z.eqb bind orb].
      rewrite (number_py w y Hy). reflexivity.
  Qed.
  Lemma range_value_bad v (t : dtau) : clean t -> t_alloc L 12 = true -> sized v -> (forall lo hi, ~ range_value X v lo hi) ->
    exists t' b, get_py_range L X (Some v) t = Ok (t', b) /\ failed t'.
  Proof.
    intros Hc Ha Hz H. unfold get_py_range. rewrite Hc.
    assert (Hstr : forall s, (forall k v, In (k, v) documented_ranges -> ~ spells (is_ws X) s k) ->
      exists t' b, (do t1 <- set_range_from_string L X (Some s) t; Ok (t1, false)) = Ok (t', b) /\ failed t').
    { intros s Hs. destruct (set_range_exact X L s t Hc Ha) as [_ K]. destruct (K Hs) as (t' & E & F). rewrite E. eexists _, _. split; [reflexivity|exact F]. }
    destruct v as [s|s|l|z|x|]; try (eexists _, _; split; [reflexivity|eexists; reflexivity]).
    - apply Hstr. intros k [lo hi] Hk Hs. eapply H. eapply rv_str; eauto.
    - apply Hstr. intros k [lo hi] Hk Hs. eapply H. eapply rv_bytes; eauto.
    - destruct (zlen l =? 2) eqn:El; [|eexists _, _; split; [reflexivity|eexists; reflexivity]].
      apply Z.eqb_eq in El. destruct l as [|a [|b [|c l]]]; try (unfold zlen in El; cbn [List.length] in El; lia). cbn [negb].
      cbn [sized] in Hz. cbn [py_numbers].
      destruct (py_number_cases a) as [(x & Hx & ->)|[_ ->]].
      { intros z ->. apply Hz. left; auto. }
      2: { cbn [bind]. eexists _, _. split; [reflexivity|eexists; reflexivity]. }
      cbn [put_range Z.eqb bind orb].
      destruct (py_number_cases b) as [(y & Hy & ->)|[_ ->]].
      { intros z ->. apply Hz. right; left; auto. }
      + exfalso. eapply H. apply rv_list; eauto.
      + cbn [bind]. eexists _, _. split; [reflexivity|eexists; reflexivity].
  Qed.

  Lemma perturb_none (t : dtau) : zlen (perturb t) = 5 ->
    for_range 0 5 (fun n t => put_perturb n (dofZ 0) t) t =
    Ok (set_perturb t [dofZ 0; dofZ 0; dofZ 0; dofZ 0; dofZ 0]).
  Proof.
    intros Hp. unfold put_perturb.
    destruct (perturb t) as [|p0 [|p1 [|p2 [|p3 [|p4 [|p5 p]]]]]] eqn:E; try (unfold zlen in Hp; cbn [List.length] in Hp; lia).
    replace t with (set_perturb t [p0; p1; p2; p3; p4]) at 1 by (rewrite <- E; destruct t; reflexivity).
    reflexivity.
  Qed.
  Lemma perturb_value_ok v xs (t : dtau) : clean t -> zlen (perturb t) = 5 -> perturb_value v xs ->
    get_py_perturb v t = Ok (set_perturb t xs, false).
  Proof.
    intros Hc Hp H. unfold get_py_perturb. rewrite Hc. destruct H as [|l xs Hl HF].
    - rewrite perturb_none by exact Hp. reflexivity.
    - rewrite Hl. cbn [negb Z.eqb Pos.eqb]. 
      destruct (perturb t) as [|p0 [|p1 [|p2 [|p3 [|p4 [|p5 p]]]]]] eqn:E; try (unfold zlen in Hp; cbn [List.length] in Hp; lia).
      destruct l as [|a0 [|a1 [|a2 [|a3 [|a4 [|a5 l]]]]]]; try (unfold zlen in Hl; cbn [List.length] in Hl; lia).
      repeat match goal with H : Forall2 _ _ _ |- _ => inversion H; clear H; subst end.
      replace t with (set_perturb t [p0; p1; p2; p3; p4]) at 1 by (rewrite <- E; destruct t; reflexivity).
      cbn [py_numbers].
      repeat match goal with H : number ?v ?x |- _ => rewrite (number_py v x H); clear H end.
      reflexivity.
  Qed.
  Lemma numbers_bad msg : forall l n b (t : dtau), 0 <= n -> n + zlen l <= zlen (perturb t) ->
    (forall z, In (PInt z) l -> finite (dofZ z)) -> (forall xs, ~ Forall2 number l xs) ->
    exists t' b', py_numbers put_perturb msg l n b t = Ok (t', b') /\ failed t'.
  Proof.
    induction l as [|v l IH]; intros n b t Hn Hl Hz H; [exfalso; apply (H []); constructor|].
    assert (Hzl : zlen (v :: l) = zlen l + 1) by (unfold zlen; cbn [List.length]; lia).
    assert (Hp : 0 <= zlen l) by (unfold zlen; lia).
    cbn [py_numbers]. destruct (py_number_cases v) as [(x & Hx & ->)|[_ ->]].
    { intros z ->. apply Hz. left; auto. }
    - unfold put_perturb at 1. destruct (awrite_in (perturb t) n x) as [p' Ep]; [lia|].
      rewrite Ep. cbn [bind]. apply IH; try lia.
      + change (perturb (set_perturb t p')) with p'. unfold awrite in Ep. destruct (_ && _); [|discriminate]. injection Ep as <-.
        unfold zlen at 2. rewrite lset_length. change (Z.of_nat (List.length (perturb t))) with (zlen (perturb t)). lia.
      + intros z Hiz. apply Hz. right; auto.
      + intros xs Hxs. apply (H (x :: xs)). constructor; auto.
    - cbn [bind]. eexists _, _. split; [reflexivity|eexists; reflexivity].
  Qed.
  Lemma perturb_value_bad v (t : dtau) : clean t -> zlen (perturb t) = 5 -> (forall p, v = Some p -> sized p) ->
    (forall xs, ~ perturb_value v xs) -> exists t' b, get_py_perturb v t = Ok (t', b) /\ failed t'.
  Proof.
    intros Hc Hp Hz H. unfold get_py_perturb. rewrite Hc.
    destruct v as [v|]; [|exfalso; eapply H; constructor].
    destruct v as [s|s|l|z|x|]; try (eexists _, _; split; [reflexivity|eexists; reflexivity]).
    destruct (zlen l =? 5) eqn:El; [|eexists _, _; split; [reflexivity|eexists; reflexivity]].
    apply Z.eqb_eq in El. cbn [negb]. apply numbers_bad; try lia.
    - apply (Hz (PList l) eq_refl).
    - intros xs Hxs. apply (H xs). constructor; auto.
  Qed.
  (** An object with an error is left alone. *)
  Lemma values_failed v w (t : dtau) : failed t -> get_py_range L X v t = Ok (t, false) /\ get_py_perturb w t = Ok (t, false).
  Proof. intros [m Hm]. unfold get_py_range, get_py_perturb. rewrite Hm. auto. Qed.
End Values.
