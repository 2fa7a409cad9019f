(** * Proof_Sched: the reconstructed profile does not depend on the schedule when
    windows that may be reused are equal. *)
From Coq Require Import List ZArith Bool String Lia Reals.
From Verif Require Import Base BaseFacts Dbl Scalar Model_TauRec Model_Checks Model_Select
  Model_Transform Model_Interp Model_Recon Spec_Tau Spec_Select Proof_Checks Spec_Safety Proof_Safety Proof_Drivers Proof_SafeDbl.
Import ListNotations.
Open Scope Z_scope.

Section Ext.
  Context {S : scalar} (L : tmpl S) (t : tau S).
  Lemma rdb_holds (b b' : @buffer S) n f i : holds b n f -> holds b' n f -> 0 <= i < n -> rdb b i = rdb b' i.
  Proof. intros H H' Hi. unfold rdb. rewrite (H i Hi), (H' i Hi). reflexivity. Qed.

  Lemma fresnel_transform_ext x w x' w' c m :
    (forall i, 0 <= i < m -> rdb x i = rdb x' i) -> (forall i, 0 <= i < m -> rdb w i = rdb w' i) ->
    fresnel_transform L t x w c m = fresnel_transform L t x' w' c m.
  Proof.
    intros Hx Hw. unfold fresnel_transform. apply bind_ext; intros F _. cbv zeta. apply bind_ext; intros T0 _.
    erewrite for_range_ext; [reflexivity|]. intros i [a n] Hi. unfold fresnel_body.
    rewrite Hx, Hw by lia. reflexivity.
  Qed.
  Lemma fresnel_value_fun two_dx i wj v v' :
    fresnel_value L t two_dx i wj v -> fresnel_value L t two_dx i wj v' -> v = v'.
  Proof.
    intros (m & x & w & E & Hx & Hw & Ev) (m' & x' & w' & E' & Hx' & Hw' & Ev').
    rewrite E in E'. inversion E'; subst m'.
    rewrite (fresnel_transform_ext x w x' w') in Ev; [congruence| |]; intros; eapply rdb_holds; eauto.
  Qed.

  Section W.
    Variables (w w' : @buffer S) (m c : Z).
    Hypothesis Hm : 0 <= m.
    Hypothesis Hb : 2 * m + 1 < two64.
    Hypothesis H : forall i, 0 <= i < 2 * m + 1 -> rdb w i = rdb w' i.
    Lemma wrap_2m : wrap64 (2 * m + 1 - 1) = 2 * m.
    Proof. rewrite wrap64_id; lia. Qed.
    Lemma pairs_2m : 1 <= m -> pair_count (2 * m + 1) = m.
    Proof.
      intros H1. unfold pair_count. replace (2 * m + 1 - 2) with (2 * m - 1) by lia.
      rewrite wrap64_id by lia. replace (2 * m - 1 + 1) with (m * 2) by lia. apply Z.div_mul. lia.
    Qed.
    Lemma riemann_ext : newton_riemann L t w (2 * m + 1) c = newton_riemann L t w' (2 * m + 1) c.
    Proof.
      unfold newton_riemann. rewrite wrap_2m. cbv zeta. erewrite for_range_ext; [reflexivity|].
      intros i [a n] Hi. unfold riemann_body. rewrite H by lia. reflexivity.
    Qed.
    Lemma first_ext o : filon_first L t w c o = filon_first L t w' c o.
    Proof. unfold filon_first. rewrite H by lia. reflexivity. Qed.
    Lemma filon01_ext : newton_filon01 L t w (2 * m + 1) c = newton_filon01 L t w' (2 * m + 1) c.
    Proof.
      unfold newton_filon01. rewrite wrap_2m. cbv zeta. rewrite first_ext.
      apply bind_ext; intros [[ls lp] l] _. erewrite for_range_ext; [reflexivity|].
      intros i [[[[a n] p] q] r] Hi. unfold filon01_body. rewrite H by lia. reflexivity.
    Qed.
    Lemma filon11_ext : newton_filon11 L t w (2 * m + 1) c = newton_filon11 L t w' (2 * m + 1) c.
    Proof.
      unfold newton_filon11. rewrite wrap_2m. cbv zeta. rewrite first_ext.
      apply bind_ext; intros [[ls lp] l] _. erewrite for_range_ext; [reflexivity|].
      intros i [[[[a n] p] q] r] Hi. unfold filon11_body. rewrite H by lia. reflexivity.
    Qed.
    Lemma filon02_ext : 1 <= m -> newton_filon02 L t w (2 * m + 1) c = newton_filon02 L t w' (2 * m + 1) c.
    Proof.
      intros H1. unfold newton_filon02. rewrite pairs_2m by auto. cbv zeta. rewrite first_ext.
      apply bind_ext; intros [[ls lp] l] _. erewrite for_range_ext; [reflexivity|].
      intros i [[a p] q] Hi. unfold filon02_body. rewrite !H by lia. reflexivity.
    Qed.
    Lemma filon12_ext : 1 <= m -> newton_filon12 L t w (2 * m + 1) c = newton_filon12 L t w' (2 * m + 1) c.
    Proof.
      intros H1. unfold newton_filon12. rewrite pairs_2m by auto. cbv zeta. rewrite H by lia.
      apply bind_ext; intros ph _. apply bind_ext; intros [[a b] d] _. apply bind_ext; intros w0 _. apply bind_ext; intros T _.
      erewrite for_range_ext; [reflexivity|].
      intros i [[[? p] q] r] Hi. unfold filon12_body. rewrite !H by lia. reflexivity.
    Qed.
    Lemma sum_ext f o s : for_range 0 (2 * m + 1) (newton_sum_body L t f w o) s = for_range 0 (2 * m + 1) (newton_sum_body L t f w' o) s.
    Proof.
      apply for_range_ext. intros i [a n] Hi. unfold newton_sum_body. rewrite H by lia. reflexivity.
    Qed.
    Lemma elliptical_ext : elliptical_newton L t w (2 * m + 1) c = elliptical_newton L t w' (2 * m + 1) c.
    Proof. unfold elliptical_newton. cbv zeta. rewrite sum_ext. reflexivity. Qed.
    Lemma perturbed_ext : perturbed_newton L t w (2 * m + 1) c = perturbed_newton L t w' (2 * m + 1) c.
    Proof. unfold perturbed_newton. cbv zeta. rewrite sum_ext. reflexivity. Qed.
    Lemma newton_ext p f : select_newton L p = Ok (inl f) ->
      (match p with PsiNewtonFilon02 | PsiNewtonFilon12 => 1 | _ => 0 end) <= m ->
      f t w (2 * m + 1) c = f t w' (2 * m + 1) c.
    Proof.
      intros E H1. apply select_newton_inv in E. destruct p; try contradiction; subst f.
      - apply riemann_ext. - apply filon01_ext. - apply filon11_ext. - apply filon02_ext; auto. - apply filon12_ext; auto.
      - apply elliptical_ext. - apply perturbed_ext.
    Qed.
  End W.

  (** Two profiles whose values are determined agree. *)
  Lemma progress_fun (Q : Z -> cplx S -> Prop) (T0 : @cbuf S) k (T T' : @cbuf S) :
    (forall i v v', start t <= i < start t + k -> Q i v -> Q i v' -> v = v') ->
    progress t Q T0 k T -> progress t Q T0 k T' -> T = T'.
  Proof.
    intros HQ (L1 & W1 & O1) (L2 & W2 & O2). apply aread_ext; [lia|]. intros i _.
    destruct (Z_le_dec (start t) i) as [G|G]; [|rewrite O1, O2 by lia; auto].
    destruct (Z_lt_dec i (start t + k)) as [G2|G2]; [|rewrite O1, O2 by lia; auto].
    destruct (W1 i) as (v & E & Hv); [lia|]. destruct (W2 i) as (v' & E' & Hv'); [lia|].
    rewrite E, E'. rewrite (HQ i v v'); auto.
  Qed.
End Ext.

(** Errors are found before any thread starts. *)
Lemma fresnel_fail_indep {S} (L : tmpl S) sch sch' t t1 :
  dc_fresnel L sch t = Ok t1 -> err t1 <> None -> dc_fresnel L sch' t = Ok t1.
Proof.
  unfold dc_fresnel. destruct (check_core_data t) as [ta|]; cbn [bind]; [|discriminate].
  destruct (check_data_range ta) as [tb|]; cbn [bind]; [|discriminate].
  unfold guarded. destruct (err tb) eqn:Eb; [auto|]. cbv zeta.
  destruct (w_max_of L tb) as [wm|]; cbn [bind]; [|discriminate].
  destruct (scast (wm / (s2 * dx tb))%S) as [nm|]; cbn [bind]; [|discriminate].
  destruct (negb _); [auto|].
  destruct (deref (T_out tb)) as [T|]; cbn [bind]; [|discriminate].
  match goal with |- bind ?m _ = _ -> _ => destruct m as [T1|] end; cbn [bind]; [|discriminate].
  intros E. inversion E; subst t1. intros H; exfalso; apply H. exact Eb.
Qed.
Lemma newton_fail_indep {S} (L : tmpl S) sch sch' t t1 :
  dc_newton L sch t = Ok t1 -> err t1 <> None -> dc_newton L sch' t = Ok t1.
Proof.
  unfold dc_newton. destruct (check_core_data t) as [ta|]; cbn [bind]; [|discriminate].
  destruct (check_data_range ta) as [tb|]; cbn [bind]; [|discriminate].
  unfold guarded. destruct (err tb) eqn:Eb; [auto|]. cbv zeta.
  destruct (rd tb RHO 1) as [r1|]; cbn [bind]; [|discriminate].
  destruct (rd tb RHO 0) as [r0|]; cbn [bind]; [|discriminate].
  destruct (w_max_of L tb) as [wm|]; cbn [bind]; [|discriminate].
  destruct (newton_points _ _) as [nm|]; cbn [bind]; [|discriminate].
  destruct (select_newton L _) as [[f|m]|]; cbn [bind]; [|auto|discriminate].
  destruct (negb _); [auto|].
  destruct (deref (T_out tb)) as [T|]; cbn [bind]; [|discriminate].
  match goal with |- bind ?m _ = _ -> _ => destruct m as [T1|] end; cbn [bind]; [|discriminate].
  intros E. inversion E; subst t1. intros H; exfalso; apply H. exact Eb.
Qed.
Lemma profile_fun {S} (t : tau S) (Q : Z -> cplx S -> Prop) k t1 t2 :
  clean t -> (forall i v v', start t <= i < start t + k -> Q i v -> Q i v' -> v = v') ->
  profile_written t Q t1 k -> profile_written t Q t2 k -> err t1 = None -> err t2 = None -> t1 = t2.
Proof.
  intros Hcl HQ (T & e & T1 & ET & _ & -> & P1) (T' & e' & T2 & ET' & _ & -> & P2) E1 E2.
  assert (T = T') by congruence. subst T'.
  destruct e; [discriminate E1|]. destruct e'; [discriminate E2|].
  f_equal. eapply progress_fun; eauto.
Qed.

Section Indep.
  Variables (L : dlib) (t : dtau).
  Hypothesis HL : max_law L.
  Hypothesis Hcl : clean t.
  Hypothesis HC : complete t.
  Hypothesis Hsz : arr_size t <= 9007199254740992.
  Hypothesis Hs : 0 <= start t.
  Hypothesis Hn : 0 < n_used t.
  Hypothesis Hrc : exists t2, check_data_range t = Ok t2.

  Lemma fresnel_schedule_indep sch sch' :
    valid_schedule sch -> valid_schedule sch' ->
    start t + n_used t < arr_size t ->
    room t (dmul (dofZ 2) (dx t)) (start t) (start t + n_used t + 1) ->
    (exists j x y, start t <= j < start t + n_used t /\ width t j x /\ width t (start t + n_used t) y /\ (val y <= val x)%R) ->
    same_widths t (dmul (dofZ 2) (dx t)) (start t) (start t + n_used t + 1) ->
    dc_fresnel L sch t = dc_fresnel L sch' t.
  Proof.
    intros V V' He HR Hx Hsame.
    destruct (fresnel_driver_safe L sch t) as (t1 & E1 & P1 & _); auto.
    destruct (fresnel_driver_safe L sch' t) as (t2 & E2 & P2 & _); auto.
    destruct (err t1) as [m|] eqn:F1.
    { rewrite E1. symmetry. eapply fresnel_fail_indep; eauto. congruence. }
    destruct (err t2) as [m|] eqn:F2.
    { rewrite E2. eapply fresnel_fail_indep; eauto. congruence. }
    rewrite E1, E2. f_equal. refine (profile_fun t _ _ t1 t2 Hcl _ P1 P2 F1 F2).
    intros i v v' Hi V1 V2; red in V1; red in V2; destruct V1 as (j & wj & Hj & Wj & Rj & Vj); destruct V2 as (j' & wj' & Hj' & Wj' & Rj' & Vj').
    destruct HR as (R1 & R2 & R3 & R4). destruct (R3 i) as (wi & Hwi & _); [lia|].
    assert (wj = wi) by (eapply (Hsame j i); eauto; lia).
    assert (wj' = wi) by (eapply (Hsame j' i); eauto; lia). subst wj wj'.
    eapply fresnel_value_fun; eauto.
  Qed.

  Lemma newton_schedule_indep sch sch' r0 r1 :
    valid_schedule sch -> valid_schedule sch' ->
    start t + n_used t <= arr_size t -> 2 <= arr_size t ->
    rd t RHO 0 = Ok r0 -> rd t RHO 1 = Ok r1 ->
    let two_dx := dmul (dofZ 2) (dsub r1 r0) in
    room t two_dx (start t) (start t + n_used t) ->
    (match psinum t with PsiNewtonFilon02 | PsiNewtonFilon12 =>
       forall i x, selected t i -> width t i x -> (val two_dx <= val x)%R | _ => True end) ->
    same_windows t two_dx (start t) (start t + n_used t) ->
    dc_newton L sch t = dc_newton L sch' t.
  Proof.
    intros V V' He H2 Er0 Er1 two_dx HR Hfil (Hsw & Hoff).
    destruct (newton_driver_safe L sch t HL V Hcl HC Hsz Hs Hn Hrc r0 r1 He H2 Er0 Er1 HR Hfil) as (t1 & Q1 & E1 & P1 & Q1e & _).
    destruct (newton_driver_safe L sch' t HL V' Hcl HC Hsz Hs Hn Hrc r0 r1 He H2 Er0 Er1 HR Hfil) as (t2 & Q2 & E2 & P2 & Q2e & _).
    destruct (err t1) as [m|] eqn:F1.
    { rewrite E1. symmetry. eapply newton_fail_indep; eauto. congruence. }
    destruct (err t2) as [m|] eqn:F2.
    { rewrite E2. eapply newton_fail_indep; eauto. congruence. }
    destruct (proj1 HC RHO ltac:(simpl; tauto)) as (rho & Erho & Lrho).
    assert (exists f, select_newton L (psinum t) = Ok (inl f)) as [f Ef].
    { destruct (select_newton_ok L (psinum t)) as [[f|m] Es]; [eauto|]. exfalso.
      revert E1. unfold dc_newton. rewrite check_core_complete by auto. cbn [bind].
      destruct Hrc as [t3 E3]. rewrite E3. cbn [bind].
      destruct (check_data_range_ok t t3 E3) as [->|[m' ->]].
      - rewrite guarded_clean by auto. rewrite Er1. cbn [bind]. rewrite Er0. cbn [bind]. cbv zeta.
        destruct (w_max_of L t) as [wm|]; cbn [bind]; [|discriminate].
        destruct (newton_points _ _) as [nm|]; cbn [bind]; [|discriminate].
        rewrite Es. cbn [bind]. intros E. inversion E; subst t1. discriminate F1.
      - rewrite (guarded_err _ m') by reflexivity. intros E. inversion E; subst t1. discriminate F1. }
    rewrite (Q1e f rho Ef Erho) in P1. rewrite (Q2e f rho Ef Erho) in P2.
    rewrite E1, E2. f_equal. refine (profile_fun t _ _ t1 t2 Hcl _ P1 P2 F1 F2).
    assert (Key : forall i j wi wj v, start t <= i < start t + n_used t -> start t <= j <= i -> width t i wi -> width t j wj ->
       reusable t two_dx j i -> newton_value L t f two_dx rho i j wj v -> newton_value L t f two_dx rho i i wi v).
    { intros i j wi wj v Hi Hj Hwi Hwj Hr (m & w & Ec & Hw & Ev).
      assert (wj = wi) by (eapply (Hsw j i); eauto; lia). subst wj.
      exists m, w. split; auto. split; auto. intros k Hk. rewrite (Hw k Hk). unfold full_weight.
      rewrite (Hoff rho j i m); auto; try lia. exists wi; auto. }
    intros i v v' Hi V1 V2; red in V1; red in V2; destruct V1 as (j & wj & Hj & Wj & Rj & Vj); destruct V2 as (j' & wj' & Hj' & Wj' & Rj' & Vj').
    pose proof HR as (R1 & R2 & R3 & R4). destruct (R3 i) as (wi & Hwi & _); [lia|].
    assert (Ki := Key i j wi wj v Hi Hj Hwi Wj Rj Vj). assert (Ki' := Key i j' wi wj' v' Hi Hj' Hwi Wj' Rj' Vj').
    destruct Ki as (m & w & Ec & Hw & Ev). destruct Ki' as (m' & w' & Ec' & Hw' & Ev').
    assert (Em : m' = m) by congruence. rewrite Em in Hw', Ev'. clear Em Ec'.
    assert (Hb : 0 <= m <= i /\ i + m < arr_size t).
    { apply (proj2 (room_fits t two_dx (start t) (start t + n_used t) HR Hs He Hsz) i i m); try lia; [left; auto|exists wi; auto]. }
    rewrite (newton_ext L t w w' m i) with (p := psinum t) in Ev; auto; try lia.
    - congruence.
    - destruct HC as (_ & _ & _ & _ & Hlt). lia.
    - intros k Hk. eapply rdb_holds; eauto.
    - destruct (psinum t); try lia; eapply room_min with (i := i); eauto; exists wi; auto.
  Qed.
End Indep.
