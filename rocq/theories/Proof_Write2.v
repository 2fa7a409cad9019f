(** * Proof_Write2: the error of printing; each column is the quantity of its name. *)
From Coq Require Import List ZArith Lia Bool Ascii String Reals Lra.
From Flocq Require Import Core.
From Verif Require Import Base BaseFacts Scalar Spec_Select Model_Heap Model_Csv Spec_Csv Model_Write Spec_Write
  Proof_Write.
Import ListNotations.
Open Scope list_scope.
Open Scope R_scope.

Definition r10 : radix := Build_radix 10 eq_refl.
Lemma ten_bpow e : ten_to e = bpow r10 e.
Proof. unfold ten_to. rewrite bpow_powerRZ. reflexivity. Qed.
Lemma ten_pos e : 0 < ten_to e.
Proof. rewrite ten_bpow. apply bpow_gt_0. Qed.
Lemma ten_add a b : ten_to (a + b) = ten_to a * ten_to b.
Proof. rewrite !ten_bpow. apply bpow_plus. Qed.
Lemma ten_lt_inv a b : ten_to a < ten_to b -> (a < b)%Z.
Proof. rewrite !ten_bpow. apply lt_bpow. Qed.
Lemma ten_le a b : (a <= b)%Z -> ten_to a <= ten_to b.
Proof. rewrite !ten_bpow. apply bpow_le. Qed.
Lemma ten_IZR e : (0 <= e)%Z -> ten_to e = IZR (10 ^ e).
Proof. intro H. rewrite ten_bpow, <- IZR_Zpower by exact H. reflexivity. Qed.
Lemma ten_m6 : ten_to (-6) = / 1000000.
Proof. rewrite ten_bpow. reflexivity. Qed.

Section Print.
  Variable P : printer real_scalar.
  Hypothesis HP : print_laws P.

  Definition conv_width (f : conversion) : nat := match f with F w => w | E w => w end.
  Definition near (f : conversion) (q v : R) : Prop :=
    match f with
    | E _ => Rabs (v - q) <= Rabs q / 1000000
    | F _ => Rabs (v - q) <= / 2000000
    end.
  Lemma signed_near (q t d : R) (n : Z) :
    Rabs (IZR n * t - Rabs q) <= d -> Rabs (IZR (signed (pr_neg P q) n) * t - q) <= d.
  Proof.
    intro H. unfold signed. destruct (pr_neg P q) eqn:E.
    - apply (law_neg P HP) in E. rewrite (Rabs_left q) in H by exact E.
      rewrite opp_IZR. replace (- IZR n * t - q) with (- (IZR n * t - - q)) by ring.
      rewrite Rabs_Ropp. exact H.
    - assert (G : 0 <= q).
      { apply Rnot_lt_le. intro X. apply (law_neg P HP) in X. congruence. }
      rewrite (Rabs_pos_eq q G) in H. exact H.
  Qed.
  Lemma fixed_range q : ordinary q -> (0 <= pr_fixed P q < 10 ^ 37)%Z.
  Proof.
    intro O. destruct (law_fixed P HP q) as [A B]. split; [exact A|].
    assert (U : Rabs q <= ten_to 30).
    { destruct O as [->|O]; [rewrite Rabs_R0; left; apply ten_pos|apply O]. }
    apply Rabs_le_inv in B. rewrite ten_m6 in B. rewrite ten_IZR in U by lia.
    apply lt_IZR.
    assert (V : IZR (pr_fixed P q) <= (IZR (10 ^ 30) + 1) * 1000000) by lra.
    eapply Rle_lt_trans; [exact V|].
    change (10 ^ 37)%Z with (10 ^ 30 * 10000000)%Z. rewrite mult_IZR.
    assert (1 <= IZR (10 ^ 30)) by (apply IZR_le; lia). lra.
  Qed.
  Lemma exp_range q : ordinary q ->
    (0 <= fst (pr_exp P q) < 10 ^ 7)%Z /\ (Z.abs (snd (pr_exp P q)) < 1000)%Z /\
    Rabs (IZR (fst (pr_exp P q)) * ten_to (snd (pr_exp P q) - 6) - Rabs q) <= Rabs q / 1000000.
  Proof.
    intro O. destruct (Req_dec q 0) as [->|NZ].
    - rewrite (law_exp0 P HP). cbn [fst snd]. split; [lia|]. split; [lia|].
      rewrite Rmult_0_l, Rabs_R0, Rminus_0_r, Rabs_R0. lra.
    - destruct O as [O|[O1 O2]]; [congruence|].
      pose proof (law_exp P HP q NZ) as H. destruct (pr_exp P q) as [n k]. destruct H as [[N1 N2] B].
      cbn [fst snd]. split; [lia|].
      pose proof (ten_pos (k - 6)) as TP. pose proof (Rabs_pos_lt q NZ) as QP.
      pose proof B as B0. apply Rabs_le_inv in B.
      assert (M1 : 1000000 <= IZR n) by (apply IZR_le; lia).
      assert (M2 : IZR n <= 9999999) by (apply IZR_le; lia).
      assert (L1 : 999999 * ten_to (k - 6) <= Rabs q).
      { assert (1000000 * ten_to (k - 6) <= IZR n * ten_to (k - 6)) by (apply Rmult_le_compat_r; lra). lra. }
      assert (U1 : Rabs q < 10000000 * ten_to (k - 6)).
      { assert (IZR n * ten_to (k - 6) <= 9999999 * ten_to (k - 6)) by (apply Rmult_le_compat_r; lra). lra. }
      split.
      + assert (A1 : ten_to (5 + (k - 6)) < ten_to 31).
        { rewrite ten_add, (ten_IZR 5) by lia. change (IZR (10 ^ 5)) with 100000.
          change 31%Z with (1 + 30)%Z. rewrite ten_add, (ten_IZR 1) by lia. change (IZR (10 ^ 1)) with 10.
          pose proof (ten_pos 30). lra. }
        assert (A2 : ten_to (-300) < ten_to (7 + (k - 6))).
        { rewrite ten_add, (ten_IZR 7) by lia. change (IZR (10 ^ 7)) with 10000000. lra. }
        apply ten_lt_inv in A1, A2. lia.
      + eapply Rle_trans; [exact B0|]. lra.
  Qed.
  Lemma show_near f q : ordinary q -> exists m e,
    (forall r, tail r -> numeral (show P f q ++ r) = Some (m, e)) /\ near f q (IZR m * ten_to e).
  Proof.
    intro O. destruct f as [w|w]; cbn [show near].
    - exists (signed (pr_neg P q) (pr_fixed P q)), (-6)%Z.
      split; [intros r T; apply numeral_fixed; [apply fixed_range, O|exact T]|].
      apply signed_near. destruct (law_fixed P HP q) as [_ B]. rewrite ten_m6 in *. lra.
    - destruct (exp_range q O) as ([N _] & _ & B).
      exists (signed (pr_neg P q) (fst (pr_exp P q))), (snd (pr_exp P q) - 6)%Z.
      split; [intros r T; apply numeral_exp; [exact N|exact T]|].
      apply signed_near. exact B.
  Qed.
  Lemma show_plain f q r : ordinary q -> tail r -> plain (show P f q ++ r).
  Proof.
    intros O T. destruct (show_near f q O) as (m & e & H & _). specialize (H r T).
    split; [intro X; rewrite X in H; discriminate|].
    intros c I. assert (X : ~ separator c).
    { apply in_app_or in I as [I|I].
      - destruct f; [eapply fixed_chars, I|eapply exp_chars, I].
      - destruct T as [->| ->]; [destruct I|destruct I as [<-|[]]; nosep]. }
    unfold separator in X. tauto.
  Qed.
  Lemma show_length f q r : (conv_width f <= 20)%nat -> ordinary q -> tail r ->
    (List.length (show P f q ++ r) <= 40)%nat.
  Proof.
    intros W O T. rewrite app_length.
    assert (A : (List.length r <= 1)%nat) by (destruct T as [->| ->]; cbn; lia).
    assert (B : (List.length (show P f q) <= 39)%nat).
    { destruct f as [w|w]; cbn [show conv_width] in *.
      - apply fixed_length; [exact W|apply fixed_range, O].
      - destruct (exp_range q O) as (N & K & _). apply exp_length7; assumption. }
    lia.
  Qed.
End Print.

Lemma row_length gs K : (forall g, In g gs -> (List.length g <= K)%nat) ->
  (List.length (row_text gs) <= Datatypes.S K * List.length gs + 1)%nat.
Proof.
  induction gs as [|g gs IH]; intro H; [cbn; lia|].
  specialize (IH (fun x I => H x (or_intror I))). pose proof (H g (or_introl eq_refl)) as HG.
  destruct gs as [|g2 gs].
  - cbn [row_text]. rewrite app_length. cbn [List.length]. lia.
  - change (row_text (g :: g2 :: gs)) with (g ++ ","%char :: row_text (g2 :: gs)).
    rewrite app_length. cbn [List.length] in *. lia.
Qed.

(** ** A file whose columns are given *)
Section File.
  Variable L : csvlib real_scalar.
  Variable P : printer real_scalar.
  Hypothesis HL : csv_laws L.
  Hypothesis HA : atof_law L.
  Hypothesis HP : print_laws P.

  Definition ordinary_values (fs : list conversion) (values : nat -> list (option R)) (n : nat) : Prop :=
    forall i, (i < n)%nat -> List.length (values i) = List.length fs /\
      forall j x, nth_error (values i) j = Some x -> exists q, x = Some q /\ ordinary q.

  Lemma file_text fs values n : (0 < List.length fs <= 24)%nat ->
    (forall f, In f fs -> (conv_width f <= 20)%nat) -> ordinary_values fs values n ->
    exists rows, write_rows P fs values n = Some (table_text rows) /\ List.length rows = n /\
      cells P fs values rows /\ well_formed (List.length fs) rows.
  Proof.
    intros HF HW HV.
    destruct (write_rows_table P fs values n) as (rows & E & LR & C).
    { destruct fs; [cbn in HF; lia|discriminate]. }
    { intros i Hi. destruct (HV i Hi) as [A B]. split; [exact A|]. intros j x H. destruct (B j x H) as (q & -> & _). eauto. }
    exists rows. split; [exact E|]. split; [exact LR|]. split; [exact C|].
    apply Forall_forall. intros gs Hg. apply In_nth_error in Hg as [i Hi].
    assert (Li : (i < n)%nat) by (rewrite <- LR; apply nth_error_Some; congruence).
    destruct (HV i Li) as [LV B]. destruct (C i gs Hi) as [LG G].
    assert (CELL : forall g, In g gs -> exists f q r, In f fs /\ ordinary q /\ tail r /\ g = show P f q ++ r).
    { intros g Hg. apply In_nth_error in Hg as [j Hj].
      assert (Lj : (j < List.length gs)%nat) by (apply nth_error_Some; congruence).
      destruct (nth_error fs j) as [f|] eqn:Ef; [|apply nth_error_None in Ef; lia].
      destruct (nth_error (values i) j) as [x|] eqn:Ex; [|apply nth_error_None in Ex; lia].
      destruct (B j x Ex) as (q & -> & O). destruct (G j f q Ef Ex) as (r & T & Er).
      exists f, q, r. split; [eapply nth_error_In, Ef|]. split; [exact O|]. split; [exact T|]. congruence. }
    split; [exact LG|]. split.
    - apply Forall_forall. intros g Hg. destruct (CELL g Hg) as (f & q & r & _ & O & T & ->).
      apply show_plain; assumption.
    - assert (X : (List.length (row_text gs) <= 41 * List.length gs + 1)%nat).
      { apply row_length. intros g Hg. destruct (CELL g Hg) as (f & q & r & I & O & T & ->).
        apply (show_length P HP); auto. }
      rewrite LG in X. lia.
  Qed.

  Lemma file_read t fs values n h : (forall b, t <> TUranus b) -> t <> TMerged ->
    List.length fs = List.length (columns t) -> (0 < List.length fs <= 24)%nat ->
    (forall f, In f fs -> (conv_width f <= 20)%nat) -> ordinary_values fs values n ->
    (0 < Z.of_nat n < 2 ^ 64)%Z -> allocs_ok L (kind_of t) -> good_heap h ->
    (forall rows, csv_laws L -> well_formed (List.length (columns t)) rows -> rows <> [] -> (zlen rows < 2 ^ 64)%Z ->
      exists o h1, extract_table L t (Some (table_text rows)) h = Ok (Some o, h1) /\
        o_err o = false /\ o_n o = zlen rows /\ stores L t rows o) ->
    exists s o h1, write_rows P fs values n = Some s /\
      extract_table L t (Some s) h = Ok (Some o, h1) /\ o_err o = false /\ o_n o = Z.of_nat n /\
      forall i j c f q, (i < n)%nat -> nth_error (columns t) j = Some c -> nth_error fs j = Some f ->
        nth_error (values i) j = Some (Some q) ->
        exists v, holds_at o c (Z.of_nat i) v /\ near f q v.
  Proof.
    intros NU NM LF HF HW HV HN AL GH READ.
    destruct (file_text fs values n HF HW HV) as (rows & E & LR & C & WF).
    rewrite LF in WF.
    assert (ZL : zlen rows = Z.of_nat n) by (unfold zlen; rewrite LR; reflexivity).
    destruct (READ rows HL WF) as (o & h1 & X & OE & ON & ST).
    { intros ->. cbn in LR. subst n. cbn in HN. lia. }
    { lia. }
    exists (table_text rows), o, h1. split; [exact E|]. split; [exact X|]. split; [exact OE|]. split; [congruence|].
    intros i j c f q Hi Ec Ef Eq.
    destruct (nth_error rows i) as [gs|] eqn:Eg; [|apply nth_error_None in Eg; lia].
    destruct (C i gs Eg) as [LG G]. destruct (G j f q Ef Eq) as (r & T & Er).
    destruct (HV i Hi) as [_ B]. destruct (B j (Some q) Eq) as (q2 & [= <-] & O).
    destruct (show_near P HP f q O) as (m & e & NUM & NE).
    assert (H : holds_at o c (Z.of_nat i) (stored_value L t c (show P f q ++ r))).
    { apply (ST (Z.of_nat i) (Z.of_nat j) gs); unfold entry; rewrite ?Nat2Z.id; (split; [lia|assumption]). }
    replace (stored_value L t c (show P f q ++ r)) with (l_atof L (show P f q ++ r)) in H
      by (destruct t; try reflexivity; exfalso; eapply NU; reflexivity).
    rewrite (HA _ m e (NUM r T)) in H. eauto.
  Qed.
End File.

(** ** The columns *)
Section Columns.
  Variable I : instance real_scalar.
  Variable N : nplib real_scalar.
  Hypothesis HN : np_laws N.

  Definition formats (s : series) : list conversion :=
    match s with Geo => geo_formats | Cal => cal_formats | _ => profile_formats end.
  Definition values (s : series) : nat -> list (option R) :=
    match s with
    | Geo => geo_values I | Cal => cal_values I | Dlp => dlp_values N I | Tau => tau_values N I
    end.
  Lemma has_item a i x : has I a (Z.of_nat i) x -> item I a i = Some x.
  Proof. intros (l & E & _ & H). unfold item. rewrite E. rewrite Nat2Z.id in H. exact H. Qed.
  Lemma has_citem a i re im : has_complex I a (Z.of_nat i) re im -> citem I a i = Some (re, im).
  Proof. intros (l & E & _ & H). unfold citem. rewrite E. rewrite Nat2Z.id in H. exact H. Qed.
  Lemma has_deg a i q : has_degrees I a (Z.of_nat i) q -> lift (np_degrees N) (item I a i) = Some q.
  Proof. intros (x & H & ->). rewrite (has_item _ _ _ H). cbn. rewrite (law_degrees N HN). reflexivity. Qed.

  Lemma sin_abs b : Rabs b <= PI -> sin (Rabs b) = Rabs (sin b).
  Proof.
    intro H. pose proof PI_RGT_0. unfold Rabs in *. destruct (Rcase_abs b).
    - rewrite sin_neg. destruct (Rcase_abs (sin b)); [reflexivity|].
      assert (0 <= sin (- b)) by (apply sin_ge_0; lra). rewrite sin_neg in *. lra.
    - destruct (Rcase_abs (sin b)); [|reflexivity].
      assert (0 <= sin b) by (apply sin_ge_0; lra). lra.
  Qed.
  Lemma same_angle a b : - PI < a <= PI -> - PI < b <= PI -> cos a = cos b -> sin a = sin b -> a = b.
  Proof.
    intros Ha Hb C S.
    assert (X : cos (a - b) = 1).
    { rewrite cos_minus, C, S. pose proof (sin2_cos2 b) as Y. unfold Rsqr in Y. lra. }
    assert (Z : sin ((a - b) / 2) = 0).
    { replace (a - b) with (2 * ((a - b) / 2)) in X by field. rewrite cos_2a_sin in X.
      apply Rsqr_0_uniq. unfold Rsqr. lra. }
    destruct (Rtotal_order (a - b) 0) as [Lt|[Eq|Gt]]; [|lra|].
    - assert (0 < sin (- ((a - b) / 2))) by (apply sin_gt_0; lra). rewrite sin_neg in *. lra.
    - assert (0 < sin ((a - b) / 2)) by (apply sin_gt_0; lra). lra.
  Qed.
  Lemma norm_pos re im : (re, im) <> (0, 0) -> 0 < re * re + im * im.
  Proof.
    intro NZ. destruct (Req_dec re 0) as [->|A].
    - destruct (Req_dec im 0) as [->|B]; [congruence|]. pose proof (Rsqr_pos_lt im B). unfold Rsqr in *. lra.
    - pose proof (Rsqr_pos_lt re A). pose proof (Rle_0_sqr im). unfold Rsqr in *. lra.
  Qed.
  Lemma power_norm re im : out_power N ((re, im) : cplx real_scalar) = re * re + im * im.
  Proof.
    unfold out_power. rewrite (law_abs N HN). cbn.
    rewrite <- (sqrt_square (re * re + im * im)) at 1.
    - f_equal. ring.
    - pose proof (Rle_0_sqr re). pose proof (Rle_0_sqr im). unfold Rsqr in *. lra.
  Qed.
  Lemma phase_norm re im q : (re, im) <> (0, 0) -> -180 < q <= 180 ->
    re = R_sqrt.sqrt (re * re + im * im) * cos (q * PI / 180) ->
    - im = R_sqrt.sqrt (re * re + im * im) * sin (q * PI / 180) ->
    out_phase N ((re, im) : cplx real_scalar) = q.
  Proof.
    intros NZ B C S. unfold out_phase, cre, cim. cbn [fst snd]. rewrite (law_degrees N HN).
    pose proof PI_RGT_0 as PP.
    change (@sneg real_scalar im) with (- im).
    destruct (law_arctan2 N HN (- im) re) as (A1 & A2 & A3).
    { intros [= -> X]. apply NZ. f_equal. lra. }
    replace (- im * - im) with (im * im) in * by ring.
    assert (SP : 0 < R_sqrt.sqrt (re * re + im * im)) by (apply sqrt_lt_R0, norm_pos, NZ).
    assert (X : np_arctan2 N (- im) re = q * PI / 180).
    { apply same_angle; [exact A1| | |].
      - assert (K : 0 < PI / 180) by lra.
        replace (q * PI / 180) with (q * (PI / 180)) by field.
        pose proof (Rmult_lt_compat_r _ _ _ K (proj1 B)).
        pose proof (Rmult_le_compat_r _ _ _ (Rlt_le _ _ K) (proj2 B)). lra.
      - apply Rmult_eq_reg_l with (R_sqrt.sqrt (re * re + im * im)); [congruence|lra].
      - apply Rmult_eq_reg_l with (R_sqrt.sqrt (re * re + im * im)); [congruence|lra]. }
    rewrite X. change ((q * PI / 180 * 180 / PI)%R = q :> R). field. lra.
  Qed.

  Ltac dlp := match goal with Ec : nth_error _ _ = Some _, Q : column_is _ _ _ _ _ |- _ => injection Ec as <-;
    cbn [column_is dlp_column] in Q; cbn [values dlp_values nth_error];
    first [apply has_item in Q; rewrite Q; reflexivity | apply has_deg in Q; rewrite Q; reflexivity] end.
  Ltac tau := match goal with Ec : nth_error _ _ = Some _, Q : column_is _ _ _ _ _ |- _ => injection Ec as <-;
    cbn [column_is tau_column] in Q; cbn [nth_error]; apply has_item in Q; rewrite Q; reflexivity end.
  Lemma values_column s i j c q : nth_error (columns (table_of s)) j = Some c ->
    column_is I s c (Z.of_nat i) q ->
    (s = Tau -> exists T, citem I "T_out" i = Some T) ->
    nth_error (values s i) j = Some (Some q).
  Proof.
    intros Ec Q TO. destruct s; cbn [table_of columns app] in Ec.
    - do 19 (destruct j as [|j]; [injection Ec as <-; cbn [column_is geo_column] in Q;
        apply has_item in Q; cbn [values geo_values nth_error]; rewrite Q; reflexivity|]).
      destruct j; discriminate.
    - do 4 (destruct j as [|j]; [injection Ec as <-; cbn [column_is cal_column] in Q;
        apply has_item in Q; cbn [values cal_values nth_error]; rewrite Q; reflexivity|]).
      destruct j; discriminate.
    - do 6 (destruct j as [|j]; [dlp|]). destruct j as [|j].
      { injection Ec as <-. cbn [column_is dlp_column] in Q. cbn [values dlp_values nth_error].
        destruct Q as (p & b & Hp & Hb & P0 & B0 & ->).
        apply has_item in Hp, Hb. rewrite Hp, Hb. unfold tau_norm. f_equal. f_equal.
        rewrite (law_sin N HN), (law_log N HN) by exact P0. cbn. rewrite sin_abs by exact B0.
        change ((- Rabs (sin b) * ln p)%R = (- (Rabs (sin b) * ln p))%R :> R). ring. }
      do 6 (destruct j as [|j]; [dlp|]). destruct j; discriminate.
    - destruct (TO eq_refl) as [T ET]. cbn [values]. unfold tau_values, out_values. rewrite ET. cbn [app].
      do 5 (destruct j as [|j]; [tau|]). destruct j as [|j].
      { injection Ec as <-. cbn [column_is tau_column] in Q. cbn [nth_error].
        destruct Q as (re & im & H & ->). apply has_citem in H. assert (T = (re, im)) by congruence. subst T.
        rewrite power_norm. reflexivity. }
      destruct j as [|j].
      { injection Ec as <-. cbn [column_is tau_column] in Q. cbn [nth_error].
        destruct Q as (re & im & b & H & Hb & NZ & ->). apply has_citem in H. assert (T = (re, im)) by congruence. subst T.
        apply has_item in Hb. rewrite Hb. cbn [lift]. f_equal. f_equal. unfold out_tau.
        rewrite power_norm, (law_log N HN), (law_sin N HN), (law_radians N HN) by (apply norm_pos, NZ). cbn.
        change ((- ln (re * re + im * im) * Rabs (sin (b * PI / 180)))%R = (- (Rabs (sin (b * PI / 180)) * ln (re * re + im * im)))%R :> R). ring. }
      destruct j as [|j].
      { injection Ec as <-. cbn [column_is tau_column] in Q. cbn [nth_error].
        destruct Q as (re & im & H & NZ & B & C & S). apply has_citem in H. assert (T = (re, im)) by congruence. subst T.
        rewrite (phase_norm re im q NZ B C S). reflexivity. }
      destruct j as [|j].
      { injection Ec as <-. cbn [column_is tau_column] in Q. cbn [nth_error].
        f_equal. unfold tau_threshold. destruct Q as [[Q ->]|Q]; [rewrite Q; reflexivity|].
        pose proof (has_item _ _ _ Q) as HI. destruct Q as (l & E & _). rewrite E. exact HI. }
      do 4 (destruct j as [|j]; [tau|]). destruct j; discriminate.
  Qed.
  Lemma values_length s i : (s = Tau -> exists T, citem I "T_out" i = Some T) ->
    List.length (values s i) = List.length (formats s).
  Proof.
    intro TO. destruct s; try reflexivity. destruct (TO eq_refl) as [T ET].
    cbn [values]. unfold tau_values, out_values. rewrite ET. reflexivity.
  Qed.
  Lemma formats_columns s : List.length (formats s) = List.length (columns (table_of s)).
  Proof. destruct s; reflexivity. Qed.
  Lemma formats_width s f : In f (formats s) -> (conv_width f <= 20)%nat.
  Proof.
    assert (A : forallb (fun f => Nat.leb (conv_width f) 20) (formats s) = true) by (destruct s; reflexivity).
    intro H. rewrite forallb_forall in A. apply Nat.leb_le, A, H.
  Qed.
  Lemma formats_size s : (0 < List.length (formats s) <= 19)%nat.
  Proof. destruct s; cbn; lia. Qed.
  Definition is_exp (f : conversion) : bool := match f with E _ => true | F _ => false end.
  Lemma formats_digits s j f c : nth_error (formats s) j = Some f -> nth_error (columns (table_of s)) j = Some c ->
    significant c = is_exp f.
  Proof.
    assert (A : forallb (fun p => Bool.eqb (significant (snd p)) (is_exp (fst p)))
                  (combine (formats s) (columns (table_of s))) = true) by (destruct s; reflexivity).
    intros Ef Ec. rewrite forallb_forall in A.
    assert (H : In (f, c) (combine (formats s) (columns (table_of s)))).
    { clear A. revert j Ef Ec. generalize (formats s) (columns (table_of s)). intro a.
      induction a as [|x a IH]; intros b j Ef Ec; [destruct j; discriminate|].
      destruct b as [|y b]; [destruct j; discriminate|]. destruct j as [|j].
      - injection Ef as ->. injection Ec as ->. left. reflexivity.
      - right. eapply IH; eassumption. }
    apply A in H. apply eqb_prop in H. exact H.
  Qed.
  Lemma sampled_values s n : sampled I s (Z.of_nat n) -> ordinary_values (formats s) (values s) n.
  Proof.
    intros (_ & _ & SC) i Hi.
    assert (TO : s = Tau -> exists T, citem I "T_out" i = Some T).
    { intros ->. destruct (SC cPOWER (Z.of_nat i)) as (q & Q & _); [cbn; tauto|lia|].
      destruct Q as (re & im & H & _). apply has_citem in H. eauto. }
    split; [apply values_length, TO|].
    intros j x Hx.
    assert (Lj : (j < List.length (columns (table_of s)))%nat).
    { rewrite <- formats_columns, <- (values_length s i TO). apply nth_error_Some. congruence. }
    destruct (nth_error (columns (table_of s)) j) as [c|] eqn:Ec; [|apply nth_error_None in Ec; lia].
    destruct (SC c (Z.of_nat i)) as (q & Q & O); [eapply nth_error_In, Ec|lia|].
    pose proof (values_column s i j c q Ec Q TO) as V. exists q. split; [congruence|exact O].
  Qed.
  Lemma sampled_tau s n i : sampled I s (Z.of_nat n) -> (i < n)%nat ->
    s = Tau -> exists T, citem I "T_out" i = Some T.
  Proof.
    intros (_ & _ & SC) Hi ->. destruct (SC cPOWER (Z.of_nat i)) as (q & Q & _); [cbn; tauto|lia|].
    destruct Q as (re & im & H & _). apply has_citem in H. eauto.
  Qed.
  Lemma write_is P s n : (s <> Cal -> no_uplink I) -> sampled I s (Z.of_nat n) ->
    write_series I N P s = write_rows P (formats s) (values s) n.
  Proof.
    intros NU ((l & El & Zl) & SD & _).
    assert (NP : npts I = Some n).
    { unfold npts. rewrite El. f_equal. unfold zlen in Zl. lia. }
    assert (U : s <> Cal -> hasattr I "ul_rho_km_vals" = false) by (intro H; unfold hasattr; rewrite (NU H); reflexivity).
    destruct s; cbn [write_series formats values].
    - unfold write_geo_series_data. rewrite U by discriminate. unfold write. rewrite NP. reflexivity.
    - unfold write_cal_series_data, write. rewrite NP. reflexivity.
    - unfold write_dlp_series_data. rewrite U by discriminate. unfold write. rewrite NP.
      destruct (SD eq_refl) as (b & p & Eb & Ep & LL). unfold same_length. rewrite Eb, Ep.
      assert (X : Nat.eqb (List.length b) (List.length p) = true) by (apply Nat.eqb_eq; unfold zlen in LL; lia).
      rewrite X. reflexivity.
    - unfold write_tau_series_data. rewrite U by discriminate. unfold write. rewrite NP. reflexivity.
  Qed.
End Columns.
