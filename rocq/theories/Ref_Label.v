(** * Ref_Label: an observation with a label, and some without a proper one. *)
From Coq Require Import List ZArith Lia Bool Ascii String Reals Lra.
From Flocq Require Import Core.
From Verif Require Import Base Scalar Spec_Select Model_Csv Spec_Csv Model_Write Spec_Write
  Proof_Write Proof_Write2 Ref_Write Model_Label Spec_Label Proof_Label Proof_Label2 Proof_Label3.
Import ListNotations.
Open Scope list_scope.
Open Scope R_scope.

Lemma after_midnight (t : R) txt : 86400 <= t < 18446744073709551616 -> get_ISOD_str (S := real_scalar) t = Some txt ->
  exists h m s, clock txt = Some (h, m, s) /\ (24 <= h)%Z.
Proof.
  intros B E. destruct (shows t) as (x & Ex & h & m & s & C & K & L); [lra|].
  change (car real_scalar) with R in *. rewrite E in Ex. injection Ex as <-.
  exists h, m, s. split; [exact C|]. destruct (Z_lt_le_dec h 24) as [G|G]; [|exact G]. exfalso.
  assert (X : IZR (3600 * h + 60 * m + s) <= IZR 86399) by (apply IZR_le; lia). lra.
Qed.

Lemma second_before : exists t txt,
  get_ISOD_str (S := dbl_scalar) (sofZ (s := dbl_scalar) t) = Some txt /\ ~ shows_time txt (IZR t).
Proof.
  exists 3660%Z, (list_ascii_of_string "01:00:59"). split; [vm_compute; reflexivity|].
  intros (h & m & s & C & _ & B). vm_compute in C. injection C as <- <- <-.
  change (3600 * 1 + 60 * 0 + 59)%Z with 3659%Z in B. lra.
Qed.
Lemma uneven (N : nplib real_scalar) (P : printer real_scalar) : np_laws N -> print_laws P ->
  forall I s n, sampled I s n -> writable I s n -> rectangular I n -> times_ok I -> ~ even_steps I s n ->
  (exists txt, write_series I N P s = Some txt) /\ series_info N I s = None.
Proof.
  intros HN HP I s n SM W RC T E. split.
  - assert (N0 : (0 <= n)%Z) by (destruct SM as ((x & _ & <-) & _); unfold zlen; lia).
    assert (EN : n = Z.of_nat (Z.to_nat n)) by (rewrite Z2Nat.id; lia). rewrite EN in SM, W.
    destruct (written N P HN I s _ SM W) as [WR OV].
    destruct (file_text P HP (convs s (two_way I s)) (vals N I s (two_way I s)) (Z.to_nat n)) as (rows & EW & _).
    { destruct (two_way I s), s; cbn; lia. }
    { intros f Hf. apply (convs_width s (two_way I s) f Hf). }
    { exact OV. }
    exists (table_text rows). rewrite WR. exact EW.
  - destruct (series_info N I s) as [l|] eqn:X; [|reflexivity]. exfalso. apply E.
    apply (label_exists N HN I s n SM RC T). eauto.
Qed.

Lemma has_ex two a i q : has (ex_inst two) a i q -> q = 1 \/ q = 2 \/ q = exp (-1) \/ q = PI / 2 \/ q = 90.
Proof.
  intros (l & E & _ & H). unfold ex_inst in E.
  destruct (String.eqb a "ul_rho_km_vals"); [destruct two; [injection E as <-|discriminate]|
  destruct (String.eqb a "tau_threshold_vals"); [discriminate|
  destruct (String.eqb a "T_out"); [discriminate|
  destruct (String.eqb a "p_norm_vals"); [injection E as <-|
  destruct (String.eqb a "B_rad_vals"); [injection E as <-|
  destruct (String.eqb a "B_deg_vals"); injection E as <-]]]]];
  destruct (Z.to_nat i) as [|[|[|k]]]; cbn in H; try discriminate; injection H as <-; tauto.
Qed.
Lemma ex_rectangular two : rectangular (ex_inst two) 2.
Proof.
  intros a l E. unfold ex_inst in E.
  destruct (String.eqb a "ul_rho_km_vals"); [destruct two; [injection E as <-|discriminate]; reflexivity|
  destruct (String.eqb a "tau_threshold_vals"); [discriminate|
  destruct (String.eqb a "T_out"); [discriminate|
  destruct (String.eqb a "p_norm_vals"); [injection E as <-; reflexivity|
  destruct (String.eqb a "B_rad_vals"); [injection E as <-; reflexivity|
  destruct (String.eqb a "B_deg_vals"); injection E as <-; reflexivity]]]]].
Qed.
Lemma ex_range two a i q : has (ex_inst two) a i q -> 0 <= q <= 90.
Proof. intro H. pose proof e1. pose proof PI_4. pose proof PI_RGT_0. apply has_ex in H as [-> | [-> | [-> | [-> | ->]]]]; lra. Qed.
Lemma ex_times two : times_ok (ex_inst two).
Proof. intros a i t _ H. apply ex_range in H. lra. Qed.
Lemma ex_steps two s : even_steps (ex_inst two) s 2.
Proof.
  exists 1, 2, 1, 2.
  assert (H : forall i x, (i = 0%Z /\ x = 1) \/ (i = 1%Z /\ x = 2) -> named (ex_inst two) s (sampling s) i x).
  { intros i x [[-> ->]|[-> ->]]; destruct s; (eexists; split; [reflexivity|split; [lia|reflexivity]]). }
  change (2 - 2)%Z with 0%Z. change (2 - 1)%Z with 1%Z.
  do 4 (split; [apply H; tauto|]). replace (2 - 1 - (2 - 1)) with 0 by ring. rewrite Rabs_R0. lra.
Qed.
Lemma fits_mid w q : (10 <= w)%Z -> -50 <= q <= 500 -> fits w q.
Proof.
  intros W B. unfold fits. pose proof (ten_le 2 (w - 8) ltac:(lia)) as A. pose proof (ten_le 3 (w - 7) ltac:(lia)) as C.
  rewrite ten_IZR in A by lia. rewrite ten_IZR in C by lia. change (10 ^ 2)%Z with 100%Z in A. change (10 ^ 3)%Z with 1000%Z in C.
  assert (M : ten_to (-6) <= 1) by (pose proof (ten_le (-6) 0 ltac:(lia)) as M; rewrite (ten_IZR 0) in M by lia; exact M). lra.
Qed.
Lemma ex_fit two l : series_info ref_np (ex_inst two) Geo = Some l -> all_fit (ex_inst two) Geo 2 l.
Proof.
  intros E o i q Io FM Bi Q.
  destruct (info_layout ref_np (ex_inst two) Geo l E) as (_ & _ & _ & _ & _ & _ & _ & _ & OB & _).
  apply In_nth_error in Io as [j Ej]. destruct (OB j o Ej) as (f & Ef & _ & _ & BY & FM2 & _).
  assert (9 < conv_width f)%nat.
  { apply nth_error_In in Ef. revert Ef. generalize (two_way (ex_inst two) Geo). intros [|]; cbn;
      intro H; decompose [or] H; try contradiction; subst f; cbn; lia. }
  apply fits_mid; [lia|]. assert (0 <= q <= 90); [|lra].
  revert Q. unfold named. destruct (column_named (ob_name o)) as [c|].
  - destruct c; cbn; try contradiction; apply ex_range.
  - destruct (profile_named Geo (ob_name o)) as [c|]; [destruct c; cbn; try contradiction; apply ex_range|].
    destruct (uplink_named (ob_name o)); [apply ex_range|contradiction].
Qed.

(** Three samples of a calibration, with a fitted offset of -150 Hz. *)
Definition cal_inst (t : R) : instance real_scalar := fun a : string =>
  if String.eqb a "t_oet_spm_vals" then Some (Reals (S := real_scalar) [1; 2; t])
  else if String.eqb a "f_offset_fit_vals" then Some (Reals (S := real_scalar) [-150; -150; -150])
  else Some (Reals (S := real_scalar) [1; 2; 3]).
Lemma cal_sampled t : 3 <= t <= 4 -> sampled (cal_inst t) Cal 3.
Proof.
  intro T. split; [exists [1; 2; t]; split; reflexivity|]. split; [discriminate|].
  intros c i Ic Bi. cbn [table_of columns In] in Ic.
  assert (A : forall q, / 1000 <= q <= 1000 -> ordinary (- q)).
  { intros q H. right. rewrite Rabs_Ropp. destruct (ordinary_mid q H) as [->|X]; [lra|exact X]. }
  assert (TRI : i = 0%Z \/ i = 1%Z \/ i = 2%Z) by lia.
  assert (B : ordinary (-150)) by (replace (-150) with (- (150)) by ring; apply A; lra).
  decompose [or] Ic; try contradiction; subst c; destruct TRI as [-> | [-> | ->]]; eexists;
    (split; [eexists; split; [reflexivity|split; [lia|reflexivity]]|]); try exact B; apply ordinary_mid; lra.
Qed.
Lemma cal_rectangular t : rectangular (cal_inst t) 3.
Proof.
  intros a l E. unfold cal_inst in E. destruct (String.eqb a "t_oet_spm_vals"); [injection E as <-; reflexivity|].
  destruct (String.eqb a "f_offset_fit_vals"); injection E as <-; reflexivity.
Qed.
Lemma cal_times t : 3 <= t <= 4 -> times_ok (cal_inst t).
Proof.
  intros T a i x Ia (l & E & _ & H). unfold cal_inst in E.
  assert (F : String.eqb a "f_offset_fit_vals" = false) by (cbn in Ia; decompose [or] Ia; try contradiction; subst a; reflexivity).
  rewrite F in E. destruct (String.eqb a "t_oet_spm_vals"); injection E as <-;
    destruct (Z.to_nat i) as [|[|[|[|k]]]]; cbn in H; try discriminate; injection H as <-; lra.
Qed.
Lemma cal_steps t : even_steps (cal_inst t) Cal 3 <-> Rabs (3 - t) < / 1000.
Proof.
  change (3 - 2)%Z with 1%Z. split.
  - intros (a & b & y & z & H1 & H2 & H3 & H4 & H5). cbn in *.
    change (3 - 2)%Z with 1%Z in *. change (3 - 1)%Z with 2%Z in *.
    destruct H1 as (l1 & E1 & _ & N1). destruct H2 as (l2 & E2 & _ & N2). destruct H3 as (l3 & E3 & _ & N3). destruct H4 as (l4 & E4 & _ & N4).
    injection E1 as <-. injection E2 as <-. injection E3 as <-. injection E4 as <-. cbn in *.
    injection N1 as <-. injection N2 as <-. injection N3 as <-. injection N4 as <-.
    replace (3 - t) with (2 - 1 - (t - 2)) by ring. exact H5.
  - intro H. exists 1, 2, 2, t. do 4 (split; [eexists; split; [reflexivity|split; [lia|reflexivity]]|]).
    replace (2 - 1 - (t - 2)) with (3 - t) by ring. exact H.
Qed.
Lemma cal_wide l : series_info ref_np (cal_inst 3) Cal = Some l -> some_too_wide (cal_inst 3) Cal 3 l.
Proof.
  intro E. destruct (info_layout ref_np (cal_inst 3) Cal l E) as (_ & _ & _ & _ & _ & _ & _ & LO & OB & _).
  destruct (nth_error (lb_objects l) 2) as [o|] eqn:Eo; [|apply nth_error_None in Eo; assert (X : List.length (convs Cal (two_way (cal_inst 3) Cal)) = 4%nat) by reflexivity; lia].
  destruct (OB 2%nat o Eo) as (f & Ef & _ & _ & BY & FM & NM). cbn in Ef. injection Ef as <-. cbn [conv_width is_exp] in *.
  exists o, 0%Z, (-150). split; [eapply nth_error_In, Eo|]. split; [rewrite BY; exact FM|]. split; [lia|].
  split; [cbn in NM; rewrite NM; eexists; split; [reflexivity|split; [lia|reflexivity]]|].
  left. rewrite BY. change (Z.of_nat 10 - 8)%Z with 2%Z. rewrite ten_IZR by lia. change (10 ^ 2)%Z with 100%Z. lra.
Qed.
