(** * Proof_Write3: what is written is read. *)
From Coq Require Import List ZArith Lia Bool Ascii String Reals Lra.
From Flocq Require Import Core.
From Verif Require Import Base BaseFacts Scalar Spec_Select Model_Heap Model_Csv Spec_Csv Proof_Csv2 Spec_Create
  Model_Write Spec_Write Proof_Write Proof_Write2.
Import ListNotations.
Open Scope list_scope.
Open Scope R_scope.

Section Trip.
  Variable L : csvlib real_scalar.
  Variable N : nplib real_scalar.
  Variable P : printer real_scalar.
  Hypothesis HL : csv_laws L.
  Hypothesis HA : atof_law L.
  Hypothesis HN : np_laws N.
  Hypothesis HP : print_laws P.

  Theorem round_trip s I n h :
    (s <> Cal -> no_uplink I) -> sampled I s n -> (0 < n < 2 ^ 64)%Z ->
    allocs_ok L (kind_of (table_of s)) -> good_heap h ->
    exists txt o h1, write_series I N P s = Some txt /\
      extract_table L (table_of s) (Some txt) h = Ok (Some o, h1) /\ o_err o = false /\ o_n o = n /\
      forall c i q, In c (columns (table_of s)) -> (0 <= i < n)%Z -> column_is I s c i q ->
        exists v, holds_at o c i v /\ printed c q v.
  Proof.
    intros NU SM HB AL GH.
    assert (EN : n = Z.of_nat (Z.to_nat n)) by (rewrite Z2Nat.id; lia).
    rewrite EN in SM. set (k := Z.to_nat n) in *.
    destruct (file_read L P HL HA HP (table_of s) (formats s) (values I N s) k h) as (txt & o & h1 & W & X & OE & ON & H).
    - intro b. destruct s; discriminate.
    - destruct s; discriminate.
    - apply formats_columns.
    - pose proof (formats_size s). lia.
    - apply formats_width.
    - apply sampled_values; assumption.
    - lia.
    - exact AL.
    - exact GH.
    - intros rows _ WF NE ZB.
      destruct (table_rows L (table_of s) rows h HL WF NE ZB) as (o & h1 & A & B & C & D & _); eauto 10.
      destruct s; discriminate.
    - exists txt, o, h1. split; [rewrite (write_is I N P s k NU SM); exact W|].
      split; [exact X|]. split; [exact OE|]. split; [congruence|].
      intros c i q Ic Bi Q. apply In_nth_error in Ic as [j Ej].
      assert (EI : i = Z.of_nat (Z.to_nat i)) by (rewrite Z2Nat.id; lia).
      rewrite EI in Q |- *.
      assert (Li : (Z.to_nat i < k)%nat) by (unfold k; lia).
      destruct (nth_error (formats s) j) as [f|] eqn:Ef.
      2:{ apply nth_error_None in Ef. rewrite formats_columns in Ef.
          assert (j < List.length (columns (table_of s)))%nat by (apply nth_error_Some; congruence). lia. }
      destruct (H (Z.to_nat i) j c f q Li Ej Ef) as (v & HV & NV).
      { apply values_column with (c := c); [exact HN|exact Ej|exact Q|].
        intro ES. apply (sampled_tau I s k _ SM Li ES). }
      exists v. split; [exact HV|].
      unfold printed. rewrite (formats_digits s j f c Ef Ej). destruct f; exact NV.
  Qed.

  (** Two-way observations. *)
  Lemma uplink_ordinary I s n : sampled I s (Z.of_nat n) -> uplink_sampled I (Z.of_nat n) ->
    ordinary_values (formats s ++ uplink_format) (fun i => values I N s i ++ uplink_values I i) n.
  Proof.
    intros SM US i Hi. destruct (sampled_values I N HN s n SM i Hi) as [A B].
    split; [rewrite !app_length, A; reflexivity|].
    intros j x Hx. destruct (Nat.lt_ge_cases j (List.length (values I N s i))) as [Lt|Ge].
    - rewrite nth_error_app1 in Hx by exact Lt. apply (B j x Hx).
    - rewrite nth_error_app2 in Hx by exact Ge. revert Hx. generalize (j - List.length (values I N s i))%nat.
      intros m Hx. unfold uplink_values in Hx.
      assert (G : forall a, In a ["t_ul_spm_vals"; "t_ul_ret_spm_vals"; "ul_rho_km_vals"; "ul_phi_rl_deg_vals";
                      "ul_phi_ora_deg_vals"]%string -> exists q, item I a i = Some q /\ ordinary q).
      { intros a Ia. destruct (US a (Z.of_nat i) Ia ltac:(lia)) as (q & Hq & O).
        exists q. split; [apply has_item, Hq|exact O]. }
      do 5 (destruct m as [|m]; [injection Hx as <-; match goal with |- exists q, item _ ?a _ = _ /\ _ =>
        destruct (G a) as (q & E & O); [cbn; tauto|exists q; auto] end|]).
      destruct m; discriminate.
  Qed.
  Lemma uplink_width s f : In f (formats s ++ uplink_format) -> (conv_width f <= 20)%nat.
  Proof.
    intro H. apply in_app_or in H as [H|H]; [apply (formats_width s f H)|].
    assert (A : forallb (fun f => Nat.leb (conv_width f) 20) uplink_format = true) by reflexivity.
    rewrite forallb_forall in A. apply Nat.leb_le, A, H.
  Qed.
  Lemma uplink_refused s t I n h : s <> Tau -> s <> Cal ->
    I "ul_rho_km_vals"%string <> None -> sampled I s n -> uplink_sampled I n -> (0 < n)%Z ->
    List.length (columns t) <> (List.length (formats s) + 5)%nat ->
    l_alloc L (SObj (kind_of t)) = true ->
    exists txt o h1, write_series I N P s = Some txt /\
      extract_table L t (Some txt) h = Ok (Some o, h1) /\ o_err o = true /\ o_n o = 0%Z /\
      forall c, o_col o c = None.
  Proof.
    intros NT NC UP SM US HB LC AL.
    assert (EN : n = Z.of_nat (Z.to_nat n)) by (rewrite Z2Nat.id; lia).
    rewrite EN in SM, US. set (k := Z.to_nat n) in *.
    destruct (file_text P HP (formats s ++ uplink_format) (fun i => values I N s i ++ uplink_values I i) k)
      as (rows & E & LR & _ & WF).
    { rewrite app_length. pose proof (formats_size s). change (List.length uplink_format) with 5%nat. lia. }
    { apply uplink_width. }
    { apply uplink_ordinary; assumption. }
    exists (table_text rows).
    destruct (wrong_columns L t (table_text rows) h AL) as (o & h1 & X & Y).
    { destruct rows as [|r rows]; [cbn in LR; lia|]. apply Forall_cons_iff in WF as [W1 W2].
      rewrite (law_columns L HL (List.length (formats s ++ uplink_format)) r rows); [|rewrite app_length; cbn; lia|exact W1|exact W2].
      rewrite app_length. change (List.length uplink_format) with 5%nat. lia. }
    exists o, h1. split; [|split; [exact X|exact Y]].
    rewrite <- E. destruct SM as ((l & El & Zl) & SD & _).
    assert (NP : npts I = Some k) by (unfold npts; rewrite El; f_equal; unfold zlen in Zl; lia).
    assert (U : hasattr I "ul_rho_km_vals" = true) by (unfold hasattr; destruct (I _); congruence).
    destruct s; try congruence; cbn [write_series formats values].
    - unfold write_geo_series_data. rewrite U. unfold write. rewrite NP. reflexivity.
    - unfold write_dlp_series_data. rewrite U. unfold write. rewrite NP.
      destruct (SD eq_refl) as (b & p & Eb & Ep & LL). unfold same_length. rewrite Eb, Ep.
      assert (Q : Nat.eqb (List.length b) (List.length p) = true) by (apply Nat.eqb_eq; unfold zlen in LL; lia).
      rewrite Q. reflexivity.
  Qed.
End Trip.

(** The TAU file of a two-way observation cannot be written. *)
Lemma all_length {A} (l : list (option A)) vs : all l = Some vs -> List.length vs = List.length l.
Proof.
  revert vs; induction l as [|x l IH]; intros vs H; [injection H as <-; reflexivity|].
  cbn in H. destruct x as [a|]; [|discriminate]. destruct (all l) as [v|]; [|discriminate].
  injection H as <-. cbn. rewrite (IH v eq_refl). reflexivity.
Qed.
Lemma all_none {A} (l : list (option A)) : In None l -> all l = None.
Proof.
  induction l as [|x l IH]; intro H; [destruct H|]. destruct H as [->|H]; [reflexivity|].
  cbn. rewrite (IH H). destruct x; reflexivity.
Qed.
Theorem tau_uplink_raises (S : scalar) (N : nplib S) (P : printer S) (I : instance S) l :
  I "ul_rho_km_vals"%string <> None -> I "t_oet_spm_vals"%string = Some (Reals l) -> l <> [] ->
  write_tau_series_data N P I = None.
Proof.
  intros UP EL NE. unfold write_tau_series_data.
  assert (U : hasattr I "ul_rho_km_vals" = true) by (unfold hasattr; destruct (I _); congruence).
  rewrite U. unfold write, npts. rewrite EL.
  apply write_rows_mismatch; [destruct l; [congruence|cbn; lia]|].
  intros vs H. destruct (citem I "T_out" 0) as [T|] eqn:E.
  - apply all_length in H. rewrite H. unfold tau_uplink_values, out_values. rewrite E. cbn. lia.
  - exfalso. rewrite all_none in H; [discriminate|]. unfold tau_uplink_values, out_values. rewrite E. cbn. tauto.
Qed.

(** ** What the columns determine *)
Theorem profile_back I i p ph re im :
  tau_column I cPOWER i p -> tau_column I cPHASE i ph -> has_complex I "T_out" i re im ->
  re = R_sqrt.sqrt p * cos (degree (- ph)) /\ im = R_sqrt.sqrt p * sin (degree (- ph)).
Proof.
  intros (r1 & i1 & H1 & ->) (r2 & i2 & H2 & _ & _ & C & S) H.
  assert (U : forall a b c d, has_complex I "T_out" i a b -> has_complex I "T_out" i c d -> a = c /\ b = d).
  { intros a b c d (l & E & _ & X) (l2 & E2 & _ & Y). rewrite E in E2. injection E2 as <-. split; congruence. }
  destruct (U _ _ _ _ H H1) as [<- <-]. destruct (U _ _ _ _ H H2) as [<- <-].
  unfold degree. replace (- ph * (PI / 180)) with (- (ph * PI / 180)) by field.
  rewrite cos_neg, sin_neg. split; [exact C|]. lra.
Qed.
Theorem depth_back I i p t b :
  tau_column I cPOWER i p -> tau_column I cTAUV i t -> tau_column I cB i b -> sin (degree b) <> 0 ->
  exp (- t / Rabs (sin (degree b))) = p.
Proof.
  intros (r1 & i1 & (l & E & _ & X) & ->) (r2 & i2 & b2 & (l2 & E2 & _ & X2) & (m & F & _ & Y) & NZ & ->) (m2 & F2 & _ & Y2) NS.
  rewrite E in E2. injection E2 as <-. rewrite F in F2. injection F2 as <-.
  assert (b2 = b) by congruence. subst b2. assert (r1 = r2 /\ i1 = i2) as [<- <-] by (split; congruence).
  unfold degree in *. replace (b * PI / 180) with (b * (PI / 180)) by field.
  set (s := sin (b * (PI / 180))) in *. pose proof (Rabs_no_R0 s NS).
  replace (- - (Rabs s * ln (r1 * r1 + i1 * i1)) / Rabs s) with (ln (r1 * r1 + i1 * i1)) by (field; assumption).
  apply exp_ln. apply norm_pos, NZ.
Qed.
Theorem dlp_depth_back I i p t b :
  dlp_column I cPNORM i p -> dlp_column I cRAWTAU i t -> dlp_column I cB i b -> sin (degree b) <> 0 ->
  exp (- t / Rabs (sin (degree b))) = p.
Proof.
  intros (l & E & _ & X) (p2 & b2 & (l2 & E2 & _ & X2) & (m & F & _ & Y) & P0 & _ & ->) (b3 & (m2 & F2 & _ & Y2) & ->) NS.
  rewrite E in E2. injection E2 as <-. rewrite F in F2. injection F2 as <-.
  assert (b2 = b3) by congruence. subst b3. assert (p = p2) by congruence. subst p2.
  pose proof PI_RGT_0. unfold degree in *. replace (b2 * 180 / PI * (PI / 180)) with b2 in * by (field; lra).
  set (s := sin b2) in *. pose proof (Rabs_no_R0 s NS).
  replace (- - (Rabs s * ln p) / Rabs s) with (ln p) by (field; assumption).
  apply exp_ln, P0.
Qed.

(** rss_ringoccs/calibration/calibration_class.py 157-158: the sky frequency is the
    reconstructed one plus the fitted offset; the offset is the next column. *)
Theorem sky_frequency (L : csvlib real_scalar) (N : nplib real_scalar) (P : printer real_scalar) :
  csv_laws L -> atof_law L -> np_laws N -> print_laws P -> forall I n h,
  sampled I Cal n -> (0 < n < 2 ^ 64)%Z -> allocs_ok L KCal -> good_heap h ->
  exists txt o h1, write_series I N P Cal = Some txt /\ extract_table L TCal (Some txt) h = Ok (Some o, h1) /\
    forall i recon fit, (0 <= i < n)%Z ->
      has I "f_sky_hz_vals" i (recon + fit) -> has I "f_offset_fit_vals" i fit ->
      exists f r, holds_at o cFPRED i f /\ holds_at o cFRESID i r /\ Rabs ((f - r) - recon) <= / 1000000.
Proof.
  intros HL HA HN HP I n h SM HB AL GH.
  destruct (round_trip L N P HL HA HN HP Cal I n h ltac:(congruence) SM HB AL GH) as (txt & o & h1 & W & X & _ & _ & H).
  exists txt, o, h1. split; [exact W|]. split; [exact X|].
  intros i recon fit Bi H1 H2.
  destruct (H cFPRED i (recon + fit)) as (f & F1 & F2); [cbn; tauto|exact Bi|exact H1|].
  destruct (H cFRESID i fit) as (r & R1 & R2); [cbn; tauto|exact Bi|exact H2|].
  exists f, r. split; [exact F1|]. split; [exact R1|].
  cbn in F2, R2. apply Rabs_le_inv in F2, R2. apply Rabs_le. lra.
Qed.
