(** * Proof_Label2: the label describes the file. *)
From Coq Require Import List ZArith Lia Bool Ascii String Reals Lra.
From Flocq Require Import Core.
From Verif Require Import Base BaseFacts Scalar Spec_Select Model_Csv Spec_Csv Model_Write Spec_Write
  Proof_Write Proof_Write2 Proof_Write3 Model_Label Spec_Label Proof_Label.
Import ListNotations.
Open Scope list_scope.
Open Scope R_scope.

Notation widths fs := (map conv_width fs).
Definition convs (s : series) (two : bool) : list conversion :=
  formats s ++ if two then uplink_format else [].
Definition uplink_attrs : list string :=
  ["t_ul_spm_vals"; "t_ul_ret_spm_vals"; "ul_rho_km_vals"; "ul_phi_rl_deg_vals"; "ul_phi_ora_deg_vals"]%string.
Definition lformats (s : series) (two : bool) := label_formats s ++ if two then label_uplink_formats else [].
Definition lnames (s : series) (two : bool) := label_names s ++ if two then label_uplink_names else [].

Definition object_ok (s : series) (two : bool) (j : nat) (o : object) : Prop :=
  exists f, nth_error (convs s two) j = Some f /\ ob_number o = Z.of_nat (Datatypes.S j) /\
    ob_start o = Z.of_nat (Datatypes.S (offset (widths (convs s two)) j)) /\
    ob_bytes o = Z.of_nat (conv_width f) /\ is_format (ob_format o) (is_exp f) (Z.of_nat (conv_width f)) /\
    match nth_error (columns (table_of s)) j with
    | Some c => forall I i q, named I s (ob_name o) i q = column_is I s c i q
    | None => exists a, nth_error uplink_attrs (j - List.length (formats s)) = Some a /\
                forall I i q, named I s (ob_name o) i q = has I a i q
    end.
Ltac obj := match goal with H : nth_error _ _ = Some _ |- _ => injection H as <- end;
  eexists; split; [reflexivity|]; split; [reflexivity|]; split; [reflexivity|]; split; [reflexivity|];
  split; [vm_compute; reflexivity|];
  first [hnf; intros; reflexivity | hnf; eexists; split; [reflexivity|intros; reflexivity]].
Lemma label_layout s two : exists rb bl sl obs,
  get_record_bytes (lformats s two) = Some (rb, bl, sl) /\
  objects (lnames s two) (map (fun k => Z.of_nat k) (seq 1 (List.length (lformats s two)))) sl bl (lformats s two) = Some obs /\
  rb = Z.of_nat (row_bytes (widths (convs s two))) /\
  List.length obs = List.length (convs s two) /\ List.length (lformats s two) = List.length (convs s two) /\
  forall j o, nth_error obs j = Some o -> object_ok s two j o.
Proof.
  destruct s, two; (eexists; eexists; eexists; eexists; split; [vm_compute; reflexivity|];
    split; [vm_compute; reflexivity|]; split; [vm_compute; reflexivity|]; split; [reflexivity|]; split; [reflexivity|]);
    intros j o H.
  - do 24 (destruct j as [|j]; [obj|]). destruct j; discriminate.
  - do 19 (destruct j as [|j]; [obj|]). destruct j; discriminate.
  - do 9 (destruct j as [|j]; [obj|]). destruct j; discriminate.
  - do 4 (destruct j as [|j]; [obj|]). destruct j; discriminate.
  - do 18 (destruct j as [|j]; [obj|]). destruct j; discriminate.
  - do 13 (destruct j as [|j]; [obj|]). destruct j; discriminate.
  - do 18 (destruct j as [|j]; [obj|]). destruct j; discriminate.
  - do 13 (destruct j as [|j]; [obj|]). destruct j; discriminate.
Qed.

Lemma format_kind e1 e2 w1 w2 fmt : is_format fmt e1 w1 -> is_format fmt e2 w2 -> e1 = e2.
Proof.
  unfold is_format. intros -> H. cbn [string_of_list_ascii] in H.
  destruct e1, e2; try reflexivity; exfalso; discriminate H.
Qed.
Lemma bind_some {A B} (x : option A) (f : A -> option B) b : bind x f = Some b -> exists a, x = Some a /\ f a = Some b.
Proof. destruct x as [a|]; [eauto|discriminate]. Qed.

Section Describe.
  Variable N : nplib real_scalar.
  Variable P : printer real_scalar.
  Hypothesis HN : np_laws N.
  Hypothesis HP : print_laws P.
  Variable I : instance real_scalar.

  Definition two_way (s : series) : bool := match s with Cal => false | _ => hasattr I "ul_rho_km_vals" end.
  Definition vals (s : series) (two : bool) (i : nat) : list (option R) :=
    values I N s i ++ if two then uplink_values I i else [].
  Lemma two_way_cases s n : writable I s n ->
    two_way s = false /\ (s <> Cal -> no_uplink I) \/
    two_way s = true /\ s <> Tau /\ s <> Cal /\ uplink_sampled I n.
  Proof.
    intro W. destruct (match s with Cal => true | _ => false end) eqn:C.
    - left. destruct s; try discriminate. split; [reflexivity|congruence].
    - assert (NC : s <> Cal) by (destruct s; congruence).
      destruct (W NC) as [U|[NT U]].
      + left. split; [|auto]. unfold no_uplink in U. destruct s; try congruence; cbn; unfold hasattr; rewrite U; reflexivity.
      + destruct (two_way s) eqn:T.
        * right. auto.
        * left. split; [reflexivity|]. intros _. unfold no_uplink. destruct s; try congruence; cbn in T; unfold hasattr in T;
          destruct (I "ul_rho_km_vals"); congruence.
  Qed.
  Lemma written s n : sampled I s (Z.of_nat n) -> writable I s (Z.of_nat n) ->
    write_series I N P s = write_rows P (convs s (two_way s)) (vals s (two_way s)) n /\
    ordinary_values (convs s (two_way s)) (vals s (two_way s)) n.
  Proof.
    intros SM W. destruct (two_way_cases s _ W) as [[T NU]|(T & NT & NC & US)]; rewrite T; unfold convs, vals.
    - split.
      + rewrite (write_is I N P s n NU SM). rewrite app_nil_r.
        clear. induction n as [|n IH]; [reflexivity|]. cbn [write_rows]. rewrite IH, app_nil_r. reflexivity.
      + intros i Hi. rewrite !app_nil_r. apply (sampled_values I N HN s n SM i Hi).
    - split; [|apply uplink_ordinary; assumption].
      destruct SM as ((l & El & Zl) & SD & _).
      assert (NP : npts I = Some n) by (unfold npts; rewrite El; f_equal; unfold zlen in Zl; lia).
      assert (U : hasattr I "ul_rho_km_vals" = true) by (destruct s; cbn in T; congruence).
      destruct s; try congruence; cbn [write_series formats values].
      + unfold write_geo_series_data. rewrite U. unfold write. rewrite NP. reflexivity.
      + unfold write_dlp_series_data. rewrite U. unfold write. rewrite NP.
        destruct (SD eq_refl) as (b & p & Eb & Ep & LL). unfold same_length. rewrite Eb, Ep.
        assert (Q : Nat.eqb (List.length b) (List.length p) = true) by (apply Nat.eqb_eq; unfold zlen in LL; lia).
        rewrite Q. reflexivity.
  Qed.
  (** What the label names is what is printed. *)
  Lemma named_value s n i j o q : sampled I s (Z.of_nat n) -> (i < n)%nat -> object_ok s (two_way s) j o ->
    named I s (ob_name o) (Z.of_nat i) q -> nth_error (vals s (two_way s) i) j = Some (Some q).
  Proof.
    intros SM Hi (f & Ef & _ & _ & _ & _ & H) Q. unfold vals.
    assert (TO : s = Tau -> exists T, citem I "T_out" i = Some T) by (apply (sampled_tau I s n); assumption).
    pose proof (values_length I N s i TO) as LV.
    destruct (nth_error (columns (table_of s)) j) as [c|] eqn:Ec.
    - rewrite H in Q. rewrite nth_error_app1.
      + apply (values_column I N HN s i j c q); assumption.
      + rewrite LV, formats_columns. apply nth_error_Some. congruence.
    - destruct H as (a & Ea & H). rewrite H in Q. apply nth_error_None in Ec. rewrite <- formats_columns in Ec.
      rewrite nth_error_app2 by lia. rewrite LV.
      assert (T : two_way s = true).
      { unfold convs in Ef. rewrite nth_error_app2 in Ef by exact Ec. destruct (two_way s); [reflexivity|].
        destruct (j - List.length (formats s))%nat; discriminate. }
      rewrite T. apply has_item in Q. revert Ea. generalize (j - List.length (formats s))%nat. intros m Ea.
      do 5 (destruct m as [|m]; [injection Ea as <-; cbn [nth_error uplink_values]; rewrite Q; reflexivity|]).
      destruct m; discriminate.
  Qed.
  Lemma named_some s n i j o : sampled I s (Z.of_nat n) -> writable I s (Z.of_nat n) -> (i < n)%nat ->
    object_ok s (two_way s) j o -> exists q, named I s (ob_name o) (Z.of_nat i) q.
  Proof.
    intros SM W Hi (f & Ef & _ & _ & _ & _ & H).
    destruct (nth_error (columns (table_of s)) j) as [c|] eqn:Ec.
    - destruct SM as (_ & _ & SC). destruct (SC c (Z.of_nat i)) as (q & Q & _); [eapply nth_error_In, Ec|lia|].
      exists q. rewrite H. exact Q.
    - destruct H as (a & Ea & H). apply nth_error_None in Ec. rewrite <- formats_columns in Ec.
      destruct (two_way_cases s _ W) as [[T _]|(T & _ & _ & US)].
      + unfold convs in Ef. rewrite T, app_nil_r in Ef.
        assert (j < List.length (formats s))%nat by (apply nth_error_Some; congruence). lia.
      + destruct (US a (Z.of_nat i)) as (q & Q & _); [eapply nth_error_In, Ea|lia|]. exists q. rewrite H. exact Q.
  Qed.
  (** The values of a row. *)
  Lemma row_value s n i j v vs : sampled I s (Z.of_nat n) -> writable I s (Z.of_nat n) -> (i < n)%nat ->
    all (vals s (two_way s) i) = Some vs -> nth_error vs j = Some v -> nth_error (vals s (two_way s) i) j = Some (Some v).
  Proof.
    intros SM W Hi EA Ev. destruct (written s n SM W) as [_ OV]. destruct (OV i Hi) as [_ B].
    destruct (all_some (vals s (two_way s) i)) as (us & E & M).
    { intros k x Hx. destruct (B k x Hx) as (q & -> & _). eauto. }
    assert (us = vs) by congruence. subst us. rewrite M, nth_error_map, Ev. reflexivity.
  Qed.
  Lemma row_length_vs s n i vs : sampled I s (Z.of_nat n) -> writable I s (Z.of_nat n) -> (i < n)%nat ->
    all (vals s (two_way s) i) = Some vs -> List.length vs = List.length (convs s (two_way s)).
  Proof.
    intros SM W Hi EA. destruct (written s n SM W) as [_ OV]. destruct (OV i Hi) as [A _].
    rewrite <- A. apply all_length, EA.
  Qed.
  Lemma convs_width s two f : In f (convs s two) -> (9 <= conv_width f <= 20)%nat /\ (is_exp f = true -> f = E 14).
  Proof.
    assert (A : forallb (fun f => Nat.leb 9 (conv_width f) && Nat.leb (conv_width f) 20 &&
      match f with E w => Nat.eqb w 14 | _ => true end) (convs s two) = true) by (destruct s, two; reflexivity).
    intro H. rewrite forallb_forall in A. specialize (A f H). apply andb_prop in A as [A C]. apply andb_prop in A as [A B].
    apply Nat.leb_le in A, B. split; [lia|]. destruct f; [discriminate|]. intros _. apply Nat.eqb_eq in C. congruence.
  Qed.

  (** The contents of a label. *)
  Lemma info_layout s l : series_info N I s = Some l -> exists arr,
    reals I (sampling_parameter s) = Some arr /\ lb_file_records l = zlen arr /\ lb_rows l = zlen arr /\
    lb_record_bytes l = Z.of_nat (row_bytes (widths (convs s (two_way s)))) /\
    lb_row_bytes l = lb_record_bytes l /\ lb_columns l = zlen (lb_objects l) /\
    List.length (lb_objects l) = List.length (convs s (two_way s)) /\
    (forall j o, nth_error (lb_objects l) j = Some o -> object_ok s (two_way s) j o) /\
    label_times I s = Some (lb_times l) /\ label_extremes N I s = Some (lb_extremes l) /\
    pymin arr = Some (lb_minimum l) /\ pymax arr = Some (lb_maximum l) /\ get_sampling_interval arr = Some (lb_interval l).
  Proof.
    unfold series_info. fold (two_way s). destruct (label_layout s (two_way s)) as (rb & bl & sl & obs & E1 & E2 & E3 & E4 & E5 & E6).
    unfold lformats, lnames in *. rewrite E1. cbn [bind].
    intro H. apply bind_some in H as (arr & EA & H). apply bind_some in H as (times & ET & H).
    apply bind_some in H as (ext & EX & H). apply bind_some in H as (lo & EL & H). apply bind_some in H as (hi & EH & H).
    apply bind_some in H as (dr & ED & H). rewrite E2 in H. cbn [bind] in H. injection H as <-. exists arr. cbn.
    unfold zlen. rewrite E4. repeat split; try assumption; try congruence.
  Qed.

  Theorem label_describes s n l : sampled I s n -> writable I s n -> rectangular I n ->
    series_info N I s = Some l -> all_fit I s n l ->
    exists txt, write_series I N P s = Some txt /\ describes I s l txt.
  Proof.
    intros SM W RC EL AF.
    assert (N0 : (0 <= n)%Z) by (destruct SM as ((x & _ & <-) & _); unfold zlen; lia).
    assert (EN : n = Z.of_nat (Z.to_nat n)) by (rewrite Z2Nat.id; lia).
    rewrite EN in SM, W. set (k := Z.to_nat n) in *.
    destruct (written s k SM W) as [WR OV].
    destruct (info_layout s l EL) as (arr & EA & FR & RW & RB & RWB & LC & LO & OB & _).
    assert (LA : zlen arr = n).
    { unfold reals in EA. destruct (I (sampling_parameter s)) as [[]|] eqn:ES; try discriminate. injection EA as ->.
      apply (RC _ _ ES). }
    set (two := two_way s) in *. set (fs := convs s two) in *.
    assert (OBJ : forall j f, nth_error fs j = Some f -> exists o, nth_error (lb_objects l) j = Some o).
    { intros j f Ef. assert (j < List.length fs)%nat by (apply nth_error_Some; congruence).
      destruct (nth_error (lb_objects l) j) as [o|] eqn:Eo; [eauto|]. apply nth_error_None in Eo. lia. }
    (* every printed value has its width *)
    assert (WID : forall i vs j f v, (i < k)%nat -> all (vals s two i) = Some vs -> nth_error fs j = Some f ->
      nth_error vs j = Some v -> List.length (show P f v) = conv_width f).
    { intros i vs j f v Hi EV Ef Ev.
      pose proof (row_value s k i j v vs SM W Hi EV Ev) as V.
      destruct (OBJ j f Ef) as [o Eo]. pose proof (OB j o Eo) as OK.
      destruct (named_some s k i j o SM W Hi OK) as [q Q].
      pose proof (named_value s k i j o q SM Hi OK Q) as V2. fold two in V, V2. rewrite V in V2. injection V2 as <-.
      destruct (OV i Hi) as [_ B]. destruct (B j (Some v) V) as (q2 & [= <-] & O).
      destruct (convs_width s two f (nth_error_In _ _ Ef)) as [CW CE].
      destruct OK as (f2 & Ef2 & _ & _ & BY & FM & _). fold two fs in Ef2. assert (f2 = f) by congruence. subst f2.
      destruct f as [w|w].
      - cbn [conv_width] in *. apply fixed_fits; [exact HP|lia|]. rewrite <- BY.
        apply (AF o (Z.of_nat i) v); [eapply nth_error_In, Eo| |lia|exact Q].
        rewrite BY. exact FM.
      - rewrite (CE eq_refl). apply exp_fits; assumption. }
    set (R := row_bytes (widths fs)) in *.
    assert (ROWS : forall i vs row, (i < k)%nat -> all (vals s two i) = Some vs -> render P fs vs = Some row -> List.length row = R).
    { intros i vs row Hi EV ER. apply (render_layout P fs vs row ER). intros j f v Ef Ev. eapply WID; eassumption. }
    destruct (file_text P HP fs (vals s two) k) as (rows & EW & _).
    { unfold fs. destruct s, two; cbn; lia. }
    { intros f Hf. apply (convs_width s two f Hf). }
    { exact OV. }
    destruct (file_layout P fs (vals s two) R k _ EW ROWS) as [LT ROW].
    exists (table_text rows). split; [rewrite WR; exact EW|]. set (txt := table_text rows) in *. clearbody txt.
    split.
    - unfold zlen at 1. rewrite LT, FR, LA, RB. lia.
    - split; congruence.
    - exact LC.
    - rewrite FR, LA. intros i j o Bi [Bj Eo]. cbv zeta.
      assert (EI : i = Z.of_nat (Z.to_nat i)) by (rewrite Z2Nat.id; lia).
      rewrite EI. set (i1 := Z.to_nat i) in *. set (j1 := Z.to_nat j) in *.
      assert (Li : (i1 < k)%nat) by lia.
      pose proof (OB j1 o Eo) as OK. pose proof OK as (f & Ef & NU & ST & BY & FM & _). fold two fs in Ef, ST.
      destruct (ROW i1 Li) as (vs & row & EV & ER & SL).
      pose proof (row_length_vs s k i1 vs SM W Li EV) as LV. fold two fs in LV.
      assert (Lj : (j1 < List.length fs)%nat) by (apply nth_error_Some; congruence).
      destruct (nth_error vs j1) as [v|] eqn:Ev.
      2: { exfalso. apply nth_error_None in Ev. rewrite <- LV in Lj. exact (Nat.lt_irrefl j1 (Nat.lt_le_trans _ _ _ Lj Ev)). }
      destruct (render_layout P fs vs row ER) as [LR LAY]; [intros a g u Eg Eu; eapply WID; eassumption|].
      destruct (LAY j1 f v Ef Ev) as (H1 & H2 & H3 & H4). rewrite (ROWS i1 vs row Li EV ER) in *.
      set (w := conv_width f) in *. set (off := offset (widths fs) j1) in *.
      assert (CELL : bytes_at txt (Z.of_nat i1 * lb_record_bytes l + (ob_start o - 1)) (ob_bytes o) = show P f v).
      { unfold bytes_at. rewrite RB, ST, BY, Nat2Z.id. replace (Z.to_nat _) with (i1 * R + off)%nat by lia.
        rewrite (slice_inner txt row (i1 * R) R off w SL) by lia. exact H1. }
      rewrite CELL. split; [lia|]. split; [lia|]. split.
      { unfold zlen. rewrite (WID i1 vs j1 f v Li EV Ef Ev), BY. reflexivity. }
      destruct (OV i1 Li) as [_ B].
      pose proof (row_value s k i1 j1 v vs SM W Li EV Ev) as V. fold two in V.
      destruct (B j1 (Some v) V) as (q2 & [= <-] & O).
      destruct (show_plain P HP f v [] O (or_introl eq_refl)) as [_ PL]. rewrite app_nil_r in PL.
      split; [intro X; exact (proj1 (PL _ X) eq_refl)|]. split; [intro X; exact (proj1 (proj2 (PL _ X)) eq_refl)|].
      split.
      { rewrite LC. unfold zlen. rewrite LO. fold fs. rewrite RB, ST, BY.
        replace (Z.of_nat i1 * Z.of_nat R + (Z.of_nat (Datatypes.S off) - 1) + Z.of_nat w)%Z with (Z.of_nat (i1 * R + (off + w))) by lia.
        unfold bytes_at. rewrite Nat2Z.id.
        destruct (Z.eqb_spec j (Z.of_nat (List.length fs) - 1)) as [Ej|Ej].
        - destruct H3 as [H3 H5]; [lia|]. split; [|lia].
          rewrite (slice_inner txt row (i1 * R) R (off + w) (Z.to_nat 2) SL) by lia. rewrite H5. reflexivity.
        - change (Z.to_nat 1) with 1%nat. rewrite (slice_inner txt row (i1 * R) R (off + w) 1 SL) by lia.
          apply H4. lia. }
      exists (is_exp f). split; [rewrite BY; exact FM|]. split; [apply (named_some s k i1 j1 o SM W Li OK)|].
      intros q Q. pose proof (named_value s k i1 j1 o q SM Li OK Q) as V2. fold two in V2. rewrite V in V2. injection V2 as <-.
      destruct (show_near P HP f v O) as (m & e & NUM & NE). exists m, e.
      split; [rewrite <- (app_nil_r (show P f v)); apply NUM; left; reflexivity|].
      destruct f; exact NE.
  Qed.

  Theorem label_too_wide s n l : sampled I s n -> writable I s n -> rectangular I n ->
    series_info N I s = Some l -> some_too_wide I s n l ->
    exists txt, write_series I N P s = Some txt /\ (lb_file_records l * lb_record_bytes l < zlen txt)%Z.
  Proof.
    intros SM W RC EL (o & i & q & Io & FO & Bi & Q & TW).
    assert (EN : n = Z.of_nat (Z.to_nat n)) by (rewrite Z2Nat.id; lia).
    rewrite EN in SM, W. set (k := Z.to_nat n) in *.
    destruct (written s k SM W) as [WR OV].
    destruct (info_layout s l EL) as (arr & EA & FR & RW & RB & RWB & LC & LO & OB & _).
    assert (LA : zlen arr = n).
    { unfold reals in EA. destruct (I (sampling_parameter s)) as [[]|] eqn:ES; try discriminate. injection EA as ->.
      apply (RC _ _ ES). }
    set (two := two_way s) in *. set (fs := convs s two) in *.
    destruct (file_text P HP fs (vals s two) k) as (rows & EW & _).
    { unfold fs. destruct s, two; cbn; lia. }
    { intros f Hf. apply (convs_width s two f Hf). }
    { exact OV. }
    exists (table_text rows). split; [rewrite WR; exact EW|].
    apply In_nth_error in Io as [j Eo]. pose proof (OB j o Eo) as OK. pose proof OK as (f & Ef & _ & _ & BY & FM & _). fold two fs in Ef.
    assert (EI : i = Z.of_nat (Z.to_nat i)) by (rewrite Z2Nat.id; lia). rewrite EI in Q. set (i1 := Z.to_nat i) in *.
    assert (Li : (i1 < k)%nat) by lia.
    pose proof (named_value s k i1 j o q SM Li OK Q) as V. fold two in V.
    assert (EX : is_exp f = false) by (symmetry; eapply format_kind; eassumption).
    destruct (convs_width s two f (nth_error_In _ _ Ef)) as [CW _].
    assert (WIDE : (conv_width f < List.length (show P f q))%nat).
    { destruct f as [w|w]; [|discriminate]. cbn in BY, CW. rewrite BY in TW. apply fixed_too_wide; [exact HP|lia|exact TW]. }
    assert (LEN : forall a vs row, (a < k)%nat -> all (vals s two a) = Some vs -> render P fs vs = Some row ->
      (row_bytes (widths fs) <= List.length row)%nat).
    { intros a vs row _ _ ER. apply (render_length P fs vs row ER). intros c g u _ _. apply show_wide. }
    destruct (file_length P fs (vals s two) (row_bytes (widths fs)) k _ EW LEN) as [_ X].
    assert (Y : (k * row_bytes (widths fs) < List.length (table_text rows))%nat).
    { apply X. destruct (OV i1 Li) as [A B].
      destruct (all_some (vals s two i1)) as (vs & EV & M).
      { intros c x Hx. destruct (B c x Hx) as (u & -> & _). eauto. }
      destruct (render P fs vs) as [row|] eqn:ER.
      - exists i1, vs, row. repeat split; try assumption.
        destruct (render_length P fs vs row ER) as [_ Z]; [intros c g u _ _; apply show_wide|].
        apply Z. exists j, f, q. split; [exact Ef|]. split; [|exact WIDE].
        rewrite M, nth_error_map in V. destruct (nth_error vs j) as [u|] eqn:EU; [|discriminate]. cbn in V. injection V as ->. exact EU.
      - exfalso. destruct (render_row P fs vs) as (gs & E & _).
        + rewrite <- A, M, map_length. reflexivity.
        + unfold fs. destruct s, two; discriminate.
        + congruence. }
    rewrite FR, LA, RB. unfold zlen. lia.
  Qed.
End Describe.
