(** * Properties_Write: the files that the package writes (C64). *)
From Coq Require Import List ZArith Lia Bool Ascii String Reals Lra.
From Verif Require Import Base Scalar Spec_Select Model_Heap Model_Csv Spec_Csv Spec_Create Ex_Csv
  Model_Write Spec_Write Proof_Write3 Ref_Write.
Import ListNotations.
Open Scope list_scope.
Open Scope R_scope.

(** ** C64 *)
(** GEO, CAL, DLP and TAU files of one-way observations: the reader accepts what the
    writer wrote, with one row for each sample, and finds each quantity under its own
    name, up to the digits of the file. *)
Theorem c64_round_trip :
  forall (L : csvlib real_scalar) (N : nplib real_scalar) (P : printer real_scalar),
  csv_laws L -> atof_law L -> np_laws N -> print_laws P -> forall s I n h,
  (s <> Cal -> no_uplink I) -> sampled I s n -> (0 < n < 2 ^ 64)%Z ->
  allocs_ok L (kind_of (table_of s)) -> good_heap h ->
  exists txt o h1, write_series I N P s = Some txt /\
    extract_table L (table_of s) (Some txt) h = Ok (Some o, h1) /\ o_err o = false /\ o_n o = n /\
    forall c i q, In c (columns (table_of s)) -> (0 <= i < n)%Z -> column_is I s c i q ->
      exists v, holds_at o c i v /\ printed c q v.
Proof. exact round_trip. Qed.
Print Assumptions c64_round_trip.

(** Power and phase of a TAU file give the profile back, with the convention with
    which profiles are read (C44); optical depth and opening angle give the power
    back, with the formula of the reader of legacy files (C43). *)
Theorem c64_profile : forall I i p ph re im,
  tau_column I cPOWER i p -> tau_column I cPHASE i ph -> has_complex I "T_out" i re im ->
  re = R_sqrt.sqrt p * cos (degree (- ph)) /\ im = R_sqrt.sqrt p * sin (degree (- ph)).
Proof. exact profile_back. Qed.
Print Assumptions c64_profile.
Theorem c64_depth : forall I i p t b,
  tau_column I cPOWER i p -> tau_column I cTAUV i t -> tau_column I cB i b -> sin (degree b) <> 0 ->
  exp (- t / Rabs (sin (degree b))) = p.
Proof. exact depth_back. Qed.
Print Assumptions c64_depth.
Theorem c64_dlp_depth : forall I i p t b,
  dlp_column I cPNORM i p -> dlp_column I cRAWTAU i t -> dlp_column I cB i b -> sin (degree b) <> 0 ->
  exp (- t / Rabs (sin (degree b))) = p.
Proof. exact dlp_depth_back. Qed.
Print Assumptions c64_dlp_depth.

(** CAL files: what the reader takes for the sky frequency, the difference of the
    second and third column (C42), is the reconstructed sky frequency without the
    fitted offset. *)
Theorem c64_sky_frequency :
  forall (L : csvlib real_scalar) (N : nplib real_scalar) (P : printer real_scalar),
  csv_laws L -> atof_law L -> np_laws N -> print_laws P -> forall I n h,
  sampled I Cal n -> (0 < n < 2 ^ 64)%Z -> allocs_ok L KCal -> good_heap h ->
  exists txt o h1, write_series I N P Cal = Some txt /\ extract_table L TCal (Some txt) h = Ok (Some o, h1) /\
    forall i recon fit, (0 <= i < n)%Z ->
      has I "f_sky_hz_vals" i (recon + fit) -> has I "f_offset_fit_vals" i fit ->
      exists f r, holds_at o cFPRED i f /\ holds_at o cFRESID i r /\ Rabs ((f - r) - recon) <= / 1000000.
Proof. exact sky_frequency. Qed.
Print Assumptions c64_sky_frequency.

(** Two-way observations: the GEO and DLP files are written with five more columns,
    and no reader of such files accepts them; the TAU file is never written. *)
Theorem c64_uplink_geo_refuted :
  forall (L : csvlib real_scalar) (N : nplib real_scalar) (P : printer real_scalar),
  csv_laws L -> np_laws N -> print_laws P -> forall legacy I n h,
  I "ul_rho_km_vals"%string <> None -> sampled I Geo n -> uplink_sampled I n -> (0 < n)%Z ->
  l_alloc L (SObj KGeo) = true ->
  exists txt o h1, write_series I N P Geo = Some txt /\
    extract_table L (TGeo legacy) (Some txt) h = Ok (Some o, h1) /\ o_err o = true /\ o_n o = 0%Z /\
    forall c, o_col o c = None.
Proof.
  intros L N P HL HN HP legacy I n h U S1 S2 B A.
  apply (uplink_refused L N P HL HN HP Geo (TGeo legacy) I n h); try assumption; try discriminate.
  destruct legacy; cbn; lia.
Qed.
Print Assumptions c64_uplink_geo_refuted.
Theorem c64_uplink_dlp_refuted :
  forall (L : csvlib real_scalar) (N : nplib real_scalar) (P : printer real_scalar),
  csv_laws L -> np_laws N -> print_laws P -> forall legacy I n h,
  I "ul_rho_km_vals"%string <> None -> sampled I Dlp n -> uplink_sampled I n -> (0 < n)%Z ->
  l_alloc L (SObj KDlp) = true ->
  exists txt o h1, write_series I N P Dlp = Some txt /\
    extract_table L (TDlp legacy) (Some txt) h = Ok (Some o, h1) /\ o_err o = true /\ o_n o = 0%Z /\
    forall c, o_col o c = None.
Proof.
  intros L N P HL HN HP legacy I n h U S1 S2 B A.
  apply (uplink_refused L N P HL HN HP Dlp (TDlp legacy) I n h); try assumption; try discriminate.
  destruct legacy; cbn; lia.
Qed.
Print Assumptions c64_uplink_dlp_refuted.
Theorem c64_uplink_tau_refuted : forall (S : scalar) (N : nplib S) (P : printer S) (I : instance S) l,
  I "ul_rho_km_vals"%string <> None -> I "t_oet_spm_vals"%string = Some (Reals l) -> l <> [] ->
  write_tau_series_data N P I = None.
Proof. exact tau_uplink_raises. Qed.
Print Assumptions c64_uplink_tau_refuted.

(** Two samples: every kind of file is written and read. *)
Example c64_example : forall s, exists txt o h1, write_series (ex_inst false) ref_np ref_printer s = Some txt /\
  extract_table ref_reader (table_of s) (Some txt) ex_heap = Ok (Some o, h1) /\ o_err o = false /\ o_n o = 2%Z.
Proof.
  intro s. destruct (c64_round_trip ref_reader ref_np ref_printer ref_reader_laws ref_atof ref_np_laws ref_print_laws
    s (ex_inst false) 2 ex_heap) as (txt & o & h1 & A & B & C & D & _).
  - intros _. reflexivity.
  - apply ex_sampled.
  - lia.
  - apply ref_allocs.
  - exact ex_good_heap.
  - eauto 10.
Qed.
(** The power 1 of the first sample of the TAU file. *)
Example c64_tau_example : tau_column (ex_inst false) cPOWER 0 1 /\ tau_column (ex_inst false) cPHASE 0 90.
Proof.
  assert (T0 : has_complex (ex_inst false) "T_out" 0 0 (-1)).
  { exists [(0, -1); (exp (-1), 0)]. split; [reflexivity|]. split; [lia|reflexivity]. }
  split.
  - exists 0, (-1). split; [exact T0|ring].
  - exists 0, (-1). split; [exact T0|]. split; [intros [= X]; lra|]. split; [lra|].
    replace (90 * PI / 180) with (PI / 2) by field. rewrite sin_PI2, cos_PI2.
    replace (0 * 0 + -1 * -1) with 1 by ring. rewrite sqrt_1. split; ring.
Qed.
Example c64_uplink_example : exists txt o h1, write_series (ex_inst true) ref_np ref_printer Geo = Some txt /\
  extract_table ref_reader (TGeo false) (Some txt) ex_heap = Ok (Some o, h1) /\ o_err o = true.
Proof.
  destruct (c64_uplink_geo_refuted ref_reader ref_np ref_printer ref_reader_laws ref_np_laws ref_print_laws
    false (ex_inst true) 2 ex_heap) as (txt & o & h1 & A & B & C & _).
  - discriminate.
  - apply ex_sampled.
  - exact ex_uplink.
  - lia.
  - reflexivity.
  - eauto 10.
Qed.
(** What is printed. *)
Example c64_text_example :
  fixed_text 14 true 1234567890 = list_ascii_of_string "  -1234.567890" /\
  exp_text 14 false 2500000 (-4) = list_ascii_of_string "  2.500000E-04" /\
  numeral (list_ascii_of_string "  2.500000E-04") = Some (2500000, -10)%Z.
Proof. repeat split; reflexivity. Qed.
