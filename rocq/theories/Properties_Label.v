(** * Properties_Label: the labels of the files that the package writes (C65). *)
From Coq Require Import List ZArith Lia Bool Ascii String Reals Lra.
From Verif Require Import Base Scalar Spec_Select Model_Csv Spec_Csv Model_Write Spec_Write Ref_Write
  Proof_Label2 Proof_Label3 Model_Label Spec_Label Ref_Label.
Import ListNotations.
Open Scope list_scope.
Open Scope R_scope.

(** ** C65 *)
(** The label describes the data file: records of the stated length, one for each
    sample, each column at the stated byte, as wide as stated, in the stated format,
    and holding the quantity of the stated name. *)
Theorem c65_layout : forall (N : nplib real_scalar) (P : printer real_scalar), np_laws N -> print_laws P ->
  forall I s n l, sampled I s n -> writable I s n -> rectangular I n ->
  series_info N I s = Some l -> all_fit I s n l ->
  exists txt, write_series I N P s = Some txt /\ describes I s l txt.
Proof. exact label_describes. Qed.
Print Assumptions c65_layout.

(** There is a label exactly if the first step of the samples equals the last up to a
    thousandth. *)
Theorem c65_exists : forall (N : nplib real_scalar), np_laws N ->
  forall I s n, sampled I s n -> rectangular I n -> times_ok I ->
  ((exists l, series_info N I s = Some l) <-> even_steps I s n).
Proof. exact label_exists. Qed.
Print Assumptions c65_exists.

(** What the label tells of the samples is true of them: their number, the least and
    the largest, the first step, the times of the first and of the last, the least
    and the largest radius, longitude, azimuth and elevation. *)
Theorem c65_tells : forall (N : nplib real_scalar), np_laws N ->
  forall I s n l, sampled I s n -> rectangular I n -> times_ok I ->
  series_info N I s = Some l -> tells I s n l.
Proof. exact label_tells. Qed.
Print Assumptions c65_tells.

(** A number too wide for its column makes the file longer than the label says. *)
Theorem c65_too_wide_refuted : forall (N : nplib real_scalar) (P : printer real_scalar), np_laws N -> print_laws P ->
  forall I s n l, sampled I s n -> writable I s n -> rectangular I n ->
  series_info N I s = Some l -> some_too_wide I s n l ->
  exists txt, write_series I N P s = Some txt /\ (lb_file_records l * lb_record_bytes l < zlen txt)%Z.
Proof. exact label_too_wide. Qed.
Print Assumptions c65_too_wide_refuted.

(** Samples whose steps are uneven: the data file is written, a label is not. *)
Theorem c65_uneven_refuted : forall (N : nplib real_scalar) (P : printer real_scalar), np_laws N -> print_laws P ->
  forall I s n, sampled I s n -> writable I s n -> rectangular I n -> times_ok I -> ~ even_steps I s n ->
  (exists txt, write_series I N P s = Some txt) /\ series_info N I s = None.
Proof. exact uneven. Qed.
Print Assumptions c65_uneven_refuted.

(** Times of the next day are not times of day. *)
Theorem c65_midnight_refuted : forall (t : R) txt, 86400 <= t < 18446744073709551616 ->
  get_ISOD_str (S := real_scalar) t = Some txt ->
  exists h m s, clock txt = Some (h, m, s) /\ (24 <= h)%Z.
Proof. exact after_midnight. Qed.
Print Assumptions c65_midnight_refuted.
(** With rounding, a whole minute can show as the second before. *)
Theorem c65_time_refuted : exists t txt,
  get_ISOD_str (S := dbl_scalar) (sofZ (s := dbl_scalar) t) = Some txt /\ ~ shows_time txt (IZR t).
Proof. exact second_before. Qed.
Print Assumptions c65_time_refuted.

(** ** The hypotheses can be met *)
Example c65_layout_nonvacuous : forall two, exists l,
  np_laws ref_np /\ print_laws ref_printer /\ sampled (ex_inst two) Geo 2 /\ writable (ex_inst two) Geo 2 /\
  rectangular (ex_inst two) 2 /\ times_ok (ex_inst two) /\ even_steps (ex_inst two) Geo 2 /\
  series_info ref_np (ex_inst two) Geo = Some l /\ all_fit (ex_inst two) Geo 2 l.
Proof.
  intro two. destruct (proj2 (label_exists ref_np ref_np_laws (ex_inst two) Geo 2 (ex_sampled two Geo)
    (ex_rectangular two) (ex_times two)) (ex_steps two Geo)) as [l E].
  exists l. split; [exact ref_np_laws|]. split; [exact ref_print_laws|]. split; [apply ex_sampled|].
  split; [intros _; destruct two; [right; split; [discriminate|exact ex_uplink]|left; reflexivity]|].
  split; [apply ex_rectangular|]. split; [apply ex_times|]. split; [apply ex_steps|].
  split; [exact E|apply ex_fit, E].
Qed.
Example c65_tells_nonvacuous : forall s, exists l,
  sampled (ex_inst false) s 2 /\ rectangular (ex_inst false) 2 /\ times_ok (ex_inst false) /\
  series_info ref_np (ex_inst false) s = Some l.
Proof.
  intro s. destruct (proj2 (label_exists ref_np ref_np_laws (ex_inst false) s 2 (ex_sampled false s)
    (ex_rectangular false) (ex_times false)) (ex_steps false s)) as [l E].
  exists l. split; [apply ex_sampled|]. split; [apply ex_rectangular|]. split; [apply ex_times|exact E].
Qed.
Example c65_too_wide_nonvacuous : exists l,
  sampled (cal_inst 3) Cal 3 /\ writable (cal_inst 3) Cal 3 /\ rectangular (cal_inst 3) 3 /\
  series_info ref_np (cal_inst 3) Cal = Some l /\ some_too_wide (cal_inst 3) Cal 3 l.
Proof.
  destruct (proj2 (label_exists ref_np ref_np_laws (cal_inst 3) Cal 3 (cal_sampled 3 ltac:(lra))
    (cal_rectangular 3) (cal_times 3 ltac:(lra)))) as [l E].
  { apply cal_steps. rewrite Rminus_diag_eq by reflexivity. rewrite Rabs_R0. lra. }
  exists l. split; [apply cal_sampled; lra|]. split; [intro H; congruence|]. split; [apply cal_rectangular|].
  split; [exact E|apply cal_wide, E].
Qed.
Example c65_uneven_nonvacuous :
  sampled (cal_inst 4) Cal 3 /\ writable (cal_inst 4) Cal 3 /\ rectangular (cal_inst 4) 3 /\
  times_ok (cal_inst 4) /\ ~ even_steps (cal_inst 4) Cal 3.
Proof.
  split; [apply cal_sampled; lra|]. split; [intro H; congruence|]. split; [apply cal_rectangular|].
  split; [apply cal_times; lra|]. rewrite cal_steps. replace (3 - 4) with (-(1)) by ring.
  rewrite Rabs_Ropp, Rabs_R1. lra.
Qed.
