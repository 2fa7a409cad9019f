(** * Properties_Time: C67, seconds past midnight.

    Vocabulary: Spec_Time.v. *)
From Coq Require Import List ZArith Bool Reals Lra Lia.
From Verif Require Import Base Model_Time Spec_Time Proof_Time Proof_Time2 Ref_Time.
Import ListNotations.
Open Scope R_scope.

(** ** C67 *)
(** The date and time of day made from seconds past midnight exist in the calendar and name
    that instant, also on the following days and over one New Year. *)
Theorem c67_date : forall year doy spm,
  0 <= spm -> (1 <= doy <= year_days year)%Z -> ((year mod 100 = 0)%Z -> (year mod 400 = 0)%Z) ->
  IZR (doy - 1) + spm / 86400 < IZR (year_days year + 365) ->
  proper (date_of year doy spm) /\ instant (date_of year doy spm) = midnight year doy + spm.
Proof. exact date_exact. Qed.
Print Assumptions c67_date.
Theorem c67_to_time : forall W epoch spms doy year,
  sets W epoch -> (1 <= doy <= year_days year)%Z -> year <> 0%Z -> ((year mod 100 = 0)%Z -> (year mod 400 = 0)%Z) ->
  (forall s, In s spms -> 0 <= s /\ IZR (doy - 1) + s / 86400 < IZR (year_days year + 365)) ->
  spm_to_et W spms doy year true = Returns (map (fun s => midnight year doy + s - epoch) spms).
Proof. exact to_time. Qed.
Print Assumptions c67_to_time.
(** A day or a year of zero ends the process, before the kernels are looked at. *)
Theorem c67_zero : forall W spms doy year kernels, (doy = 0%Z \/ year = 0%Z) <-> spm_to_et W spms doy year kernels = Exits.
Proof.
  intros W spms doy year kernels. unfold spm_to_et. destruct (Z.eqb_spec doy 0); [tauto|]. destruct (Z.eqb_spec year 0); [tauto|].
  destruct kernels; cbn [negb]; split; (discriminate || tauto).
Qed.
Print Assumptions c67_zero.
(** Times of one day: counted from its midnight, or from the midnight of an earlier
    reference day of the same year. *)
Theorem c67_same_day : forall E epoch, reads E epoch -> forall ets ref, in_order ets ->
  (forall et, In et ets -> day_of (E et) = day_of (E (nth 0 ets 0))) ->
  (ref = None \/ (exists d, ref = Some d /\ (1 <= d <= u_doy (E (nth 0 ets 0%R)))%Z)) ->
  et_to_spm E ets ref = Returns (map (fun et => et + epoch - midnight (u_year (E (nth 0 ets 0)))
    (match ref with None => u_doy (E (nth 0 ets 0)) | Some d => d end)) ets).
Proof. exact same_day. Qed.
Print Assumptions c67_same_day.
(** There and back, for times of one day, the reference day or a later one of the year. *)
Theorem c67_round_trip : forall E W epoch year doy k spms,
  reads E epoch -> sets W epoch ->
  (1 <= doy)%Z -> (0 <= k)%Z -> (doy + k <= year_days year)%Z -> year <> 0%Z -> ((year mod 100 = 0)%Z -> (year mod 400 = 0)%Z) ->
  in_order spms -> (forall s, In s spms -> 86400 * IZR k <= s < 86400 * IZR (k + 1)) ->
  exists ets, spm_to_et W spms doy year true = Returns ets /\ et_to_spm E ets (Some doy) = Returns spms.
Proof. exact round_trip. Qed.
Print Assumptions c67_round_trip.
(** From one element to the next: within a day the time that passed; over midnight less, by
    the part of the day that was left. *)
Theorem c67_steps : forall E epoch, reads E epoch -> forall ets out j, in_order ets ->
  et_to_spm E ets None = Returns out -> (S j < length ets)%nat ->
  let a := nth j ets 0 in let b := nth (S j) ets 0 in
  (day_of (E b) = day_of (E a) -> nth (S j) out 0 - nth j out 0 = b - a) /\
  (day_of (E b) <> day_of (E a) -> nth (S j) out 0 - nth j out 0 = (b - a) - (86400 - spm_of (E a))).
Proof. exact steps. Qed.
Print Assumptions c67_steps.
(** So every element after a midnight is too small, always. *)
Theorem c67_midnight_refuted : forall E epoch, reads E epoch -> forall ets out j, in_order ets ->
  et_to_spm E ets None = Returns out -> (j < length ets)%nat ->
  day_of (E (nth j ets 0)) <> day_of (E (nth 0 ets 0)) ->
  nth j out 0 < nth j ets 0 + epoch - midnight (u_year (E (nth 0 ets 0))) (u_doy (E (nth 0 ets 0))).
Proof. exact too_small. Qed.
Print Assumptions c67_midnight_refuted.
Theorem c67_twice_refuted : exists ets, in_order ets /\ ets = [86399; 86400] /\ et_to_spm ex_clock ets None = Returns [86399; 86399].
Proof. exact twice. Qed.
Print Assumptions c67_twice_refuted.
(** A reference day of the old year is refused in the new year. *)
Theorem c67_new_year_refuted : exists ets, ets = [86400 * IZR (days_before 2005)] /\ u_year (ex_clock (nth 0 ets 0)) = 2005%Z /\
  et_to_spm ex_clock ets (Some 366%Z) = Raises.
Proof. exact new_year. Qed.
Print Assumptions c67_new_year_refuted.
(** Centuries, times before midnight, and a call without kernels. *)
Theorem c67_century_refuted : u_year (date_of 2100 365 86400) = 2100%Z /\ u_doy (date_of 2100 365 86400) = 366%Z /\ year_days 2100 = 365%Z.
Proof. exact century. Qed.
Print Assumptions c67_century_refuted.
Theorem c67_negative_refuted : u_sec (date_of 2005 10 (-1)) = -1.
Proof. exact negative. Qed.
Print Assumptions c67_negative_refuted.
Theorem c67_default_kernels_refuted : forall W spm doy year, doy <> 0%Z -> year <> 0%Z -> spm_to_et W spm doy year false = Raises.
Proof.
  intros W spm doy year D Y. unfold spm_to_et. destruct (Z.eqb_spec doy 0); [contradiction|].
  destruct (Z.eqb_spec year 0); [contradiction|reflexivity].
Qed.
Print Assumptions c67_default_kernels_refuted.

(** The example clock satisfies the laws; two samples on the day after the reference day. *)
Example c67_nonvacuous : reads ex_clock 0 /\ sets ex_set 0 /\
  exists ets, spm_to_et ex_set [86500; 86501] 123 2005 true = Returns ets /\ et_to_spm ex_clock ets (Some 123%Z) = Returns [86500; 86501].
Proof.
  split; [exact ex_reads|]. split; [exact ex_sets|].
  apply (c67_round_trip ex_clock ex_set 0 2005 123 1 [86500; 86501] ex_reads ex_sets); try lia.
  - cbn. lia.
  - intro H. vm_compute in H. discriminate.
  - cbn. lra.
  - intros s [<-|[<-|[]]]; cbn; lra.
Qed.
(** Over New Year of a leap year. *)
Example c67_date_nonvacuous : proper (date_of 2004 366 90061) /\ instant (date_of 2004 366 90061) = midnight 2004 366 + 90061.
Proof.
  apply c67_date; [lra|cbn; lia| |].
  - intro H. vm_compute in H. discriminate.
  - replace (year_days 2004) with 366%Z by reflexivity. cbn. lra.
Qed.
