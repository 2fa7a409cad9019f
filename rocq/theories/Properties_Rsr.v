(** * Properties_Rsr: C73, what the reader of raw data files returns.  [f64] is the number in
    eight bytes, [dec] the decimation of the signal library. *)
From Coq Require Import String List ZArith Bool Reals Lra Lia.
From Verif Require Import Base Model_Time Model_Chord Model_Free Model_Frame Model_Resample Model_Dlp Model_Rsr Spec_Rsr.
From Verif Require Import Proof_Rsr Proof_Rsr2 Ref_Rsr.
Import ListNotations.
Local Open Scope R_scope.

(** The signal of a file of any number of records, the last of which may be cut off. *)
Theorem c73_signal : forall f64 dec o rate n r0 rs tail, well_formed rate n r0 rs tail -> rate = 1%Z \/ rate = 16%Z \/ rate = 50%Z -> one_in o rate = 1%nat ->
  (bias o = true -> Forall (fun s => fst s <> (-32768)%Z /\ snd s <> (-32768)%Z) (flat_map samples (r0 :: rs))) ->
  exists x, reader f64 dec o (file_of (r0 :: rs) tail) = Returns x /\
    x_IQ x = map (readings (bias o)) (flat_map samples (r0 :: rs)) /\ length (x_spm x) = length (x_IQ x) /\
    (forall k, (k < length (x_IQ x))%nat -> nth_error (x_spm x) k = Some (time_of (f64 (field 80 8 (head r0))) (1000 * rate) k)).
Proof. exact signal_ok. Qed.
Print Assumptions c73_signal.
Example c73_signal_used : exists x, reader ex_f64 ex_dec plain (file_of [two 1 (7, 220)%Z 4; two 1 (7, 220)%Z 5] [1; 2; 3]%Z) = Returns x /\
  x_IQ x = [(9, 15); (-5, -65533); (11, 15); (-5, -65533)] /\ nth_error (x_spm x) 3 = Some (9 + 3 / 1000).
Proof.
  destruct (c73_signal ex_f64 ex_dec plain 1 2 (two 1 (7, 220)%Z 4) [two 1 (7, 220)%Z 5] [1; 2; 3]%Z) as (x & E & I & L & T);
    [apply two_ok; [unfold short; lia|cbn; lia|left; reflexivity]|left; reflexivity|reflexivity|intros _; repeat (constructor; [cbn; lia|]); constructor|].
  exists x. split; [exact E|]. split; [rewrite I; unfold readings, reading; cbn [bias plain flat_map two samples app map fst snd]; repeat (f_equal; try lra)|].
  rewrite T by (rewrite I; cbn; lia). f_equal. unfold time_of, ex_f64. cbn. lra.
Qed.
(** With a decimation: one sample in [one_in o rate], each with the time of the raw sample. *)
Theorem c73_decimated : forall f64 dec o rate n r0 rs tail, well_formed rate n r0 rs tail -> rate = 1%Z \/ rate = 16%Z \/ rate = 50%Z -> one_of_each dec ->
  (bias o = true -> Forall (fun s => fst s <> (-32768)%Z /\ snd s <> (-32768)%Z) (flat_map samples (r0 :: rs))) ->
  exists x qs, reader f64 dec o (file_of (r0 :: rs) tail) = Returns x /\ fold_left Nat.mul qs 1%nat = one_in o rate /\
    x_IQ x = fold_left (fun y q => dec q y) qs (map (readings (bias o)) (flat_map samples (r0 :: rs))) /\
    length (x_IQ x) = ((length (flat_map samples (r0 :: rs)) + one_in o rate - 1) / one_in o rate)%nat /\ length (x_spm x) = length (x_IQ x) /\
    (forall k, (k < length (x_IQ x))%nat -> nth_error (x_spm x) k = Some (time_of (f64 (field 80 8 (head r0))) (1000 * rate) (one_in o rate * k))) /\ x_rate x = rate.
Proof. exact decimated_ok. Qed.
Print Assumptions c73_decimated.
Example c73_decimated_used : exists x, reader ex_f64 ex_dec fourth (file_of [two 16 (7, 220)%Z 4; two 16 (7, 220)%Z 5] []) = Returns x /\ length (x_IQ x) = 1%nat.
Proof.
  destruct (c73_decimated ex_f64 ex_dec fourth 16 2 (two 16 (7, 220)%Z 4) [two 16 (7, 220)%Z 5] []) as (x & qs & E & _ & _ & L & _);
    [apply two_ok; [unfold short; lia|cbn; lia|right; left; reflexivity]|right; left; reflexivity|apply ex_dec_ok|discriminate|].
  exists x. split; [exact E|]. rewrite L. reflexivity.
Qed.
(** Files with another rate are refused with an exception. *)
Theorem c73_rate : forall f64 dec o file, ~ (number (field 70 2 (firstn 260 file)) = 1%Z \/ number (field 70 2 (firstn 260 file)) = 16%Z \/ number (field 70 2 (firstn 260 file)) = 50%Z) ->
  reader f64 dec o file = Raises.
Proof. exact rate_ok. Qed.
Print Assumptions c73_rate.
Example c73_rate_used : forall o, reader ex_f64 ex_dec o (head (two 25 (7, 220)%Z 4)) = Raises.
Proof. intros o. apply c73_rate. cbn. lia. Qed.
(** Date, station and track mode. *)
Theorem c73_header : forall f64 dec o rate n r0 rs tail, well_formed rate n r0 rs tail -> rate = 1%Z \/ rate = 16%Z \/ rate = 50%Z ->
  let h := head r0 in
  exists x, reader f64 dec o (file_of (r0 :: rs) tail) = Returns x /\
    x_year x = (if (number (field 60 2 h) =? 0)%Z then number (field 76 2 h) else number (field 60 2 h)) /\
    x_doy x = (if (number (field 62 2 h) =? 0)%Z then number (field 78 2 h) else number (field 62 2 h)) /\
    x_dss x = number (field 43 1 h) /\ x_track x = (if (2011 <? number (field 60 2 h))%Z then 2 else 1)%Z.
Proof. exact header_ok. Qed.
Print Assumptions c73_header.
(** The predicted frequency of each time is that of the record of its second, if records are one
    second long and begin with a second, and the least time is not in the last half of a sample
    of its second. *)
Theorem c73_sky : forall f64 dec o rate n r0 rs tail, well_formed rate n r0 rs tail -> rate = 1%Z \/ rate = 16%Z \/ rate = 50%Z ->
  Z.of_nat n = (1000 * rate)%Z -> forall T0, (0 <= T0)%Z -> f64 (field 80 8 (head r0)) = IZR T0 ->
  forall times t, In t times -> (forall u, In u times -> t <= u) -> (forall u, In u times -> IZR T0 <= u < IZR T0 + INR (length (r0 :: rs))) ->
  (exists j, during (IZR T0) j t /\ t < IZR T0 + INR j + 1 - 1 / (2 * IZR (1000 * rate))) ->
  exists x fs, reader f64 dec o (file_of (r0 :: rs) tail) = Returns x /\ get_f_sky_pred f64 x times = Returns fs /\
    Forall2 (fun u f => exists i r, nth_error (r0 :: rs) i = Some r /\ during (IZR T0) i u /\ f = predicted f64 (head r) (u - (IZR T0 + INR i))) times fs.
Proof. exact sky_reader. Qed.
Print Assumptions c73_sky.
Example c73_sky_used : exists x, reader ex_f64 ex_dec plain (file_of [long 1; long 4] []) = Returns x /\
  get_f_sky_pred ex_f64 x [10 + / 2; 9 + / 4] = Returns [13 * 1000000 - 4 - 2 * / 2 - 3 * / 4; 13 * 1000000 - 1 - 2 * / 4 - 3 * / 16].
Proof.
  destruct (c73_sky ex_f64 ex_dec plain 1 1000 (long 1) [long 4] [] long_ok (or_introl eq_refl) eq_refl 9 ltac:(lia) eq_refl [10 + / 2; 9 + / 4] (9 + / 4)) as (x & fs & E & G & Fo).
  - right. left. reflexivity.
  - intros u [<-|[<-|[]]]; lra.
  - intros u [<-|[<-|[]]]; cbn; lra.
  - exists 0%nat. unfold during. cbn [INR]. change (1000 * 1)%Z with 1000%Z. lra.
  - exists x. split; [exact E|]. rewrite G. f_equal. inversion Fo as [|? f1 ? l1 P1 Q1]; subst. inversion Q1 as [|? f2 ? l2 P2 Q2]; subst. inversion Q2; subst. clear - P1 P2.
    destruct P1 as (i & r & N & D & ->), P2 as (j & r' & N' & D' & ->).
    destruct i as [|[|i]]; [unfold during in D; cbn [INR] in D; lra| |destruct i; discriminate].
    destruct j as [|[|j]]; [|unfold during in D'; cbn [INR] in D'; lra|destruct j; discriminate].
    cbn [nth_error] in N, N'. injection N as <-. injection N' as <-. unfold predicted, ex_f64.
    repeat match goal with |- context [number (field ?p ?s (head (long ?q)))] => let v := eval vm_compute in (number (field p s (head (long q)))) in change (number (field p s (head (long q)))) with v end.
    cbn [INR]. f_equal; [field|f_equal; field].
Qed.

(** ** What does not hold *)
(** The bias correction takes the least number for a positive one. *)
Theorem c73_edge_refuted : exists rate n r0 rs, well_formed rate n r0 rs [] /\ nth_error (flat_map samples (r0 :: rs)) 0 = Some (-32768, 7)%Z /\
  reading true (-32768) = -65535 /\ forall f64 dec, exists x z, reader f64 dec plain (file_of (r0 :: rs) []) = Returns x /\ nth_error (x_IQ x) 0 = Some z /\ fst z = 65537.
Proof.
  exists 1%Z, 2%nat, (two 1 (7, 220)%Z (-32768)), [two 1 (7, 220)%Z 5]. assert (W : well_formed 1 2 (two 1 (7, 220)%Z (-32768)) [two 1 (7, 220)%Z 5] []) by (apply two_ok; [unfold short; lia|cbn; lia|left; reflexivity]).
  split; [exact W|]. split; [reflexivity|]. split; [unfold reading; lra|]. intros f64 dec.
  destruct (edge_ok f64 dec plain 1 2 _ _ [] 0 (-32768, 7)%Z W (or_introl eq_refl) eq_refl eq_refl eq_refl) as (x & z & E & N & A & _). exists x, z. split; [exact E|]. split; [exact N|]. apply A. reflexivity.
Qed.
Print Assumptions c73_edge_refuted.
(** Files of 8-bit samples with one record are refused. *)
Theorem c73_bits_refuted : forall f64 dec o file, number (field 68 1 (firstn 260 file)) = 8%Z -> Z.of_nat (length file) = (260 + number (field 258 2 (firstn 260 file)))%Z ->
  reader f64 dec o file = Raises.
Proof. exact bits_ok. Qed.
Print Assumptions c73_bits_refuted.
Example c73_bits_used : let file := (ex_head (0, 244) 8 1 (7, 220) (7, 220) (0, 4) 1 ++ [1; 2; 3; 4])%Z in number (field 68 1 (firstn 260 file)) = 8%Z /\ Z.of_nat (length file) = (260 + number (field 258 2 (firstn 260 file)))%Z.
Proof. split; reflexivity. Qed.
(** The track mode follows the year of the header before it is corrected. *)
Theorem c73_track_refuted : exists file, forall f64 dec, exists x, reader f64 dec plain file = Returns x /\ x_year x = 2012%Z /\ x_track x = 1%Z.
Proof.
  exists (file_of [two 1 (0, 0)%Z 4; two 1 (0, 0)%Z 5] []). intros f64 dec.
  destruct (c73_header f64 dec plain 1 2 (two 1 (0, 0)%Z 4) [two 1 (0, 0)%Z 5] []) as (x & E & Y & _ & _ & T); [apply two_ok; [unfold short; lia|cbn; lia|left; reflexivity]|left; reflexivity|].
  exists x. split; [exact E|]. rewrite Y, T. split; reflexivity.
Qed.
Print Assumptions c73_track_refuted.
(** A time in the last half of a sample of a second cannot be evaluated. *)
Theorem c73_sky_refuted : exists rate n r0 rs t, well_formed rate n r0 rs [] /\ Z.of_nat n = (1000 * rate)%Z /\ ex_f64 (field 80 8 (head r0)) = 9 /\ 9 <= t < 9 + INR (length (r0 :: rs)) /\
  forall dec, exists x, reader ex_f64 dec plain (file_of (r0 :: rs) []) = Returns x /\ get_f_sky_pred ex_f64 x [t] = Raises.
Proof.
  exists 1%Z, 1000%nat, (long 1), [long 4], (10 - 1 / 4000). split; [exact long_ok|]. split; [reflexivity|]. split; [reflexivity|]. split; [cbn; lra|]. intros dec. eexists. split; [apply reader_ok; [exact long_ok|left; reflexivity]|].
  apply (sky_late ex_f64 dec plain 1 1000 (long 1) [long 4] [] long_ok (or_introl eq_refl) eq_refl 9 eq_refl _ 0); [cbn; lia|]. unfold ex_f64. change (number (field 80 8 (head (long 1)))) with 9%Z. cbn [INR]. change (1 * 1000)%Z with 1000%Z. lra.
Qed.
Print Assumptions c73_sky_refuted.
