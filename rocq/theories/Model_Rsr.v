(** * Model_Rsr: the reader of raw data files (rss_ringoccs/rsr_reader/rsr_reader.py).
    Definitions only.  Integers and bytes as they are, times and frequencies in exact
    arithmetic. *)
From Coq Require Import String List ZArith Bool Reals.
From Flocq Require Import Core.
From Verif Require Import Base Model_Time Model_Chord Model_Free Model_Frame Model_Resample Model_Dlp.
Import ListNotations.

(** ** The header: the names and formats of rsr_reader.py 136-216 with the sizes of the struct
    module ('>': no padding; c, B, b: 1; h, H: 2; I: 4; Q, d: 8). *)
Local Open Scope string_scope.
Definition fields : list (string * nat) :=
  [("sfdu_authority1", 1); ("sfdu_authority2", 1); ("sfdu_authority3", 1); ("sfdu_authority4", 1);
   ("sfdu_version", 1); ("sfdu_class", 1); ("sfdu_reserved1", 1); ("sfdu_reserved2", 1);
   ("sfdu_data_desription1", 1); ("sfdu_data_desription2", 1); ("sfdu_data_desription3", 1); ("sfdu_data_desription4", 1);
   ("sfdu_length", 8);
   ("ha_type", 2); ("ha_length", 2);
   ("ph_type", 2); ("ph_length", 2); ("ph_data_major", 1); ("ph_data_minor", 1); ("ph_mission_ID", 1); ("ph_format_code", 1);
   ("sh_type", 2); ("sh_length", 2);
   ("sh_originator", 1); ("sh_last_modifier", 1); ("sh_rsr_software_id", 2);
   ("sh_record_sequence_number", 2); ("sh_spc_id", 1); ("sh_dss_id", 1);
   ("sh_rsr_id", 1); ("sh_schan_id", 1); ("sh_reserved", 1); ("sh_spacecraft", 1); ("sh_prdx_pass_number", 2);
   ("sh_ulband", 1); ("sh_dl_band", 1); ("sh_trk_mode", 1); ("sh_ul_dss_id", 1); ("sh_fgain_px_no", 1);
   ("sh_fgain_if_bandwidth", 1); ("sh_frov_flag", 1); ("sh_attenuation", 1); ("sh_adc_rms", 1); ("sh_adc_peak", 1);
   ("sh_year", 2); ("sh_doy", 2); ("sh_seconds", 4); ("sh_bits_per_sample", 1); ("sh_data_error", 1);
   ("sh_sample_rate", 2); ("sh_ddc_lo", 2); ("sh_rfif_lo", 2); ("sh_sfdu_year", 2); ("sh_sfdu_doy", 2);
   ("sh_sfdu_seconds", 8); ("sh_predicts_time_shift", 8); ("sh_predicts_freq_override", 8);
   ("sh_predicts_freq_rate", 8); ("sh_predicts_freq_offset", 8); ("sh_sub_channel_freq", 8);
   ("sh_rf_freq_point_1", 8); ("sh_rf_freq_point_2", 8); ("sh_rf_freq_point_3", 8);
   ("sh_schan_freq_point_1", 8); ("sh_schan_freq_point_2", 8); ("sh_schan_freq_point_3", 8);
   ("sh_schan_freq_poly_coef_1", 8); ("sh_schan_freq_poly_coef_2", 8); ("sh_schan_freq_poly_coef_3", 8);
   ("sh_schan_accum_phase", 8);
   ("sh_schan_phase_poly_coef_1", 8); ("sh_schan_phase_poly_coef_2", 8); ("sh_schan_phase_poly_coef_3", 8); ("sh_schan_phase_poly_coef_4", 8);
   ("sh_reserved2a", 8); ("sh_reserved2b", 8);
   ("Data_type", 2); ("Data_length", 2)]%nat.
(** Position and size of a field; a name that is not there has size zero (a KeyError, which
    does not occur). *)
Fixpoint place (name : string) (off : nat) (l : list (string * nat)) : nat * nat :=
  match l with
  | [] => (off, 0%nat)
  | (n, s) :: l' => if String.eqb n name then (off, s) else place name (off + s) l'
  end.
Definition header_size : nat := fold_right (fun x a => (snd x + a)%nat) 0%nat fields.   (* struct.calcsize *)
Definition bytes_of_field (name : string) (b : list Z) : list Z := let '(off, s) := place name 0 fields in firstn s (skipn off b).
(** Big-endian integers without sign. *)
Definition be (b : list Z) : Z := fold_left (fun a x => (a * 256 + x)%Z) b 0%Z.
Definition uint (name : string) (b : list Z) : Z := be (bytes_of_field name b).

(** ** The options of the instance. *)
Record options : Type := { to25 : bool; to10 : bool; to5 : bool; to1_50 : bool; to8 : bool; to4 : bool; to2 : bool; to1_16 : bool; bias : bool }.
(** The factors of decimation and the new rate in Hz, rsr_reader.py 644-737. *)
Definition plan (o : options) (rate : Z) : option (list nat * Z) :=
  (if to25 o && (rate =? 50) then Some ([2%nat], 25000)
   else if to10 o && (rate =? 50) then Some ([5%nat], 10000)
   else if to5 o && (rate =? 50) then Some ([5%nat; 2%nat], 5000)
   else if to1_50 o && (rate =? 50) then Some ([5%nat; 5%nat; 2%nat], 1000)
   else if to8 o && (rate =? 16) then Some ([2%nat], 8000)
   else if to4 o && (rate =? 16) then Some ([4%nat], 4000)
   else if to2 o && (rate =? 16) then Some ([4%nat; 2%nat], 2000)
   else if to1_16 o && (rate =? 16) then Some ([4%nat; 4%nat], 1000)
   else None)%Z.

(** ** Samples, rsr_reader.py 762-835. *)
(** The words of the data, as unsigned shorts, in pairs: even ones Q, odd ones I. *)
Fixpoint pairs_of (b : list Z) : list (Z * Z) :=
  match b with
  | q1 :: q0 :: i1 :: i0 :: b' => ((q1 * 256 + q0)%Z, (i1 * 256 + i0)%Z) :: pairs_of b'
  | _ => []
  end.
(** With the bias correction, 798-807; without, the format is a signed short, 440. *)
Definition value (bias : bool) (w : Z) : Z :=
  if bias then let v := (if 2 ^ 15 <? w then w - 2 ^ 16 else w)%Z in (v * 2 + 1)%Z
  else (if 2 ^ 15 <=? w then w - 2 ^ 16 else w)%Z.
(** The loop over the blocks from number [i] on, [left] blocks; the arrays are filled with
    zero words before. *)
Fixpoint blocks (file : list Z) (len n_pts i left : nat) : py (list (Z * Z)) :=
  match left with
  | O => Returns []
  | S left' =>
      let sfdu := firstn len (skipn (i * len) file) in
      match sfdu with
      | [] => Returns (repeat (0, 0)%Z (left * n_pts))
      | _ => if (length sfdu <? len)%nat then Raises               (* struct.error *)
             else pybind (blocks file len n_pts (S i) left') (fun rest => Returns (pairs_of (skipn header_size sfdu) ++ rest)%list)
      end
  end.

Section Reader.
  Local Open Scope R_scope.
  (** The number in eight bytes (format 'd'), and scipy.signal.decimate(x, q, zero_phase=True). *)
  Variable f64 : list Z -> R.
  Variable decimate : nat -> list (R * R) -> list (R * R).
  Definition double (name : string) (b : list Z) : R := f64 (bytes_of_field name b).

  (** __set_sfdu_unpack, rsr_reader.py 420-432, for times [spm] at the raw rate.  For another
      rate the indices are not set (an UnboundLocalError); argmin is the first of several. *)
  Definition sfdu_range (rate : Z) (spm : list R) (n_pts n_sfdu : nat) (lo hi : R) : py (nat * nat) :=
    if ((rate =? 1) || (rate =? 16) || (rate =? 50))%Z%bool
    then match nearest_index spm lo, nearest_index spm hi with
         | Some i, Some j => Returns (i / n_pts, Nat.min (j / n_pts) n_sfdu)%nat
         | _, _ => Raises
         end
    else Raises.

  (** What the instance holds. *)
  Record rsr : Type := {
    x_file : list Z; x_raw_spm : list R; x_n_pts : nat; x_n_sfdu : nat; x_rate : Z;
    x_spm : list R; x_IQ : list (R * R); x_year : Z; x_doy : Z; x_track : Z; x_dss : Z }.
  Definition spaced (t0 : R) (hz : Z) (n : nat) : list R := map (fun k => t0 + 1 / IZR hz * INR k) (seq 0 n).
  (** __init__ and __set_IQ, rsr_reader.py 315-398 and 620-760.  The name of the uplink
      station is taken from the name of the file and is not modelled, nor are the gains and the
      bands.  Files with a size that is not a multiple give a warning only. *)
  Definition reader (o : options) (file : list Z) : py rsr :=
    if (length file <? header_size)%nat then Raises                (* struct.error *)
    else
      let h := firstn header_size file in
      let bytes_per_sfdu := (uint "sfdu_length" h + 20)%Z in
      let n_sfdu := Z.to_nat (Z.of_nat (length file) / bytes_per_sfdu) in
      let bits := uint "sh_bits_per_sample" h in
      if (bits =? 0)%Z then Raises                                 (* ZeroDivisionError *)
      else
        let n_pts := Z.to_nat (uint "Data_length" h * 8 / (2 * bits)) in
        let rate := uint "sh_sample_rate" h in
        if (rate =? 0)%Z then Raises                               (* ZeroDivisionError *)
        else
          let spm := spaced (double "sh_sfdu_seconds" h) (rate * 1000) (n_pts * n_sfdu) in
          let year := uint "sh_year" h in
          let doy := uint "sh_doy" h in
          let track := (if 2011 <? year then 2 else 1)%Z in
          match spm with
          | [] => Raises                                           (* min of nothing *)
          | t0 :: _ =>
              pybind (sfdu_range rate spm n_pts n_sfdu (minimum spm) (maximum spm)) (fun se =>
              let len := (header_size + 4 * n_pts)%nat in
              pybind (blocks file len n_pts 0 (snd se + 1)) (fun words =>
              let IQ := map (fun w => (IZR (value (bias o) (snd w)), IZR (value (bias o) (fst w)))) words in
              let '(spm', IQ') :=
                match plan o rate with
                | None => (spm, IQ)
                | Some (qs, hz) => let IQ' := fold_left (fun x q => decimate q x) qs IQ in (spaced t0 hz (length IQ'), IQ')
                end in
              Returns {| x_file := file; x_raw_spm := spm; x_n_pts := n_pts; x_n_sfdu := n_sfdu; x_rate := rate;
                         x_spm := spm'; x_IQ := IQ';
                         x_year := if (year =? 0)%Z then uint "sh_sfdu_year" h else year;
                         x_doy := if (doy =? 0)%Z then uint "sh_sfdu_doy" h else doy;
                         x_track := track; x_dss := uint "sh_dss_id" h |}))
          end.

  (** ** get_f_sky_pred, rsr_reader.py 513-583.  The coefficients of one block, with its time
      stamp rounded to a number of decimals; a block that is not in the file leaves zeros. *)
  Definition round_to (d : nat) (x : R) : R := IZR (pyround (x * 10 ^ d)) / 10 ^ d.
  Record coefs : Type := { k_time : R; k_rfif : R; k_ddc : R; k_1 : R; k_2 : R; k_3 : R }.
  Definition no_coefs : coefs := {| k_time := 0; k_rfif := 0; k_ddc := 0; k_1 := 0; k_2 := 0; k_3 := 0 |}.
  Fixpoint coefficients (x : rsr) (dec i left : nat) : py (list coefs) :=
    match left with
    | O => Returns []
    | S left' =>
        let len := (header_size + 4 * x_n_pts x)%nat in
        let sfdu := firstn len (skipn (i * len) (x_file x)) in
        match sfdu with
        | [] => Returns (repeat no_coefs left)
        | _ => if (length sfdu <? len)%nat then Raises
               else match nth_error (x_raw_spm x) (i * x_n_pts x) with
                    | None => Raises
                    | Some t => pybind (coefficients x dec (S i) left') (fun rest =>
                        Returns ({| k_time := round_to dec t; k_rfif := IZR (uint "sh_rfif_lo" sfdu); k_ddc := IZR (uint "sh_ddc_lo" sfdu);
                                    k_1 := double "sh_schan_freq_poly_coef_1" sfdu; k_2 := double "sh_schan_freq_poly_coef_2" sfdu;
                                    k_3 := double "sh_schan_freq_poly_coef_3" sfdu |} :: rest))
                    end
        end
    end.
  (** Truncation towards zero, and one frequency. *)
  Definition trunc (t : R) : Z := Ztrunc t.
  Definition sky_freq (ks : list coefs) (t : R) : py R :=
    match rev (filter (fun k => negb (ltb t (k_time k))) ks) with
    | [] => Raises                                                 (* IndexError *)
    | k :: _ => let msec := t - IZR (trunc t) in
        Returns ((k_rfif k + k_ddc k) * 1000000 - k_1 k - k_2 k * msec - k_3 k * (msec * msec))
    end.
  Definition get_f_sky_pred (x : rsr) (f_spm : list R) : py (list R) :=
    match f_spm with
    | [] => Raises
    | _ => let dec := if (x_rate x =? 1)%Z then 4%nat else 7%nat in
        pybind (sfdu_range (x_rate x) (x_raw_spm x) (x_n_pts x) (x_n_sfdu x) (minimum f_spm) (maximum f_spm)) (fun se =>
        pybind (coefficients x dec (fst se) (snd se - fst se + 1)) (fun ks =>
        each (sky_freq ks) f_spm))
    end.
End Reader.
