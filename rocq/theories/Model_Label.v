(** * Model_Label: what the label files say about the data files
    (rss_ringoccs/tools/pds3_write_series_v2.py and the functions get_geo_series_info,
    get_cal_series_info, get_dlp_series_info, get_tau_series_info of
    pds3_geo_series.py, pds3_cal_series.py, pds3_dlp_series.py, pds3_tau_series.py).
    Definitions only.

    Left out: everything in a label that does not depend on the data (names of
    missions, kernels, processing history, descriptions, units), the lowest and
    highest detectable opacities, the layout of the label's text, and the rounding of
    the numbers in it to four decimals; negative times. *)
From Coq Require Import List ZArith Bool Ascii String.
From Verif Require Import Base Scalar Model_Csv Model_Write Spec_Write.
Import ListNotations.
Open Scope list_scope.
Open Scope Z_scope.

(** ** The layout of a record *)

(** [s.index(c)] *)
Fixpoint index_of (c : ascii) (s : text) : option nat :=
  match s with
  | [] => None
  | d :: r => if Ascii.eqb d c then Some O
              else match index_of c r with Some k => Some (Datatypes.S k) | None => None end
  end.
(** [int(s)] for a string of digits; other strings are taken to be an error. *)
Fixpoint int_digits (n : Z) (s : text) : option Z :=
  match s with
  | [] => Some n
  | c :: r => let d := Z.of_nat (nat_of_ascii c) - 48 in
              if (0 <=? d) && (d <=? 9) then int_digits (10 * n + d) r else None
  end.
Definition int_of (s : text) : option Z := match s with [] => None | _ => int_digits 0 s end.
(** [list(np.cumsum(l))], continued from [a]. *)
Fixpoint cumsum (a : Z) (l : list Z) : list Z :=
  match l with [] => [] | x :: r => a + x :: cumsum (a + x) r end.
(** pds3_write_series_v2.py 391-394: the digits between the letter and the point. *)
Definition format_bytes (fmt : string) : option Z :=
  let t := list_ascii_of_string fmt in
  match index_of "."%char t with
  | Some ind2 => int_of (firstn (ind2 - 2) (skipn 2 t))
  | None => None
  end.
(** pds3_write_series_v2.py 387-404: the bytes of a record, of its columns, and where
    the columns start. *)
Definition get_record_bytes (fmts : list string) : option (Z * list Z * list Z) :=
  match all (map format_bytes fmts) with
  | None => None
  | Some bytes_list =>
      let ncols := Z.of_nat (List.length fmts) in
      let bytes_list_wc := 1 :: map (fun x => x + 1) bytes_list in
      let start_bytes_list := removelast (cumsum 0 bytes_list_wc) in
      let record_bytes := fold_left Z.add bytes_list 0 + (ncols - 1) + 2 in
      Some (record_bytes, bytes_list, start_bytes_list)
  end.

Record object : Type := {
  ob_name : string;
  ob_number : Z;
  ob_start : Z;
  ob_bytes : Z;
  ob_format : string
}.
(** The loop over the columns of pds3_write_series_v2.py 206-219: entry [j] of each
    list. *)
Fixpoint objects (names : list string) (numbers starts bytes : list Z) (fmts : list string)
  : option (list object) :=
  match names with
  | [] => Some []
  | a :: ar =>
      match numbers, starts, bytes, fmts with
      | n :: nr, s :: sr, b :: br, f :: fr =>
          match objects ar nr sr br fr with
          | Some r => Some ({| ob_name := a; ob_number := n; ob_start := s; ob_bytes := b;
                               ob_format := f |} :: r)
          | None => None
          end
      | _, _, _, _ => None
      end
  end.

Local Open Scope string_scope.
(** The formats in the labels: pds3_geo_series.py 135-156, pds3_cal_series.py 76,
    pds3_dlp_series.py 126-134 and pds3_tau_series.py 141-149. *)
Definition label_uplink_formats : list string :=
  ["""F14.6"""; """F14.6"""; """F14.6"""; """F12.6"""; """F12.6"""].
Definition label_formats (s : series) : list string :=
  match s with
  | Geo =>
    ["""F14.6"""; """F14.6"""; """F14.6"""; """F14.6""";
     """F12.6"""; """F12.6"""; """F12.6""";
     """F16.6""";
     """F14.6"""; """F14.6"""; """F14.6"""; """F14.6""";
     """F16.6"""; """F16.6"""; """F16.6""";
     """F14.6"""; """F14.6"""; """F14.6""";
     """F12.6"""]
  | Cal => ["""F14.6"""; """F20.6"""; """F10.6"""; """F14.6"""]
  | Dlp | Tau =>
    ["""F14.6"""; """F10.6"""; """F10.6"""; """F12.6"""; """F12.6""";
     """E14.6"""; """E14.6"""; """F12.6"""; """E14.6"""; """F14.6""";
     """F14.6"""; """F14.6"""; """F12.6"""]
  end.
(** The names of the columns, without their quotation marks: pds3_geo_series.py
    437-457 and 607-645, pds3_cal_series.py 401-406, pds3_dlp_series.py 531-545 and
    651-687, pds3_tau_series.py 591-605 and 713-749. *)
Definition label_uplink_names : list string :=
  ["UPLINK TRANSMISSION TIME"; "UPLINK RING EVENT TIME"; "UPLINK RING RADIUS";
   "UPLINK RING LONGITUDE"; "UPLINK OBSERVED RING AZIMUTH"].
Definition label_names (s : series) : list string :=
  match s with
  | Geo =>
    ["OBSERVED EVENT TIME"; "RING EVENT TIME"; "SPACECRAFT EVENT TIME"; "RING RADIUS";
     "RING LONGITUDE"; "OBSERVED RING AZIMUTH"; "OBSERVED RING ELEVATION";
     "SPACECRAFT TO RING INTERCEPT DISTANCE"; "RING INTERCEPT RADIAL VELOCITY";
     "RING INTERCEPT AZIMUTHAL VELOCITY"; "FRESNEL SCALE"; "IMPACT RADIUS";
     "SPACECRAFT POSITION X"; "SPACECRAFT POSITION Y"; "SPACECRAFT POSITION Z";
     "SPACECRAFT VELOCITY X"; "SPACECRAFT VELOCITY Y"; "SPACECRAFT VELOCITY Z";
     "OBSERVED SPACECRAFT LATITUDE"]
  | Cal => ["OBSERVED EVENT TIME"; "SKY FREQUENCY"; "OFFSET FREQUENCY"; "FREESPACE POWER"]
  | Dlp =>
    ["RING RADIUS"; "RADIUS CORRECTION DUE TO IMPROVED POLE";
     "RADIUS CORRECTION DUE TO TIMING OFFSET"; "RING LONGITUDE"; "OBSERVED_RING_AZIMUTH";
     "NORMALIZED SIGNAL POWER"; "NORMAL OPTICAL DEPTH"; "PHASE SHIFT";
     "NORMAL OPTICAL DEPTH THRESHOLD"; "OBSERVED EVENT TIME"; "RING EVENT TIME";
     "SPACECRAFT EVENT TIME"; "OBSERVED RING ELEVATION"]
  | Tau =>
    ["RING RADIUS"; "RADIUS CORRECTION DUE TO IMPROVED POLE";
     "RADIUS CORRECTION DUE TO TIMING OFFSET"; "RING LONGITUDE"; "OBSERVED RING AZIMUTH";
     "NORMALIZED SIGNAL POWER"; "NORMAL OPTICAL DEPTH"; "PHASE SHIFT";
     "NORMAL OPTICAL DEPTH THRESHOLD"; "OBSERVED EVENT TIME"; "RING EVENT TIME";
     "SPACECRAFT EVENT TIME"; "OBSERVED RING ELEVATION"]
  end.

(** What a label says. *)
Record label (S : scalar) : Type := {
  lb_record_bytes : Z;                  (* RECORD_BYTES *)
  lb_file_records : Z;                  (* FILE_RECORDS *)
  lb_columns : Z;                       (* COLUMNS *)
  lb_rows : Z;                          (* ROWS *)
  lb_row_bytes : Z;                     (* ROW_BYTES *)
  lb_minimum : S;                       (* MINIMUM_SAMPLING_PARAMETER *)
  lb_maximum : S;                       (* MAXIMUM_SAMPLING_PARAMETER *)
  lb_interval : S;                      (* SAMPLING_PARAMETER_INTERVAL *)
  lb_times : list (string * text);      (* START_TIME and the like: the time of day *)
  lb_extremes : list (string * S);      (* MINIMUM_RING_RADIUS and the like *)
  lb_objects : list object
}.
Arguments lb_record_bytes {S}. Arguments lb_file_records {S}. Arguments lb_columns {S}.
Arguments lb_rows {S}. Arguments lb_row_bytes {S}. Arguments lb_minimum {S}.
Arguments lb_maximum {S}. Arguments lb_interval {S}. Arguments lb_times {S}.
Arguments lb_extremes {S}. Arguments lb_objects {S}.

Section Label.
  Context {S : scalar}.

  (** Python's [min] and [max]: the first of the smallest, the first of the largest;
      of an empty list a ValueError. *)
  Definition pymin (l : list S) : option S :=
    match l with [] => None | x :: r => Some (fold_left (fun m y => if slt y m then y else m) r x) end.
  Definition pymax (l : list S) : option S :=
    match l with [] => None | x :: r => Some (fold_left (fun m y => if sgt y m then y else m) r x) end.
  (** [l[-k]] *)
  Definition from_end (l : list S) (k : nat) : option S :=
    if (Nat.leb k (List.length l)) then nth_error l (List.length l - k) else None.

  (** pds3_write_series_v2.py 424-435: where the warning is printed, [dr] has no
      value and the next line is an exception. *)
  Definition get_sampling_interval (l : list S) : option S :=
    match nth_error l 1, nth_error l 0, from_end l 1, from_end l 2 with
    | Some b, Some a, Some z, Some y =>
        let dr_start := (b - a)%S in
        let dr_end := (z - y)%S in
        let err := sfrac 1 1000 in
        if sgt dr_start (dr_end - err)%S && slt dr_start (dr_end + err)%S
        then Some dr_start else None
    | _, _, _, _ => None
    end.

  (** [int(x)] and [x % 1] for [x >= 0]. *)
  Definition int (x : S) : option Z := match scast x with Ok n => Some n | UB _ => None end.
  Definition mod1 (x : S) : option S :=
    match int x with Some n => Some (x - sofZ n)%S | None => None end.
  (** [str(n).zfill(2)] *)
  Definition zfill2 (n : Z) : text :=
    repeat "0"%char (2 - List.length (decimal n)) ++ decimal n.
  (** pds3_write_series_v2.py 410-422: the part of the string after the date. *)
  Definition get_ISOD_str (spm : S) : option text :=
    let hrs := (spm / sofZ 60 / sofZ 60)%S in
    match int hrs, mod1 hrs with
    | Some h, Some hf =>
        let mins := (hf * sofZ 60)%S in
        match int mins, mod1 mins with
        | Some m, Some mf =>
            let secs := (mf * sofZ 60)%S in
            match int secs with
            | Some s => Some (zfill2 h ++ ":"%char :: zfill2 m ++ ":"%char :: zfill2 s)%list
            | None => None
            end
        | _, _ => None
        end
    | _, _ => None
    end.

  Variable N : nplib S.
  Variable I : instance S.

  Definition reals (name : string) : option (list S) :=
    match I name with Some (Reals l) => Some l | _ => None end.
  Definition bind {A B} (x : option A) (f : A -> option B) : option B :=
    match x with Some a => f a | None => None end.

  (** The times of the first and of the last sample: pds3_geo_series.py 177-178,
      207-208, pds3_cal_series.py 95-96, 127-128, pds3_dlp_series.py 153-160, 184-189,
      pds3_tau_series.py 168-175, 200-205. *)
  Definition first_last (start stop name : string) : option (list (string * text)) :=
    bind (reals name) (fun l =>
    bind (nth_error l 0) (fun a =>
    bind (from_end l 1) (fun z =>
    bind (get_ISOD_str a) (fun ta =>
    bind (get_ISOD_str z) (fun tz => Some [(start, ta); (stop, tz)]))))).
  Definition label_times (s : series) : option (list (string * text)) :=
    bind (first_last "START_TIME" "STOP_TIME" "t_oet_spm_vals") (fun a =>
    match s with
    | Geo | Cal => Some a
    | Dlp | Tau =>
        bind (first_last "RING_EVENT_START_TIME" "RING_EVENT_STOP_TIME" "t_ret_spm_vals") (fun b =>
        bind (first_last "SPACECRAFT_EVENT_START_TIME" "SPACECRAFT_EVENT_STOP_TIME" "t_set_spm_vals")
          (fun c => Some (a ++ b ++ c)%list))
    end).

  (** pds3_dlp_series.py 214-229 and pds3_tau_series.py 233-246. *)
  Definition min_max (lo hi : string) (l : option (list S)) : option (list (string * S)) :=
    bind l (fun l => bind (pymin l) (fun a => bind (pymax l) (fun b => Some [(lo, a); (hi, b)]))).
  Definition degrees_of (name : string) : option (list S) :=
    bind (reals name) (fun l => Some (map (np_degrees N) l)).
  Definition label_extremes (s : series) : option (list (string * S)) :=
    let four rho rl ora b :=
      bind (min_max "MINIMUM_RING_RADIUS" "MAXIMUM_RING_RADIUS" rho) (fun x1 =>
      bind (min_max "MINIMUM_RING_LONGITUDE" "MAXIMUM_RING_LONGITUDE" rl) (fun x2 =>
      bind (min_max "MINIMUM_OBSERVED_RING_AZIMUTH" "MAXIMUM_OBSERVED_RING_AZIMUTH" ora) (fun x3 =>
      bind (min_max "MINIMUM_OBSERVED_RING_ELEVATION" "MAXIMUM_OBSERVED_RING_ELEVATION" b) (fun x4 =>
      Some (x1 ++ x2 ++ x3 ++ x4)%list)))) in
    match s with
    | Geo | Cal => Some []
    | Dlp => four (reals "rho_km_vals") (degrees_of "phi_rl_rad_vals") (degrees_of "phi_rad_vals")
               (degrees_of "B_rad_vals")
    | Tau => four (reals "rho_km_vals") (reals "phi_rl_deg_vals") (reals "phi_deg_vals")
               (reals "B_deg_vals")
    end.

  (** The sampling parameter: pds3_geo_series.py 176, pds3_cal_series.py 94,
      pds3_dlp_series.py 152, pds3_tau_series.py 167. *)
  Definition sampling_parameter (s : series) : string :=
    match s with Geo | Cal => "t_oet_spm_vals" | Dlp | Tau => "rho_km_vals" end.

  (** pds3_geo_series.py 109-688, pds3_cal_series.py 50-472, pds3_dlp_series.py
      100-726, pds3_tau_series.py 111-804; CAL labels do not look at the uplink
      attributes. *)
  Definition series_info (s : series) : option (label S) :=
    let two_way := match s with Cal => false | _ => hasattr I "ul_rho_km_vals" end in
    let formats := (label_formats s ++ if two_way then label_uplink_formats else [])%list in
    let names := (label_names s ++ if two_way then label_uplink_names else [])%list in
    let ncol := List.length formats in
    let col_num := map (fun k => Z.of_nat k) (seq 1 ncol) in
    bind (get_record_bytes formats) (fun '(record_bytes, bytes_list, start_bytes_list) =>
    bind (reals (sampling_parameter s)) (fun arr =>
    bind (label_times s) (fun times =>
    bind (label_extremes s) (fun extremes =>
    bind (pymin arr) (fun lo =>
    bind (pymax arr) (fun hi =>
    bind (get_sampling_interval arr) (fun dr =>
    bind (objects names col_num start_bytes_list bytes_list formats) (fun obs =>
    Some {| lb_record_bytes := record_bytes;
            lb_file_records := Z.of_nat (List.length arr);
            lb_columns := Z.of_nat ncol;
            lb_rows := Z.of_nat (List.length arr);
            lb_row_bytes := record_bytes;
            lb_minimum := lo; lb_maximum := hi; lb_interval := dr;
            lb_times := times; lb_extremes := extremes; lb_objects := obs |})))))))).
End Label.
