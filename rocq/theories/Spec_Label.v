(** * Spec_Label: what it means that a label describes a data file. *)
From Coq Require Import List ZArith Bool Ascii String Reals.
From Verif Require Import Base Scalar Spec_Select Model_Csv Spec_Csv Model_Write Spec_Write Model_Label.
Import ListNotations.
Open Scope string_scope.
Open Scope list_scope.
Open Scope Z_scope.

(** What the names of the columns stand for. *)
Definition column_named (name : string) : option col :=
  let is (s : string) := String.eqb name s in
  if is "OBSERVED EVENT TIME" then Some cTOET
  else if is "RING EVENT TIME" then Some cTRET
  else if is "SPACECRAFT EVENT TIME" then Some cTSET
  else if is "RING RADIUS" then Some cRHO
  else if is "RING LONGITUDE" then Some cPHIRL
  else if is "OBSERVED RING AZIMUTH" || is "OBSERVED_RING_AZIMUTH" then Some cPHIORA
  else if is "OBSERVED RING ELEVATION" then Some cB
  else if is "SPACECRAFT TO RING INTERCEPT DISTANCE" then Some cD
  else if is "RING INTERCEPT RADIAL VELOCITY" then Some cRHODOT
  else if is "RING INTERCEPT AZIMUTHAL VELOCITY" then Some cPHIRLDOT
  else if is "FRESNEL SCALE" then Some cF
  else if is "IMPACT RADIUS" then Some cRIMP
  else if is "SPACECRAFT POSITION X" then Some cRX
  else if is "SPACECRAFT POSITION Y" then Some cRY
  else if is "SPACECRAFT POSITION Z" then Some cRZ
  else if is "SPACECRAFT VELOCITY X" then Some cVX
  else if is "SPACECRAFT VELOCITY Y" then Some cVY
  else if is "SPACECRAFT VELOCITY Z" then Some cVZ
  else if is "OBSERVED SPACECRAFT LATITUDE" then Some cOBSLAT
  else if is "SKY FREQUENCY" then Some cFPRED
  else if is "OFFSET FREQUENCY" then Some cFRESID
  else if is "FREESPACE POWER" then Some cPFREE
  else if is "RADIUS CORRECTION DUE TO IMPROVED POLE" then Some cCPOLE
  else if is "RADIUS CORRECTION DUE TO TIMING OFFSET" then Some cCTIM
  else if is "PHASE SHIFT" then Some cPHASE
  else None.
(** Names that stand for different columns in DLP and TAU files: measured and
    reconstructed power, optical depth and threshold. *)
Definition profile_named (s : series) (name : string) : option col :=
  let is (a : string) := String.eqb name a in
  if is "NORMALIZED SIGNAL POWER" then match s with Dlp => Some cPNORM | Tau => Some cPOWER | _ => None end
  else if is "NORMAL OPTICAL DEPTH" then match s with Dlp => Some cRAWTAU | Tau => Some cTAUV | _ => None end
  else if is "NORMAL OPTICAL DEPTH THRESHOLD" then
    match s with Dlp => Some cRAWTHR | Tau => Some cTAUTHR | _ => None end
  else None.
(** The attributes of two-way observations. *)
Definition uplink_named (name : string) : option string :=
  let is (a : string) := String.eqb name a in
  if is "UPLINK TRANSMISSION TIME" then Some "t_ul_spm_vals"%string
  else if is "UPLINK RING EVENT TIME" then Some "t_ul_ret_spm_vals"%string
  else if is "UPLINK RING RADIUS" then Some "ul_rho_km_vals"%string
  else if is "UPLINK RING LONGITUDE" then Some "ul_phi_rl_deg_vals"%string
  else if is "UPLINK OBSERVED RING AZIMUTH" then Some "ul_phi_ora_deg_vals"%string
  else None.
(** [q] is sample [i] of what [name] stands for. *)
Definition named (I : instance real_scalar) (s : series) (name : string) (i : Z) (q : R) : Prop :=
  match column_named name, profile_named s name, uplink_named name with
  | Some c, _, _ => column_is I s c i q
  | None, Some c, _ => column_is I s c i q
  | None, None, Some a => has I a i q
  | None, None, None => False
  end.

(** [count] bytes of a file, from byte [start] (the first is 0). *)
Definition bytes_at (txt : text) (start count : Z) : text :=
  firstn (Z.to_nat count) (skipn (Z.to_nat start) txt).

Local Open Scope R_scope.
(** The formats of the labels: fixed point or with exponent, a width, six decimals. *)
Definition is_format (fmt : string) (exponent : bool) (w : Z) : Prop :=
  fmt = string_of_list_ascii ("034"%char :: (if exponent then "E"%char else "F"%char) ::
          decimal w ++ ["."%char; "6"%char; "034"%char]).
(** A number printed in that format: six decimals, or seven significant digits. *)
Definition printed_as (exponent : bool) (q v : R) : Prop :=
  if exponent then Rabs (v - q) <= Rabs q / 1000000 else Rabs (v - q) <= / 2000000.
(** Numbers that have a numeral of [w] characters with six decimals, and numbers that
    have not. *)
Definition fits (w : Z) (q : R) : Prop :=
  - (ten_to (w - 8) - ten_to (-6)) <= q <= ten_to (w - 7) - ten_to (-6).
Definition too_wide (w : Z) (q : R) : Prop := q <= - ten_to (w - 8) \/ ten_to (w - 7) <= q.

(** Every value of a fixed-point column of the label fits. *)
Definition all_fit (I : instance real_scalar) (s : series) (n : Z) (l : label real_scalar) : Prop :=
  forall o i q, In o (lb_objects l) -> is_format (ob_format o) false (ob_bytes o) -> (0 <= i < n)%Z ->
    named I s (ob_name o) i q -> fits (ob_bytes o) q.
(** Some value of a fixed-point column does not fit. *)
Definition some_too_wide (I : instance real_scalar) (s : series) (n : Z) (l : label real_scalar) : Prop :=
  exists o i q, In o (lb_objects l) /\ is_format (ob_format o) false (ob_bytes o) /\ (0 <= i < n)%Z /\
    named I s (ob_name o) i q /\ too_wide (ob_bytes o) q.
(** One-way observations, and two-way observations whose uplink arrays are complete;
    TAU files of two-way observations cannot be written (C64). *)
Definition writable (I : instance real_scalar) (s : series) (n : Z) : Prop :=
  s <> Cal -> no_uplink I \/ s <> Tau /\ uplink_sampled I n.

(** The label describes the file: it consists of records of equal length, one for
    each sample; each column is where the label says, alone between two separators,
    and holds the quantity that the label names, printed in the format of the label. *)
Record describes (I : instance real_scalar) (s : series) (l : label real_scalar) (txt : text) : Prop := {
  d_size : zlen txt = (lb_file_records l * lb_record_bytes l)%Z;
  d_rows : lb_rows l = lb_file_records l /\ lb_row_bytes l = lb_record_bytes l;
  d_columns : lb_columns l = zlen (lb_objects l);
  d_cells : forall i j o, (0 <= i < lb_file_records l)%Z -> entry (lb_objects l) j o ->
    let start := (i * lb_record_bytes l + (ob_start o - 1))%Z in
    let cell := bytes_at txt start (ob_bytes o) in
    let next := (start + ob_bytes o)%Z in
    ob_number o = (j + 1)%Z /\
    (1 <= ob_start o)%Z /\ zlen cell = ob_bytes o /\ ~ In ","%char cell /\ ~ In "010"%char cell /\
    (if (j =? lb_columns l - 1)%Z
     then bytes_at txt next 2 = ["013"%char; "010"%char] /\ next = ((i + 1) * lb_record_bytes l - 2)%Z
     else bytes_at txt next 1 = [","%char]) /\
    exists e, is_format (ob_format o) e (ob_bytes o) /\
      (exists q, named I s (ob_name o) i q) /\
      forall q, named I s (ob_name o) i q ->
        exists m k, numeral cell = Some (m, k) /\ printed_as e q (IZR m * ten_to k)
}.

(** All arrays of the object have [n] samples. *)
Definition rectangular (I : instance real_scalar) (n : Z) : Prop :=
  forall a l, I a = Some (Reals l) -> zlen l = n.
(** What the samples are taken over: time, or ring radius. *)
Definition sampling (s : series) : string :=
  match s with Geo | Cal => "OBSERVED EVENT TIME" | Dlp | Tau => "RING RADIUS" end.
(** Equal steps, as far as the first and the last tell. *)
Definition even_steps (I : instance real_scalar) (s : series) (n : Z) : Prop :=
  exists a b y z, named I s (sampling s) 0 a /\ named I s (sampling s) 1 b /\
    named I s (sampling s) (n - 2) y /\ named I s (sampling s) (n - 1) z /\
    Rabs ((b - a) - (z - y)) < / 1000.
(** Times are not negative (and below what fits in a machine word). *)
Definition times_ok (I : instance real_scalar) : Prop :=
  forall a i t, In a ["t_oet_spm_vals"; "t_ret_spm_vals"; "t_set_spm_vals"]%string -> has I a i t ->
    0 <= t < 18446744073709551616.

(** A time of day: hours, minutes and seconds, of two digits or more. *)
Definition clock (s : text) : option (Z * Z * Z) :=
  match read_digits 0 0 s with
  | (h, kh, c :: r) =>
      match read_digits 0 0 r with
      | (m, km, d :: r2) =>
          match read_digits 0 0 r2 with
          | (sec, ks, []) =>
              if Ascii.eqb c ":"%char && Ascii.eqb d ":"%char && (2 <=? kh)%Z && (km =? 2)%Z && (ks =? 2)%Z
              then Some (h, m, sec) else None
          | _ => None
          end
      | _ => None
      end
  | _ => None
  end.
(** The time of day of a moment, in whole seconds; after midnight the hours go on
    counting. *)
Definition shows_time (txt : text) (t : R) : Prop :=
  exists h m s, clock txt = Some (h, m, s) /\ (0 <= h /\ 0 <= m < 60 /\ 0 <= s < 60)%Z /\
    IZR (3600 * h + 60 * m + s) <= t < IZR (3600 * h + 60 * m + s) + 1.

(** The moments of a label: which times, and whether the first or the last. *)
Definition moment (key : string) : option (string * bool) :=
  let is (a : string) := String.eqb key a in
  if is "START_TIME" then Some ("t_oet_spm_vals"%string, true)
  else if is "STOP_TIME" then Some ("t_oet_spm_vals"%string, false)
  else if is "RING_EVENT_START_TIME" then Some ("t_ret_spm_vals"%string, true)
  else if is "RING_EVENT_STOP_TIME" then Some ("t_ret_spm_vals"%string, false)
  else if is "SPACECRAFT_EVENT_START_TIME" then Some ("t_set_spm_vals"%string, true)
  else if is "SPACECRAFT_EVENT_STOP_TIME" then Some ("t_set_spm_vals"%string, false)
  else None.
(** The extreme values of a label: of which quantity, and whether the least. *)
Definition extreme (key : string) : option (string * bool) :=
  let is (a : string) := String.eqb key a in
  if is "MINIMUM_RING_RADIUS" then Some ("RING RADIUS"%string, true)
  else if is "MAXIMUM_RING_RADIUS" then Some ("RING RADIUS"%string, false)
  else if is "MINIMUM_RING_LONGITUDE" then Some ("RING LONGITUDE"%string, true)
  else if is "MAXIMUM_RING_LONGITUDE" then Some ("RING LONGITUDE"%string, false)
  else if is "MINIMUM_OBSERVED_RING_AZIMUTH" then Some ("OBSERVED RING AZIMUTH"%string, true)
  else if is "MAXIMUM_OBSERVED_RING_AZIMUTH" then Some ("OBSERVED RING AZIMUTH"%string, false)
  else if is "MINIMUM_OBSERVED_RING_ELEVATION" then Some ("OBSERVED RING ELEVATION"%string, true)
  else if is "MAXIMUM_OBSERVED_RING_ELEVATION" then Some ("OBSERVED RING ELEVATION"%string, false)
  else None.
(** [v] is one of the samples, and the least (or the largest) of them. *)
Definition least (Q : Z -> R -> Prop) (n : Z) (v : R) : Prop :=
  (exists i, (0 <= i < n)%Z /\ Q i v) /\ forall i q, (0 <= i < n)%Z -> Q i q -> v <= q.
Definition largest (Q : Z -> R -> Prop) (n : Z) (v : R) : Prop :=
  (exists i, (0 <= i < n)%Z /\ Q i v) /\ forall i q, (0 <= i < n)%Z -> Q i q -> q <= v.

(** What else a label tells of [n] samples. *)
Record tells (I : instance real_scalar) (s : series) (n : Z) (l : label real_scalar) : Prop := {
  t_samples : lb_file_records l = n;
  t_minimum : least (named I s (sampling s)) n (lb_minimum l);
  t_maximum : largest (named I s (sampling s)) n (lb_maximum l);
  t_interval : exists a b, named I s (sampling s) 0 a /\ named I s (sampling s) 1 b /\ lb_interval l = b - a;
  t_time_keys : map fst (lb_times l) =
    ["START_TIME"; "STOP_TIME"] ++
    match s with
    | Geo | Cal => []
    | Dlp | Tau => ["RING_EVENT_START_TIME"; "RING_EVENT_STOP_TIME";
                    "SPACECRAFT_EVENT_START_TIME"; "SPACECRAFT_EVENT_STOP_TIME"]
    end;
  t_times : forall key txt, In (key, txt) (lb_times l) ->
    exists a first t, moment key = Some (a, first) /\
      has I a (if first : bool then 0 else n - 1)%Z t /\ shows_time txt t;
  t_extreme_keys : map fst (lb_extremes l) =
    match s with
    | Geo | Cal => []
    | Dlp | Tau => ["MINIMUM_RING_RADIUS"; "MAXIMUM_RING_RADIUS";
                    "MINIMUM_RING_LONGITUDE"; "MAXIMUM_RING_LONGITUDE";
                    "MINIMUM_OBSERVED_RING_AZIMUTH"; "MAXIMUM_OBSERVED_RING_AZIMUTH";
                    "MINIMUM_OBSERVED_RING_ELEVATION"; "MAXIMUM_OBSERVED_RING_ELEVATION"]
    end;
  t_extremes : forall key v, In (key, v) (lb_extremes l) ->
    exists name lowest, extreme key = Some (name, lowest) /\
      if lowest : bool then least (named I s name) n v else largest (named I s name) n v
}.
