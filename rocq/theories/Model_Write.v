(** * Model_Write: the Python functions that write the data files
    (rss_ringoccs/tools/pds3_geo_series.py, pds3_uranus_geo_series.py,
    pds3_cal_series.py, pds3_dlp_series.py, pds3_tau_series.py).  Definitions only.

    Left out: the label files (Model_Label.v), the summary documents, NaN and infinities (which
    Python prints as NAN and INF), what a file contains after an exception, and the
    translation of line ends on other systems than Unix. *)
From Coq Require Import List ZArith Bool Ascii String.
From Verif Require Import Base Scalar Model_Csv.
Import ListNotations.
Open Scope list_scope.
Open Scope Z_scope.

(** ** Printing: Python's %W.6F and %W.6E *)

Definition digit (d : Z) : ascii := ascii_of_nat (Z.to_nat (48 + d)).
(** The last [k] decimal digits of [n]. *)
Fixpoint last_digits (k : nat) (n : Z) : text :=
  match k with
  | O => []
  | Datatypes.S k => last_digits k (n / 10) ++ [digit (n mod 10)]
  end.
(** How many digits [n] has. *)
Fixpoint digit_count (fuel : nat) (n : Z) : nat :=
  match fuel with
  | O => 1
  | Datatypes.S f => if n <? 10 then 1 else Datatypes.S (digit_count f (n / 10))
  end.
(** The decimal numeral of [n >= 0]. *)
Definition decimal (n : Z) : text := last_digits (digit_count (Z.to_nat (Z.log2 n)) n) n.
(** At least [w] characters, aligned to the right. *)
Definition padded (w : nat) (s : text) : text := repeat " "%char (w - List.length s) ++ s.
Definition sign_text (neg : bool) : text := if neg then ["-"%char] else [].
(** %W.6F: [n] is the number of millionths. *)
Definition fixed_text (w : nat) (neg : bool) (n : Z) : text :=
  padded w (sign_text neg ++ decimal (n / 10 ^ 6) ++ "."%char :: last_digits 6 n).
(** %W.6E: [n] millionths times the [k]-th power of ten; the exponent has a sign and
    at least two digits. *)
Definition exp_text (w : nat) (neg : bool) (n k : Z) : text :=
  padded w (sign_text neg ++ decimal (n / 10 ^ 6) ++ "."%char :: last_digits 6 n ++
    "E"%char :: (if k <? 0 then "-"%char else "+"%char) ::
    (if Z.abs k <? 10 then ["0"%char] else []) ++ decimal (Z.abs k)).

(** The two conversions of the formats, with their widths. *)
Inductive conversion : Type := F (w : nat) | E (w : nat).

(** How numbers are rounded to be printed: the sign, the number of millionths for
    %F, and for %E the number of millionths (at least one unit, less than ten) and
    the exponent. *)
Record printer (S : scalar) : Type := {
  pr_neg : S -> bool;
  pr_fixed : S -> Z;
  pr_exp : S -> Z * Z
}.
Arguments pr_neg {S}. Arguments pr_fixed {S}. Arguments pr_exp {S}.

(** The numpy functions that the writers call; [np_abs] is the modulus of a complex
    number. *)
Record nplib (S : scalar) : Type := {
  np_degrees : S -> S;
  np_radians : S -> S;
  np_sin : S -> S;
  np_log : S -> S;
  np_arctan2 : S -> S -> S;
  np_abs : cplx S -> S
}.
Arguments np_degrees {S}. Arguments np_radians {S}. Arguments np_sin {S}.
Arguments np_log {S}. Arguments np_arctan2 {S}. Arguments np_abs {S}.

(** A Python object: its attributes, and the values they have. *)
Inductive pyval (S : scalar) : Type :=
| PyNone
| Reals (l : list S)
| Complexes (l : list (cplx S)).
Arguments PyNone {S}. Arguments Reals {S}. Arguments Complexes {S}.
Definition instance (S : scalar) : Type := string -> option (pyval S).

(** What [None] stands for below: an exception. *)
Fixpoint all {A} (l : list (option A)) : option (list A) :=
  match l with
  | [] => Some []
  | None :: _ => None
  | Some a :: r => match all r with Some v => Some (a :: v) | None => None end
  end.

Section Write.
  Context {S : scalar}.
  Variable N : nplib S.
  Variable P : printer S.
  Variable I : instance S.

  Definition show (f : conversion) (x : S) : text :=
    match f with
    | F w => fixed_text w (pr_neg P x) (pr_fixed P x)
    | E w => exp_text w (pr_neg P x) (fst (pr_exp P x)) (snd (pr_exp P x))
    end.
  (** [format_str % (values, '\r\n')]: the conversions are separated by commas and
      followed by %s for the end of the line; another number of values is a
      TypeError. *)
  Fixpoint render (fs : list conversion) (vs : list S) : option text :=
    match fs, vs with
    | [f], [v] => Some (show f v ++ ["013"%char; "010"%char])
    | f :: fr, v :: vr =>
        match render fr vr with
        | Some t => Some (show f v ++ ","%char :: t)
        | None => None
        end
    | _, _ => None
    end.

  (** [inst.name[n]] *)
  Definition item (name : string) (n : nat) : option S :=
    match I name with Some (Reals l) => nth_error l n | _ => None end.
  Definition citem (name : string) (n : nat) : option (cplx S) :=
    match I name with Some (Complexes l) => nth_error l n | _ => None end.
  Definition hasattr (name : string) : bool :=
    match I name with Some _ => true | None => false end.
  (** [len(inst.t_oet_spm_vals)] *)
  Definition npts : option nat :=
    match I "t_oet_spm_vals"%string with
    | Some (Reals l) => Some (List.length l)
    | Some (Complexes l) => Some (List.length l)
    | _ => None
    end.

  (** The loop [for n in range(npts): f.write(format_str % (...))]. *)
  Fixpoint write_rows (fs : list conversion) (values : nat -> list (option S)) (n : nat) : option text :=
    match n with
    | O => Some []
    | Datatypes.S m =>
        match write_rows fs values m with
        | None => None
        | Some t =>
            match all (values m) with
            | None => None
            | Some vs => match render fs vs with Some r => Some (t ++ r) | None => None end
            end
        end
    end.
  Definition write (fs : list conversion) (values : nat -> list (option S)) : option text :=
    match npts with Some n => write_rows fs values n | None => None end.

  Local Open Scope string_scope.
  (** The five uplink columns (pds3_geo_series.py 69-73, pds3_dlp_series.py 66-70,
      pds3_tau_series.py 69-73). *)
  Definition uplink_values (n : nat) : list (option S) :=
    [item "t_ul_spm_vals" n; item "t_ul_ret_spm_vals" n; item "ul_rho_km_vals" n;
     item "ul_phi_rl_deg_vals" n; item "ul_phi_ora_deg_vals" n].
  Definition uplink_format : list conversion := [F 14; F 14; F 14; F 12; F 12].

  (** pds3_geo_series.py 20-106 (pds3_uranus_geo_series.py 20-106 is the same). *)
  Definition geo_formats : list conversion :=
    repeat (F 14) 4 ++ repeat (F 12) 3 ++ [F 16] ++ repeat (F 14) 4 ++ repeat (F 16) 3 ++
    repeat (F 14) 3 ++ [F 12].
  Definition geo_values (n : nat) : list (option S) :=
    [item "t_oet_spm_vals" n; item "t_ret_spm_vals" n; item "t_set_spm_vals" n;
     item "rho_km_vals" n; item "phi_rl_deg_vals" n; item "phi_ora_deg_vals" n;
     item "B_deg_vals" n; item "D_km_vals" n; item "rho_dot_kms_vals" n;
     item "phi_rl_dot_kms_vals" n; item "F_km_vals" n; item "R_imp_km_vals" n;
     item "rx_km_vals" n; item "ry_km_vals" n; item "rz_km_vals" n;
     item "vx_kms_vals" n; item "vy_kms_vals" n; item "vz_kms_vals" n;
     item "elev_deg_vals" n].
  Definition write_geo_series_data : option text :=
    if hasattr "ul_rho_km_vals"
    then write (geo_formats ++ uplink_format) (fun n => geo_values n ++ uplink_values n)%list
    else write geo_formats geo_values.

  (** pds3_cal_series.py 24-47. *)
  Definition cal_formats : list conversion := [F 14; F 20; F 10; F 14].
  Definition cal_values (n : nat) : list (option S) :=
    [item "t_oet_spm_vals" n; item "f_sky_hz_vals" n; item "f_offset_fit_vals" n;
     item "p_free_vals" n].
  Definition write_cal_series_data : option text := write cal_formats cal_values.

  Definition profile_formats : list conversion :=
    [F 14; F 10; F 10; F 12; F 12; E 14; E 14; F 12; E 14; F 14; F 14; F 14; F 12].
  (** [f] applied to an item. *)
  Definition lift (f : S -> S) (x : option S) : option S :=
    match x with Some a => Some (f a) | None => None end.

  (** pds3_dlp_series.py 20-98.  Lines 38-39 compute the optical depths of all
      samples; arrays of different lengths are taken to be an error (numpy would
      repeat an array of length one). *)
  Definition tau_norm (b p : S) : S := ((- np_sin N (sabs b)) * np_log N p)%S.
  Definition same_length : bool :=
    match I "B_rad_vals", I "p_norm_vals" with
    | Some (Reals b), Some (Reals p) => Nat.eqb (List.length b) (List.length p)
    | _, _ => false
    end.
  Definition dlp_values (n : nat) : list (option S) :=
    [item "rho_km_vals" n; item "rho_corr_pole_km_vals" n; item "rho_corr_timing_km_vals" n;
     lift (np_degrees N) (item "phi_rl_rad_vals" n); lift (np_degrees N) (item "phi_rad_vals" n);
     item "p_norm_vals" n;
     match item "B_rad_vals" n, item "p_norm_vals" n with
     | Some b, Some p => Some (tau_norm b p)
     | _, _ => None
     end;
     lift (np_degrees N) (item "phase_rad_vals" n); item "raw_tau_threshold_vals" n;
     item "t_oet_spm_vals" n; item "t_ret_spm_vals" n; item "t_set_spm_vals" n;
     lift (np_degrees N) (item "B_rad_vals" n)].
  Definition write_dlp_series_data : option text :=
    if same_length then
      if hasattr "ul_rho_km_vals"
      then write (profile_formats ++ uplink_format) (fun n => dlp_values n ++ uplink_values n)%list
      else write profile_formats dlp_values
    else None.

  (** pds3_tau_series.py 21-109. *)
  Definition tau_threshold (n : nat) : option S :=
    match I "tau_threshold_vals" with
    | Some PyNone => Some s0
    | _ => item "tau_threshold_vals" n
    end.
  (** Lines 59, 61, 63 and 92, 94, 95. *)
  Definition out_power (T : cplx S) : S := np_abs N (cmul T T).
  Definition out_tau (T : cplx S) (b : S) : S :=
    ((- np_log N (out_power T)) * sabs (np_sin N (np_radians N b)))%S.
  Definition out_phase (T : cplx S) : S := np_degrees N (np_arctan2 N (- cim T)%S (cre T)).
  Definition out_values (n : nat) : list (option S) :=
    match citem "T_out" n with
    | Some T => [Some (out_power T); lift (out_tau T) (item "B_deg_vals" n); Some (out_phase T)]
    | None => [None]
    end.
  Definition tau_values (n : nat) : list (option S) :=
    ([item "rho_km_vals" n; item "rho_corr_pole_km_vals" n; item "rho_corr_timing_km_vals" n;
      item "phi_rl_deg_vals" n; item "phi_deg_vals" n] ++ out_values n ++
     [tau_threshold n; item "t_oet_spm_vals" n; item "t_ret_spm_vals" n; item "t_set_spm_vals" n;
      item "B_deg_vals" n])%list.
  (** Lines 40-74: two more angles are passed than the format has conversions. *)
  Definition tau_uplink_values (n : nat) : list (option S) :=
    ([item "rho_km_vals" n; item "rho_corr_pole_km_vals" n; item "rho_corr_timing_km_vals" n;
      lift (np_degrees N) (item "phi_rl_rad_vals" n); lift (np_degrees N) (item "phi_rad_vals" n);
      item "phi_rl_deg_vals" n; item "phi_deg_vals" n] ++ out_values n ++
     [tau_threshold n; item "t_oet_spm_vals" n; item "t_ret_spm_vals" n; item "t_set_spm_vals" n;
      item "B_deg_vals" n] ++ uplink_values n)%list.
  Definition write_tau_series_data : option text :=
    if hasattr "ul_rho_km_vals"
    then write (profile_formats ++ uplink_format) tau_uplink_values
    else write profile_formats tau_values.
End Write.
