(** * Spec_Write: what the properties of the files that the package writes say.

    What a decimal numeral denotes, what is assumed of printing, of [atof] and of
    numpy in exact arithmetic, and what each column of a file is. *)
From Coq Require Import List ZArith Bool Ascii String Reals.
From Verif Require Import Base Scalar Spec_Select Model_Csv Spec_Csv Model_Write.
Import ListNotations.
Open Scope list_scope.
Open Scope Z_scope.

(** ** Numerals *)

(** The value of a digit. *)
Definition digit_value (c : ascii) : option Z :=
  let d := Z.of_nat (nat_of_ascii c) - 48 in
  if (0 <=? d) && (d <=? 9) then Some d else None.
(** Reads digits: the number that they continue from [m], how many they are, and
    what follows. *)
Fixpoint read_digits (m : Z) (k : Z) (s : text) : Z * Z * text :=
  match s with
  | [] => (m, k, [])
  | c :: r => match digit_value c with
              | Some d => read_digits (10 * m + d) (k + 1) r
              | None => (m, k, s)
              end
  end.
Fixpoint skip_blanks (s : text) : text :=
  match s with
  | c :: r => if Ascii.eqb c " "%char then skip_blanks r else s
  | [] => []
  end.
(** An optional sign: is it a minus, and what follows. *)
Definition read_sign (s : text) : bool * text :=
  match s with
  | c :: r => if Ascii.eqb c "-"%char then (true, r)
              else if Ascii.eqb c "+"%char then (false, r) else (false, s)
  | [] => (false, [])
  end.
(** Blanks, sign, digits, point, digits, and perhaps E with a signed exponent; what
    follows does not matter.  The result (m, e) is the number m times ten to the e. *)
Definition numeral (s : text) : option (Z * Z) :=
  let '(neg, s1) := read_sign (skip_blanks s) in
  let '(m, k, s2) := read_digits 0 0 s1 in
  match s2 with
  | c :: r =>
      if Ascii.eqb c "."%char && (0 <? k) then
        let '(m1, k1, s3) := read_digits m 0 r in
        let m2 := if neg then - m1 else m1 in
        match s3 with
        | d :: r3 =>
            if Ascii.eqb d "E"%char then
              let '(eneg, s4) := read_sign r3 in
              let '(e, _, _) := read_digits 0 0 s4 in
              Some (m2, (if eneg then - e else e) - k1)
            else Some (m2, - k1)
        | [] => Some (m2, - k1)
        end
      else None
  | [] => None
  end.

Local Open Scope R_scope.
Definition ten_to (e : Z) : R := powerRZ 10 e.
(** [atof] returns the number that the numeral denotes. *)
Definition atof_law (L : csvlib real_scalar) : Prop :=
  forall s m e, numeral s = Some (m, e) -> l_atof L s = IZR m * ten_to e.

(** ** Printing: numbers are rounded to nearest *)
Record print_laws (P : printer real_scalar) : Prop := {
  law_neg : forall x : R, pr_neg P x = true <-> x < 0;
  law_fixed : forall x : R, (0 <= pr_fixed P x)%Z /\
    Rabs (IZR (pr_fixed P x) * ten_to (-6) - Rabs x) <= / 2 * ten_to (-6);
  law_exp0 : pr_exp P 0 = (0, 0)%Z;
  law_exp : forall x : R, x <> 0 ->
    let '(n, k) := pr_exp P x in
    (10 ^ 6 <= n < 10 ^ 7)%Z /\
    Rabs (IZR n * ten_to (k - 6) - Rabs x) <= / 2 * ten_to (k - 6)
}.

(** ** numpy *)
Record np_laws (N : nplib real_scalar) : Prop := {
  law_degrees : forall x : R, np_degrees N x = x * 180 / PI;
  law_radians : forall x : R, np_radians N x = x * PI / 180;
  law_sin : forall x : R, np_sin N x = sin x;
  law_log : forall x : R, 0 < x -> np_log N x = ln x;
  law_abs : forall z : cplx real_scalar, np_abs N z = R_sqrt.sqrt (fst z * fst z + snd z * snd z);
  law_arctan2 : forall y x : R, (x, y) <> (0, 0) ->
    - PI < np_arctan2 N y x <= PI /\
    x = R_sqrt.sqrt (x * x + y * y) * cos (np_arctan2 N y x) /\
    y = R_sqrt.sqrt (x * x + y * y) * sin (np_arctan2 N y x)
}.

(** ** What the columns are *)

Section Means.
  Variable I : instance real_scalar.

  (** Sample [i] of an attribute. *)
  Definition has (name : string) (i : Z) (x : R) : Prop :=
    exists l, I name = Some (Reals l) /\ entry l i x.
  Definition has_complex (name : string) (i : Z) (re im : R) : Prop :=
    exists l, I name = Some (Complexes l) /\ entry l i (re, im).
  (** Sample [i] of an attribute in radians, in degrees. *)
  Definition has_degrees (name : string) (i : Z) (q : R) : Prop :=
    exists x, has name i x /\ q = x * 180 / PI.

  Local Open Scope string_scope.
  Definition geo_column (c : col) (i : Z) (q : R) : Prop :=
    match c with
    | cTOET => has "t_oet_spm_vals" i q | cTRET => has "t_ret_spm_vals" i q
    | cTSET => has "t_set_spm_vals" i q | cRHO => has "rho_km_vals" i q
    | cPHIRL => has "phi_rl_deg_vals" i q | cPHIORA => has "phi_ora_deg_vals" i q
    | cB => has "B_deg_vals" i q | cD => has "D_km_vals" i q
    | cRHODOT => has "rho_dot_kms_vals" i q | cPHIRLDOT => has "phi_rl_dot_kms_vals" i q
    | cF => has "F_km_vals" i q | cRIMP => has "R_imp_km_vals" i q
    | cRX => has "rx_km_vals" i q | cRY => has "ry_km_vals" i q | cRZ => has "rz_km_vals" i q
    | cVX => has "vx_kms_vals" i q | cVY => has "vy_kms_vals" i q | cVZ => has "vz_kms_vals" i q
    | cOBSLAT => has "elev_deg_vals" i q
    | _ => False
    end.
  Definition cal_column (c : col) (i : Z) (q : R) : Prop :=
    match c with
    | cTOET => has "t_oet_spm_vals" i q | cFPRED => has "f_sky_hz_vals" i q
    | cFRESID => has "f_offset_fit_vals" i q | cPFREE => has "p_free_vals" i q
    | _ => False
    end.
  (** Normal optical depth: -|sin B| ln(power), for opening angles of at most a half
      turn. *)
  Definition dlp_column (c : col) (i : Z) (q : R) : Prop :=
    match c with
    | cRHO => has "rho_km_vals" i q | cCPOLE => has "rho_corr_pole_km_vals" i q
    | cCTIM => has "rho_corr_timing_km_vals" i q
    | cPHIRL => has_degrees "phi_rl_rad_vals" i q | cPHIORA => has_degrees "phi_rad_vals" i q
    | cPNORM => has "p_norm_vals" i q
    | cRAWTAU => exists p b, has "p_norm_vals" i p /\ has "B_rad_vals" i b /\ 0 < p /\
                   Rabs b <= PI /\ q = - (Rabs (sin b) * ln p)
    | cPHASE => has_degrees "phase_rad_vals" i q
    | cRAWTHR => has "raw_tau_threshold_vals" i q
    | cTOET => has "t_oet_spm_vals" i q | cTRET => has "t_ret_spm_vals" i q
    | cTSET => has "t_set_spm_vals" i q | cB => has_degrees "B_rad_vals" i q
    | _ => False
    end.
  (** Power, optical depth and phase of the reconstructed profile: the squared
      modulus, -|sin B| ln(power), and minus the argument. *)
  Definition tau_column (c : col) (i : Z) (q : R) : Prop :=
    match c with
    | cRHO => has "rho_km_vals" i q | cCPOLE => has "rho_corr_pole_km_vals" i q
    | cCTIM => has "rho_corr_timing_km_vals" i q
    | cPHIRL => has "phi_rl_deg_vals" i q | cPHIORA => has "phi_deg_vals" i q
    | cPOWER => exists re im, has_complex "T_out" i re im /\ q = re * re + im * im
    | cTAUV => exists re im b, has_complex "T_out" i re im /\ has "B_deg_vals" i b /\
                 (re, im) <> (0, 0) /\ q = - (Rabs (sin (b * PI / 180)) * ln (re * re + im * im))
    | cPHASE => exists re im, has_complex "T_out" i re im /\ (re, im) <> (0, 0) /\
                  -180 < q <= 180 /\
                  re = R_sqrt.sqrt (re * re + im * im) * cos (q * PI / 180) /\
                  - im = R_sqrt.sqrt (re * re + im * im) * sin (q * PI / 180)
    | cTAUTHR => I "tau_threshold_vals" = Some PyNone /\ q = 0 \/ has "tau_threshold_vals" i q
    | cTOET => has "t_oet_spm_vals" i q | cTRET => has "t_ret_spm_vals" i q
    | cTSET => has "t_set_spm_vals" i q | cB => has "B_deg_vals" i q
    | _ => False
    end.

  (** The four files, what their columns are, and the function that writes them. *)
  Inductive series : Type := Geo | Cal | Dlp | Tau.
  Definition table_of (s : series) : table :=
    match s with Geo => TGeo false | Cal => TCal | Dlp => TDlp false | Tau => TTau false end.
  Definition column_is (s : series) : col -> Z -> R -> Prop :=
    match s with Geo => geo_column | Cal => cal_column | Dlp => dlp_column | Tau => tau_column end.
  Definition write_series (N : nplib real_scalar) (P : printer real_scalar) (s : series) : option text :=
    match s with
    | Geo => write_geo_series_data P I
    | Cal => write_cal_series_data P I
    | Dlp => write_dlp_series_data N P I
    | Tau => write_tau_series_data N P I
    end.

  (** Power, optical depth and threshold have seven significant digits, everything
      else has six decimals. *)
  Definition significant (c : col) : bool :=
    match c with cPNORM | cRAWTAU | cRAWTHR | cPOWER | cTAUV | cTAUTHR => true | _ => false end.
  (** What is read is the number that was written, up to the digits of the file. *)
  Definition printed (c : col) (q v : R) : Prop :=
    if significant c then Rabs (v - q) <= Rabs q / 1000000
    else Rabs (v - q) <= / 2000000.
  (** Numbers that fit in the line. *)
  Definition ordinary (q : R) : Prop :=
    q = 0 \/ ten_to (-300) <= Rabs q <= ten_to 30.

  (** The object has [n] samples of everything. *)
  Definition sampled (s : series) (n : Z) : Prop :=
    (exists l, I "t_oet_spm_vals" = Some (Reals l) /\ zlen l = n) /\
    (s = Dlp -> exists b p, I "B_rad_vals" = Some (Reals b) /\ I "p_norm_vals" = Some (Reals p) /\
                  zlen b = zlen p) /\
    forall c i, In c (columns (table_of s)) -> (0 <= i < n)%Z ->
      exists q, column_is s c i q /\ ordinary q.
  Definition no_uplink : Prop := I "ul_rho_km_vals" = None.
  (** Five more attributes of two-way observations. *)
  Definition uplink_sampled (n : Z) : Prop :=
    forall a i, In a ["t_ul_spm_vals"; "t_ul_ret_spm_vals"; "ul_rho_km_vals"; "ul_phi_rl_deg_vals";
                      "ul_phi_ora_deg_vals"]%list -> (0 <= i < n)%Z ->
      exists q, has a i q /\ ordinary q.
End Means.
