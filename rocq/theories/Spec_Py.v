(** * Spec_Py: what C55-C57 say about the Python class.  Definitions only. *)
From Coq Require Import List ZArith Bool String Reals.
From Verif Require Import Base Dbl Scalar Model_TauRec Model_Strings Model_Create Model_Py
  Spec_Tau Spec_Select Spec_Strings Spec_Recon Spec_Create.
Import ListNotations.
Open Scope Z_scope.

(** ** C55: the DLP argument *)

(** The attribute that becomes array [g] of the C object. *)
Definition attribute (g : dlpf) : string :=
  match g with
  | dRHO => "rho_km_vals" | dPHI => "phi_deg_vals" | dB => "B_deg_vals"
  | dD => "D_km_vals" | dFSKY => "f_sky_hz_vals" | dRHODOT => "rho_dot_kms_vals"
  | dTOET => "t_oet_spm_vals" | dTRET => "t_ret_spm_vals" | dTSET => "t_set_spm_vals"
  | dCPOLE => "rho_corr_pole_km_vals" | dCTIM => "rho_corr_timing_km_vals"
  | dPHIRL => "phi_rl_deg_vals" | dPNORM => "p_norm_vals" | dPHASE => "phase_deg_vals"
  | dRAWTHR => "raw_tau_threshold_vals" | dRX => "rx_km_vals" | dRY => "ry_km_vals"
  | dRZ => "rz_km_vals"
  end.
(** The order in which they are read. *)
Definition reading_order : list dlpf :=
  [dRHO; dPNORM; dPHASE; dPHI; dPHIRL; dB; dD; dFSKY; dRHODOT; dTOET; dTRET; dTSET;
   dRX; dRY; dRZ; dCPOLE; dCTIM; dRAWTHR].
(** The attribute is an array of [n] doubles. *)
Definition holds (y : pydlp) (n : Z) (g : dlpf) : Prop :=
  exists l, p_attr y (attribute g) = AArray l /\ zlen l = n.
(** All eighteen are. *)
Definition full_dlp (y : pydlp) (n : Z) : Prop := forall g, holds y n g.
(** The first attribute that is not. *)
Definition first_problem (y : pydlp) (n : Z) (g : dlpf) : Prop :=
  exists before after, reading_order = (before ++ g :: after)%list /\
    (forall g', In g' before -> holds y n g') /\ ~ holds y n g.
(** The C object has these arrays. *)
Definition carries (y : pydlp) (d : dlp dbl_scalar) : Prop :=
  forall g l, p_attr y (attribute g) = AArray l -> d_arr d g = Some l.

(** ** C56: ranges and perturbations *)

(** A Python number with a double value. *)
Inductive number : pyval -> double -> Prop :=
| num_float x : number (PFloat x) x
| num_int z : finite (dofZ z) -> number (PInt z) (dofZ z).
(** The values that name a range: one of the documented strings (in any spelling), as
    text or as bytes, or a list of two numbers. *)
Inductive range_value (X : strlib) : pyval -> double -> double -> Prop :=
| rv_str s k lo hi : In (k, (lo, hi)) documented_ranges -> spells (is_ws X) s k ->
    range_value X (PStr s) (dofZ lo) (dofZ hi)
| rv_bytes s k lo hi : In (k, (lo, hi)) documented_ranges -> spells (is_ws X) s k ->
    range_value X (PBytes s) (dofZ lo) (dofZ hi)
| rv_list a b x y : number a x -> number b y -> range_value X (PList [a; b]) x y.
(** The values that give perturbation coefficients: none at all (zeros), or a list
    of five numbers. *)
Inductive perturb_value : option pyval -> list double -> Prop :=
| pv_none : perturb_value None [dofZ 0; dofZ 0; dofZ 0; dofZ 0; dofZ 0]
| pv_list l xs : zlen l = 5 -> Forall2 number l xs -> perturb_value (Some (PList l)) xs.
(** No integer beyond the doubles occurs in the list. *)
Definition sized (v : pyval) : Prop :=
  match v with
  | PList l => forall z, In (PInt z) l -> finite (dofZ z)
  | _ => True
  end.

(** ** C57: the constructor *)

(** The string names the method [p] with the series order [o]. *)
Inductive method_named (X : strlib) : string -> psitype -> Z -> Prop :=
| mn_documented s k p : In (k, p) documented_methods -> spells (is_ws X) s k -> method_named X s p 0
| mn_two s r : spells (is_ws X) s ("fresnel" ++ r) -> lower r = r -> to_uchar X r = 2 ->
    (forall k p, In (k, p) documented_methods -> k <> ("fresnel" ++ r)%string) ->
    method_named X s PsiFresnel 0
| mn_series s r : spells (is_ws X) s ("fresnel" ++ r) -> lower r = r ->
    to_uchar X r <> 0 -> to_uchar X r <> 1 -> to_uchar X r <> 2 ->
    (forall k p, In (k, p) documented_methods -> k <> ("fresnel" ++ r)%string) ->
    method_named X s PsiLegendre (to_uchar X r - 1).
Definition window_named (X : strlib) (s : string) (w : wintype) : Prop :=
  exists k, In (k, w) documented_windows /\ spells (is_ws X) s k.

(** The resolution asked for, times the factor. *)
Definition effective_resolution (a : pyargs) (self_res : double) : double :=
  dmul (given (a_resolution a) self_res) (given (a_factor a) (dfrac 3 4)).
Definition sized_args (a : pyargs) : Prop :=
  sized (given (a_rng a) (PStr "all")) /\ forall p, a_perturb a = Some p -> sized p.
(** Every option is one of the accepted ones, or some option is not. *)
Definition options_valid (X : strlib) (a : pyargs) : Prop :=
  (exists xs, perturb_value (a_perturb a) xs) /\
  (exists lo hi, range_value X (given (a_rng a) (PStr "all")) lo hi) /\
  (exists w, window_named X (given (a_wtype a) "kbmd20"%string) w) /\
  (exists p o, method_named X (given (a_psitype a) "fresnel4"%string) p o).
Definition some_option_invalid (X : strlib) (a : pyargs) : Prop :=
  (forall xs, ~ perturb_value (a_perturb a) xs) \/
  (forall lo hi, ~ range_value X (given (a_rng a) (PStr "all")) lo hi) \/
  (forall w, ~ window_named X (given (a_wtype a) "kbmd20"%string) w) \/
  (forall p o, ~ method_named X (given (a_psitype a) "fresnel4"%string) p o).

(** The object the reconstruction starts from: the data of the DLP, the requested
    resolution times the factor, and every option as passed, or its default. *)
Record configured (L : dlib) (X : strlib) (C : createlib dbl_scalar) (d : dlp dbl_scalar)
    (self_res : double) (a : pyargs) (t : dtau) : Prop := {
  cf_data : made_from C d (effective_resolution a self_res) t;
  cf_sigma : sigma t = given (a_sigma a) (dfrac 2 10000000000000);
  cf_ecc : ecc t = given (a_ecc a) (dofZ 0);
  cf_peri : peri t = given (a_peri a) (dofZ 0);
  cf_bfac : bfac t = given (a_bfac a) true;
  cf_fwd : use_fwd t = given (a_use_fwd a) false;
  cf_norm : use_norm t = given (a_use_norm a) true;
  cf_range : range_value X (given (a_rng a) (PStr "all")) (range0 t) (range1 t);
  cf_window : window_named X (given (a_wtype a) "kbmd20"%string) (window t);
  cf_normeq : normeq t = t_normeq L (window t);
  cf_method : method_named X (given (a_psitype a) "fresnel4"%string) (psinum t) (order t);
  cf_perturb : perturb_value (a_perturb a) (perturb t);
  cf_rest : eps t = dfrac 1 1000000 /\ toler t = 6
}.

(** The instance shows the object [t]: both profiles and the forward model, the
    fourteen aligned arrays, the first samples of the three position arrays, no
    threshold, and the arguments. *)
Record shows (a : pyargs) (self_res : double) (t : dtau) (o : pydiff) : Prop := {
  sh_in : y_in o = T_in t;
  sh_out : y_out o = T_out t;
  sh_fwd : y_fwd o = T_fwd t;
  sh_arrays : forall f, In f aligned_fields -> y_arr o f = arr t f;
  sh_positions : forall f, In f [RX; RY; RZ] -> exists l l', arr t f = Some l /\ y_arr o f = Some l' /\
    zlen l' = arr_size t /\ forall i x, 0 <= i < arr_size t -> (entry l' i x <-> entry l i x);
  sh_threshold : y_arr o TTHR = None;
  sh_args : y_resolution o = given (a_resolution a) self_res /\
    y_factor o = given (a_factor a) (dfrac 3 4) /\
    y_rng o = given (a_rng a) (PStr "all") /\
    y_wtype o = given (a_wtype a) "kbmd20"%string /\
    y_psitype o = given (a_psitype a) "fresnel4"%string /\
    y_sigma o = given (a_sigma a) (dfrac 2 10000000000000) /\
    y_ecc o = given (a_ecc a) (dofZ 0) /\ y_peri o = given (a_peri a) (dofZ 0) /\
    y_use_norm o = given (a_use_norm a) true /\ y_bfac o = given (a_bfac a) true
}.
