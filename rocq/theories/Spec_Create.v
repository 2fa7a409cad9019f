(** * Spec_Create: what C44-C46 say about creating and destroying tau objects.
    Definitions only. *)
From Coq Require Import List ZArith Bool Reals.
From Verif Require Import Base Scalar Dbl Spec_Tau Spec_Select Model_TauRec Model_Heap Spec_Csv
  Model_Create.
Import ListNotations.
Open Scope Z_scope.

(** Entry [i] of the array [g] of the input, and of the array [f] of an object. *)
Definition sample {S : scalar} (d : dlp S) (g : dlpf) (i : Z) (x : S) : Prop :=
  exists l, d_arr d g = Some l /\ entry l i x.
Definition tau_entry {S : scalar} (t : tau S) (f : rf) (i : Z) (x : S) : Prop :=
  exists l, arr t f = Some l /\ entry l i x.

(** Input that can be used: no error, at least two samples, and at least that many
    entries in every array (the raw threshold is not needed). *)
Definition usable {S : scalar} (d : dlp S) : Prop :=
  d_err d = false /\ 2 <= d_n d < two64 /\
  forall g, g <> dRAWTHR -> exists l, d_arr d g = Some l /\ d_n d <= zlen l.
(** Input that is refused: none, failed, less than two samples, or a resolution
    that compares as zero or negative. *)
Definition refused {S : scalar} (p : option (dlp S)) (res : S) : Prop :=
  p = None \/
  exists d, p = Some d /\ (d_err d = true \/ d_n d <= 1 \/ sle res s0 = true).

(** Which array of the object has the entries of which array of the input. *)
Definition same_arrays : list (rf * dlpf) :=
  [(RHO, dRHO); (PHI, dPHI); (BDEG, dB); (DKM, dD); (RHODOT, dRHODOT);
   (TOET, dTOET); (TRET, dTRET); (TSET, dTSET); (CPOLE, dCPOLE); (CTIM, dCTIM);
   (PHIRL, dPHIRL); (RX, dRX); (RY, dRY); (RZ, dRZ)].

(** [t] carries the data of [d], for the resolution [res]. *)
Record made_from {S : scalar} (C : createlib S) (d : dlp S) (res : S) (t : tau S) : Prop := {
  mf_size : arr_size t = d_n d;
  (* the fourteen copied arrays *)
  mf_copies : forall f g, In (f, g) same_arrays ->
    (exists l, arr t f = Some l /\ zlen l = d_n d) /\
    forall i, 0 <= i < d_n d -> exists x, sample d g i x /\ tau_entry t f i x;
  (* the complex profile: modulus sqrt(power), argument minus the phase *)
  mf_profile : exists T, T_in t = Some T /\ zlen T = d_n d /\
    forall i, 0 <= i < d_n d -> exists p ph, sample d dPNORM i p /\ sample d dPHASE i ph /\
      entry T i (Some (k_polard C (ssqrt p) (- ph)%S));
  (* wave numbers and Fresnel scales *)
  mf_wave : (exists l, arr t KV = Some l /\ zlen l = d_n d) /\
    forall i, 0 <= i < d_n d -> exists f, sample d dFSKY i f /\
      tau_entry t KV i (k_wavenumber C (k_wavelength C f));
  mf_scale : (exists l, arr t FKM = Some l /\ zlen l = d_n d) /\
    forall i, 0 <= i < d_n d -> exists f dist phi b, sample d dFSKY i f /\
      sample d dD i dist /\ sample d dPHI i phi /\ sample d dB i b /\
      tau_entry t FKM i (k_scale C (k_wavelength C f) dist phi b);
  (* the spacing *)
  mf_spacing : exists r0 r1, sample d dRHO 0 r0 /\ sample d dRHO 1 r1 /\ dx t = (r1 - r0)%S;
  mf_reso : reso t = res;
  (* nothing reconstructed yet *)
  mf_fresh : T_out t = None /\ T_fwd t = None /\ arr t WKM = None /\ arr t TTHR = None /\
    start t = 0 /\ n_used t = 0
}.

(** The parameters a new object starts with. *)
Definition default_parameters {S : scalar} (L : tmpl S) (t : tau S) : Prop :=
  sigma t = sfrac 2 10000000000000 /\ ecc t = s0 /\ peri t = s0 /\
  perturb t = [s0; s0; s0; s0; s0] /\ eps t = sfrac 1 1000000 /\ toler t = 6 /\
  window t = KBMD20 /\ normeq t = t_normeq L KBMD20 /\ psinum t = PsiNewton8 /\ order t = 0 /\
  use_norm t = true /\ use_fwd t = false /\ bfac t = true /\ range0 t = s0 /\ range1 t = s0.

(** C02 for the input: the angles are at most a full turn, distances and radii are
    positive, the first two radii differ, and the resolution is at least 1.99 times
    their difference. *)
Definition samples_are (d : dlp dbl_scalar) (g : dlpf) (P : double -> Prop) : Prop :=
  forall i x, 0 <= i < d_n d -> sample d g i x -> P x.
Definition input_geometry_ok (d : dlp dbl_scalar) (res : double) : Prop :=
  samples_are d dPHI angle_ok /\ samples_are d dB angle_ok /\
  samples_are d dD positive_number /\ samples_are d dRHO positive_number /\
  exists r0 r1, sample d dRHO 0 r0 /\ sample d dRHO 1 r1 /\
    finite (dsub r1 r0) /\ val (dsub r1 r0) <> 0%R /\
    dle (dmul (dfrac 199 100) (dabs (dsub r1 r0))) res = true.

(** The arrays that a creation allocates. *)
Definition allocated_members : list member :=
  MTin :: MArr KV :: MArr FKM :: map (fun p => MArr (fst p)) same_arrays.

(** Laws of libtmpl in exact arithmetic: angles in degrees, lengths in km. *)
Definition degree (x : R) : R := (x * (PI / 180))%R.
Definition polard_law (C : createlib real_scalar) : Prop :=
  forall r th : R, k_polard C r th = ((r * cos (degree th))%R, (r * sin (degree th))%R).
Definition light_speed : R := (299792458 / 1000)%R.
Definition wave_law (C : createlib real_scalar) : Prop :=
  (forall f : R, k_wavelength C f = (light_speed / f)%R) /\
  (forall l : R, k_wavenumber C l = (2 * PI / l)%R).
(** MTR86, equation 6. *)
Definition scale_law (C : createlib real_scalar) : Prop :=
  forall l dist phi b : R, k_scale C l dist phi b =
    R_sqrt.sqrt ((l * dist / 2) * (1 - Rsqr (cos (degree b)) * Rsqr (sin (degree phi)))
                 / Rsqr (sin (degree b)))%R.

(** [k] further calls with the same handle. *)
Fixpoint again {A} (f : option A -> H (option A)) (k : nat) (p : option A) : H (option A) :=
  match k with
  | O => hret p
  | Datatypes.S j => hbind (f p) (again f j)
  end.
