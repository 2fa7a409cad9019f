(** * Model_Frame: vectors, frames and angles of the geometry code
    (rss_ringoccs/occgeo/calc_occ_geometry.py).  Definitions only.  Exact arithmetic. *)
From Coq Require Import List ZArith Bool Reals String.
From Verif Require Import Base Model_Time Model_Chord.
Import ListNotations.
Open Scope R_scope.

Definition vec : Type := (R * R * R)%type.
Definition vdot (a b : vec) : R := match a, b with (a1, a2, a3), (b1, b2, b3) => a1 * b1 + a2 * b2 + a3 * b3 end.
Definition vcrss (a b : vec) : vec :=
  match a, b with (a1, a2, a3), (b1, b2, b3) => (a2 * b3 - a3 * b2, a3 * b1 - a1 * b3, a1 * b2 - a2 * b1) end.
Definition vnorm (a : vec) : R := sqrt (vdot a a).
Definition vscl (k : R) (a : vec) : vec := match a with (a1, a2, a3) => (k * a1, k * a2, k * a3) end.
Definition vadd (a b : vec) : vec := match a, b with (a1, a2, a3), (b1, b2, b3) => (a1 + b1, a2 + b2, a3 + b3) end.
Definition vsub (a b : vec) : vec := vadd a (vscl (-1) b).

(** ** SPICE routines without state, as documented by NAIF. *)
(** vhat: the zero vector stays. *)
Definition vhat (a : vec) : vec := if eqb (vnorm a) 0 then (0, 0, 0) else vscl (1 / vnorm a) a.
Definition ucrss (a b : vec) : vec := vhat (vcrss a b).
(** vsep: the angle between two vectors, 0 if one is zero. *)
Definition vsep (a b : vec) : R :=
  if (eqb (vnorm a) 0 || eqb (vnorm b) 0)%bool then 0 else acos (vdot a b / (vnorm a * vnorm b)).
(** A 3x3 matrix by its rows, and mxv. *)
Definition mat : Type := (vec * vec * vec)%type.
Definition mxv (m : mat) (v : vec) : vec := match m with (r1, r2, r3) => (vdot r1 v, vdot r2 v, vdot r3 v) end.
(** twovec(axdef, 3, plndef, 2): the third axis along axdef, the second in the plane of
    axdef and plndef; an error for parallel vectors. *)
Definition twovec_3_2 (axdef plndef : vec) : option mat :=
  let x := ucrss plndef axdef in
  if eqb (vnorm (vcrss axdef plndef)) 0 then None else Some (x, ucrss axdef x, vhat axdef).
(** arctan2, as of C. *)
Definition atan2 (y x : R) : R :=
  if ltb 0 x then atan (y / x)
  else if ltb x 0 then (if ltb y 0 then atan (y / x) - PI else atan (y / x) + PI)
  else if ltb 0 y then PI / 2 else if ltb y 0 then - (PI / 2) else 0.
(** The right ascension of recrad: from 0 to 2 pi. *)
Definition recrad_ra (v : vec) : R :=
  match v with (x, y, _) => let ra := atan2 y x in if ltb ra 0 then ra + 2 * PI else ra end.
(** rotate(angle, 3). *)
Definition rotate_3 (angle : R) : mat := ((cos angle, sin angle, 0), (- sin angle, cos angle, 0), (0, 0, 1)).
(** The distance of nplnpt: from the point (0, 0, 0) to the line; an error for a direction
    that is zero. *)
Definition nplnpt_distance (linpt lindir : vec) : option R :=
  if eqb (vnorm lindir) 0 then None
  else Some (vnorm (vsub linpt (vscl (vdot linpt lindir / vdot lindir lindir) lindir))).
(** radrec. *)
Definition radrec (range ra dec : R) : vec := (range * cos ra * cos dec, range * sin ra * cos dec, range * sin dec).

(** ** The ephemerides: [None] if SPICE raises. *)
Record ephemeris : Type := {
  spkpos : string -> R -> string -> string -> string -> option vec;          (* target, time, frame, correction, observer *)
  spkezr : string -> R -> string -> string -> string -> option (vec * vec)
}.
Definition orelse {A B} (o : option A) (k : A -> py B) : py B := match o with Some a => k a | None => Raises end.
Definition pybind {A B} (o : py A) (k : A -> py B) : py B :=
  match o with Returns a => k a | Raises => Raises | Exits => Exits end.
Fixpoint each {A B} (f : A -> py B) (l : list A) : py (list B) :=
  match l with
  | [] => Returns []
  | a :: l' => pybind (f a) (fun b => pybind (each f l') (fun bs => Returns (b :: bs)))
  end.
(** x % 360. *)
Definition mod360 (x : R) : R := x - 360 * IZR (Int_part (x / 360)).
Definition zaxis : vec := (0, 0, 1).

Section Frame.
  Variable E : ephemeris.
  Variables spacecraft dsn planet : string.
  (** The pole, and the reference frame of the positions. *)
  Variable nhat_p : vec.
  Variable ref : string.
  Local Open Scope string_scope.
  (** calc_B_deg, calc_occ_geometry.py 62-71, for one time. *)
  Definition calc_B_deg (et : R) : py R :=
    orelse (spkpos E dsn et ref "CN" spacecraft) (fun starg =>
    Returns ((PI / 2 - vsep starg nhat_p) * (180 / PI))).
  (** calc_elevation_deg, 175-197, for one time; the frame is that of the station. *)
  Definition calc_elevation_deg (topo target obs : string) (et : R) : py R :=
    orelse (spkpos E target et topo "CN" obs) (fun ptarg1 =>
    orelse (spkpos E obs et topo "CN" "EARTH") (fun ptarg2 =>
    Returns (90 - vsep ptarg1 ptarg2 * (180 / PI)))).
  (** calc_phi_deg, 289-330, for one time: longitude and azimuth. *)
  Definition calc_phi_deg (et : R) (rho_vec_km : vec) : py (R * R) :=
    orelse (spkpos E dsn et ref "CN" spacecraft) (fun starg =>
    orelse (twovec_3_2 nhat_p zaxis) (fun rotmat =>
    let vec_rl := mxv rotmat rho_vec_km in
    let phi_rl_deg := recrad_ra vec_rl * (180 / PI) in
    let vec_ora := mxv rotmat starg in
    let vec_ora' := (fst (fst vec_ora), snd (fst vec_ora), 0) in
    Returns (phi_rl_deg, mod360 (phi_rl_deg - recrad_ra vec_ora' * (180 / PI) + 720)))).
  (** xform_j2k_to_pcf, 1186-1217; all callers leave its frame at J2000. *)
  Definition xform_j2k_to_pcf (v : vec) (et : R) : py vec :=
    orelse (spkpos E dsn et "J2000" "XCN" spacecraft) (fun starg1 =>
    orelse (twovec_3_2 nhat_p zaxis) (fun rotmat_z =>
    let vec_z := mxv rotmat_z v in
    let R_sc2dsn_km_z := mxv rotmat_z starg1 in
    let nhat_sc2dsn := vscl (1 / vnorm R_sc2dsn_km_z) R_sc2dsn_km_z in
    let rot_angle := atan2 (snd (fst nhat_sc2dsn)) (fst (fst nhat_sc2dsn)) in
    Returns (mxv (rotate_3 rot_angle) vec_z))).
  (** calc_sc_state, 527-557, for one time; also called with the Earth for the
      spacecraft. *)
  Definition calc_sc_state (et : R) : py (vec * vec) :=
    orelse (spkezr E spacecraft et ref "CN" planet) (fun starg0 =>
    pybind (xform_j2k_to_pcf (fst starg0) et) (fun R_sc_km =>
    pybind (xform_j2k_to_pcf (snd starg0) et) (fun R_sc_dot_kms =>
    Returns (R_sc_km, R_sc_dot_kms)))).
  (** calc_impact_radius_km, 226-255, for one time. *)
  Definition calc_impact_radius_km (R_sc_km : vec) (et : R) : py R :=
    orelse (spkpos E dsn et ref "XCN" spacecraft) (fun starg1 =>
    pybind (xform_j2k_to_pcf starg1 et) (fun lindir =>
    orelse (nplnpt_distance R_sc_km lindir) Returns)).
End Frame.

(** calc_D_km, 75-86. *)
Definition calc_D_km (t1 t2 : R) : R := Rabs (t1 - t2) * 299792458 / 1000.
(** calc_F_km, 109-118. *)
Definition calc_F_km (D_km f_sky_hz B_deg phi_ora_deg : R) : R :=
  let lambda_sky := (299792458 / 1000) / f_sky_hz in
  let phi_ora_rad := phi_ora_deg * (PI / 180) in
  let B_rad := B_deg * (PI / 180) in
  sqrt ((1 / 2 * lambda_sky * D_km * (1 - cos B_rad * cos B_rad * (sin phi_ora_rad * sin phi_ora_rad))) / (sin B_rad * sin B_rad)).
(** calc_B_eff_deg, 136-139. *)
Definition calc_B_eff_deg (B_deg phi_ora_deg : R) : R :=
  atan2 (tan (B_deg * (PI / 180))) (cos (phi_ora_deg * (PI / 180))).
(** calc_beta, 153-155. *)
Definition calc_beta (B_deg phi_ora_deg : R) : R := 1 / tan (calc_B_eff_deg B_deg phi_ora_deg).
(** get_pole, 1144-1157: [pole_RA] and [pole_DEC] are the constants of the kernel. *)
Definition get_pole (et : R) (pole_RA pole_DEC : R * R * R) : vec :=
  let dt := et / (86400 * (36525 / 100) * 100) in
  let poly := fun p : R * R * R => match p with (p0, p1, p2) => p0 + dt * p1 + dt * dt * p2 end in
  radrec 1 (poly pole_RA * (PI / 180)) (poly pole_DEC * (PI / 180)).

(** Geometry.__init__, occgeo.py 213-265 and 354-355: the samples with Earth and
    spacecraft on the same side of the rings are removed from the times, but not from the
    positions from which the impact radii are computed. *)
Definition same_side (z1 z2 : R) : bool := ((ltb 0 z1 && ltb 0 z2) || (ltb z1 0 && ltb z2 0))%bool.
Fixpoint masked {A} (mask : list bool) (l : list A) : list A :=
  match mask, l with
  | b :: mask', a :: l' => if b then a :: masked mask' l' else masked mask' l'
  | _, _ => []
  end.
Fixpoint zip {A B} (l : list A) (l' : list B) : list (A * B) :=
  match l, l' with a :: r, b :: r' => (a, b) :: zip r r' | _, _ => [] end.
Definition geometry_impact (E : ephemeris) (spacecraft dsn planet : string) (nhat_p : vec) (ref : string) (year : Z)
    (t_oet t_set : list R) : py (list R) :=
  pybind (each (calc_sc_state E spacecraft dsn planet nhat_p ref) t_set) (fun states =>
  let R_sc_km_vals := map fst states in
  pybind (if (2016 <=? year)%Z
          then pybind (each (calc_sc_state E "Earth" dsn planet nhat_p "J2000") t_oet) (fun earth =>
               let mask := map (fun p => negb (same_side (snd (fst p)) (snd (snd p)))) (zip R_sc_km_vals (map fst earth)) in
               if forallb negb mask then Raises else Returns (masked mask t_set))
          else Returns t_set)
  (fun t_set' =>
  each (fun p => calc_impact_radius_km E spacecraft dsn nhat_p ref (fst p) (snd p)) (zip R_sc_km_vals t_set'))).
