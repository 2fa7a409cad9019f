(** * Model_Dlp: the diffraction-limited profile
    (rss_ringoccs/calibration/dlp_class.py, calc_tau_thresh.py).  Definitions only.  Exact
    arithmetic. *)
From Coq Require Import List ZArith Bool Reals.
From Verif Require Import Base Model_Time Model_Chord Model_Free Model_Frame Model_Resample.
Import ListNotations.
Open Scope R_scope.

(** ** numpy and scipy. *)
(** np.interp for points in the order of their abscissae: constant outside. *)
Fixpoint np_interp (ps : list (R * R)) (x : R) : R :=
  match ps with
  | [] => 0
  | (x0, y0) :: rest =>
      match rest with
      | [] => y0
      | (x1, y1) :: _ =>
          if ltb x x0 then y0
          else if ltb x x1 then (y1 - y0) / (x1 - x0) * (x - x0) + y0
          else np_interp rest x
      end
  end.
(** interp1d(x, y) without fill_value: an error outside the abscissae. *)
Definition interp1d_bounded (ps : list (R * R)) (x : R) : py R :=
  if (ltb x (minimum (map fst ps)) || ltb (maximum (map fst ps)) x)%bool then Raises else Returns (interp1d ps x).
(** The first index with a property. *)
Fixpoint index_where {A} (P : A -> bool) (i : nat) (l : list A) : option nat :=
  match l with [] => None | x :: l' => if P x then Some i else index_where P (S i) l' end.
Definition slice {A} (i j : nat) (l : list A) : list A := firstn (j - i) (skipn i l).

(** A sample of the geometry: observed event time, ring radius, radial velocity, opening
    angle in degrees, and the other columns of the class by number (the distances, the Fresnel scale,
    the two angles in radians, the times and the components of the position), which are all
    treated alike. *)
Record gsmp : Type := { g_t : R; g_rho : R; g_dot : R; g_B : R; g_col : nat -> R }.
(** A sample of the calibration: time, sky frequency, free-space power. *)
Record csmp : Type := { c_t : R; c_sky : R; c_free : R }.
(** A sample of the raw data, with the calibrated signal. *)
Record rsmp : Type := { r_t : R; r_I : R; r_Q : R }.
(** A sample of the profile. *)
Record prof : Type := { p_rho : R; p_t : R; p_norm : R; p_phase : R; p_dot : R; p_B : R; p_sky : R; p_tau : R; p_thresh : R; p_col : nat -> R }.

(** ** Trimming: dlp_class.py 130-138, and 375-387, where it changes the arguments of
    create_dlps.  The raw samples and the signal have the same length. *)
Definition trim (geo : list gsmp) (raw : list rsmp) : py (list rsmp) :=
  match geo with
  | [] => Raises
  | g0 :: _ =>
      let ts := map g_t geo in
      if existsb (fun x => (ltb (maximum ts) (r_t x) || ltb (r_t x) (minimum ts))%bool) raw
      then match index_where (fun x => eqb (r_t x) (g_t g0)) 0 raw, index_where (fun x => eqb (r_t x) (last ts 0)) 0 raw with
           | Some ind1, Some ind2 => Returns (slice ind1 ind2 raw)
           | _, _ => Raises
           end
      else Returns raw
  end.

(** ** The range: dlp_class.py 153-184.  The index of the radius nearest to [v], the first
    of several. *)
Definition nearest_index (radii : list R) (v : R) : option nat :=
  let m := minimum (map (fun x => Rabs (x - v)) radii) in
  index_where (fun x => eqb (Rabs (x - v)) m) 0 radii.
Definition in_range {A} (radius : A -> R) (lo hi : R) (xs : list A) : py (list A) :=
  let radii := map radius xs in
  if negb (existsb (fun r => (ltb lo r && ltb r hi)%bool) radii) then Raises
  else match nearest_index radii lo, nearest_index radii hi with
       | Some ind1, Some ind2 => Returns (slice ind1 (ind2 + 1) xs)
       | _, _ => Raises
       end.

(** calc_tau_thresh.py 73-85, for one sample of the calibration; [noise]: the power of the
    noise (find_noise, a spectrogram). *)
Definition tau_thresh (noise res_km calpha rho_dot B_deg p_free : R) : R :=
  - sin (Rabs (B_deg * (PI / 180))) * ln (1 / 2 * calpha * Rabs (rho_dot / res_km) / (p_free / noise)).
Definition thresholds (noise res_km : R) (geo : list gsmp) (cal : list csmp) : list (R * R) :=
  map (fun c => (c_t c, tau_thresh noise res_km (241 / 100)
                          (np_interp (map (fun g => (g_t g, g_dot g)) geo) (c_t c))
                          (np_interp (map (fun g => (g_t g, g_B g)) geo) (c_t c)) (c_free c))) cal.

(** ** __interp_and_set_attr, dlp_class.py 248-352.  A resampled sample: radius, time, power
    and phase.  For a direction that is neither, the samples to remove are not set (a
    NameError). *)
Record rsm : Type := { m_rho : R; m_t : R; m_norm : R; m_phase : R }.
Definition one_direction (prof_dir : dir) (geo : list gsmp) (xs : list rsm) : py (list rsm) :=
  let dot := fun x => np_interp (map (fun g => (g_t g, g_dot g)) geo) (m_t x) in
  if (existsb (fun x => ltb (dot x) 0) xs && existsb (fun x => ltb 0 (dot x)) xs)%bool
  then match prof_dir with
       | INGRESS => Returns (filter (fun x => negb (ltb 0 (dot x))) xs)
       | EGRESS => Returns (filter (fun x => negb (ltb (dot x) 0)) xs)
       | BOTH => Raises
       end
  else Returns xs.
Definition attributes (geo : list gsmp) (cal : list csmp) (thresh : list (R * R)) (x : rsm) : prof :=
  let at_time := fun f => np_interp (map (fun g => (g_t g, f g)) geo) (m_t x) in
  let B := at_time (fun g => g_B g * (PI / 180)) in
  {| p_rho := m_rho x; p_t := m_t x; p_norm := m_norm x; p_phase := m_phase x;
     p_dot := at_time g_dot; p_B := B;
     p_sky := np_interp (map (fun c => (c_t c, c_sky c)) cal) (m_t x);
     p_tau := - sin B * ln (m_norm x); p_thresh := np_interp thresh (m_t x);
     p_col := fun c => at_time (fun g => g_col g c) |}.

(** ** __init__, dlp_class.py 91-222.  [spline ps]: splrep and splev, the cubic spline through
    the points. *)
Section Profile.
  Variable spline : list (R * R) -> R -> R.
  Variable taps : nat -> Z -> R.
  Definition resampled (radii : R * (R * R)) (geo : list gsmp) (cal : list csmp) : py rsm :=
    let '(r, (i, q)) := radii in
    let rho_cal := map (fun c => (spline (map (fun g => (g_t g, g_rho g)) geo) (c_t c), c_free c)) cal in
    pybind (interp1d_bounded (map (fun g => (g_rho g, g_t g)) geo) r) (fun t =>
    pybind (interp1d_bounded rho_cal r) (fun p_free =>
    Returns {| m_rho := r; m_t := t; m_norm := (i * i + q * q) / p_free; m_phase := atan2 q i |})).
  Definition profile (noise : R) (raw : list rsmp) (geo : list gsmp) (cal : list csmp) (prof_dir : dir)
      (dr_km lo hi : R) : py (list prof) :=
    pybind (trim geo raw) (fun raw =>
    let rho_full := map (fun x => spline (map (fun g => (g_t g, g_rho g)) geo) (r_t x)) raw in
    pybind (resample_IQ taps rho_full (map r_I raw) (map r_Q raw) dr_km) (fun out =>
    let '(radii, i, q) := out in
    match radii with
    | r1 :: r2 :: _ =>
        let dr_km := round3 (Rabs (r2 - r1)) in
        pybind (in_range fst lo hi (combine radii (combine i q))) (fun xs =>
        pybind (each (fun x => resampled x geo cal) xs) (fun xs =>
        if existsb (fun x => ltb (m_norm x) 0) xs then Raises
        else pybind (one_direction prof_dir geo xs) (fun xs =>
             Returns (map (attributes geo cal (thresholds noise dr_km geo cal)) xs))))
    | _ => Raises                                                (* rho_km_desired[1] *)
    end)).
End Profile.

(** ** create_dlps for a chord, dlp_class.py 403-512: the parts of the geometry, of the raw
    data and of the calibration before the turning point less a second, and from it and a
    second on.  The copies are deep. *)
Definition part {A} (t : A -> R) (v : R) (xs : list A) : option nat := index_where (fun x => eqb (t x) v) 0 xs.
Definition direction_of (geo : list gsmp) : py dir :=
  match geo with
  | a :: b :: _ => Returns (if ltb (g_rho b - g_rho a) 0 then INGRESS else EGRESS)
  | _ => Raises
  end.
Definition chord_parts (geo : list gsmp) (raw : list rsmp) (cal : list csmp)
    : py ((dir * list gsmp * list rsmp * list csmp) * (dir * list gsmp * list rsmp * list csmp)) :=
  match changes 0 (map sign (map g_dot geo)) with
  | [] => Raises
  | c :: _ =>
      match nth_error geo (c + 1) with
      | None => Raises
      | Some g =>
          match part g_t (g_t g - 1) geo, part r_t (g_t g - 1) raw, part c_t (g_t g - 1) cal,
                part g_t (g_t g + 1) geo, part r_t (g_t g + 1) raw, part c_t (g_t g + 1) cal with
          | Some g1, Some r1, Some c1, Some g2, Some r2, Some c2 =>
              pybind (direction_of (firstn g1 geo)) (fun d1 =>
              pybind (direction_of (skipn g2 geo)) (fun d2 =>
              Returns ((d1, firstn g1 geo, firstn r1 raw, firstn c1 cal), (d2, skipn g2 geo, skipn r2 raw, skipn c2 cal))))
          | _, _, _, _, _, _ => Raises
          end
      end
  end.
