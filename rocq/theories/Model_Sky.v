(** * Model_Sky: reconstructed sky frequencies (rss_ringoccs/calibration/calc_f_sky_recon.py) and
    the frequency correction of the signal (rss_ringoccs/calibration/calibration_class.py).
    Definitions only.  Exact arithmetic. *)
From Coq Require Import String List ZArith Bool Reals.
From Verif Require Import Base Model_Time Model_Chord Model_Frame Model_Resample.
Import ListNotations.
Open Scope R_scope.

(** The SPICE routines: [state code et] is spkez(code, et, 'ECLIPJ2000', 'NONE', 0), the position
    and the velocity; [sent et receiver sender] the first result of ltime(et, receiver, '<-',
    sender), the time of emission; [code] is bodn2c; [None]: an exception. *)
Record naif_sky : Type := {
  state : Z -> R -> option (vec * vec);
  sent : R -> Z -> Z -> option R;
  code : string -> option Z;
  clight : R }.

(** calc_f_sky_recon.py 28: (1+gamma) mus/clight**3. *)
Definition LTfac : R := 98509818970128 / 10 ^ 19.
(** calc_f_sky_recon.py 31-46. *)
Definition GM_SSB : list (Z * R) :=
  [(1%Z, 22032080 / 1000); (2%Z, 3248585990 / 10000); (399%Z, 3986004360 / 10000); (4%Z, 42828314 / 1000); (5%Z, 1267127678630 / 10000);
   (6%Z, 37940626063 / 1000); (7%Z, 57945490070 / 10000); (8%Z, 68365340640 / 10000); (9%Z, 9816010 / 10000); (10%Z, 13271244002331 / 100);
   (301%Z, 49027990 / 10000); (606%Z, 89781370309840 / 10 ^ 10)].
(** calc_f_sky_recon.py 50-52; another pair of bands is a KeyError. *)
Local Open Scope string_scope.
Definition TURNR (bands : string) : option R :=
  if String.eqb bands "S-S" then Some (240 / 221) else if String.eqb bands "S-X" then Some (880 / 221) else if String.eqb bands "S-K" then Some (0 / 221)
  else if String.eqb bands "X-S" then Some (240 / 749) else if String.eqb bands "X-X" then Some (880 / 749) else if String.eqb bands "X-K" then Some (3344 / 749)
  else if String.eqb bands "K-S" then Some (0 / 3599) else if String.eqb bands "K-X" then Some (0 / 3599) else if String.eqb bands "K-K" then Some (3360 / 3600)
  else None.
Local Close Scope string_scope.

(** derlt, 146-181: from the states of sender and receiver. *)
Definition light_rate (c : R) (s1 s2 : vec * vec) : R :=
  let d12 := vsub (fst s2) (fst s1) in
  let R1 := vnorm (fst s1) in let R2 := vnorm (fst s2) in let R12 := vnorm d12 in
  let DR1DT1 := vdot (vhat (fst s1)) (snd s1) in let DR2DT2 := vdot (vhat (fst s2)) (snd s2) in
  let PR12T2 := vdot (vhat d12) (snd s2) in let PR12T1 := - vdot (vhat d12) (snd s1) in
  let D1 := R1 + R2 + R12 in let D2 := R1 + R2 - R12 in
  let TEMP1 := DR1DT1 + DR2DT2 in let TEMP2 := PR12T1 + PR12T2 in
  let NUMER := ((TEMP1 + TEMP2) / D1 - (TEMP1 - TEMP2) / D2) * LTfac + (PR12T1 + PR12T2) / c in
  let DENOM := ((DR1DT1 + PR12T1) / D1 - (DR1DT1 - PR12T1) / D2) * LTfac + PR12T1 / c + 1 in
  NUMER / DENOM.
Definition derlt (N : naif_sky) (sc : Z) (etsc : R) (rs : Z) (et : R) : py R :=
  orelse (state N sc etsc) (fun s1 => orelse (state N rs et) (fun s2 => Returns (light_rate (clight N) s1 s2))).
(** derpt, 193-216. *)
Fixpoint potential (N : naif_sky) (et : R) (p : vec) (l : list (Z * R)) : py R :=
  match l with
  | [] => Returns 0
  | (body, gm) :: l' => orelse (state N body et) (fun s => pybind (potential N et p l') (fun phi => Returns (gm / vnorm (vsub (fst s) p) + phi)))
  end.
Definition derpt (N : naif_sky) (et : R) (b : Z) : py R :=
  orelse (state N b et) (fun s => pybind (potential N et (fst s) GM_SSB) (fun phi =>
    Returns ((phi + 1 / 2 * vdot (snd s) (snd s)) / (clight N * clight N) - 1550520 / 10 ^ 14))).

(** calc_f_sky_recon, 79-122, with the ephemeris times already computed; [suffix] is the part of
    the name of the uplink station after the last hyphen. *)
Definition one_way (N : naif_sky) (sc rs : Z) (f_uso et : R) : py R :=
  orelse (sent N et rs sc) (fun etsc =>
  pybind (derlt N sc etsc rs et) (fun A23 => pybind (derpt N et rs) (fun B3 => pybind (derpt N etsc sc) (fun B2 =>
  let temp := (B2 - B3) / (1 - B3) in
  let y := - A23 * temp + A23 + temp in
  Returns (f_uso - y * f_uso))))).
Definition two_way (N : naif_sky) (sc rs ts : Z) (bands : string) (f_uso et : R) : py R :=
  orelse (sent N et rs sc) (fun etsc =>
  pybind (derlt N sc etsc rs et) (fun A23 =>
  orelse (sent N etsc sc ts) (fun etts =>
  pybind (derlt N ts etts sc etsc) (fun A12 => pybind (derpt N et rs) (fun B3 => pybind (derpt N etts ts) (fun B1 =>
  let temp := (B1 - B3) / (1 - B3) in
  let z := A12 * A23 * temp - A12 * A23 - (A12 + A23) * temp + temp + A12 + A23 in
  orelse (TURNR bands) (fun turn => let temp := f_uso * turn in Returns (temp - z * temp)))))))).
Definition calc_f_sky_recon (N : naif_sky) (track : Z) (sc_name dsn ul_dsn suffix bands : string) (f_uso : R) (ets : list R) : py (list R) :=
  orelse (code N sc_name) (fun sc => orelse (code N dsn) (fun rs =>
  if (track =? 1)%Z then each (one_way N sc rs f_uso) ets
  else orelse (if (String.length suffix =? 2)%nat then code N ul_dsn else Some rs) (fun ts =>
    each (two_way N sc rs ts bands f_uso) ets))).

(** ** correct_IQ, calibration_class.py 215-245.  [spl]: splrep and splev of scipy, [None] if
    splrep raises, as it does for fewer than four points.  Signals of one sample are not
    broadcast here. *)
Fixpoint cumsum (a : R) (l : list R) : list R := match l with [] => [] | x :: l' => (a + x) :: cumsum (a + x) l' end.
Definition rotated (phi : R) (z : R * R) : R * R := (fst z * cos phi + snd z * sin phi, snd z * cos phi - fst z * sin phi).
Definition correct_IQ (spl : list (R * R) -> option (R -> R)) (spm : list R) (IQ : list (R * R)) (f_spm f_off : list R) : py (list (R * R)) :=
  match f_spm with
  | [] => Raises
  | t0 :: _ =>
      let dt := 1 / 100 in
      let npts := Z.to_nat (pyround ((last f_spm 0 - t0) / dt)) in
      let ip := map (fun k => t0 + dt * INR k) (seq 0 npts) in
      orelse (spl (combine f_spm f_off)) (fun off =>
      let detrend := map (fun x => x * dt * (2 * PI)) (cumsum 0 (map off ip)) in
      orelse (spl (combine ip detrend)) (fun phi =>
      if (length spm =? length IQ)%nat then Returns (map (fun tz => rotated (phi (fst tz)) (snd tz)) (combine spm IQ)) else Raises))
  end.
