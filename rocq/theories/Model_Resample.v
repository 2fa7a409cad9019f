(** * Model_Resample: the diffraction-limited signal at equally spaced radii
    (rss_ringoccs/calibration/resample_IQ.py).  Definitions only.  Exact arithmetic. *)
From Coq Require Import List ZArith Bool Reals.
From Flocq Require Import Core.
From Verif Require Import Base Model_Time Model_Chord Model_Free.
Import ListNotations.
Open Scope R_scope.

(** Python's round to an integer and to three decimals (of the exact number): the nearest,
    a tie to the even one. *)
Definition pyround (x : R) : Z := ZnearestE x.
Definition round3 (x : R) : R := IZR (pyround (x * 1000)) / 1000.

(** resample_IQ.py 42-43, [while r0 < x: r0 = r0 + step], with the number of passes left.
    For a step above zero the number given in [first_radius] is large enough (shown in
    C71); for other steps, for which the loop does not end, nothing is claimed. *)
Fixpoint climb (left : nat) (r0 step x : R) : R :=
  match left with
  | O => r0
  | S left' => if ltb r0 x then climb left' (r0 + step) step x else r0
  end.
Definition first_radius (x step : R) : R :=
  climb (Z.to_nat (Zceil (1 / step))) (IZR (pyround x)) step x.

(** What pre_resample returns apart from p = 1: the grid, the signal on it, the factor and
    the spacing. *)
Record uniform : Type := { u_rho : list R; u_vec : list R; u_q : nat; u_res : R }.
(** pre_resample, resample_IQ.py 41-91, for positive [freq].  A range of zero makes the
    factor infinite (an OverflowError of round); a single sample divides by zero.  The
    function interp1d of Model_Free is that of scipy with the same arguments. *)
Definition pre_resample (rho_km vec : list R) (freq : R) : py uniform :=
  match rho_km with
  | [] => Raises
  | first :: _ =>
      let r0 := first_radius first (1 / freq) in
      let dr := Rabs (last rho_km 0 - r0) in
      if ((length rho_km <=? 1)%nat || eqb dr 0)%bool then Raises
      else
        let ts_avg := dr / INR (length rho_km - 1) in
        let '(freq, res) :=
          if ltb (1 / freq) ts_avg
          then let res := IZR (pyround (40 * ts_avg)) / 40 in
               let res := if ltb res ts_avg then res + 25 / 1000 else res in
               (1 / res, res)
          else (freq, round3 (1 / freq)) in
        let q := pyround (1 / (ts_avg * freq)) in
        let dr_grid := 1 / (IZR q * freq) in
        let n_pts := pyround (dr / dr_grid) in
        let rho_grid := map (fun i => r0 + dr_grid * INR i) (seq 0 (Z.to_nat n_pts)) in
        if negb (length vec =? length rho_km)%nat then Raises     (* interp1d *)
        else Returns {| u_rho := rho_grid; u_vec := map (interp1d (combine rho_km vec)) rho_grid;
                        u_q := Z.to_nat q; u_res := res |}
  end.

(** ** scipy.signal.resample_poly(x, 1, q).  [taps q j], |j| <= 10 q, is the filter that
    firwin gives for the factor; outside the signal it reads zero.  A factor of one copies. *)
Definition sum_to (n : nat) (f : nat -> R) : R := fold_right Rplus 0 (map f (seq 0 n)).
Definition padded (x : list R) (i : Z) : R := if (i <? 0)%Z then 0 else nth (Z.to_nat i) x 0.
Definition filtered (taps : nat -> Z -> R) (x : list R) (q : nat) (i : Z) : R :=
  sum_to (2 * (10 * q) + 1) (fun m => let j := (Z.of_nat m - Z.of_nat (10 * q))%Z in taps q j * padded x (i - j)).
Definition resample_poly (taps : nat -> Z -> R) (x : list R) (q : nat) : list R :=
  if (q =? 1)%nat then x
  else map (fun k => filtered taps x q (Z.of_nat (k * q))) (seq 0 ((length x + q - 1) / q)).

(** resample_IQ, resample_IQ.py 118-155: the signal by its two components.  The warning for
    radii that go up and down is only printed. *)
Definition resample_IQ (taps : nat -> Z -> R) (rho_km I Q : list R) (dr_desired : R) : py (list R * list R * list R) :=
  match rho_km with
  | x :: y :: _ =>
      let down := ltb (y - x) 0 in
      let turned := fun l : list R => if down then rev l else l in
      match pre_resample (turned rho_km) (turned I) (1 / dr_desired), pre_resample (turned rho_km) (turned Q) (1 / dr_desired) with
      | Returns ui, Returns uq =>
          let I_desired := resample_poly taps (u_vec ui) (u_q ui) in
          let Q_desired := resample_poly taps (u_vec uq) (u_q uq) in
          match u_rho uq with
          | [] => Raises
          | start :: _ => Returns (map (fun i => start + u_res uq * INR i) (seq 0 (length I_desired)), I_desired, Q_desired)
          end
      | _, _ => Raises
      end
  | _ => Raises                                                   (* rho_km_diff[0] *)
  end.
