(** * Model_Order: the order of the polynomial for the frequency offsets
    (rss_ringoccs/calibration/freq_offset_fit.py, calc_poly_order).  Definitions only.  Exact
    arithmetic. *)
From Coq Require Import List ZArith Bool Reals.
From Verif Require Import Base Model_Time Model_Chord.
Import ListNotations.
Open Scope R_scope.

(** np.polyval: the coefficient of the highest power first. *)
Definition polyval (c : list R) (x : R) : R := fold_left (fun s a => s * x + a) c 0.
(** Lines 397-402: the sum of the squares of fit minus offset. *)
Definition sqsum (c : list R) (data : list (R * R)) : R := fold_right Rplus 0 (map (fun d => (polyval c (fst d) - snd d) ^ 2) data).
(** Lines 403-406, F > 1, for num = (sqsum1-sqsum2)/(df1-df2) and den = sqsum2/df2 in numpy: with no
    degree of freedom left den is infinite or not a number, so F is 0 or not a number; with no
    residual left den is a zero with the sign of df2, so F is infinite or not a number. *)
Definition exceeds (s1 s2 : R) (df1 df2 : Z) : bool :=
  let num := (s1 - s2) / IZR (df1 - df2) in
  if (df2 =? 0)%Z then false
  else if eqb s2 0 then ltb 0 (num * IZR df2)
  else ltb 1 (num / (s2 / IZR df2)).
(** One turn of the loop, 388-406; [fit] is np.polyfit. *)
Definition better (fit : list (R * R) -> nat -> list R) (data : list (R * R)) (polyord1 : nat) : bool :=
  let p1 := fit data polyord1 in let p2 := fit data (polyord1 + 1)%nat in
  let n := Z.of_nat (length data) in
  exceeds (sqsum p1 data) (sqsum p2 data) (n - Z.of_nat (length p1)) (n - Z.of_nat (length p2)).
(** The loop, 386-409, with F > 1 and polyord2 = [polyord2]; [left] is max_order + 1 - polyord2.
    polyord1 is polyord2 - 1 if the bound ends it. *)
Fixpoint search (fit : list (R * R) -> nat -> list R) (data : list (R * R)) (left polyord2 : nat) : nat :=
  match left with
  | O => (polyord2 - 1)%nat
  | S left' => if better fit data polyord2 then search fit data left' (polyord2 + 1) else polyord2
  end.
(** calc_poly_order, 357-413, with the default max_order=9.  np.polyfit raises for no data. *)
Definition calc_poly_order (fit : list (R * R) -> nat -> list R) (data : list (R * R)) : py nat :=
  let n := length data in
  let max_order := if (n <? 9)%nat then (n - 1)%nat else 9%nat in
  let max_order := if (max_order <? 1)%nat then 1%nat else max_order in
  match data with [] => Raises | _ => Returns (search fit data max_order 1) end.
