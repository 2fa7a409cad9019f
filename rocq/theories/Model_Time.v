(** * Model_Time: seconds past midnight and ephemeris time (rss_ringoccs/tools).
    Definitions only.  Exact arithmetic. *)
From Coq Require Import List ZArith Bool Reals.
From Flocq Require Import Core.
From Verif Require Import Base.
Import ListNotations.
Open Scope R_scope.

(** The fields of a UTC string with day of year.  The string itself, with 13 or 16
    decimals of the seconds, is not modelled. *)
Record utc : Type := { u_year : Z; u_doy : Z; u_hour : Z; u_min : Z; u_sec : R }.

(** Python's % for a positive divisor. *)
Definition pymod (x : R) (m : R) : R := x - m * IZR (Zfloor (x / m)).
(** The fields for one element: rss_ringoccs/tools/spm_to_et.py 48-65, 70-98 (the branches
    for a float and for an array compute the same).  [int] and [astype(int)] cut off. *)
Definition date_of (year doy : Z) (spm : R) : utc :=
  let hours := Ztrunc (spm / 3600) in
  let remainder_spm := Ztrunc (spm - IZR hours * 3600) in
  let minutes := Ztrunc (IZR remainder_spm / 60) in
  let seconds := spm - IZR hours * 3600 - IZR minutes * 60 in
  let days_per_year := if (year mod 4 =? 0)%Z then 366%Z else 365%Z in
  let doy_adjusted := IZR doy + IZR hours / 24 in
  {| u_year := (year + Zfloor ((doy_adjusted - 1) / IZR days_per_year))%Z;
     u_doy := Ztrunc (1 + pymod (doy_adjusted - 1) (IZR days_per_year));
     u_hour := (hours mod 24)%Z; u_min := minutes; u_sec := seconds |}.
(** What a call does: the result, an exception, or the end of the process. *)
Inductive py (A : Type) : Type := Returns (a : A) | Raises | Exits.
Arguments Returns {A}. Arguments Raises {A}. Arguments Exits {A}.
(** spm_to_et, spm_to_et.py 29-104.  [utc2et]: SPICE with the leap second kernel loaded.
    Without kernels the default path is built with [os.sep], but the module does not import
    os (13-15): a NameError. *)
Definition spm_to_et (utc2et : utc -> R) (spm : list R) (doy year : Z) (kernels : bool) : py (list R) :=
  if (doy =? 0)%Z then Exits
  else if (year =? 0)%Z then Exits
  else if negb kernels then Raises
  else Returns (map (fun s => utc2et (date_of year doy s)) spm).

(** rss_ringoccs/tools/et_to_spm.py 45-55: hour, minute and second of one element. *)
Definition spm_of (u : utc) : R := IZR (u_hour u) * 3600 + IZR (u_min u) * 60 + u_sec u.
(** 59-60: the places at which the next value is smaller. *)
Fixpoint breaks (i : nat) (l : list R) : list nat :=
  match l with
  | x :: ((y :: _) as t) => if Rlt_dec (y - x) 0 then i :: breaks (S i) t else breaks (S i) t
  | _ => []
  end.
(** [l[n:] = l[n:] + v]. *)
Fixpoint add_from (n : nat) (v : R) (l : list R) : list R :=
  match n, l with
  | _, [] => []
  | O, x :: t => (x + v) :: add_from O v t
  | S n', x :: t => x :: add_from n' v t
  end.
(** 62-68. *)
Definition continued (raw : list R) : list R :=
  fold_left (fun cont ind => add_from (S ind) (nth ind raw 0) cont) (breaks 0 raw) raw.
(** et_to_spm, et_to_spm.py 29-82.  [et2utc]: SPICE.  [ref_doy] absent and 0 are the same. *)
Definition et_to_spm (et2utc : R -> utc) (ets : list R) (ref_doy : option Z) : py (list R) :=
  match ets with
  | [] => Returns []
  | et0 :: _ =>
      let spm := continued (map (fun et => spm_of (et2utc et)) ets) in
      match ref_doy with
      | None => Returns spm
      | Some d =>
          if (d =? 0)%Z then Returns spm
          else
            let days_past := (u_doy (et2utc et0) - d)%Z in
            if (days_past <? 0)%Z then Raises
            else Returns (map (fun s => s + IZR days_past * 24 * 60 * 60) spm)
      end
  end.
