(** * Spec_Time: vocabulary of C67.  Definitions only. *)
From Coq Require Import List ZArith Bool Reals.
From Verif Require Import Base Model_Time.
Import ListNotations.
Open Scope R_scope.

(** The Gregorian calendar. *)
Definition leap (y : Z) : bool := ((y mod 4 =? 0) && (negb (y mod 100 =? 0) || (y mod 400 =? 0)))%Z.
Definition year_days (y : Z) : Z := if leap y then 366 else 365.
(** Days from the first day of year 1 to the first day of year [y]. *)
Definition days_before (y : Z) : Z := (365 * (y - 1) + (y - 1) / 4 - (y - 1) / 100 + (y - 1) / 400)%Z.
(** A calendar date and time of day. *)
Definition proper (u : utc) : Prop :=
  (1 <= u_doy u <= year_days (u_year u))%Z /\ (0 <= u_hour u < 24)%Z /\ (0 <= u_min u < 60)%Z /\ 0 <= u_sec u < 60.
(** The number of the day, and the seconds from the first day of year 1, every day having
    86400 seconds (no leap seconds). *)
Definition day_of (u : utc) : Z := (days_before (u_year u) + u_doy u - 1)%Z.
Definition instant (u : utc) : R :=
  86400 * IZR (day_of u) + 3600 * IZR (u_hour u) + 60 * IZR (u_min u) + u_sec u.
(** The midnight at which a day begins. *)
Definition midnight (year doy : Z) : R := 86400 * IZR (days_before year + doy - 1).
(** The two conversions of SPICE, between two leap seconds: a clock with a fixed offset. *)
Definition reads (et2utc : R -> utc) (epoch : R) : Prop :=
  forall et, proper (et2utc et) /\ instant (et2utc et) = et + epoch.
Definition sets (utc2et : utc -> R) (epoch : R) : Prop :=
  forall u, proper u -> utc2et u = instant u - epoch.
(** Times that do not go back, less than a day apart. *)
Fixpoint in_order (l : list R) : Prop :=
  match l with
  | x :: ((y :: _) as t) => x <= y < x + 86400 /\ in_order t
  | _ => True
  end.
(** [out] counts the seconds from [zero]. *)
Definition counts_from (zero epoch : R) (ets out : list R) : Prop :=
  out = map (fun et => et + epoch - zero) ets.
