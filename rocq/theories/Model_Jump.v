(** * Model_Jump: discontinuities of the frequency offsets
    (rss_ringoccs/calibration/freq_offset_fit.py, get_disconts and __centdiff2).  Definitions only.
    Exact arithmetic; the arguments are the offsets with their times and radii after the mask was
    applied.  Simplification: two samples at the same time divide by zero, which numpy makes
    infinite or not a number and Coq gives some real: the theorems speak of the code for samples at
    distinct times. *)
From Coq Require Import List ZArith Bool Reals.
From Verif Require Import Base Model_Time Model_Chord.
Import ListNotations.
Open Scope R_scope.

Definition item (l : list R) (i : nat) : R := nth i l 0.
(** __centdiff2, 485-496. *)
Definition centdiff2 (x f : list R) : list R :=
  0 :: map (fun i => (item f (i + 2) - 2 * item f (i + 1) + item f i) / ((item x (i + 1) - item x i) * (item x (i + 2) - item x (i + 1)))) (seq 0 (length f - 2)) ++ [0].
(** scipy's argrelmax with its defaults: greater than both neighbours; the ends never are. *)
Definition argrelmax (a : list R) : list nat := filter (fun d => ltb (item a (d - 1)) (item a d) && ltb (item a (d + 1)) (item a d)) (seq 1 (length a - 2)).
(** The candidates, 438-449. *)
Definition candidates (x f : list R) : list Z :=
  let a := map Rabs (centdiff2 x f) in
  let cut := fold_left Rmax a 0 / (3 / 2) in
  map Z.of_nat (filter (fun d => ltb cut (item a d)) (argrelmax a)).
(** len(l[a:b]) of a list of length [n] for 0 <= a <= n and 0 <= b <= n or b = -1. *)
Definition slice_length (n a b : Z) : Z := Z.max 0 ((if (b <? 0)%Z then n + b else b) - a).
(** The test of lines 460-476 for the candidate [cur] between [prev] and [next]. *)
Definition spurious (f rho : list R) (df : R) (prev cur next : Z) : bool :=
  let n := Z.of_nat (length f) in
  let c := Z.to_nat cur in
  let check1 := (slice_length n prev cur <? 10)%Z in
  let check2 := (slice_length n cur next <? 10)%Z in
  let check3 := ltb (Rabs (item f c - item f (c - 1))) df && ltb (Rabs (item f (c + 1) - item f c)) df && ltb (Rabs (item f (c + 1) - item f (c - 1))) df in
  let check4 := ltb 91000 (item rho c) && ltb (item rho c) 119000 in
  check1 || check2 || check3 || check4.
(** The loop of lines 458-476: what is to be removed. *)
Fixpoint flagged (f rho : list R) (df : R) (l : list Z) : list Z :=
  match l with
  | prev :: ((cur :: next :: _) as l') => if spurious f rho df prev cur next then cur :: flagged f rho df l' else flagged f rho df l'
  | _ => []
  end.
(** disconts.remove(r), 478-479. *)
Fixpoint remove_value (r : Z) (l : list Z) : list Z := match l with [] => [] | x :: l' => if (x =? r)%Z then l' else x :: remove_value r l' end.
(** get_disconts, 414-482. *)
Definition get_disconts (x f rho : list R) (df : R) : list Z :=
  let disconts := [0%Z] ++ candidates x f ++ [(-1)%Z] in
  fold_left (fun l r => remove_value r l) (flagged f rho df disconts) disconts.
