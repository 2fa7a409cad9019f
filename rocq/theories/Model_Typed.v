(** * Model_Typed: the gaps that the user types (rss_ringoccs/calibration/power_normalization.py,
    fit_check and extract_list_from_str).  Definitions only.  A text is the list of its characters;
    [fl] is Python's float of a text, [None] if it raises. *)
From Coq Require Import String Ascii List ZArith Bool Reals.
From Verif Require Import Base Model_Time Model_Frame.
Import ListNotations.
Open Scope Z_scope.

Definition opens (c : ascii) : bool := Ascii.eqb c "["%char.
(** Line 229: the indices of the opening brackets. *)
Fixpoint positions (k : Z) (s : list ascii) : list Z :=
  match s with [] => [] | c :: s' => if opens c then k :: positions (k + 1) s' else positions (k + 1) s' end.
(** s[a:b], with negative indices counted from the end. *)
Definition pyslice (s : list ascii) (a b : Z) : list ascii :=
  let n := Z.of_nat (length s) in
  let at_index z := Z.to_nat (if z <? 0 then Z.max 0 (z + n) else Z.min z n) in
  firstn (at_index b - at_index a) (skipn (at_index a) s).
(** str1.split(','). *)
Fixpoint split (s : list ascii) : list (list ascii) :=
  match s with
  | [] => [[]]
  | c :: s' => if Ascii.eqb c ","%char then [] :: split s' else match split s' with w :: ws => (c :: w) :: ws | [] => [[c]] end
  end.
(** Lines 238-239. *)
Definition read_pair (fl : list ascii -> option R) (s : list ascii) : py (R * R) :=
  match split s with
  | w1 :: w2 :: _ => orelse (fl w1) (fun x => orelse (fl w2) (fun y => Returns (x, y)))
  | _ => Raises
  end.
(** Lines 231-241, the loop over the indices of the brackets. *)
Fixpoint read_pairs (fl : list ascii -> option R) (s : list ascii) (ind : list Z) : py (list (R * R)) :=
  match ind with
  | [] => Returns []
  | i :: rest =>
      let str1 := match rest with [] => pyslice s (i + 1) (-1) | j :: _ => pyslice s (i + 1) (j - 3) end in
      pybind (read_pair fl str1) (fun g => pybind (read_pairs fl s rest) (fun gs => Returns (g :: gs)))
  end.
(** extract_list_from_str, 214-245. *)
Definition extract_list_from_str (fl : list ascii -> option R) (s : list ascii) : py (list (R * R)) := read_pairs fl s (positions 0 s).
(** cc in s, for a character c. *)
Fixpoint doubled (c : ascii) (s : list ascii) : bool :=
  match s with a :: ((b :: _) as s') => (Ascii.eqb a c && Ascii.eqb b c) || doubled c s' | _ => false end.
(** Lines 181-189 of fit_check: the gaps after the answer [s]; [previous] is self.gaps. *)
Definition new_gaps (fl : list ascii -> option R) (previous : list (R * R)) (s : list ascii) : py (list (R * R)) :=
  if negb (doubled "["%char s) && negb (doubled "]"%char s) then Returns previous
  else extract_list_from_str fl (pyslice s 1 (-1)).
