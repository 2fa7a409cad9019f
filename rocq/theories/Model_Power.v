(** * Model_Power: which samples calibrate the power (rss_ringoccs/calibration/power_normalization.py,
    create_mask and the part of __init__ around it).  Definitions only.  Exact arithmetic; a power
    [None] is not a number, and comparisons with it are false.  Simplification: a power divided by
    zero is not a number here, where numpy makes a positive one infinite; the powers of the theorems
    are positive.  The fit itself, the plots and the questions to the user are not modelled. *)
From Coq Require Import String List ZArith Bool Reals.
From Verif Require Import Base Model_Time Model_Chord Model_Frame Model_Mask.
Import ListNotations.
Open Scope R_scope.

Definition numbers (l : list (option R)) : list R := flat_map (fun o => match o with Some x => [x] | None => [] end) l.
Fixpoint insert (x : R) (l : list R) : list R := match l with [] => [x] | y :: r => if ltb y x then y :: insert x r else x :: l end.
(** np.nanmedian (line 296): the middle of the sorted numbers, or the mean of the two middle ones. *)
Definition nanmedian (l : list (option R)) : option R :=
  let s := fold_right insert [] (numbers l) in
  match length s with O => None | n => Some ((nth ((n - 1) / 2) s 0 + nth (n / 2) s 0) / 2) end.
(** np.nanmax (lines 273-279): an error if there is no element. *)
Definition nanmax (l : list (option R)) : py (option R) :=
  match l with [] => Raises | _ => Returns (match numbers l with [] => None | x :: r => Some (fold_left Rmax r x) end) end.
(** (spm >= a) & (spm <= b). *)
Definition within (a b s : R) : bool := negb (ltb s a) && negb (ltb b s).
(** pc[mask]. *)
Definition pick (P : R -> bool) (spm : list R) (pc : list (option R)) : list (option R) := map snd (filter (fun s => P (fst s)) (combine spm pc)).
(** The samples of lines 271-279, from which the largest power is taken. *)
Definition reference (gaps : list (R * R)) : py (R -> bool) :=
  let n := length gaps in
  if ((n =? 2) || (n =? 3))%nat then
    at_ gaps 0 (fun g => at_ gaps (n - 1) (fun h =>
    Returns (if eqb (snd g) (fst h) then within (fst g) (snd h) else within (snd g) (fst h))))
  else if (n =? 1)%nat then at_ gaps 0 (fun g => Returns (fun s => ltb (fst g) s && negb (ltb (snd g) s)))
  else at_ gaps 1 (fun g => at_ gaps (n - 2) (fun h => Returns (within (snd g) (fst h)))).
(** pc / pc_max, line 280. *)
Definition over (m : option R) (p : option R) : option R :=
  match p, m with Some x, Some y => if eqb y 0 then None else Some (x / y) | _, _ => None end.
(** gaps_spm.remove(limits), line 298: the first equal one goes. *)
Fixpoint remove_first (g : R * R) (l : list (R * R)) : list (R * R) :=
  match l with [] => [] | h :: r => if eqb (fst h) (fst g) && eqb (snd h) (snd g) then r else h :: remove_first g r end.
(** One turn of the loop of lines 292-300 over the copy of the gaps. *)
Definition gap_step (spm : list R) (norm : list (option R)) (st : list (R * R) * list (option R)) (g : R * R) : list (R * R) * list (option R) :=
  let '(gaps, medians) := st in
  let pcm := nanmedian (pick (within (fst g) (snd g)) spm norm) in
  if match pcm with Some x => ltb x (1 / 2) || ltb (5 / 4) x | None => false end
  then (remove_first g gaps, medians) else (gaps, medians ++ [pcm]).
(** The test of lines 307-316 for one sample. *)
Definition chosen (gaps : list (R * R)) (medians : list (option R)) (s : R) (p : option R) : bool :=
  existsb (fun gm => within (fst (fst gm)) (snd (fst gm)) s &&
    match p, snd gm with Some x, Some m => ltb (m - 1 / 10) x && ltb x (m + 1 / 10) | _, _ => false end) (combine gaps medians).
(** create_mask, 247-324: the mask, the gaps that remain and the order of the fit.  The gaps are
    removed from the caller's list itself, so they are also what the caller holds afterwards. *)
Definition create_mask (order : Z) (gaps : list (R * R)) (spm : list R) (pc : list (option R)) : py (list bool * list (R * R) * Z) :=
  pybind (reference gaps) (fun P => pybind (nanmax (pick P spm pc)) (fun m =>
  let norm := map (over m) pc in
  let '(gaps', medians) := fold_left (gap_step spm norm) gaps (gaps, []) in
  Returns (map (fun s => chosen gaps' medians (fst s) (snd s)) (combine spm norm), gaps',
           if (length gaps' <=? 5)%nat then 1%Z else order))).
(** What __init__, 70-106, does with the gaps [gaps] of the geometry and the downsampled signal:
    whether the user is asked, the samples to fit, the gaps to fit, and the gaps that the geometry
    holds afterwards (line 72 takes the geometry's own list).  interact=False. *)
Definition everything (geo : list (R * R)) (spm : list R) : py (bool * list bool * list (R * R) * list (R * R)) :=
  at_ spm 1 (fun a => if (length spm <? 2)%nat then Raises else at_ spm (length spm - 2) (fun b => Returns (true, map (fun _ => true) spm, [(a, b)], geo))).
Definition normalise (order : Z) (gaps : list (R * R)) (spm : list R) (pc : list (option R)) : py (bool * list bool * list (R * R) * list (R * R)) :=
  match gaps with
  | [] => everything gaps spm
  | _ => pybind (create_mask order gaps spm pc) (fun '(mask, gaps', _) =>
      if forallb negb mask then everything gaps' spm else Returns (false, mask, gaps', gaps'))
  end.
