(** * Model_Mask: which frequency offsets are fitted (rss_ringoccs/calibration/freq_offset_fit.py,
    create_mask with its default polyclip=False).  Definitions only.  Exact arithmetic; an offset
    [None] is not a number, and comparisons with it are false. *)
From Coq Require Import String List ZArith Bool Reals.
From Verif Require Import Base Model_Time Model_Chord Model_Frame.
Import ListNotations.
Open Scope R_scope.

(** mask[k] = False. *)
Fixpoint clear (k : nat) (m : list bool) : list bool :=
  match m with [] => [] | b :: m' => match k with O => false :: m' | S k' => b :: clear k' m' end end.
(** abs(a - b) > df. *)
Definition apart (df : R) (a b : option R) : bool := match a, b with Some x, Some y => ltb df (Rabs (x - y)) | _, _ => false end.
(** The while loops, 317-322: j grows while j < len - (base + j) and not mask[base + j]; the number
    of steps is bounded by the length. *)
Fixpoint look (fuel : nat) (mask : list bool) (n base j : nat) : py nat :=
  match fuel with
  | O => Returns j
  | S fuel' => if (base + j + j <? n)%nat then
      match nth_error mask (base + j) with None => Raises | Some true => Returns j | Some false => look fuel' mask n base (j + 1) end
    else Returns j
  end.
Definition at_ {A B} (l : list A) (k : nat) (f : A -> py B) : py B := match nth_error l k with Some a => f a | None => Raises end.
(** One turn of the loop of __sigma_clip, 297-334. *)
Definition clip_step (f diff : list (option R)) (stdev df : R) (i : nat) (mask : list bool) : py (list bool) :=
  let n := length f in
  at_ f i (fun fi => match fi with
  | None => Returns (clear i mask)
  | Some x =>
      if ltb x (-150) || ltb 150 x then Returns (clear i mask)
      else at_ diff i (fun d =>
      if match d with Some y => ltb stdev y | None => false end then Returns (clear i mask)
      else if ((1 <? i) && (i + 2 <? n))%nat then
        at_ f (i - 1) (fun a => at_ f (i + 1) (fun b =>
        if apart df fi a || apart df fi b then Returns (clear i mask)
        else pybind (look n mask n i 1) (fun j => pybind (look n mask n (i + j) 1) (fun k =>
          at_ f (i + j) (fun c => at_ f (i + j + k) (fun d =>
          if ((i + j <? i + j + k) && (i + j <? n) && (i + j + k <? n))%nat && (apart df fi c && apart df c d) then Returns (clear (i + j) mask) else Returns mask))))))
      else Returns mask)
  end).
Fixpoint clip_from (f diff : list (option R)) (stdev df : R) (is : list nat) (mask : list bool) : py (list bool) :=
  match is with [] => Returns mask | i :: is' => pybind (clip_step f diff stdev df i mask) (clip_from f diff stdev df is') end.
(** __sigma_clip, 292-335. *)
Definition sigma_clip (f diff : list (option R)) (stdev df : R) : py (list bool) := clip_from f diff stdev df (seq 0 (length f)) (repeat true (length f)).
(** __neighbor_check, 337-355: in place, upwards and then downwards.  The positions read are within
    the mask. *)
Definition alone2 (m : list bool) (i : nat) : bool := negb (nth (i - 2) m false) && negb (nth (i - 1) m false) && (negb (nth (i + 1) m false) && negb (nth (i + 2) m false)).
Definition up_step (m : list bool) (i : nat) : list bool := if nth i m false && alone2 m i then clear i m else m.
Definition down_step (m : list bool) (i : nat) : list bool :=
  if nth i m false then
    let m' := if alone2 m i then clear i m else m in
    if negb (nth (i - 1) m' false) && negb (nth (i + 1) m' false) then clear i m' else m'
  else m.
Definition neighbor_check (m : list bool) : list bool :=
  let n := length m in fold_left down_step (rev (seq 3 (n - 5))) (fold_left up_step (seq 2 (n - 4)) m).
(** create_mask, 222-290, from the offsets, their radii, the tolerance [df] of lines 224-236 and the
    median [med] of numpy, nan values left out; [None]: not a number. *)
Definition create_mask (med : list (option R) -> option R) (df : R) (f : list (option R)) (rho : list R) : py (list bool) :=
  let f_median := med f in
  let dist := map (fun x => match x, f_median with Some a, Some b => Some (Rabs (a - b)) | _, _ => None end) f in
  let spread := match med (map (fun d => match d with Some a => Some (a * a) | None => None end) dist) with Some v => 5 * sqrt v | None => 0 end in
  let stdev := if ltb 15 spread then 15 else spread in
  pybind (sigma_clip f dist stdev df) (fun mask =>
  let mask := neighbor_check mask in
  if (length (filter (fun b => b) mask) <? 5)%nat then
    if (length rho =? length f)%nat then
      Returns (neighbor_check (map (fun fr => match fst fr with None => false | Some x => negb (ltb x (-150) || ltb 150 x) && negb (ltb 92000 (snd fr) && ltb (snd fr) 118000) end) (combine f rho)))
    else Raises
  else Returns mask).
