(** * Spec_Power: free-space samples, independently of the code. *)
From Coq Require Import List ZArith Bool Reals Sorted Permutation.
Import ListNotations.
Open Scope R_scope.

(** Sample [i] is at time [s] and has power [p]; [None]: not a number. *)
Definition sample (spm : list R) (pc : list (option R)) (i : nat) (s : R) (p : option R) : Prop := nth_error spm i = Some s /\ nth_error pc i = Some p.
(** The times whose largest power is the unit: within a single gap; between the first and the last
    of two or three gaps, and if they touch from the begin of one to the end of the other; between
    the second and the second last of four or more. *)
Definition between (gaps : list (R * R)) (s : R) : Prop :=
  let n := length gaps in
  (exists g, gaps = [g] /\ fst g < s <= snd g) \/
  ((n = 2 \/ n = 3)%nat /\ exists g h, nth_error gaps 0 = Some g /\ nth_error gaps (n - 1) = Some h /\
     ((snd g = fst h /\ fst g <= s <= snd h) \/ (snd g <> fst h /\ snd g <= s <= fst h))) \/
  ((4 <= n)%nat /\ exists g h, nth_error gaps 1 = Some g /\ nth_error gaps (n - 2) = Some h /\ snd g <= s <= fst h).
(** [m] is the largest of the powers at the times [P]. *)
Definition largest (P : R -> Prop) (spm : list R) (pc : list (option R)) (m : R) : Prop :=
  (exists i s, sample spm pc i s (Some m) /\ P s) /\ (forall i s p, sample spm pc i s (Some p) -> P s -> p <= m).
(** [m] is the median of [l]. *)
Definition median (l : list R) (m : R) : Prop :=
  exists s, Permutation s l /\ Sorted Rle s /\ s <> [] /\ m = (nth ((length s - 1) / 2) s 0 + nth (length s / 2) s 0) / 2.
(** The powers within a gap that are numbers, in units of [u]. *)
Definition powers_in (g : R * R) (spm : list R) (pc : list (option R)) (u : R) : list R :=
  flat_map (fun sp => match snd sp with
    | Some p => if Rle_dec (fst g) (fst sp) then if Rle_dec (fst sp) (snd g) then [p / u] else [] else []
    | None => [] end) (combine spm pc).
(** A gap stays unless its median power is below a half or above five quarters. *)
Definition stays (spm : list R) (pc : list (option R)) (u : R) (g : R * R) : Prop := forall m, median (powers_in g spm pc u) m -> 1 / 2 <= m <= 5 / 4.
(** [l'] is [l] without the elements that are not [P]. *)
Inductive kept {A} (P : A -> Prop) : list A -> list A -> Prop :=
| kept_nil : kept P [] []
| kept_yes : forall a l l', P a -> kept P l l' -> kept P (a :: l) (a :: l')
| kept_no : forall a l l', ~ P a -> kept P l l' -> kept P (a :: l) l'.
(** Sample [i] lies in one of the gaps, with a power within a tenth of the unit of the median of that gap. *)
Definition free (gaps : list (R * R)) (spm : list R) (pc : list (option R)) (u : R) (i : nat) : Prop :=
  exists s p g m, sample spm pc i s (Some p) /\ In g gaps /\ fst g <= s <= snd g /\ median (powers_in g spm pc u) m /\ m - 1 / 10 < p / u < m + 1 / 10.
