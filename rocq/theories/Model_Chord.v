(** * Model_Chord: the direction of an occultation and the halves of a chord
    (rss_ringoccs/occgeo).  Definitions only.  Exact arithmetic. *)
From Coq Require Import List ZArith Bool Reals.
From Verif Require Import Base Model_Time.
Import ListNotations.
Open Scope R_scope.

Definition ltb (x y : R) : bool := if Rlt_dec x y then true else false.
Definition eqb (x y : R) : bool := if Req_EM_T x y then true else false.
(** [x in l], for numbers. *)
Definition mem (x : R) (l : list R) : bool := existsb (eqb x) l.

(** np.gradient with constant spacing, for at least two elements:
    rss_ringoccs/occgeo/calc_occ_geometry.py 490 (calc_rip_velocity). *)
Definition gradient (l : list R) (dt : R) : list R :=
  let n := length l in
  let f := fun i => nth i l 0 in
  map (fun i => if (i =? 0)%nat then (f 1%nat - f 0%nat) / dt
                else if (i =? n - 1)%nat then (f (n - 1)%nat - f (n - 2)%nat) / dt
                else (f (i + 1)%nat - f (i - 1)%nat) / (2 * dt)) (seq 0 n).
(** np.sign. *)
Definition sign (x : R) : Z := if ltb x 0 then (-1)%Z else if ltb 0 x then 1%Z else 0%Z.
(** The places at which np.diff is not zero. *)
Fixpoint changes (i : nat) (l : list Z) : list nat :=
  match l with
  | x :: ((y :: _) as t) => if Z.eqb (y - x) 0 then changes (S i) t else i :: changes (S i) t
  | _ => []
  end.
(** get_chord_ind, rss_ringoccs/occgeo/occgeo.py 597-618: an index, None, or an array of
    several indices. *)
Inductive chord : Type := Never | At (ind : nat) | Several.
Definition get_chord_ind (rho_dot : list R) : chord :=
  match changes 0 (map sign rho_dot) with
  | [] => Never
  | [i] => At (i + 2)
  | _ => Several
  end.

Inductive dir : Type := INGRESS | EGRESS | BOTH.

Section Samples.
  (** A sample: one element of every array.  Arrays of another length, which the removal
      functions leave alone, are not modelled. *)
  Context {A : Type}.
  Variables t rho : A -> R.

  Definition step_first (xs : list A) : option R :=
    match xs with x :: y :: _ => Some (rho y - rho x) | _ => None end.
  Definition step_last (xs : list A) : option R :=
    match rev xs with y :: x :: _ => Some (rho y - rho x) | _ => None end.
  (** np.argwhere(... == v)[0][0]. *)
  Fixpoint find_time (i : nat) (v : R) (xs : list A) : option nat :=
    match xs with
    | [] => None
    | x :: xs' => if eqb (t x) v then Some i else find_time (S i) v xs'
    end.
  Definition lmin (x : R) (l : list R) : R := fold_left (fun a b => if ltb b a then b else a) l x.
  Definition lmax (x : R) (l : list R) : R := fold_left (fun a b => if ltb a b then b else a) l x.
  (** __remove_atmos_values, occgeo.py 562-594: remove the samples from the first to the
      last blocked time.  If the first comes after the last, line 575 reads a variable
      before it is set. *)
  Definition remove_atmos_values (xs : list A) (atmos : list R) : py (list A) :=
    match atmos with
    | [] => Raises
    | a :: l =>
        match find_time 0 (lmin a l) xs, find_time 0 (lmax a l) xs with
        | Some ind1, Some ind2 =>
            if (ind2 <? ind1)%nat then Raises
            else Returns (firstn ind1 xs ++ skipn (ind2 + 1) xs)
        | _, _ => Raises
        end
    end.
  (** verify_chord, occgeo.py 490-547.  An array of indices and None make the comparison
      ambiguous (a ValueError); __remove_values_beyond_rings (549-560) asks np.delete to
      remove the element after the last (an IndexError). *)
  Definition verify_chord (xs : list A) (rho_dot atmos : list R) : py (dir * list A) :=
    match get_chord_ind rho_dot with
    | At ind =>
        match nth_error xs ind with
        | None => Raises
        | Some x =>
            let ing := firstn ind xs in
            let egr := skipn ind xs in
            let beyond := fun l => forallb (fun y => ltb 170000 (rho y)) l in
            if (ltb 170000 (rho x) && (beyond egr || beyond ing))%bool then Raises
            else
              let blocked := fun l => length (filter (fun y => mem (t y) atmos) l) in
              if (blocked ing =? length ing)%nat
              then match remove_atmos_values xs atmos with
                   | Returns ys => Returns (EGRESS, ys) | Raises => Raises | Exits => Exits end
              else if (blocked egr =? length egr)%nat
              then match remove_atmos_values xs atmos with
                   | Returns ys => Returns (INGRESS, ys) | Raises => Raises | Exits => Exits end
              else Returns (BOTH, xs)
        end
    | _ => Raises
    end.
  (** get_profile_dir, occgeo.py 469-488. *)
  Definition get_profile_dir (xs : list A) (rho_dot atmos : list R) : py (dir * list A) :=
    match step_first xs, step_last xs with
    | Some dr_start, Some dr_end =>
        if (ltb dr_start 0 && ltb dr_end 0)%bool then Returns (INGRESS, xs)
        else if (ltb 0 dr_start && ltb 0 dr_end)%bool then Returns (EGRESS, xs)
        else verify_chord xs rho_dot atmos
    | _, _ => Raises
    end.
  (** remove_blocked, calc_occ_geometry.py 993-1010. *)
  Definition remove_blocked (xs : list A) (atmos : list R) : list A :=
    filter (fun x => negb (mem (t x) atmos)) xs.
  (** split_chord_arr, calc_occ_geometry.py 927-968.  For a direction that is neither, the
      variables are not set; the callers give one of the two. *)
  Definition split_chord_arr (xs : list A) (atmos : list R) (ind : nat) (profdir : dir) : py (list A) :=
    match step_first xs, step_last xs with
    | Some dr_1, Some dr_2 =>
        if ((ltb dr_1 0 && ltb dr_2 0) || (ltb 0 dr_1 && ltb 0 dr_2))%bool then Raises
        else
          match profdir with
          | EGRESS => Returns (remove_blocked (if ltb dr_1 0 then skipn ind xs else firstn ind xs) atmos)
          | INGRESS => Returns (remove_blocked (if ltb dr_1 0 then firstn ind xs else skipn ind xs) atmos)
          | BOTH => Raises
          end
    | _, _ => Raises
    end.
  (** What a Geometry instance makes of its samples: occgeo.py 349-350, 411-417, 444-448,
      with the two calls in get_freespace (calc_occ_geometry.py 825-849): the direction,
      the samples kept, and for a chord its parts. *)
  Definition directions (xs : list A) (dt : R) (atmos : list R) : py (dir * list A * option (list A * list A)) :=
    let rho_dot := gradient (map rho xs) dt in
    match get_profile_dir xs rho_dot atmos with
    | Returns (BOTH, ys) =>
        match get_chord_ind rho_dot with
        | At ind =>
            match split_chord_arr ys atmos ind INGRESS, split_chord_arr ys atmos ind EGRESS with
            | Returns a, Returns b => Returns (BOTH, ys, Some (a, b))
            | _, _ => Raises
            end
        | _ => Raises
        end
    | Returns (d, ys) => Returns (d, ys, None)
    | Raises => Raises
    | Exits => Exits
    end.
End Samples.
