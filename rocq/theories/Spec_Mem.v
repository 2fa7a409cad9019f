(** * Spec_Mem: what it means to own memory and to lose it. *)
From Coq Require Import List ZArith Bool String Permutation.
From Verif Require Import Base Scalar Model_TauRec Model_Heap Model_Create Model_Mem Spec_Csv.
Import ListNotations.
Open Scope list_scope.
Open Scope Z_scope.

(** All members of a tau object that point to arrays. *)
Definition array_members : list member :=
  map MArr [RHO; FKM; PHI; KV; RHODOT; BDEG; DKM; WKM; TOET; TRET; TSET; CPOLE; CTIM; TTHR; PHIRL; RX; RY; RZ]
  ++ [MTin; MTout; MTfwd].
Definition pointed_to (b : blocks) (ms : list member) : list Z :=
  flat_map (fun m => match b m with Some x => [x] | None => [] end) ms.

(** The live blocks are the object, the arrays it points to and [others], all
    different. *)
Definition owned_by {S : scalar} (o : mobj (S := S)) (others : list Z) (h : heap) : Prop :=
  good_heap h /\ Permutation (live h) (m_id o :: pointed_to (m_blk o) array_members ++ others).

(** An object without an error and without window widths was not reconstructed: it
    has no arrays of results. *)
Definition unprocessed {S : scalar} (o : mobj (S := S)) : Prop :=
  err (m_tau o) = None -> arr (m_tau o) WKM = None ->
  m_blk o (MArr WKM) = None /\ m_blk o MTout = None /\ m_blk o MTfwd = None.

(** How many blocks a reconstruction that turned [o] into an object with values
    [t'] leaves without a pointer to them.  Nothing is lost before the window
    widths are made.  After that, one block for every search if the searches
    return the number of indices in a block of its own ([sep]); and what the three
    failures forget: a buffer, the two blocks of a search, the measured data. *)
Definition lost {S : scalar} (L : tmpl S) (sep : bool) (o : mobj (S := S)) (t' : tau S) : nat :=
  match arr (m_tau o) WKM, arr t' WKM with
  | None, Some _ =>
      let one := if sep then 1%nat else 0%nat in
      let widths := if bfac (m_tau o) then one else 0%nat in
      match err t' with
      | Some m =>
          if String.eqb m "window: left" then (if t_alloc L 5 then 1 else 0) + one + widths
          else if String.eqb m "window: right" then 2 + 2 * one + widths
          else if String.eqb m "forward: not enough data"
               then (match m_blk o MTin with Some _ => 1 | None => 0 end) + 2 * one + widths
          else 2 * one + widths
      | None => 2 * one + widths
      end
  | _, _ => 0
  end%nat.

(** The live blocks are those of [h] and [n] more; the same files are open. *)
Definition blocks_more (n : nat) (h h1 : heap) : Prop :=
  (exists new, List.length new = n /\ Permutation (live h1) (new ++ live h)) /\
  files h1 = files h.

(** The heap with one more live block: that of the C DLP object. *)
Definition one_more (h : heap) : heap := mkHeap (next h :: live h) (next h + 1) (files h).
