(** * Model_Heap: allocation, deallocation and file handles.

    This file models no function of /repo; it fixes what [malloc], [free],
    [fopen] and [fclose] do in the model: every successful allocation makes a
    new live block, [free] of a live block removes it, and [free] of anything
    else is undefined. *)
From Coq Require Import List ZArith Bool.
From Verif Require Import Base Scalar.
Import ListNotations.
Open Scope Z_scope.

(** The live blocks, the name of the next block, the number of open files. *)
Record heap : Type := mkHeap {
  live : list Z;
  next : Z;
  files : Z
}.

(** Computations that use the heap. *)
Definition H (A : Type) : Type := heap -> res (A * heap).
Definition hret {A} (a : A) : H A := fun h => Ok (a, h).
Definition hbind {A B} (m : H A) (f : A -> H B) : H B :=
  fun h => do '(a, h1) <- m h; f a h1.
Definition hlift {A} (m : res A) : H A := fun h => do a <- m; Ok (a, h).
Declare Scope heap_scope.
Delimit Scope heap_scope with heap.
Notation "x <~ m ; k" := (hbind m (fun x => k))
  (at level 199, m at level 100, k at level 200, right associativity) : heap_scope.
Notation "' p <~ m ; k" := (hbind m (fun p => k))
  (at level 199, p pattern, m at level 100, k at level 200, right associativity) : heap_scope.

(** [malloc]: a new block, or NULL when the allocation does not succeed. *)
Definition halloc (ok : bool) : H (option Z) :=
  fun h => if ok
           then Ok (Some (next h), mkHeap (next h :: live h) (next h + 1) (files h))
           else Ok (None, h).

Definition is_live (h : heap) (b : Z) : bool := existsb (Z.eqb b) (live h).

(** [free(p)]: nothing for NULL; undefined for a block that is not live. *)
Definition hfree (p : option Z) : H unit :=
  fun h => match p with
           | None => Ok (tt, h)
           | Some b =>
               if is_live h b
               then Ok (tt, mkHeap (remove Z.eq_dec b (live h)) (next h) (files h))
               else UB DoubleFree
           end.

(** Access through a pointer: undefined for NULL and for a freed block. *)
Definition haccess (p : option Z) : H unit :=
  fun h => match p with
           | None => UB NullDeref
           | Some b => if is_live h b then Ok (tt, h) else UB UseAfterFree
           end.

(** [fopen] of a file that can be opened, and [fclose]. *)
Definition hopen : H unit := fun h => Ok (tt, mkHeap (live h) (next h) (files h + 1)).
Definition hclose : H unit := fun h => Ok (tt, mkHeap (live h) (next h) (files h - 1)).

(** A pointer to an array of doubles: the block it points to and the contents of
    that block, where [None] is a cell that was never written.  Contents travel
    with the pointer; this is faithful as long as no two pointers to the same
    block are used for writing and later reading, which is the case in the
    modelled code (see Model_Csv.v, Model_Create.v). *)
Definition ptr (S : scalar) : Type := option (Z * list (option S)).
Definition pid {S : scalar} (p : ptr S) : option Z := option_map fst p.
