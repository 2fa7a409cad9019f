(** * Base: outcomes, checked memory accesses, loops, wrap-around integers.

    This file models no function of /repo; it fixes the vocabulary in which the
    C code is transcribed: a computation either returns a value or runs into
    undefined behaviour (UB), and UB is a distinct outcome. *)
From Coq Require Import List ZArith Lia Bool.
Import ListNotations.

(** The kinds of undefined behaviour the model distinguishes. *)
Inductive ub : Type :=
| OutOfBounds      (* read or write outside an allocated block *)
| NullDeref        (* dereference of a null pointer / call through one *)
| Uninitialised    (* read of memory that was never written *)
| BadCast          (* double -> size_t cast of a value that does not fit *)
| DoubleFree       (* free of a block that is not allocated *)
| UseAfterFree     (* access to a freed block *)
| BadArgument      (* standard library function called outside its contract *)
| Diverges.        (* the call does not return (loop without progress) *)

Inductive res (A : Type) : Type :=
| Ok (a : A)
| UB (u : ub).
Arguments Ok {A} a.
Arguments UB {A} u.

Definition bind {A B} (m : res A) (f : A -> res B) : res B :=
  match m with Ok a => f a | UB u => UB u end.

Declare Scope res_scope.
Delimit Scope res_scope with res.
Notation "'do' x <- m ; k" := (bind m (fun x => k))
  (at level 200, x name, m at level 100, k at level 200, right associativity) : res_scope.
Notation "'do' ' p <- m ; k" := (bind m (fun p => k))
  (at level 200, p pattern, m at level 100, k at level 200, right associativity) : res_scope.
Open Scope res_scope.

Definition is_ok {A} (m : res A) : Prop := exists a, m = Ok a.
Definition is_ub {A} (m : res A) : Prop := exists u, m = UB u.

(** Sizes and indices ([size_t]) are integers [Z]. *)
Definition zlen {A} (l : list A) : Z := Z.of_nat (length l).

(** C array element read: undefined outside the block. *)
Definition aread {A} (l : list A) (i : Z) : res A :=
  if (i <? 0)%Z then UB OutOfBounds
  else if (zlen l <=? i)%Z then UB OutOfBounds
  else match nth_error l (Z.to_nat i) with
       | Some a => Ok a
       | None => UB OutOfBounds
       end.

(** List with element [i] replaced (only used behind the bounds check of
    [awrite]). *)
Fixpoint lset {A} (l : list A) (i : nat) (x : A) : list A :=
  match l, i with
  | [], _ => []
  | _ :: t, O => x :: t
  | h :: t, S j => h :: lset t j x
  end.

(** C array element write: undefined outside the block. *)
Definition awrite {A} (l : list A) (i : Z) (x : A) : res (list A) :=
  if ((0 <=? i) && (i <? zlen l))%Z then Ok (lset l (Z.to_nat i) x)
  else UB OutOfBounds.

(** Dereference of a pointer that may be null. *)
Definition deref {A} (p : option A) : res A :=
  match p with Some a => Ok a | None => UB NullDeref end.

(** [for (n = lo; n < lo + count; ++n) body], loop-carried state threaded
    through.  Binary recursion on the number of iterations, so that loops whose
    bound has wrapped around to about 2^64 still stop at their first UB when
    evaluated. *)
Fixpoint for_pos {S} (p : positive) (lo : Z) (body : Z -> S -> res S) (s : S) : res S :=
  match p with
  | xH => body lo s
  | xO q => do s1 <- for_pos q lo body s; for_pos q (lo + Zpos q)%Z body s1
  | xI q => do s1 <- body lo s;
            do s2 <- for_pos q (lo + 1)%Z body s1;
            for_pos q (lo + 1 + Zpos q)%Z body s2
  end.
Definition for_range {S} (lo count : Z) (body : Z -> S -> res S) (s : S) : res S :=
  match count with
  | Zpos p => for_pos p lo body s
  | _ => Ok s
  end.

(** [size_t] arithmetic: unsigned 64-bit wrap-around. *)
Definition two64 : Z := 18446744073709551616.
Definition wrap64 (z : Z) : Z := Z.modulo z two64.
Definition fits64 (z : Z) : Prop := (0 <= z < two64)%Z.

(** First [n] cells of a block; undefined when the block is shorter.  (What a
    library function that is handed a pointer and a length reads.) *)
Definition aprefix {A} (l : list A) (n : Z) : res (list A) :=
  if ((0 <=? n) && (n <=? zlen l))%Z then Ok (firstn (Z.to_nat n) l)
  else UB OutOfBounds.

(** A private buffer of [n] cells filled in order by [buf[i] = f i]. *)
Fixpoint tab_from {A} (n : nat) (i : Z) (f : Z -> res A) : res (list A) :=
  match n with
  | O => Ok []
  | S m => do x <- f i; do r <- tab_from m (i + 1)%Z f; Ok (x :: r)
  end.
Definition tabulate {A} (n : Z) (f : Z -> res A) : res (list A) :=
  tab_from (Z.to_nat n) 0 f.

(** [n = i; while (p(l[n])) n++;]: the first index from [i] on where [p] fails;
    running past the end of the block is undefined. *)
Fixpoint scan_list {A} (p : A -> bool) (l : list A) (i : Z) : res Z :=
  match l with
  | [] => UB OutOfBounds
  | x :: r => if p x then scan_list p r (i + 1)%Z else Ok i
  end.
Definition scan {A} (p : A -> bool) (l : list A) (i : Z) : res Z :=
  if (i <? 0)%Z then UB OutOfBounds
  else scan_list p (skipn (Z.to_nat i) l) i.

(** Indices of the cells satisfying [p], in increasing order. *)
Fixpoint where_from {A} (p : A -> bool) (l : list A) (i : Z) : list Z :=
  match l with
  | [] => []
  | x :: r => if p x then i :: where_from p r (i + 1)%Z
              else where_from p r (i + 1)%Z
  end.
Definition where_ {A} (p : A -> bool) (l : list A) : list Z := where_from p l 0.

(** Use of the result of an allocation that is not checked for NULL: undefined
    when the allocation failed and at least one element is accessed. *)
Definition need (ok : bool) (count : Z) : res unit :=
  if ok || (count <=? 0)%Z then Ok tt else UB NullDeref.
