(** * Scalar: the numeric interface the C code is transcribed against.

    The C code computes with [double]; the transcription is written once over a
    record of scalar operations so that it can be read in IEEE-754 binary64
    ([dbl_scalar]: control flow, memory safety, rounding) and in exact real
    arithmetic ([real_scalar]: linearity, normalisation, interpolation).
    No function of /repo is modelled here. *)
From Coq Require Import List ZArith Bool Reals Lra.
From Flocq Require Import Core IEEE754.BinarySingleNaN.
From Verif Require Import Base Dbl.
Import ListNotations.

Record scalar : Type := {
  car :> Type;
  sadd : car -> car -> car;
  ssub : car -> car -> car;
  smul : car -> car -> car;
  sdiv : car -> car -> car;
  sneg : car -> car;
  sabs : car -> car;
  ssqrt : car -> car;
  slt : car -> car -> bool;        (* C [<] *)
  sle : car -> car -> bool;        (* C [<=] *)
  seqb : car -> car -> bool;       (* C [==] *)
  snan : car -> bool;              (* tmpl_Double_Is_NaN *)
  sinf : car -> bool;              (* tmpl_Double_Is_Inf *)
  scast : car -> res Z;            (* (size_t)x *)
  sofZ : Z -> car;                 (* (double)n, and integer-valued literals *)
  sfrac : Z -> Z -> car;           (* decimal literal p/q *)
  stwopi : car;                    (* tmpl_double_two_pi *)
  spihalf : car;                   (* tmpl_double_pi_by_two *)
  ssqrttwo : car;                  (* tmpl_Double_Sqrt_Two *)
  srsqrttwo : car;                 (* tmpl_Double_Rcpr_Sqrt_Two *)
}.
Arguments sadd {s}. Arguments ssub {s}. Arguments smul {s}. Arguments sdiv {s}.
Arguments sneg {s}. Arguments sabs {s}. Arguments ssqrt {s}. Arguments slt {s}.
Arguments sle {s}. Arguments seqb {s}. Arguments snan {s}. Arguments sinf {s}.
Arguments scast {s}. Arguments sofZ {s}. Arguments sfrac {s}.
Arguments stwopi {s}. Arguments spihalf {s}.
Arguments ssqrttwo {s}. Arguments srsqrttwo {s}.

Declare Scope S_scope.
Delimit Scope S_scope with S.
Notation "x + y" := (sadd x y) : S_scope.
Notation "x - y" := (ssub x y) : S_scope.
Notation "x * y" := (smul x y) : S_scope.
Notation "x / y" := (sdiv x y) : S_scope.
Notation "- x" := (sneg x) : S_scope.

Definition s0 {S : scalar} : S := sofZ 0.
Definition s1 {S : scalar} : S := sofZ 1.
Definition s2 {S : scalar} : S := sofZ 2.
Definition shalf {S : scalar} : S := sfrac 1 2.
(** C [>] and [>=]. *)
Definition sgt {S : scalar} (x y : S) : bool := slt y x.
Definition sge {S : scalar} (x y : S) : bool := sle y x.

(** IEEE-754 binary64.  2 pi and pi/2 as the nearest doubles:
    7074237752028440 * 2^-50 and 7074237752028440 * 2^-52; sqrt 2 and its
    reciprocal: 6369051672525773 * 2^-52 and 6369051672525773 * 2^-53. *)
Definition dbl_scalar : scalar := {|
  car := double;
  sadd := dadd; ssub := dsub; smul := dmul; sdiv := ddiv;
  sneg := dneg; sabs := dabs; ssqrt := dsqrt;
  slt := dlt; sle := dle; seqb := deq; snan := dnan; sinf := dinf;
  scast := dcast; sofZ := dofZ; sfrac := dfrac;
  stwopi := ddyadic 7074237752028440 (-50);
  spihalf := ddyadic 7074237752028440 (-52);
  ssqrttwo := ddyadic 6369051672525773 (-52);
  srsqrttwo := ddyadic 6369051672525773 (-53) |}.

(** Exact real arithmetic: no NaN, no infinity, decidable comparisons (from the
    axioms of the standard library's reals). *)
Definition real_scalar : scalar := {|
  car := R;
  sadd := Rplus; ssub := Rminus; smul := Rmult; sdiv := Rdiv;
  sneg := Ropp; sabs := Rabs; ssqrt := R_sqrt.sqrt;
  slt := fun x y => if Rlt_dec x y then true else false;
  sle := fun x y => if Rle_dec x y then true else false;
  seqb := fun x y => if Req_EM_T x y then true else false;
  snan := fun _ => false; sinf := fun _ => false;
  scast := fun x => let z := Ztrunc x in
                    if (0 <=? z)%Z && (z <? two64)%Z then Ok z else UB BadCast;
  sofZ := IZR; sfrac := fun p q => (IZR p / IZR q)%R;
  stwopi := (2 * PI)%R; spihalf := (PI / 2)%R;
  ssqrttwo := R_sqrt.sqrt 2; srsqrttwo := (/ R_sqrt.sqrt 2)%R |}.

(** ** Complex numbers: libtmpl's [tmpl_ComplexDouble], pairs (re, im). *)
Definition cplx (S : scalar) : Type := (car S * car S)%type.
Section Complex.
  Context {S : scalar}.
  Definition cre (z : cplx S) : S := fst z.
  Definition cim (z : cplx S) : S := snd z.
  Definition cadd (z w : cplx S) : cplx S := (cre z + cre w, cim z + cim w)%S.
  Definition csub (z w : cplx S) : cplx S := (cre z - cre w, cim z - cim w)%S.
  Definition cmul (z w : cplx S) : cplx S :=
    (cre z * cre w - cim z * cim w, cre z * cim w + cim z * cre w)%S.
  Definition cscale (r : S) (z : cplx S) : cplx S := (r * cre z, r * cim z)%S.
  Definition cconj (z : cplx S) : cplx S := (cre z, - cim z)%S.
  Definition c0 : cplx S := (s0, s0).
  Definition c1 : cplx S := (s1, s0).
  (** |z|^2 *)
  Definition cabs2 (z : cplx S) : S := (cre z * cre z + cim z * cim z)%S.
End Complex.
