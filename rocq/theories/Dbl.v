(** * Dbl: the C type [double] as IEEE-754 binary64 (Flocq), with the C
    comparison and cast semantics.  No function of /repo is modelled here. *)
From Coq Require Import ZArith Bool Lia.
From Flocq Require Import Core IEEE754.BinarySingleNaN.
From Verif Require Import Base.

Definition dprec : Z := 53.
Definition demax : Z := 1024.
Lemma dprec_gt_0 : FLX.Prec_gt_0 dprec.
Proof. reflexivity. Qed.
Lemma dprec_lt_emax : Prec_lt_emax dprec demax.
Proof. reflexivity. Qed.
#[global] Existing Instance dprec_gt_0.
#[global] Existing Instance dprec_lt_emax.

(** A double. All NaNs are identified, which C code that never inspects NaN
    payloads cannot observe. *)
Definition double : Type := binary_float dprec demax.

Definition dadd (x y : double) : double := Bplus mode_NE x y.
Definition dsub (x y : double) : double := Bminus mode_NE x y.
Definition dmul (x y : double) : double := Bmult mode_NE x y.
Definition ddiv (x y : double) : double := Bdiv mode_NE x y.
Definition dsqrt (x : double) : double := Bsqrt mode_NE x.
Definition dneg (x : double) : double := Bopp x.
Definition dabs (x : double) : double := Babs x.

(** C comparisons: all false when an operand is NaN. *)
Definition dlt (x y : double) : bool := Bltb x y.
Definition dle (x y : double) : bool := Bleb x y.
Definition deq (x y : double) : bool := Beqb x y.
Definition dgt (x y : double) : bool := Bltb y x.
Definition dge (x y : double) : bool := Bleb y x.

Definition dnan (x : double) : bool := is_nan x.
Definition dinf (x : double) : bool :=
  match x with B754_infinity _ => true | _ => false end.
Definition dfinite (x : double) : bool := is_finite x.

(** Integer literals and conversions [(double)n]: exact when |n| <= 2^53. *)
Definition dofZ (z : Z) : double :=
  binary_normalize dprec demax dprec_gt_0 dprec_lt_emax mode_NE z 0 false.
(** The double nearest m * 2^e. *)
Definition ddyadic (m e : Z) : double :=
  binary_normalize dprec demax dprec_gt_0 dprec_lt_emax mode_NE m e false.
(** Decimal literal p/q with |p|, |q| <= 2^53: correctly rounded quotient,
    which is what a C compiler produces for the literal. *)
Definition dfrac (p q : Z) : double := ddiv (dofZ p) (dofZ q).

Definition dzero : double := B754_zero false.
Definition done : double := dofZ 1.
Definition dtwo : double := dofZ 2.
Definition dhalf : double := ddyadic 1 (-1).
Definition dNaN : double := B754_nan.
Definition dInf : double := B754_infinity false.

(** [(size_t)x]: truncation toward zero; undefined for NaN, infinities and
    values whose truncation is not in [0, 2^64). C11 6.3.1.4. *)
Definition dcast (x : double) : res Z :=
  if dfinite x then
    let z := Btrunc x in
    if (0 <=? z)%Z && (z <? two64)%Z then Ok z else UB BadCast
  else UB BadCast.
