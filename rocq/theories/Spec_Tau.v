(** * Spec_Tau: what the properties about tau objects say, independently of how
    the model computes.  Definitions only.

    [B2R x] is the real number a double stands for; [dfinite], [dnan] are the
    IEEE classifications. *)
From Coq Require Import List ZArith Bool Reals String.
From Flocq Require Import Core IEEE754.BinarySingleNaN.
From Verif Require Import Base Dbl Scalar Model_TauRec.
Import ListNotations.

Notation dtau := (tau dbl_scalar).
Notation dlib := (tmpl dbl_scalar).
(** The real number denoted by a (finite) double. *)
Definition val (x : double) : R := B2R x.
(** Finite, infinite or not a number. *)
Definition finite (x : double) : Prop := dfinite x = true.
Definition notnan (x : double) : Prop := dnan x = false.
(** Strictly positive: a positive finite number or plus infinity. *)
Definition positive_number (x : double) : Prop :=
  (finite x /\ (0 < val x)%R) \/ x = B754_infinity false.

(** Two objects that agree in everything but the error flag and message. *)
Definition same_data {S} (t t' : tau S) : Prop :=
  arr t' = arr t /\ T_in t' = T_in t /\ T_out t' = T_out t /\ T_fwd t' = T_fwd t /\
  dx t' = dx t /\ normeq t' = normeq t /\ sigma t' = sigma t /\ ecc t' = ecc t /\
  peri t' = peri t /\ reso t' = reso t /\ perturb t' = perturb t /\
  range0 t' = range0 t /\ range1 t' = range1 t /\ eps t' = eps t /\
  toler t' = toler t /\ start t' = start t /\ n_used t' = n_used t /\
  arr_size t' = arr_size t /\ window t' = window t /\ psinum t' = psinum t /\
  order t' = order t /\ use_norm t' = use_norm t /\ use_fwd t' = use_fwd t /\
  bfac t' = bfac t.
(** No error recorded. *)
Definition clean {S} (t : tau S) : Prop := err t = None.
Definition failed {S} (t : tau S) : Prop := exists m, err t = Some m.

(** C01: the keywords are usable. *)
Definition keywords_ok (t : dtau) : Prop :=
  (finite (sigma t) /\ 0 < val (sigma t))%R /\
  (finite (reso t) /\ 0 < val (reso t))%R /\
  (finite (ecc t) /\ 0 <= val (ecc t))%R /\
  (finite (peri t) /\ - (2 * PI) <= val (peri t) <= 2 * PI)%R /\
  (finite (range0 t) /\ finite (range1 t) /\
   0 <= val (range0 t) <= val (range1 t))%R.

(** The object holds the array [l] of [arr_size] numbers (no NaN) in field [f]. *)
Definition has_array (t : dtau) (f : rf) (l : list double) : Prop :=
  arr t f = Some l /\ zlen l = arr_size t /\ (forall x, In x l -> notnan x).
(** C02: the geometry is usable.  [bound] is fl(1.99 * |dx|), the bound as the
    user's own double arithmetic evaluates it. *)
Definition angle_ok (x : double) : Prop := finite x /\ (-360 <= val x <= 360)%R.
Definition geometry_ok (phi b d r : list double) (t : dtau) : Prop :=
  (forall x, In x phi -> angle_ok x) /\
  (forall x, In x b -> angle_ok x) /\
  (forall x, In x d -> positive_number x) /\
  (forall x, In x r -> positive_number x) /\
  finite (dx t) /\ val (dx t) <> 0%R /\
  dle (dmul (dfrac 199 100) (dabs (dx t))) (reso t) = true.

(** ** Laws of libtmpl used as hypotheses *)
(** tmpl_Double_Array_MinMax / _Min / _Max on a non-empty array without NaN:
    the results are entries, and bound all entries. *)
Definition minmax_law (L : dlib) : Prop :=
  forall l : list double, l <> [] -> (forall x, In x l -> notnan x) ->
    In (fst (t_minmax L l)) l /\ In (snd (t_minmax L l)) l /\
    forall x, In x l -> dle (fst (t_minmax L l)) x = true /\
                        dle x (snd (t_minmax L l)) = true.
Definition min_law (L : dlib) : Prop :=
  forall l : list double, l <> [] -> (forall x, In x l -> notnan x) ->
    In (t_min L l) l /\ forall x, In x l -> dle (t_min L l) x = true.
Definition max_law (L : dlib) : Prop :=
  forall l : list double, l <> [] -> (forall x, In x l -> notnan x) ->
    In (t_max L l) l /\ forall x, In x l -> dle x (t_max L l) = true.
(** On an array of NaNs only: whatever is returned is NaN, or the neutral start
    value of the search (no entry ever compares smaller or larger). *)
Definition nan_law (L : dlib) : Prop :=
  forall l : list double, l <> [] -> (forall x, In x l -> dnan x = true) ->
    (dnan (fst (t_minmax L l)) = true \/ fst (t_minmax L l) = B754_infinity false) /\
    (dnan (snd (t_minmax L l)) = true \/ snd (t_minmax L l) = B754_infinity true) /\
    (dnan (t_min L l) = true \/ t_min L l = B754_infinity false) /\
    (dnan (t_max L l) = true \/ t_max L l = B754_infinity true).
