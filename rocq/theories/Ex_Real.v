(** * Ex_Real: concrete objects in exact real arithmetic, used by the examples of
    Properties_Real.v.  They model no code of /repo. *)
From Coq Require Import List ZArith Bool Reals String Lia Lra.
From Verif Require Import Base BaseFacts Scalar Model_TauRec Model_Transform
  Model_Interp Ref_Tmpl Spec_Select Spec_Safety Spec_Real Proof_Linear Proof_Real Proof_Real4.
Import ListNotations.
Open Scope Z_scope.

Fixpoint iota (n : nat) (k : Z) : list Z :=
  match n with O => [] | Datatypes.S m => k :: iota m (k + 1) end.
(** Seventeen samples at radii 100, ..., 116, Fresnel scale 2, wave number 1/100,
    distance 1000; profile [T]. *)
Definition ex_real (T : Z -> RC) : rtau :=
  mkTau (S := real_scalar) (fun f => match f with
     | RHO => Some (map (fun i => IZR (100 + i)) (iota 17 0))
     | FKM => Some (repeat 2%R 17)
     | KV => Some (repeat (1 / 100)%R 17)
     | RHODOT => Some (repeat 1%R 17)
     | DKM => Some (repeat 1000%R 17)
     | WKM => None
     | _ => Some (repeat 0%R 17) end)
   (Some (map (fun i => Some (T i)) (iota 17 0))) None None
   1%R 2%R 1%R 0%R 0%R 2%R (repeat 0%R 5) 102%R 104%R 1%R 6 0 0 17 Rect PsiFresnel 0 true false false None.
(** A buffer of [n] cells holding [v]. *)
Definition buf (n : nat) (v : R) : @buffer real_scalar := repeat (Some (v : real_scalar)) n.
Lemma buf_holds n v : holds (buf n v) (Z.of_nat n) (fun _ => v).
Proof. intros i Hi. unfold buf. rewrite <- (Nat2Z.id n). apply aread_repeat. lia. Qed.
Lemma iota_nth n k i : 0 <= i < Z.of_nat n -> nth_error (iota n k) (Z.to_nat i) = Some (k + i).
Proof.
  revert k i. induction n as [|n IH]; intros k i Hi; [lia|]. cbn [iota].
  destruct (Z.eq_dec i 0) as [->|]; [cbn; f_equal; lia|].
  replace (Z.to_nat i) with (Datatypes.S (Z.to_nat (i - 1))) by lia. cbn [nth_error]. rewrite IH by lia. f_equal. lia.
Qed.
Lemma ex_recorded T lo hi : 0 <= lo -> hi < 17 -> recorded (ex_real T) T lo hi.
Proof.
  intros Hl Hh. eexists. split; [reflexivity|]. intros i Hi. split; [lia|].
  rewrite nth_error_map, iota_nth by lia. reflexivity.
Qed.
Lemma ex_sample T f i (v : R) : arr (ex_real T) f = Some (repeat v 17) -> 0 <= i < 17 -> at_sample (ex_real T) f i v.
Proof.
  intros E Hi. eexists. split; [exact E|]. split; [lia|]. apply nth_error_repeat. change 17%nat with (Z.to_nat 17). lia.
Qed.
Lemma ref_trig : trig_law ref_rlib.
Proof. intros x. split; reflexivity. Qed.
Lemma ref_cabs : cabs_law ref_rlib.
Proof. intros [x y]. reflexivity. Qed.
Ltac ring2 := unfold superposition, cscale, cmul, cadd, cre, cim, shalf; cbn [fst snd smul sadd ssub sfrac real_scalar]; apply f_equal2; req; try ring.
Lemma ref_filon_linear : filon_linear ref_rlib.
Proof.
  split; [|split; [|split]]; intros [a1 a2] [b1 b2] [x1 x2] [y1 y2]; intros; repeat match goal with z : RC |- _ => destruct z end;
    cbn [t_filon01 t_filon11 t_filon02 t_filon12 ref_rlib ref_lib]; ring2.
Qed.
Lemma ref_fourier_linear : fourier_linear ref_rlib.
Proof. split; [|split; [|split]]; intros; reflexivity. Qed.
Lemma ref_filon_real : filon_real ref_rlib.
Proof.
  split; intros; repeat match goal with z : RC |- _ => destruct z end;
    cbn [t_filon01 t_filon11 t_rfilon01 t_rfilon11 ref_rlib ref_lib]; ring2.
Qed.
(** Sums whose terms have positive real part do not vanish. *)
Lemma csum_re n (f : Z -> RC) : (forall k, 0 <= k < Z.of_nat n -> (0 < fst (f k))%R) -> (0 <= fst (csum n f))%R /\ (n <> O -> (0 < fst (csum n f))%R).
Proof.
  induction n as [|n IH]; intros H; cbn [csum]; [split; [cbn; lra|contradiction]|].
  destruct IH as [I _]; [intros k Hk; apply H; lia|]. specialize (H (Z.of_nat n) ltac:(lia)).
  unfold cadd, cre, cim. cbn [fst snd sadd real_scalar]. split; intros; lra.
Qed.
Lemma csum_nonzero n (f : Z -> RC) : n <> O -> (forall k, 0 <= k < Z.of_nat n -> (0 < fst (f k))%R) -> csum n f <> CZ.
Proof. intros Hn H E. destruct (csum_re n f H) as [_ P]. specialize (P Hn). rewrite E in P. cbn in P. lra. Qed.
Lemma one_plus_nonzero n (f : Z -> RC) : (forall k, 0 <= k < Z.of_nat n -> (0 < fst (f k))%R) -> radd CI (csum n f) <> CZ.
Proof.
  intros H E. destruct (csum_re n f H) as [P _]. assert (Q : fst (radd CI (csum n f)) = 0%R) by (rewrite E; reflexivity).
  unfold cadd, cre, cim in Q. cbn [fst snd sadd real_scalar] in Q. lra.
Qed.
Lemma cis_re r th : (0 < r -> -1 <= th <= 1 -> 0 < fst (cis r th))%R.
Proof.
  intros Hr Ht. unfold cis. cbn [fst]. apply Rmult_lt_0_compat; [exact Hr|]. pose proof PI2_1. apply cos_gt_0; lra.
Qed.
