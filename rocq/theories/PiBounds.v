(** * PiBounds: 2 pi lies between the double used for it and the next double. *)
From Coq Require Import ZArith Lia Reals Lra Machin Ratan Rtrigo_def.
From Flocq Require Import Core IEEE754.BinarySingleNaN.
From Verif Require Import Base BaseFacts Dbl DblFacts.
Open Scope R_scope.

Lemma two_pi_bounds :
  IZR 7074237752028440 / IZR 1125899906842624 <= 2 * PI < IZR 7074237752028441 / IZR 1125899906842624.
Proof.
  destruct (PI_2_3_7_ineq 9) as [HL HU].
  change (S (2 * 9))%nat with 19%nat in HL. change (2 * 9)%nat with 18%nat in HU.
  cbn [sum_f_R0] in HL, HU. unfold tg_alt, PI_2_3_7_tg, Ratan_seq in HL, HU.
  cbn [Nat.add Nat.mul] in HL, HU.
  rewrite !INR_IZR_INZ in HL. rewrite !INR_IZR_INZ in HU.
  cbn [Z.of_nat Pos.of_succ_nat Pos.succ pow] in HL, HU.
  split; lra.
Qed.

(** The constant tmpl_double_two_pi. *)
Definition tp : double := ddyadic 7074237752028440 (-50).
Lemma tp_val : dfinite tp = true /\ d2r tp = IZR 7074237752028440 / IZR 1125899906842624.
Proof.
  split; [vm_compute; reflexivity|].
  transitivity (F2R (Float radix2 7074237752028440 (-50))).
  - rewrite d2r_sf. replace (B2SF tp) with (SpecFloat.S754_finite false 7074237752028440 (-50)); auto.
  - unfold F2R; simpl. lra.
Qed.

(** Comparing a finite double with the constant is comparing it with 2 pi. *)
Lemma le_two_pi (x : double) :
  dfinite x = true -> (d2r x <= d2r tp <-> d2r x <= 2 * PI).
Proof.
  intros Fx. destruct tp_val as [_ Ht]. destruct two_pi_bounds as [HL HU].
  split; intros H; [lra|].
  destruct (Rle_or_lt (d2r x) (d2r tp)) as [|C]; auto. exfalso.
  assert (G := succ_le_lt radix2 (FLT_exp (SpecFloat.emin dprec demax) dprec) _ _
                 (generic_format_B2R dprec demax tp) (generic_format_B2R dprec demax x) C).
  assert (Hu : ulp radix2 (FLT_exp (SpecFloat.emin dprec demax) dprec) (d2r tp) = bpow radix2 (-50)).
  { rewrite ulp_neq_0 by lra. f_equal. unfold cexp.
    rewrite (mag_unique_pos radix2 _ 3); [reflexivity|]. rewrite Ht. simpl. lra. }
  rewrite succ_eq_pos in G by lra. rewrite Hu in G. change (bpow radix2 (-50)) with (/ IZR 1125899906842624) in G. lra.
Qed.
Lemma ge_neg_two_pi (x : double) :
  dfinite x = true -> (- d2r tp <= d2r x <-> - (2 * PI) <= d2r x).
Proof.
  intros Fx.
  assert (Fo : dfinite (dneg x) = true) by (unfold dfinite, dneg in *; rewrite is_finite_Bopp; auto).
  assert (H := le_two_pi (dneg x) Fo). unfold dneg in H. rewrite B2R_Bopp in H. lra.
Qed.
