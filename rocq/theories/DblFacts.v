(** * DblFacts: what the double operations mean in the reals (Flocq). *)
From Coq Require Import ZArith Bool Lia Reals Lra.
From Flocq Require Import Core IEEE754.BinarySingleNaN.
From Verif Require Import Base BaseFacts Dbl.
Open Scope R_scope.


(** The real value of a double (0 for NaN and infinities). *)
Notation d2r := (@B2R dprec demax).

Lemma dfin_cases (x : double) :
  dfinite x = true \/ dnan x = true \/ (exists s, x = B754_infinity s).
Proof. destruct x; simpl; auto. right; right; eauto. Qed.
Lemma dfinite_not_nan x : dfinite x = true -> dnan x = false.
Proof. destruct x; simpl; auto; discriminate. Qed.
Lemma dfinite_not_inf x : dfinite x = true -> dinf x = false.
Proof. destruct x; simpl; auto; discriminate. Qed.
Lemma dfinite_iff x : dfinite x = true <-> dnan x = false /\ dinf x = false.
Proof. destruct x; simpl; intuition discriminate. Qed.

Lemma dlt_nan_l x y : dnan x = true -> dlt x y = false.
Proof. destruct x; simpl; try discriminate; auto. Qed.
Lemma dlt_nan_r x y : dnan y = true -> dlt x y = false.
Proof. destruct y; simpl; try discriminate; destruct x as [[]|[]| |[]]; auto. Qed.
Lemma dle_nan_l x y : dnan x = true -> dle x y = false.
Proof. destruct x; simpl; try discriminate; auto. Qed.
Lemma dle_nan_r x y : dnan y = true -> dle x y = false.
Proof. destruct y; simpl; try discriminate; destruct x as [[]|[]| |[]]; auto. Qed.

Lemma dlt_fin x y :
  dfinite x = true -> dfinite y = true -> dlt x y = Rlt_bool (d2r x) (d2r y).
Proof. apply Bltb_correct. Qed.
Lemma dle_fin x y :
  dfinite x = true -> dfinite y = true -> dle x y = Rle_bool (d2r x) (d2r y).
Proof. apply Bleb_correct. Qed.
Lemma deq_fin x y :
  dfinite x = true -> dfinite y = true -> deq x y = Req_bool (d2r x) (d2r y).
Proof. apply Beqb_correct. Qed.
Lemma dlt_iff x y :
  dfinite x = true -> dfinite y = true -> dlt x y = true <-> d2r x < d2r y.
Proof. intros; rewrite dlt_fin by auto. case Rlt_bool_spec; intros; split; auto; try discriminate; lra. Qed.
Lemma dle_iff x y :
  dfinite x = true -> dfinite y = true -> dle x y = true <-> d2r x <= d2r y.
Proof. intros; rewrite dle_fin by auto. case Rle_bool_spec; intros; split; auto; try discriminate; lra. Qed.
Lemma deq_iff x y :
  dfinite x = true -> dfinite y = true -> deq x y = true <-> d2r x = d2r y.
Proof. intros; rewrite deq_fin by auto. case Req_bool_spec; intros; split; auto; try discriminate; congruence. Qed.
Lemma dlt_false x y :
  dfinite x = true -> dfinite y = true -> dlt x y = false <-> d2r y <= d2r x.
Proof. intros; rewrite dlt_fin by auto. case Rlt_bool_spec; intros; split; auto; try discriminate; lra. Qed.
Lemma dle_false x y :
  dfinite x = true -> dfinite y = true -> dle x y = false <-> d2r y < d2r x.
Proof. intros; rewrite dle_fin by auto. case Rle_bool_spec; intros; split; auto; try discriminate; lra. Qed.
Lemma deq_false x y :
  dfinite x = true -> dfinite y = true -> deq x y = false <-> d2r x <> d2r y.
Proof. intros; rewrite deq_fin by auto. case Req_bool_spec; intros; split; auto; try discriminate; congruence. Qed.

(** A double between two finite ones is finite. *)
Lemma dlt_pinf x : dlt (B754_infinity false) x = false.
Proof. destruct x as [[]|[]| |[]]; reflexivity. Qed.
Lemma dle_inf_fin x : dfinite x = true -> dle (B754_infinity false) x = false.
Proof. destruct x as [[]|[]| |[]]; try reflexivity; discriminate. Qed.
Lemma dle_fin_inf x : dfinite x = true -> dle x (B754_infinity false) = true.
Proof. destruct x as [[]|[]| |[]]; try reflexivity; discriminate. Qed.
Lemma dlt_fin_inf x : dfinite x = true -> dlt x (B754_infinity false) = true.
Proof. destruct x as [[]|[]| |[]]; try reflexivity; discriminate. Qed.
Lemma dlt_ninf_fin x : dfinite x = true -> dlt (B754_infinity true) x = true.
Proof. destruct x as [[]|[]| |[]]; try reflexivity; discriminate. Qed.
Lemma dlt_fin_ninf x : dlt x (B754_infinity true) = false.
Proof. destruct x as [[]|[]| |[]]; try reflexivity; discriminate. Qed.
Lemma dle_ninf x : dnan x = false -> dle (B754_infinity true) x = true.
Proof. destruct x as [[]|[]| |[]]; try reflexivity; discriminate. Qed.
Lemma dle_pinf_iff x : dle (B754_infinity false) x = true -> x = B754_infinity false.
Proof. destruct x as [[]|[]| |[]]; cbn; congruence. Qed.
Lemma dle_ninf_r x : dle x (B754_infinity true) = true -> x = B754_infinity true.
Proof. destruct x as [[]|[]| |[]]; cbn; congruence. Qed.

(** Order facts on all doubles. *)
Lemma dlt_dle x y : dlt x y = true -> dle x y = true.
Proof.
  unfold dlt, dle, Bltb, Bleb, SpecFloat.SFltb, SpecFloat.SFleb.
  destruct (SpecFloat.SFcompare _ _) as [[]|]; auto.
Qed.
Lemma dlt_not_dle x y : dlt x y = true -> dle y x = false.
Proof.
  unfold dlt, dle, Bltb, Bleb, SpecFloat.SFltb, SpecFloat.SFleb.
  fold (Bcompare x y) (Bcompare y x). rewrite (Bcompare_swap _ _ x y).
  destruct (Bcompare x y) as [[]|]; simpl; auto; discriminate.
Qed.
Lemma dle_total x y : dnan x = false -> dnan y = false -> dle x y = false -> dlt y x = true.
Proof.
  unfold dlt, dle, Bltb, Bleb, SpecFloat.SFltb, SpecFloat.SFleb.
  fold (Bcompare x y) (Bcompare y x). rewrite (Bcompare_swap _ _ x y).
  destruct (Bcompare x y) as [[]|] eqn:E; simpl; auto; try discriminate.
  destruct x as [[]|[]| |[]], y as [[]|[]| |[]]; simpl in *; discriminate.
Qed.
Lemma dlt_false_dle x y : dnan x = false -> dnan y = false -> dlt x y = false -> dle y x = true.
Proof.
  intros Hx Hy H. destruct (dle y x) eqn:E; auto.
  apply dle_total in E; auto. congruence.
Qed.
Lemma dle_refl x : dnan x = false -> dle x x = true.
Proof.
  intros H. destruct (dle x x) eqn:E; auto.
  assert (E' := dle_total _ _ H H E). apply dlt_dle in E'. congruence.
Qed.
Lemma dle_notnan x y : dle x y = true -> dnan x = false /\ dnan y = false.
Proof.
  intros H; split.
  - destruct (dnan x) eqn:E; auto. rewrite dle_nan_l in H; auto.
  - destruct (dnan y) eqn:E; auto. rewrite dle_nan_r in H; auto.
Qed.
Lemma dlt_notnan x y : dlt x y = true -> dnan x = false /\ dnan y = false.
Proof. intros H; apply dle_notnan; apply dlt_dle; auto. Qed.

Lemma dle_trans x y z : dle x y = true -> dle y z = true -> dle x z = true.
Proof.
  intros H1 H2.
  destruct (dle_notnan _ _ H1) as [Nx Ny]. destruct (dle_notnan _ _ H2) as [_ Nz].
  destruct (dfin_cases x) as [Fx|[?|[sx ->]]]; [|congruence|].
  2:{ destruct sx; [apply dle_ninf; auto|]. apply dle_pinf_iff in H1; subst; auto. }
  destruct (dfin_cases z) as [Fz|[?|[sz ->]]]; [|congruence|].
  2:{ destruct sz; [|apply dle_fin_inf; auto]. apply dle_ninf_r in H2; subst; auto. }
  destruct (dfin_cases y) as [Fy|[?|[sy ->]]]; [|congruence|].
  - rewrite dle_iff in * by auto. lra.
  - destruct sy; [apply dle_ninf_r in H1; subst; discriminate|].
    rewrite dle_inf_fin in H2 by auto; discriminate.
Qed.
Lemma dlt_dle_trans x y z : dlt x y = true -> dle y z = true -> dlt x z = true.
Proof.
  intros H1 H2. assert (H3 := dle_trans _ _ _ (dlt_dle _ _ H1) H2).
  destruct (dle_notnan _ _ H3).
  destruct (dlt x z) eqn:E; auto. apply dlt_false_dle in E; auto.
  assert (H4 := dle_trans _ _ _ H2 E). apply dlt_not_dle in H1. congruence.
Qed.
Lemma dle_dlt_trans x y z : dle x y = true -> dlt y z = true -> dlt x z = true.
Proof.
  intros H1 H2. assert (H3 := dle_trans _ _ _ H1 (dlt_dle _ _ H2)).
  destruct (dle_notnan _ _ H3).
  destruct (dlt x z) eqn:E; auto. apply dlt_false_dle in E; auto.
  assert (H4 := dle_trans _ _ _ E H1). apply dlt_not_dle in H2. congruence.
Qed.
Lemma dlt_trans x y z : dlt x y = true -> dlt y z = true -> dlt x z = true.
Proof. intros H1 H2; apply (dlt_dle_trans x y z); auto; apply dlt_dle; auto. Qed.
Lemma dlt_irrefl x : dlt x x = false.
Proof.
  destruct (dlt x x) eqn:E; auto. assert (H := dlt_not_dle _ _ E).
  apply dlt_dle in E; congruence.
Qed.

(** ** Literals *)
Lemma dofZ_exact z :
  (Z.abs z <= 9007199254740992)%Z -> dfinite (dofZ z) = true /\ d2r (dofZ z) = IZR z.
Proof.
  intros H. unfold dofZ.
  assert (Hf : generic_format radix2 (SpecFloat.fexp dprec demax) (F2R (Float radix2 z 0))).
  { assert (z = 9007199254740992 \/ z = -9007199254740992 \/ Z.abs z < 9007199254740992)%Z
      as [->|[->|E]] by lia.
    - apply generic_format_FLT. exists (Float radix2 1 53); unfold F2R; simpl; try lra; unfold SpecFloat.emin, dprec, demax; lia.
    - apply generic_format_FLT. exists (Float radix2 (-1) 53); unfold F2R; simpl; try lra; unfold SpecFloat.emin, dprec, demax; lia.
    - apply generic_format_FLT. exists (Float radix2 z 0); simpl; auto; unfold SpecFloat.emin, dprec, demax; lia. }
  assert (HB := binary_normalize_correct dprec demax dprec_gt_0 dprec_lt_emax mode_NE z 0 false).
  cbv zeta in HB. rewrite round_generic in HB; auto; [|apply valid_rnd_N].
  assert (HF : F2R (Float radix2 z 0) = IZR z) by (unfold F2R; simpl; lra).
  rewrite HF in *.
  rewrite Rlt_bool_true in HB.
  - destruct HB as [H1 [H2 _]]. split; auto.
  - rewrite <- abs_IZR.
    apply Rle_lt_trans with (IZR 9007199254740992); [apply IZR_le; lia|].
    change 9007199254740992%Z with (Zpower radix2 53).
    rewrite IZR_Zpower by lia. apply bpow_lt. unfold demax; lia.
Qed.

(** Value of a concrete double, by computation of its fields. *)
Definition sfval (f : SpecFloat.spec_float) : R :=
  match f with
  | SpecFloat.S754_finite s m e => F2R (Float radix2 (cond_Zopp s (Zpos m)) e)
  | _ => 0
  end.
Lemma d2r_sf (x : double) : d2r x = sfval (B2SF x).
Proof. destruct x; reflexivity. Qed.

#[global] Arguments dofZ : simpl never.
#[global] Arguments ddyadic : simpl never.
#[global] Arguments dfrac : simpl never.
#[global] Arguments dadd : simpl never.
#[global] Arguments dsub : simpl never.
#[global] Arguments dmul : simpl never.
#[global] Arguments ddiv : simpl never.
#[global] Arguments dneg : simpl never.
#[global] Arguments dabs : simpl never.
#[global] Arguments dlt : simpl never.
#[global] Arguments dle : simpl never.
#[global] Arguments deq : simpl never.
#[global] Arguments dcast : simpl never.
