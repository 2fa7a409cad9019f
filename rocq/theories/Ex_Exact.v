(** * Ex_Exact: a concrete object for C61; it models no code of /repo. *)
From Coq Require Import List ZArith Bool Reals Lia Lra.
From Verif Require Import Base BaseFacts Scalar Model_TauRec Model_Checks Model_Transform Model_Interp Model_Recon
  Spec_Tau Spec_Select Spec_Safety Spec_Real Spec_Fft Spec_Exact Ref_Tmpl Ex_Real Proof_Real Ex_Fft.
Import ListNotations.
Open Scope Z_scope.

(** Seventeen samples at radii 100, ..., 116, all with the value [z]; five of them, from
    the seventh on, are selected; windows of two kilometres, wave number 1/100. *)
Definition ex_exact_rho : list R := map (fun i => IZR (100 + i)) (iota 17 0).
Definition ex_exact (p : psitype) (z : RC) : rtau :=
  mkTau (S := real_scalar) (fun f => match f with
     | RHO => Some ex_exact_rho
     | KV => Some (repeat (1 / 100)%R 17)
     | WKM => Some (repeat 2%R 17)
     | FKM => Some (repeat 1%R 17)
     | _ => Some (repeat 0%R 17) end)
   (Some (repeat (Some z) 17)) (Some (repeat None 17)) None
   1%R 2%R 1%R 0%R 0%R 2%R (repeat 0%R 5) 102%R 104%R 1%R 6 6 5 17 Rect p 0 true false false None.
Lemma ref_maximum : maximum_law ref_rlib.
Proof.
  intros l Hl. destruct l as [|h r]; [congruence|]. cbn [t_max ref_rlib ref_lib]. unfold list_max.
  clear Hl. revert h. induction r as [|a r IH]; intro h; cbn [fold_left].
  - split; [left; reflexivity|]. intros x [->|[]]. apply Rle_refl.
  - cbn [slt real_scalar] in *. destruct (Rlt_dec h a) as [Hlt|Hge].
    + destruct (IH a) as [I1 I2]. split.
      * destruct I1 as [<-|I1]; [right; left; reflexivity|right; right; exact I1].
      * intros x [<-|Hx]; [|apply I2; exact Hx]. apply Rle_trans with a; [lra|apply I2; left; reflexivity].
    + destruct (IH h) as [I1 I2]. split.
      * destruct I1 as [<-|I1]; [left; reflexivity|right; right; exact I1].
      * intros x [<-|[<-|Hx]]; [apply I2; left; reflexivity| |apply I2; right; exact Hx].
        apply Rle_trans with h; [lra|apply I2; left; reflexivity].
Qed.
Lemma rep_nth {A} (x y : A) n k : nth_error (repeat x n) k = Some y -> y = x /\ (k < n)%nat.
Proof.
  revert k. induction n as [|n IH]; intros [|k] E; cbn in E; try discriminate.
  - injection E as <-. split; [reflexivity|lia].
  - destruct (IH k E). split; [assumption|lia].
Qed.
Lemma rep_nth' {A} (x : A) n k : (k < n)%nat -> nth_error (repeat x n) k = Some x.
Proof. revert k. induction n as [|n IH]; intros [|k] H; cbn; try lia; [reflexivity|]. apply IH. lia. Qed.
Lemma ex_exact_width p z i (x : R) : width (ex_exact p z) i (x : real_scalar) -> x = 2%R.
Proof.
  intros (w & E & _ & H). cbn [arr ex_exact] in E. injection E as <-. apply (rep_nth (2%R : R) x 17 (Z.to_nat i)) in H. tauto.
Qed.
Lemma ex_exact_width' p z i : 0 <= i < 17 -> width (ex_exact p z) i (2%R : real_scalar).
Proof. intros Hi. exists (repeat 2%R 17). split; [reflexivity|]. split; [lia|]. apply rep_nth'. lia. Qed.
Lemma ex_exact_range p z : check_data_range (ex_exact p z) = Ok (ex_exact p z).
Proof.
  unfold check_data_range, guarded. cbn [err ex_exact arr dx arr_size n_used start].
  cbn [sle s0 sofZ real_scalar]. destruct (Rle_dec 1 0); [lra|].
  replace (Z.to_nat 5) with 5%nat by reflexivity.
  assert (C : @scast real_scalar (@smul real_scalar 2%R (@sdiv real_scalar shalf 1%R)) = Ok 1).
  { rewrite <- (cast_Z 1) by (unfold two64; lia). f_equal. unfold shalf. cbn [smul sdiv sfrac real_scalar]. req. lra. }
  cbn [data_range_loop].
  repeat (match goal with |- context [aread (repeat 2%R 17) ?i] =>
            change (aread (repeat 2%R 17) i) with (@Ok R 2%R) end; cbn [bind]; rewrite C; cbn [bind Z.ltb Z.compare Z.add Pos.compare Pos.compare_cont]).
  reflexivity.
Qed.
Lemma ex_exact_complete p z : complete (ex_exact p z).
Proof.
  split; [|split; [|split; [|split]]].
  - intros f Hf. destruct f; cbn in Hf; eexists; (split; [reflexivity|reflexivity]).
  - eexists. split; [reflexivity|]. split; [reflexivity|]. intros x Hx. apply repeat_spec in Hx. subst. discriminate.
  - eexists. split; reflexivity.
  - reflexivity.
  - reflexivity.
Qed.
Lemma ex_exact_margins p z lo hi : 1 <= lo -> hi <= 16 -> margins (ex_exact p z) lo hi.
Proof.
  intros Hl Hh. split.
  - intros i Hi. exists 2%R. split; [apply ex_exact_width'; lia|]. cbn [dx ex_exact].
    assert (IZR 1 <= IZR i)%R by (apply IZR_le; lia). lra.
  - intros j i x y Hj Hi Wx Wy _. apply ex_exact_width in Wx. subst x. cbn [dx arr_size ex_exact].
    assert (IZR 1 <= IZR (17 - 1 - i))%R by (apply IZR_le; lia). lra.
Qed.
Lemma ex_exact_ready p z : ready_exact ref_rlib (ex_exact p z) ex_exact_rho.
Proof.
  constructor.
  - reflexivity.
  - apply ex_exact_complete.
  - cbn; lia.
  - cbn; lia.
  - split; [reflexivity|apply ex_exact_range].
  - cbn [dx ex_exact]. lra.
  - reflexivity.
  - exists ex_exact_rho, 100%R. split; [reflexivity|]. intros i x [Hi E].
    change (nth_error ex_exact_rho (Z.to_nat i) = Some x) in E.
    assert (B : (Z.to_nat i < 17)%nat) by (apply nth_error_Some' in E; exact E).
    unfold ex_exact_rho in E. rewrite nth_error_map, iota_nth in E by lia. cbn [option_map] in E. injection E as <-.
    change (IZR (100 + i) = (100 + IZR i * 1)%R). rewrite plus_IZR. ring.
  - apply ex_exact_margins; cbn; lia.
Qed.
Lemma ex_exact_free p z : free_space (ex_exact p z) z.
Proof. eexists. split; [reflexivity|]. cbn [arr_size ex_exact]. intros i Hi. split; [lia|]. apply rep_nth'. lia. Qed.
Lemma ex_exact_fresnel_needs z : mode_needs ref_rlib (ex_exact PsiFresnel z).
Proof.
  split; [cbn; lia|]. split; [apply ex_exact_margins; cbn; lia|].
  exists 6, 2%R, 2%R. split; [cbv [selected]; cbn; lia|]. split; [apply ex_exact_width'; lia|]. split; [apply ex_exact_width'; cbn; lia|]. lra.
Qed.
Lemma ex_exact_count p z (wj : R) m : wj = 2%R -> @scast real_scalar (wj / (2 * dx (ex_exact p z)))%R = Ok m -> m = 1.
Proof.
  intros -> E. cbn [dx ex_exact] in E. replace (2 / (2 * 1))%R with (IZR 1) in E by lra. rewrite cast_Z in E by (unfold two64; lia). injection E as <-. reflexivity.
Qed.
Lemma ex_exact_fresnel_kernel z : kernel_sums_nonzero ref_rlib (ex_exact PsiFresnel z) ex_exact_rho.
Proof.
  intros i j m wj Hj Hi Hw _ Em. pose proof (ex_exact_width _ _ _ _ Hw) as ->. apply ex_exact_count in Em; [|reflexivity]. subst m.
  cbn [start n_used ex_exact] in Hj, Hi.
  exists 1%R. split. { exists (repeat 1%R 17). split; [reflexivity|]. split; [lia|]. apply rep_nth'. lia. }
  split; [lra|]. cbv zeta. unfold sum_weights. change (Z.to_nat 1) with 1%nat. cbn [csum]. unfold fresnel_weight, cis.
  match goal with |- context [cos ?a] => replace a with (- (PI / 2))%R end.
  2:{ cbn [use_fwd ex_exact]. unfold fresnel_x, offset_x. cbn [dx ex_exact smul ssub sofZ spihalf real_scalar]. change (Z.of_nat 0) with 0. lra. }
  rewrite cos_neg, sin_neg, cos_PI2, sin_PI2. unfold half_weight. cbn [t_window ref_rlib ref_lib].
  intro E. apply (f_equal fst) in E. unfold cadd, cre, cim, s1 in E. cbn [fst snd sadd smul sofZ real_scalar] in E.
  lra.
Qed.
Lemma ex_exact_riemann_kernel z : kernel_sums_nonzero ref_rlib (ex_exact PsiNewtonRiemann z) ex_exact_rho.
Proof.
  intros i j m wj Hj Hi Hw _ Em. pose proof (ex_exact_width _ _ _ _ Hw) as ->. apply ex_exact_count in Em; [|reflexivity]. subst m.
  cbn [start n_used ex_exact] in Hj, Hi.
  exists (fun k => (cos ((1 - IZR k) / 100), sin ((1 - IZR k) / 100)))%R. split.
  - intros k Hk.
    assert (Ker : exists y, fresnel_kernel ref_rlib (ex_exact PsiNewtonRiemann z) i (i - 1 + k) = Ok y /\
              y = (cos ((1 - IZR k) / 100), sin ((1 - IZR k) / 100))%R).
    { assert (i = 6 \/ i = 7 \/ i = 8 \/ i = 9 \/ i = 10) as [->|[->|[->|[->| ->]]]] by lia;
      assert (k = 0 \/ k = 1) as [->| ->] by lia; (eexists; split; [reflexivity|]); cbn -[IZR Rminus]; unfold cconj, cre, cim; cbn [fst snd sneg real_scalar].
      all: match goal with |- (cos ?a, (- sin ?a)%R) = (cos ?b, _) => replace a with (- b)%R by lra; rewrite cos_neg, sin_neg, Ropp_involutive; reflexivity end. }
    destruct Ker as (y & E & ->). exact E.
  - unfold sum_all. change (Z.to_nat (2 * 1)) with 2%nat. cbn [csum]. unfold full_weight. cbn [t_window ref_rlib ref_lib].
    change (Z.of_nat 0) with 0. change (Z.of_nat 1) with 1.
    replace ((1 - 1) / 100)%R with 0%R by lra. rewrite cos_0, sin_0.
    intro E. apply (f_equal fst) in E. unfold cadd, cscale, cre, cim, s1 in E. cbn [fst snd sadd smul sofZ real_scalar] in E.
    assert (0 < cos ((1 - 0) / 100))%R. { apply cos_gt_0; pose proof PI2_1; lra. }
    change (@fst R R CZ) with 0%R in E. lra.
Qed.
