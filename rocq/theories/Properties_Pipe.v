(** * Properties_Pipe: a well-posed reconstruction succeeds and returns the chosen
    method's values (C54). *)
From Coq Require Import List ZArith Bool Reals String Lia Lra.
From Flocq Require Import Core IEEE754.BinarySingleNaN.
From Verif Require Import Base BaseFacts Dbl DblFacts DblArith Scalar Model_TauRec Model_Checks
  Model_Select Model_Transform Model_Interp Model_Recon Spec_Tau Spec_Select Spec_Safety Spec_Recon Spec_Pipe
  Ref_Tmpl Ex_Tau Proof_Select Proof_Pipe2 Properties_Checks Properties_Safety.
Import ListNotations.
Open Scope Z_scope.

(** C54. For every library, thread schedule and well-posed object: the reconstruction
    ends without error; the samples kept are exactly those of the requested range
    except the last one; every field is the matching piece of the input (velocities
    made positive, window widths as documented), and every output value is the one
    the chosen method defines on the input data. *)
Theorem c54_reconstruction_succeeds :
  forall (L : dlib) (sch : schedule) (t : dtau) (rho Fk v : list double) (h W : R),
  minmax_law L -> max_law L -> (forall site, t_alloc L site = true) -> valid_schedule sch ->
  posed L t rho Fk v h W -> method_fits L t rho Fk v h ->
  exists t' tw, reconstruction L sch t = Ok t' /\ clean t' /\ aligned t' /\ 0 < n_used t' /\
    prepared_from L t tw Fk v (start t') (n_used t') /\
    (forall i, selected t' i <-> wanted t rho i /\ exists j, i < j /\ wanted t rho j) /\
    (forall f l, In f aligned_fields -> arr tw f = Some l ->
       exists l', arr t' f = Some l' /\ piece l (start t') (n_used t') l') /\
    (forall T, T_in t = Some T -> exists T', T_in t' = Some T' /\ piece T (start t') (n_used t') T') /\
    (exists T', T_out t' = Some T' /\ forall k, 0 <= k < n_used t' ->
       exists x, entry T' k (Some x) /\ method_value L tw rho (start t' + k) x).
Proof. exact reconstruction_posed. Qed.

(** Twenty samples 1 km apart at 1000..1019 km seen with decreasing velocity sign,
    range 1006..1012 km; windows 4 km wide without the Allan-deviation correction
    ([b = false]), about 2.5 km wide with it. *)
Definition ex_pose (b : bool) (p : psitype) (o : Z) : dtau :=
  set_bfac (set_sigma (set_f (set_order (set_psinum
    (ex_tau 20 (Some (radii 20)) (Some (repeat (dofZ 1) 20)) None (dofZ 1006) (dofZ 1012) (dfrac 1 2)) p) o)
    RHODOT (Some (repeat (dofZ (-1)) 20))) (dfrac 31645 10000000000)) b.
Lemma val_z (z : Z) (x : double) : Z.abs z <= 9007199254740992 -> is_finite x = true -> deq x (dofZ z) = true ->
  finite x /\ val x = IZR z.
Proof.
  intros H F E. split; [exact F|]. destruct (val_dofZ z H) as [F2 V2]. rewrite <- V2.
  apply (deq_iff x (dofZ z) F F2). exact E.
Qed.
Definition ex_w (b : bool) : double :=
  if b then bfac_width (t_resinv ref_dlib) (dofZ 1) (dofZ 1) (dabs (dofZ (-1))) (dfrac 31645 10000000000) (dofZ 1) (dfrac 1 2)
  else plain_width (dofZ 1) (dofZ 1) (dfrac 1 2).
Lemma ex_w_bounds b : finite (ex_w b) /\ (2 <= val (ex_w b) <= 4)%R.
Proof.
  assert (F : finite (ex_w b)) by (destruct b; vm_compute; reflexivity). split; [exact F|].
  destruct (val_dofZ 2 ltac:(lia)) as [F2 V2]. destruct (val_dofZ 4 ltac:(lia)) as [F4 V4].
  assert (A : dle (dofZ 2) (ex_w b) = true) by (destruct b; vm_compute; reflexivity).
  assert (B : dle (ex_w b) (dofZ 4) = true) by (destruct b; vm_compute; reflexivity).
  apply (dle_iff _ _ F2 F) in A. apply (dle_iff _ _ F F4) in B.
  unfold val in *. rewrite V2 in A. rewrite V4 in B. split; assumption.
Qed.
Lemma ex_reach : dlt (dofZ 1) (bfac_P (dofZ 1) (dofZ 1) (dabs (dofZ (-1))) (dfrac 31645 10000000000) (dfrac 1 2)) = true.
Proof. vm_compute. reflexivity. Qed.
Lemma ex_pose_wanted b p o i : wanted (ex_pose b p o) (radii 20) i <-> 6 <= i <= 12.
Proof.
  unfold wanted. change (range0 (ex_pose b p o)) with (dofZ 1006). change (range1 (ex_pose b p o)) with (dofZ 1012). split.
  - intros (a & Ha & Hv). apply radii_entry in Ha; [|lia]. destruct Ha as [Hi ->].
    rewrite !(fun z H => proj2 (val_dofZ z H)) in Hv by lia. destruct Hv as [H1 H2]. apply le_IZR in H1, H2. lia.
  - intros Hi. destruct (entry_ex (radii 20) i) as [a Ha]; [rewrite radii_length; lia|]. exists a. split; [exact Ha|].
    apply radii_entry in Ha; [|lia]. destruct Ha as [_ ->].
    rewrite !(fun z H => proj2 (val_dofZ z H)) by lia. split; apply IZR_le; lia.
Qed.
Lemma nth_repeat_entry (x : double) i : 0 <= i < 20 -> entry (repeat x 20) i x.
Proof. intros Hi. split; [lia|]. assert (Z.to_nat i < 20)%nat by lia. apply nth_error_repeat. exact H. Qed.
Lemma ex_pose_first b p o s : first_wanted (ex_pose b p o) (radii 20) s <-> s = 6.
Proof.
  unfold first_wanted. split.
  - intros [H1 H2]. apply ex_pose_wanted in H1. specialize (H2 6). rewrite ex_pose_wanted in H2. lia.
  - intros ->. split; [apply ex_pose_wanted; lia|]. intros i Hi. apply ex_pose_wanted in Hi. lia.
Qed.
Lemma ex_fields b p o : let t := ex_pose b p o in
  bfac t = b /\ normeq t = dofZ 1 /\ reso t = dfrac 1 2 /\ sigma t = dfrac 31645 10000000000 /\ arr t KV = Some (repeat (dofZ 1) 20).
Proof. repeat split. Qed.
Lemma ex_pose_width b p o i x : wanted (ex_pose b p o) (radii 20) i ->
  width_of ref_dlib (ex_pose b p o) (radii 20) (repeat (dofZ 1) 20) (repeat (dofZ (-1)) 20) i x <-> x = ex_w b.
Proof.
  intros Hi. apply ex_pose_wanted in Hi. assert (Fs := fun s => ex_pose_first b p o s). destruct (ex_fields b p o) as (E1 & E2 & E3 & E4 & E5).
  unfold width_of. generalize dependent (ex_pose b p o). intros t Fs E1 E2 E3 E4 E5. rewrite E1, E2, E3, E4. clear E1 E2 E3 E4.
  unfold ex_w. split.
  - intros (F & HF & H). apply repeat_entry in HF. subst F. destruct H as [(-> & ->)|(-> & s & kv & k & u & _ & HK & Hk & Hu & _ & ->)]; [reflexivity|].
    rewrite E5 in HK. assert (kv = repeat (dofZ 1) 20) by congruence. subst kv. apply repeat_entry in Hk, Hu. subst k u. reflexivity.
  - intros ->. exists (dofZ 1). split; [apply nth_repeat_entry; lia|]. destruct b; [right|left; split; reflexivity].
    split; [reflexivity|]. exists 6, (repeat (dofZ 1) 20), (dofZ 1), (dofZ (-1)).
    split; [apply Fs; reflexivity|]. split; [exact E5|]. split; [apply nth_repeat_entry; lia|].
    split; [apply nth_repeat_entry; lia|]. split; [exact ex_reach|reflexivity].
Qed.
Lemma ex_posed b p o : posed ref_dlib (ex_pose b p o) (radii 20) (repeat (dofZ 1) 20) (repeat (dofZ (-1)) 20) 1 4.
Proof.
  split.
  - reflexivity.
  - intros f Hf. simpl in Hf. unfold ex_pose.
    repeat (destruct Hf as [<-|Hf]; [eexists; split; [reflexivity|reflexivity]|]). contradiction.
  - eexists. split; [reflexivity|]. split; [reflexivity|].
    intros c Hc. apply repeat_spec in Hc. subst. discriminate.
  - reflexivity.
  - vm_compute; discriminate.
  - reflexivity.
  - destruct (c01_keywords_exact (ex_pose b p o) eq_refl) as (t' & H & _ & Hk). apply Hk.
    assert (E : okclean (check_keywords (ex_pose b p o)) = true) by (vm_compute; reflexivity).
    apply okclean_spec in E. destruct E as (u & E & Hu). rewrite E in H. injection H as <-. exact Hu.
  - reflexivity.
  - intros i a Ha. apply radii_entry in Ha; [|lia]. destruct Ha as [Hi ->].
    destruct (val_dofZ (1000 + i) ltac:(lia)) as [F V]. split; [exact F|]. rewrite V.
    split; [split; [apply IZR_lt; lia|apply IZR_le; lia]|].
    exists (dofZ 1000). split; [split; [lia|reflexivity]|].
    rewrite (proj2 (val_dofZ 1000 ltac:(lia))). rewrite plus_IZR. lra.
  - apply (val_dofZ 1). lia.
  - lra.
  - split.
    + split; [reflexivity|]. split; [reflexivity|]. intros x Hx. apply repeat_spec in Hx. subst x. vm_compute. reflexivity.
    + right. intros x Hx. apply repeat_spec in Hx. subst x. left. destruct (val_dofZ (-1) ltac:(lia)) as [F V].
      split; [exact F|]. rewrite V. lra.
  - reflexivity.
  - reflexivity.
  - exists 6, 12. split; [lia|]. split; apply ex_pose_wanted; lia.
  - intros i Hi. exists (ex_w b). split; [apply ex_pose_width; auto|].
    destruct (ex_w_bounds b) as [Fw Bw]. split; [exact Fw|lra].
  - intros i a r0 rl Hi Ha H0 Hl. apply ex_pose_wanted in Hi.
    apply radii_entry in Ha, H0, Hl; try lia. destruct Ha as [_ ->], H0 as [_ ->], Hl as [_ ->].
    change (arr_size (ex_pose b p o)) with 20. rewrite !(fun z H => proj2 (val_dofZ z H)) by lia.
    split; [assert (IZR (1000 + 0) + 3 <= IZR (1000 + i))%R; [rewrite <- plus_IZR; apply IZR_le; lia|lra]|].
    assert (IZR (1000 + i) + 3 <= IZR (1000 + (20 - 1)))%R; [rewrite <- plus_IZR; apply IZR_le; lia|lra].
Qed.
Lemma ex_pose_wide b p o : wide_windows ref_dlib (ex_pose b p o) (radii 20) (repeat (dofZ 1) 20) (repeat (dofZ (-1)) 20) 1.
Proof.
  intros i x Hi Hx. apply ex_pose_width in Hx; [|exact Hi]. subst x. pose proof (ex_w_bounds b). lra.
Qed.
Lemma ex_pose_fits b p : In p [PsiFresnel; PsiLegendre; PsiNewtonRiemann; PsiNewtonFilon01; PsiNewtonFilon11;
    PsiNewtonFilon02; PsiNewtonFilon12; PsiEllipticNewton; PsiNewtonPerturb; PsiNewton4; PsiNewton8; PsiNewton16] ->
  method_fits ref_dlib (ex_pose b p 5) (radii 20) (repeat (dofZ 1) 20) (repeat (dofZ (-1)) 20) 1.
Proof.
  intros Hp. assert (Ep : psinum (ex_pose b p 5) = p) by reflexivity. assert (Eo : order (ex_pose b p 5) = 5) by reflexivity.
  unfold method_fits. rewrite Ep, Eo. clear Ep Eo.
  repeat (destruct Hp as [<-|Hp]; [try exact I; try apply ex_pose_wide|]); [| |contradiction].
  - intros i x Wi Hl Hx. exists 6, x.
    assert (i = 12). { apply ex_pose_wanted in Wi. destruct (Z.eq_dec i 12); auto. exfalso. apply (Hl 12); [lia|]. apply ex_pose_wanted. lia. }
    subst i. split; [lia|]. split; [apply ex_pose_wanted; lia|]. split; [|lra].
    apply (proj1 (ex_pose_width b _ 5 12 x Wi)) in Hx. apply (proj2 (ex_pose_width b PsiFresnel 5 6 x (proj2 (ex_pose_wanted b PsiFresnel 5 6) ltac:(lia)))). exact Hx.
  - split; [vm_compute; discriminate|]. split; [intros a a2; reflexivity|apply ex_pose_wide].
Qed.
(** The theorem applies to the example in every mode it covers, with and without
    the correction of the window widths: six samples of the
    seven in the range are reconstructed, with three threads. *)
Example c54_example b p : In p [PsiFresnel; PsiLegendre; PsiNewtonRiemann; PsiNewtonFilon01; PsiNewtonFilon11;
    PsiNewtonFilon02; PsiNewtonFilon12; PsiEllipticNewton; PsiNewtonPerturb; PsiNewton4; PsiNewton8; PsiNewton16] ->
  exists t', reconstruction ref_dlib three_threads (ex_pose b p 5) = Ok t' /\ clean t' /\ aligned t' /\
    forall i, selected t' i <-> 6 <= i < 12.
Proof.
  intros Hp. destruct (c54_reconstruction_succeeds ref_dlib three_threads (ex_pose b p 5) _ _ _ _ _ ref_minmax ref_max
    (fun _ => eq_refl) three_threads_valid (ex_posed b p 5) (ex_pose_fits b p Hp)) as (t' & tw & E & C & A & _ & _ & S & _).
  exists t'. split; [exact E|]. split; [exact C|]. split; [exact A|]. intros i. rewrite S. rewrite ex_pose_wanted. split.
  - intros [Hi (j & Hj & Wj)]. apply ex_pose_wanted in Wj. lia.
  - intros Hi. split; [lia|]. exists 12. split; [lia|]. apply ex_pose_wanted. lia.
Qed.

Print Assumptions c54_reconstruction_succeeds.
