(** * Properties_Safety: range check, memory safety and threads (C13-C19, C33). *)
From Coq Require Import List ZArith Bool Reals String Lia Lra.
From Flocq Require Import Core IEEE754.BinarySingleNaN.
From Verif Require Import Base BaseFacts Dbl DblFacts DblArith Scalar Model_TauRec Model_Checks
  Model_Select Model_Transform Model_Interp Model_Recon Spec_Tau Spec_Select Spec_Safety Spec_Fft Spec_Recon Ref_Tmpl Ex_Tau
  Proof_SafeDbl Proof_Safe2 Proof_Fft.
Import ListNotations.
Open Scope Z_scope.

(** ** Examples and their hypotheses *)

(** Twelve samples 1 km apart, windows 2 km wide, samples 3..7 selected. *)
Definition ex_safe : dtau :=
  set_n_used (set_start
    (ex_tau 12 (Some (radii 12)) (Some (repeat (dofZ 1) 12)) (Some (repeat (dofZ 2) 12))
       (dofZ 1) (dofZ 400000) (dofZ 2)) 3) 5.
Definition ex_safe_in (p : psitype) (o : Z) : dtau := set_order (set_psinum ex_safe p) o.
(** One chunk; three chunks. *)
Definition one_thread : schedule := fun n => [(0, n)].
Definition three_threads : schedule := fun n => [(0, n / 2); (n / 2, n / 3); (n / 2 + n / 3, n - n / 2 - n / 3)].
Lemma one_thread_valid : valid_schedule one_thread.
Proof. intros n Hn. split; [discriminate|]. simpl. lia. Qed.
Lemma three_threads_valid : valid_schedule three_threads.
Proof.
  intros n Hn. split; [discriminate|]. unfold three_threads. cbn [chunks_from].
  pose proof (Z.div_pos n 2). pose proof (Z.div_pos n 3).
  pose proof (Z.mul_div_le n 2). pose proof (Z.mul_div_le n 3). lia.
Qed.
Lemma repeat_entry {A} (x y : A) n i : entry (repeat x n) i y -> x = y.
Proof. intros [_ H]. apply nth_error_In in H. apply repeat_spec in H. auto. Qed.
Lemma ex_complete p o : complete (ex_safe_in p o).
Proof.
  split.
  - intros f Hf. simpl in Hf. cbv [ex_safe_in ex_safe ex_tau]. simpl arr.
    repeat (destruct Hf as [<-|Hf]; [eexists; split; [reflexivity|reflexivity]|]). contradiction.
  - split; [|split; [|split]].
    + eexists. split; [reflexivity|]. split; [reflexivity|].
      intros c Hc. apply repeat_spec in Hc. subst. discriminate.
    + eexists. split; [reflexivity|reflexivity].
    + reflexivity.
    + vm_compute. reflexivity.
Qed.
Definition is_ok {A} (r : res A) : bool := match r with Ok _ => true | _ => false end.
Lemma is_ok_spec {A} (r : res A) : is_ok r = true -> exists a, r = Ok a.
Proof. destruct r; [eauto|discriminate]. Qed.
Lemma ex_prepared p o : prepared (ex_safe_in p o).
Proof.
  split; [reflexivity|]. split; [apply ex_complete|]. split; [vm_compute; discriminate|].
  split; [vm_compute; discriminate|]. split; [reflexivity|].
  apply (is_ok_spec (check_data_range (ex_safe_in p o))).
  destruct p; vm_compute; reflexivity.
Qed.
Lemma ex_width p o i x : width (ex_safe_in p o) i x -> x = dofZ 2.
Proof. intros (w & E & H). injection E as <-. exact (eq_sym (repeat_entry (dofZ 2) x 12 i H)). Qed.
Lemma ex_width_at p o i : 0 <= i < 12 -> width (ex_safe_in p o) i (dofZ 2).
Proof.
  intros Hi. exists (repeat (dofZ 2) 12). split; [reflexivity|]. split; [lia|].
  apply nth_error_repeat. lia.
Qed.
Lemma ex_room p o two_dx lo hi : finite two_dx -> val two_dx = 2%R -> 1 <= lo -> hi <= 11 ->
  room (ex_safe_in p o) two_dx lo hi.
Proof.
  intros F V Hlo Hhi. split; [exact F|]. split; [rewrite V; lra|]. split.
  - intros i Hi. exists (dofZ 2). split; [apply ex_width_at; lia|]. split; [dz|]. dz. rewrite V.
    assert (1 <= IZR i)%R by (apply IZR_le; lia). lra.
  - intros j i x y Hj Hi Hx Hy _. apply ex_width in Hx. subst x. dz. rewrite V.
    assert (1 <= IZR (arr_size (ex_safe_in p o) - 1 - i))%R; [|lra].
    apply IZR_le. change (arr_size (ex_safe_in p o)) with 12. lia.
Qed.
Definition ex_dx1 : double := dmul (dofZ 2) (dofZ 1).
Definition ex_dx2 : double := dmul (dofZ 2) (dsub (dofZ (1000 + 1)) (dofZ (1000 + 0))).
Definition ex_dx3 : double := dmul (dofZ 2) (dsub (dofZ (1000 + 4)) (dofZ (1000 + 3))).
Lemma val_2 (x : double) : is_finite x = true -> deq x (dofZ 2) = true -> finite x /\ val x = 2%R.
Proof.
  intros F E. split; [exact F|]. destruct (val_dofZ 2 ltac:(lia)) as [F2 V2]. rewrite <- V2.
  apply (deq_iff x (dofZ 2) F F2). exact E.
Qed.
Lemma ex_dx1_val : finite ex_dx1 /\ val ex_dx1 = 2%R.
Proof. apply val_2; vm_compute; reflexivity. Qed.
Lemma ex_dx2_val : finite ex_dx2 /\ val ex_dx2 = 2%R.
Proof. apply val_2; vm_compute; reflexivity. Qed.
Lemma ex_dx3_val : finite ex_dx3 /\ val ex_dx3 = 2%R.
Proof. apply val_2; vm_compute; reflexivity. Qed.
Lemma ex_spacing0 p o : spacing_at (ex_safe_in p o) 0 ex_dx2.
Proof. exists (dofZ (1000 + 0)), (dofZ (1000 + 1)). split; [reflexivity|]. split; reflexivity. Qed.
Lemma ex_spacing3 p o : spacing_at (ex_safe_in p o) 3 ex_dx3.
Proof. exists (dofZ (1000 + 3)), (dofZ (1000 + 4)). split; [reflexivity|]. split; reflexivity. Qed.
Lemma ex_least p o two_dx : val two_dx = 2%R -> widths_at_least (ex_safe_in p o) two_dx.
Proof. intros V i x _ Hx. apply ex_width in Hx. subst x. dz. rewrite V. lra. Qed.
Definition is_oob {A} (r : res A) : bool := match r with UB OutOfBounds => true | _ => false end.
Lemma is_oob_spec {A} (r : res A) : is_oob r = true -> r = UB OutOfBounds.
Proof. destruct r as [a|[]]; simpl; congruence. Qed.

(** ** C13: the range check *)

(** The check accepts exactly when the spacing is positive and every selected
    sample [i], with [m] samples in half its window, has m <= i and
    i + m <= arr_size; and it changes nothing but the error. *)
Theorem c13_range_check_exact : forall (t : dtau) (w : list double),
  arr t WKM = Some w -> 0 <= n_used t -> start t + n_used t <= arr_size t -> 2 * arr_size t < two64 ->
  (forall i, selected t i -> exists m, checked_half t i m) -> clean t ->
  exists t', check_data_range t = Ok t' /\ same_data t t' /\
    (clean t' <-> dle (dx t) (dofZ 0) = false /\
       forall i m, selected t i -> checked_half t i m -> m <= i /\ i + m <= arr_size t).
Proof. exact range_check_exact. Qed.
Print Assumptions c13_range_check_exact.

Lemma ex_checked_half i m : checked_half ex_safe i m -> m = 1.
Proof.
  intros (x & H & Em). apply (ex_width PsiFresnel 0) in H. subst x.
  assert (G : dcast (dmul (dofZ 2) (ddiv (dfrac 1 2) (dofZ 1))) = Ok 1) by (vm_compute; reflexivity).
  change (dx ex_safe) with (dofZ 1) in Em. congruence.
Qed.
Example c13_example : exists t', check_data_range ex_safe = Ok t' /\ clean t'.
Proof.
  destruct (c13_range_check_exact ex_safe (repeat (dofZ 2) 12)) as (t' & E & _ & H); try reflexivity.
  - vm_compute; discriminate.
  - vm_compute; discriminate.
  - intros i Hi. exists 1. exists (dofZ 2). split; [apply (ex_width_at PsiFresnel 0)|vm_compute; reflexivity].
    unfold selected in Hi. cbn in Hi. lia.
  - exists t'. split; auto. apply H. split; [vm_compute; reflexivity|].
    intros i m Hi Hm. apply ex_checked_half in Hm. subst m. unfold selected in Hi. cbn in Hi.
    change (arr_size ex_safe) with 12. lia.
Qed.
(** The bound is off by one: accepted with i + m = arr_size, one past the last
    sample, and the drivers then read there. *)
Definition ex_past : dtau :=
  set_n_used (set_start
    (ex_tau 12 (Some (radii 12)) (Some (repeat (dofZ 1) 12)) (Some (repeat (dofZ 4) 12))
       (dofZ 1) (dofZ 400000) (dofZ 2)) 4) 7.
Theorem c13_window_past_end_refuted : exists (L : dlib) (t : dtau) (i m : Z),
  check_data_range t = Ok t /\ clean t /\ complete t /\
  selected t i /\ checked_half t i m /\ i + m = arr_size t /\
  dc_fresnel L one_thread t = UB OutOfBounds /\
  dc_newton L one_thread (set_psinum t PsiNewtonFilon01) = UB OutOfBounds /\
  dc_newton L one_thread (set_psinum t PsiEllipticNewton) = UB OutOfBounds.
Proof.
  exists ref_dlib, ex_past, 10, 2. split.
  { destruct (okclean_spec (check_data_range ex_past)) as (t' & E & Hc); [vm_compute; reflexivity|].
    destruct (check_data_range_ok _ _ E) as [->|[m ->]]; [exact E|discriminate Hc]. }
  split; [reflexivity|]. split.
  { split; [|split; [|split; [|split]]].
    - intros f Hf. simpl in Hf. cbv [ex_past ex_tau]. simpl arr.
      repeat (destruct Hf as [<-|Hf]; [eexists; split; [reflexivity|reflexivity]|]). contradiction.
    - eexists. split; [reflexivity|]. split; [reflexivity|].
      intros c Hc. apply repeat_spec in Hc. subst. discriminate.
    - eexists. split; [reflexivity|reflexivity].
    - reflexivity.
    - vm_compute. reflexivity. }
  split; [unfold selected; cbn; lia|]. split.
  { exists (dofZ 4). split; [|vm_compute; reflexivity]. exists (repeat (dofZ 4) 12). split; [reflexivity|].
    split; [lia|reflexivity]. }
  split; [reflexivity|].
  split; [apply is_oob_spec; vm_compute; reflexivity|].
  split; apply is_oob_spec; vm_compute; reflexivity.
Qed.
Print Assumptions c13_window_past_end_refuted.

(** ** C14: quadratic Fresnel mode *)

(** Whatever the threads, the mode returns, and every sample from the first
    selected one to the one after the last has the value of the transform with
    a window whose width differs by less than two spacings. *)
Theorem c14_fresnel_mode_safe : forall (L : dlib) (sch : schedule) (t : dtau),
  max_law L -> valid_schedule sch -> prepared t -> extra_sample_fits t ->
  room t (dmul (dofZ 2) (dx t)) (start t) (start t + n_used t + 1) ->
  exists t', dc_fresnel L sch t = Ok t' /\
    profile_written t (fresnel_sample L t (dmul (dofZ 2) (dx t))) t' (n_used t + 1) /\
    (no_obstacle L t -> clean t').
Proof. exact fresnel_safe. Qed.
Lemma ex_extra_fits p o : extra_sample_fits (ex_safe_in p o).
Proof.
  split; [reflexivity|]. exists 3, (dofZ 2), (dofZ 2). split; [unfold selected; cbn; lia|].
  split; [apply ex_width_at; lia|]. split; [apply ex_width_at; cbn; lia|]. lra.
Qed.
Lemma ex_no_obstacle p o : no_obstacle ref_dlib (ex_safe_in p o).
Proof.
  split; [reflexivity|]. destruct (okclean_spec (check_data_range (ex_safe_in p o))) as (t' & E & Hc); [vm_compute; reflexivity|].
  destruct (check_data_range_ok _ _ E) as [->|[m ->]]; [exact E|discriminate Hc].
Qed.
Example c14_example : exists t', dc_fresnel ref_dlib three_threads (ex_safe_in PsiFresnel 0) = Ok t' /\ clean t' /\
  profile_written (ex_safe_in PsiFresnel 0) (fresnel_sample ref_dlib (ex_safe_in PsiFresnel 0) ex_dx1) t' 6.
Proof.
  destruct (c14_fresnel_mode_safe ref_dlib three_threads (ex_safe_in PsiFresnel 0)) as (t' & E & P & C).
  - exact ref_max. - exact three_threads_valid. - apply ex_prepared. - apply ex_extra_fits.
  - destruct ex_dx1_val as [F V]. apply ex_room; [exact F|exact V|vm_compute; discriminate|vm_compute; discriminate].
  - exists t'. split; [exact E|]. split; [apply C, ex_no_obstacle|exact P].
Qed.
(** The sample after the selection can overflow the window buffers: a complete
    reconstruction of valid data writes past them. *)
Definition ex_extra : dtau :=
  ex_tau 20 (Some (radii 20)) (Some (repeat (dofZ 1) 15 ++ repeat (dofZ 2) 5)%list) None
    (dofZ 1005) (dofZ 1015) (dofZ 2).
Theorem c14_extra_sample_refuted : exists (L : dlib) (t : dtau),
  minmax_law L /\ min_law L /\ max_law L /\ clean t /\ psinum t = PsiFresnel /\
  (exists t', check_geometry L t = Ok t' /\ clean t') /\
  reconstruction L one_thread t = UB OutOfBounds.
Proof.
  exists ref_dlib, ex_extra. split; [exact ref_minmax|]. split; [exact ref_min|]. split; [exact ref_max|].
  split; [reflexivity|]. split; [reflexivity|].
  split; [apply okclean_spec; vm_compute; reflexivity|].
  apply is_oob_spec. vm_compute. reflexivity.
Qed.
Print Assumptions c14_extra_sample_refuted.

(** ** C15: Newton modes *)
Theorem c15_newton_modes_safe : forall (L : dlib) (sch : schedule) (t : dtau) (two_dx : double),
  max_law L -> valid_schedule sch -> prepared t -> start t + n_used t <= arr_size t ->
  spacing_at t 0 two_dx -> room t two_dx (start t) (start t + n_used t) ->
  (psinum t = PsiNewtonFilon02 \/ psinum t = PsiNewtonFilon12 -> widths_at_least t two_dx) ->
  exists t', dc_newton L sch t = Ok t' /\ (exists Q, profile_written t Q t' (n_used t)) /\
    (forall f rho, window_method L (psinum t) = Some f -> arr t RHO = Some rho ->
       profile_written t (newton_sample L t f two_dx rho) t' (n_used t) /\ (no_obstacle L t -> clean t')).
Proof. exact newton_safe_all. Qed.
Print Assumptions c15_newton_modes_safe.
Example c15_example : forall p f, window_method ref_dlib p = Some f ->
  exists t', dc_newton ref_dlib three_threads (ex_safe_in p 0) = Ok t' /\ clean t' /\
    profile_written (ex_safe_in p 0) (newton_sample ref_dlib (ex_safe_in p 0) f ex_dx2 (radii 12)) t' 5.
Proof.
  intros p f Hf. destruct (c15_newton_modes_safe ref_dlib three_threads (ex_safe_in p 0) ex_dx2) as (t' & E & _ & H).
  - exact ref_max. - exact three_threads_valid. - apply ex_prepared.
  - vm_compute; discriminate.
  - apply ex_spacing0.
  - destruct ex_dx2_val as [F V]. apply ex_room; [exact F|exact V|vm_compute; discriminate|vm_compute; discriminate].
  - intros _. apply ex_least. apply ex_dx2_val.
  - destruct (H f (radii 12) Hf eq_refl) as [P C]. exists t'. split; [exact E|]. split; [apply C, ex_no_obstacle|exact P].
Qed.

(** ** C16: threads *)
Theorem c16_fresnel_threads : forall (L : dlib) (sch sch' : schedule) (t : dtau),
  max_law L -> valid_schedule sch -> valid_schedule sch' -> prepared t -> extra_sample_fits t ->
  room t (dmul (dofZ 2) (dx t)) (start t) (start t + n_used t + 1) ->
  same_widths t (dmul (dofZ 2) (dx t)) (start t) (start t + n_used t + 1) ->
  dc_fresnel L sch t = dc_fresnel L sch' t.
Proof. exact fresnel_indep. Qed.
Print Assumptions c16_fresnel_threads.
Theorem c16_newton_threads : forall (L : dlib) (sch sch' : schedule) (t : dtau) (two_dx : double),
  max_law L -> valid_schedule sch -> valid_schedule sch' -> prepared t -> start t + n_used t <= arr_size t ->
  spacing_at t 0 two_dx -> room t two_dx (start t) (start t + n_used t) ->
  (psinum t = PsiNewtonFilon02 \/ psinum t = PsiNewtonFilon12 -> widths_at_least t two_dx) ->
  same_windows t two_dx (start t) (start t + n_used t) ->
  dc_newton L sch t = dc_newton L sch' t.
Proof. exact newton_indep. Qed.
Lemma ex_same_widths p o d lo hi : same_widths (ex_safe_in p o) d lo hi.
Proof. intros j i wj wi _ _ Hj Hi _. apply ex_width in Hj. apply ex_width in Hi. congruence. Qed.
Example c16_example_fresnel :
  dc_fresnel ref_dlib one_thread (ex_safe_in PsiFresnel 0) = dc_fresnel ref_dlib three_threads (ex_safe_in PsiFresnel 0).
Proof.
  apply c16_fresnel_threads.
  - exact ref_max. - exact one_thread_valid. - exact three_threads_valid. - apply ex_prepared. - apply ex_extra_fits.
  - destruct ex_dx1_val as [F V]. apply ex_room; [exact F|exact V|vm_compute; discriminate|vm_compute; discriminate].
  - apply ex_same_widths.
Qed.

Lemma ex_same_windows p o : same_windows (ex_safe_in p o) ex_dx2 3 8.
Proof.
  split; [apply ex_same_widths|].
  intros rho j i m Erho Hj Hi _ (x & Hx & Em) k Hk.
  apply ex_width in Hx. subst x.
  assert (G : dcast (ddiv (dofZ 2) ex_dx2) = Ok 1) by (vm_compute; reflexivity).
  assert (m = 1) by (cbn [scast sdiv dbl_scalar] in Em; congruence). subst m.
  injection Erho as <-. apply B2SF_inj.
  assert (Hk3 : k = 0 \/ k = 1 \/ k = 2) by lia.
  assert (Hj5 : j = 3 \/ j = 4 \/ j = 5 \/ j = 6 \/ j = 7) by lia.
  assert (Hi5 : i = 3 \/ i = 4 \/ i = 5 \/ i = 6 \/ i = 7) by lia.
  decompose [or] Hk3; decompose [or] Hj5; decompose [or] Hi5; subst k j i; vm_compute; reflexivity.
Qed.
Example c16_example_newton : forall p,
  dc_newton ref_dlib one_thread (ex_safe_in p 0) = dc_newton ref_dlib three_threads (ex_safe_in p 0).
Proof.
  intros p. apply (c16_newton_threads ref_dlib one_thread three_threads (ex_safe_in p 0) ex_dx2).
  - exact ref_max. - exact one_thread_valid. - exact three_threads_valid. - apply ex_prepared.
  - vm_compute; discriminate.
  - apply ex_spacing0.
  - destruct ex_dx2_val as [F V]. apply ex_room; [exact F|exact V|vm_compute; discriminate|vm_compute; discriminate].
  - intros _. apply ex_least. apply ex_dx2_val.
  - apply ex_same_windows.
Qed.
(** When widths vary the result depends on the threads: one object, one and two
    threads, two complete reconstructions that both succeed and disagree. *)
Definition two_threads : schedule := fun n => [(0, n / 2); (n / 2, n - n / 2)].
Lemma two_threads_valid : valid_schedule two_threads.
Proof.
  intros n Hn. split; [discriminate|]. unfold two_threads. cbn [chunks_from].
  pose proof (Z.div_pos n 2). pose proof (Z.mul_div_le n 2). lia.
Qed.
Definition cell_at (r : res dtau) (i : Z) : option (cplx dbl_scalar) :=
  match r with
  | Ok t => match T_out t with Some T => match aread T i with Ok (Some v) => Some v | _ => None end | None => None end
  | _ => None
  end.
Definition differ (a b : option (cplx dbl_scalar)) : bool :=
  match a, b with Some x, Some y => negb (deq (cre x) (cre y)) && negb (dnan (cre y)) | _, _ => false end.
Lemma differ_spec r1 r2 i : okclean r1 = true -> okclean r2 = true ->
  differ (cell_at r1 i) (cell_at r2 i) = true ->
  exists t1 t2 T1 T2 v1 v2, r1 = Ok t1 /\ clean t1 /\ r2 = Ok t2 /\ clean t2 /\
    T_out t1 = Some T1 /\ T_out t2 = Some T2 /\ aread T1 i = Ok (Some v1) /\ aread T2 i = Ok (Some v2) /\ v1 <> v2.
Proof.
  intros H1 H2. destruct (okclean_spec _ H1) as (t1 & -> & C1). destruct (okclean_spec _ H2) as (t2 & -> & C2).
  unfold cell_at. destruct (T_out t1) as [T1|] eqn:E1; [|discriminate]. destruct (aread T1 i) as [[v1|]|] eqn:A1; try discriminate.
  destruct (T_out t2) as [T2|] eqn:E2; [|discriminate]. destruct (aread T2 i) as [[v2|]|] eqn:A2; try discriminate.
  intros H. unfold differ in H. apply andb_true_iff in H. destruct H as [H H']. apply negb_true_iff in H, H'.
  exists t1, t2, T1, T2, v1, v2. repeat split; auto. intros ->. revert H. apply not_false_iff_true.
  destruct (deq (cre v2) (cre v2)) eqn:E; auto. exfalso. exact (deq_false_neq _ _ H' E eq_refl).
Qed.
Definition ex_vary (F : list double) : dtau :=
  ex_tau 16 (Some (radii 16)) (Some F) None (dofZ 1004) (dofZ 1010) (dofZ 2).
Theorem c16_threads_change_result_refuted : exists (L : dlib) (t t1 t2 : dtau) T1 T2 (i : Z) v1 v2,
  valid_schedule one_thread /\ valid_schedule two_threads /\ psinum t = PsiFresnel /\
  reconstruction L one_thread t = Ok t1 /\ clean t1 /\ reconstruction L two_threads t = Ok t2 /\ clean t2 /\
  T_out t1 = Some T1 /\ T_out t2 = Some T2 /\ aread T1 i = Ok (Some v1) /\ aread T2 i = Ok (Some v2) /\ v1 <> v2.
Proof.
  set (t := ex_vary (repeat (dfrac 7 4) 7 ++ repeat (dofZ 2) 9)%list).
  destruct (differ_spec (reconstruction ref_dlib one_thread t) (reconstruction ref_dlib two_threads t) 3)
    as (t1 & t2 & T1 & T2 & v1 & v2 & H);
    [vm_compute; reflexivity|vm_compute; reflexivity|vm_compute; reflexivity|].
  exists ref_dlib, t, t1, t2, T1, T2, 3, v1, v2.
  split; [exact one_thread_valid|]. split; [exact two_threads_valid|]. split; [reflexivity|]. exact H.
Qed.
Print Assumptions c16_threads_change_result_refuted.
Theorem c16_newton_threads_change_result_refuted : exists (L : dlib) (t t1 t2 : dtau) T1 T2 (i : Z) v1 v2,
  valid_schedule one_thread /\ valid_schedule two_threads /\ psinum t = PsiNewtonRiemann /\
  reconstruction L one_thread t = Ok t1 /\ clean t1 /\ reconstruction L two_threads t = Ok t2 /\ clean t2 /\
  T_out t1 = Some T1 /\ T_out t2 = Some T2 /\ aread T1 i = Ok (Some v1) /\ aread T2 i = Ok (Some v2) /\ v1 <> v2.
Proof.
  set (t := set_use_norm (set_psinum (ex_vary (repeat (dfrac 7 4) 6 ++ [dfrac 9 4] ++ repeat (dofZ 2) 9)%list) PsiNewtonRiemann) false).
  destruct (differ_spec (reconstruction ref_dlib one_thread t) (reconstruction ref_dlib two_threads t) 3)
    as (t1 & t2 & T1 & T2 & v1 & v2 & H);
    [vm_compute; reflexivity|vm_compute; reflexivity|vm_compute; reflexivity|].
  exists ref_dlib, t, t1, t2, T1, T2, 3, v1, v2.
  split; [exact one_thread_valid|]. split; [exact two_threads_valid|]. split; [reflexivity|]. exact H.
Qed.
Print Assumptions c16_newton_threads_change_result_refuted.

(** ** C17: FFT mode *)

(** With [half] samples in a whole window at the middle of the selection: the mode
    returns and writes each selected sample when [half] further samples are
    recorded on both sides of the selection. *)
Theorem c17_fft_mode_safe : forall (L : dlib) (t : dtau) (w : double) (half : Z),
  prepared t -> (forall l, zlen (t_fft L l) = zlen l) -> (forall l, zlen (t_ifft L l) = zlen l) ->
  width t (start t + n_used t / 2) w -> dcast (ddiv w (dx t)) = Ok half ->
  0 <= half <= start t -> start t + n_used t + half <= arr_size t ->
  exists t', dc_fft L t = Ok t' /\ profile_written t (fft_sample_value L t w half) t' (n_used t) /\
    (no_obstacle L t -> clean t').
Proof. exact fft_safe_all. Qed.
Print Assumptions c17_fft_mode_safe.
Example c17_example : exists t', dc_fft ref_dlib (ex_safe_in PsiSimpleFFT 0) = Ok t' /\ clean t' /\
  profile_written (ex_safe_in PsiSimpleFFT 0) (fft_sample_value ref_dlib (ex_safe_in PsiSimpleFFT 0) (dofZ 2) 2) t' 5.
Proof.
  destruct (c17_fft_mode_safe ref_dlib (ex_safe_in PsiSimpleFFT 0) (dofZ 2) 2) as (t' & E & P & C).
  - apply ex_prepared. - reflexivity. - reflexivity.
  - apply ex_width_at; vm_compute; split; [discriminate|reflexivity].
  - vm_compute; reflexivity.
  - cbn; lia. - vm_compute; discriminate.
  - exists t'. split; [exact E|]. split; [apply C, ex_no_obstacle|exact P].
Qed.
(** The pre-checks keep only half a window on each side: a complete reconstruction
    of valid data reads outside the arrays. *)
Theorem c17_fft_out_of_bounds_refuted : exists (L : dlib) (t : dtau),
  (forall l, zlen (t_fft L l) = zlen l) /\ (forall l, zlen (t_ifft L l) = zlen l) /\
  minmax_law L /\ max_law L /\ clean t /\ psinum t = PsiSimpleFFT /\
  (exists t', check_geometry L t = Ok t' /\ clean t') /\
  reconstruction L one_thread t = UB OutOfBounds.
Proof.
  exists ref_dlib, (set_psinum (set_range0 (ex_vary (repeat (dofZ 2) 16)) (dofZ 1)) PsiSimpleFFT).
  split; [reflexivity|]. split; [reflexivity|]. split; [exact ref_minmax|]. split; [exact ref_max|].
  split; [reflexivity|]. split; [reflexivity|].
  split; [apply okclean_spec; vm_compute; reflexivity|].
  apply is_oob_spec. vm_compute. reflexivity.
Qed.
Print Assumptions c17_fft_out_of_bounds_refuted.

(** ** C18: piecewise quadratic quadratures *)
Theorem c18_quadratic_filon_safe : forall (S : scalar) (L : tmpl S) (t : tau S) (w : @buffer S) (m c : Z),
  complete t -> 1 <= m -> written w (2 * m + 1) -> m <= c -> c + m < arr_size t ->
  (exists v, newton_filon02 L t w (2 * m + 1) c = Ok v) /\
  (exists v, newton_filon12 L t w (2 * m + 1) c = Ok v).
Proof. exact @filon_odd. Qed.
Print Assumptions c18_quadratic_filon_safe.
(** One point: always out of bounds. *)
Theorem c18_single_point_refuted : forall (S : scalar) (L : tmpl S) (t : tau S) (w : @buffer S) (c : Z),
  complete t -> zlen w = 1 -> written w 1 -> 0 <= c -> c + 1 < arr_size t ->
  newton_filon02 L t w 1 c = UB OutOfBounds /\ newton_filon12 L t w 1 c = UB OutOfBounds.
Proof. exact @filon_single. Qed.
Print Assumptions c18_single_point_refuted.
Example c18_example :
  (exists v, newton_filon02 ref_dlib (ex_safe_in PsiFresnel 0) (repeat (Some (dofZ 1)) 5) (2 * 2 + 1) 4 = Ok v) /\
  newton_filon02 ref_dlib (ex_safe_in PsiFresnel 0) (repeat (Some (dofZ 1)) 1) 1 4 = UB OutOfBounds.
Proof.
  assert (W : forall n k, k = Z.of_nat n -> written (repeat (Some (dofZ 1)) n) k).
  { intros n k ->. split; [unfold zlen; rewrite repeat_length; lia|]. intros i Hi. exists (dofZ 1). split; [lia|].
    apply nth_error_repeat. lia. }
  split.
  - apply (c18_quadratic_filon_safe dbl_scalar ref_dlib (ex_safe_in PsiFresnel 0) (repeat (Some (dofZ 1)) 5) 2 4);
      [apply ex_complete|lia|apply W; reflexivity|lia|reflexivity].
  - apply (c18_single_point_refuted dbl_scalar ref_dlib (ex_safe_in PsiFresnel 0) (repeat (Some (dofZ 1)) 1) 4);
      [apply ex_complete|reflexivity|apply W; reflexivity|lia|reflexivity].
Qed.
(** Reached by a complete reconstruction with windows narrower than two spacings. *)
Theorem c18_reconstruction_refuted : exists (L : dlib) (t : dtau),
  clean t /\ psinum t = PsiNewtonFilon02 /\ (exists t', check_geometry L t = Ok t' /\ clean t') /\
  reconstruction L one_thread t = UB OutOfBounds.
Proof.
  exists ref_dlib, (set_psinum (ex_vary (repeat (dofZ 1) 16)) PsiNewtonFilon02).
  split; [reflexivity|]. split; [reflexivity|].
  split; [apply okclean_spec; vm_compute; reflexivity|].
  apply is_oob_spec. vm_compute. reflexivity.
Qed.
Print Assumptions c18_reconstruction_refuted.

(** ** C19: padding size of the FFT mode *)
Theorem c19_next_power_of_two : forall n, n <= 2 ^ 63 ->
  exists k, next_pow_2 n = Ok (2 ^ k) /\ 0 <= k <= 63 /\ n <= 2 ^ k /\ forall j, 0 <= j -> n <= 2 ^ j -> k <= j.
Proof. exact next_pow_2_ok. Qed.
Print Assumptions c19_next_power_of_two.
Theorem c19_large_sizes_never_return : forall n, 2 ^ 63 < n -> next_pow_2 n = UB Diverges.
Proof. exact next_pow_2_diverges. Qed.
Print Assumptions c19_large_sizes_never_return.
Example c19_example : next_pow_2 1000 = Ok 1024 /\ next_pow_2 1024 = Ok 1024 /\ next_pow_2 1025 = Ok 2048.
Proof. repeat split. Qed.

(** ** C33: window buffers *)
Theorem c33_half_windows : forall (S : scalar) (L : tmpl S) (t : tau S) x w n c wc,
  width t c wc -> 0 <= n <= zlen x -> n <= zlen w ->
  (exists x' w', reset_window L t (x, w) n c = Ok (x', w') /\ zlen x' = zlen x /\ zlen w' = zlen w /\
     holds x' n (offset_x t n) /\ holds w' n (half_weight L t n wc)) /\
  (exists x' w', reset_fresnel_window L t (x, w) n c = Ok (x', w') /\ zlen x' = zlen x /\ zlen w' = zlen w /\
     holds x' n (fresnel_x t n) /\ holds w' n (half_weight L t n wc)).
Proof. exact @half_window_buffers. Qed.
Print Assumptions c33_half_windows.
Theorem c33_full_window : forall (S : scalar) (L : tmpl S) (t : tau S) rho w m c wc,
  width t c wc -> arr t RHO = Some rho -> 0 <= m <= c -> c + m < zlen rho -> 2 * m + 1 <= zlen w ->
  exists w', compute_window L t w (2 * m + 1) c = Ok w' /\ zlen w' = zlen w /\
    holds w' (2 * m + 1) (full_weight L t rho c m wc).
Proof. exact @full_window_buffer. Qed.
Print Assumptions c33_full_window.
(** Resizing: [c] the sample, [wc] its width, [m] the new number of points. *)
Theorem c33_resize : forall (S : scalar) (L : tmpl S) (t : tau S) x w w_init two_dx c wc m,
  width t c wc -> scast (wc / two_dx)%S = Ok m -> 0 <= m -> (m = 0 -> t_realloc0 L = false) ->
  (sge (sabs (w_init - wc)%S) two_dx = false -> resize_half_window L t (x, w) w_init two_dx c = Ok None) /\
  (sge (sabs (w_init - wc)%S) two_dx = true ->
   (exists msg, resize_half_window L t (x, w) w_init two_dx c = Ok (Some (inr msg))) \/
   exists x' w', resize_half_window L t (x, w) w_init two_dx c = Ok (Some (inl (x', w'))) /\
     zlen x' = m /\ zlen w' = m /\ holds x' m (offset_x t m) /\ holds w' m (half_weight L t m wc)).
Proof. exact @resize_buffers. Qed.
Print Assumptions c33_resize.
Definition is_inr {A B} (r : res (option (A + B))) : bool := match r with Ok (Some (inr _)) => true | _ => false end.
Definition is_df {A} (r : res A) : bool := match r with UB DoubleFree => true | _ => false end.
Lemma is_df_spec {A} (r : res A) : is_df r = true -> r = UB DoubleFree.
Proof. destruct r as [a|[]]; simpl; congruence. Qed.
Example c33_example : exists x' w',
  resize_half_window ref_dlib (ex_safe_in PsiNewton4 0) ([], []) (dofZ 0) ex_dx1 4 = Ok (Some (inl (x', w'))) /\
  zlen x' = 1 /\ holds x' 1 (offset_x (ex_safe_in PsiNewton4 0) 1).
Proof.
  destruct (c33_resize dbl_scalar ref_dlib (ex_safe_in PsiNewton4 0) [] [] (dofZ 0) ex_dx1 4 (dofZ 2) 1) as [_ H].
  - apply ex_width_at; lia. - vm_compute; reflexivity. - lia. - intros H; discriminate H.
  - destruct H as [[m H]|(x' & w' & H1 & H2 & H3 & H4 & H5)].
    + vm_compute; reflexivity.
    + exfalso. apply (f_equal is_inr) in H. vm_compute in H. discriminate H.
    + exists x', w'. auto.
Qed.
(** Windows of no points: where realloc(p, 0) frees, the buffer is freed twice. *)
Theorem c33_empty_window_double_free_refuted : exists (L : dlib) (t : dtau) x w w_init two_dx c,
  clean t /\ complete t /\ t_realloc0 L = true /\
  resize_half_window L t (x, w) w_init two_dx c = UB DoubleFree.
Proof.
  exists ref_dlib, (ex_safe_in PsiNewton4 0), [], [], (dofZ 100), (dofZ 4), 4.
  split; [reflexivity|]. split; [apply ex_complete|]. split; [reflexivity|].
  apply is_df_spec. vm_compute. reflexivity.
Qed.
Print Assumptions c33_empty_window_double_free_refuted.

(** ** C51, C52: interpolated Newton and Legendre modes *)
Theorem c51_interpolated_modes_safe : forall (L : dlib) (t : dtau) (two_dx : double),
  max_law L -> prepared t -> start t + n_used t <= arr_size t ->
  spacing_at t (start t) two_dx -> room t two_dx (start t) (start t + n_used t) -> widths_at_least t two_dx ->
  exists t', dc_interp L t = Ok t' /\ (exists Q, profile_written t Q t' (n_used t)) /\
    (forall f, interp_method L (psinum t) = Some f ->
       profile_written t (interp_sample L t f two_dx) t' (n_used t) /\ (no_obstacle L t -> clean t')).
Proof. exact interp_safe_all. Qed.
Print Assumptions c51_interpolated_modes_safe.
Example c51_example : forall p f, interp_method ref_dlib p = Some f ->
  exists t', dc_interp ref_dlib (ex_safe_in p 0) = Ok t' /\ clean t' /\
    profile_written (ex_safe_in p 0) (interp_sample ref_dlib (ex_safe_in p 0) f ex_dx3) t' 5.
Proof.
  intros p f Hf. destruct (c51_interpolated_modes_safe ref_dlib (ex_safe_in p 0) ex_dx3) as (t' & E & _ & H).
  - exact ref_max. - apply ex_prepared. - vm_compute; discriminate. - apply ex_spacing3.
  - destruct ex_dx3_val as [F V]. apply ex_room; [exact F|exact V|vm_compute; discriminate|vm_compute; discriminate].
  - apply ex_least. apply ex_dx3_val.
  - destruct (H f Hf) as [P C]. exists t'. split; [exact E|]. split; [apply C, ex_no_obstacle|exact P].
Qed.
Theorem c52_legendre_modes_safe : forall (L : dlib) (t : dtau) (two_dx : double),
  prepared t -> start t + n_used t <= arr_size t -> n_used t < arr_size t ->
  2 <= order t -> (forall a b, zlen (t_legendre L a b (order t)) = order t) ->
  spacing_at t (start t) two_dx -> room t two_dx (start t) (start t + n_used t) -> widths_at_least t two_dx ->
  exists t3 t', dc_legendre L t = Ok t' /\ (same_but_k t t3 \/ (failed t' /\ t3 = t)) /\
    profile_written t3 (interp_sample L t3 (legendre_step L (series_method L (order t + 1) (use_norm t))) two_dx) t' (n_used t) /\
    (no_obstacle L t -> clean t').
Proof. exact legendre_safe_all. Qed.
Example c52_example : forall o, 2 <= o -> exists t3 t', dc_legendre ref_dlib (ex_safe_in PsiLegendre o) = Ok t' /\
  same_but_k (ex_safe_in PsiLegendre o) t3 /\ clean t' /\
  profile_written t3 (interp_sample ref_dlib t3 (legendre_step ref_dlib (series_method ref_dlib (o + 1) true)) ex_dx3) t' 5.
Proof.
  intros o Ho. destruct (c52_legendre_modes_safe ref_dlib (ex_safe_in PsiLegendre o) ex_dx3) as (t3 & t' & E & K & P & C).
  - apply ex_prepared. - vm_compute; discriminate. - reflexivity. - exact Ho.
  - intros a b. change (t_legendre ref_dlib a b (order (ex_safe_in PsiLegendre o))) with (repeat (@s1 dbl_scalar) (Z.to_nat o)).
    unfold zlen. rewrite repeat_length. change (order (ex_safe_in PsiLegendre o)) with o. lia.
  - apply ex_spacing3.
  - destruct ex_dx3_val as [F V]. apply ex_room; [exact F|exact V|vm_compute; discriminate|vm_compute; discriminate].
  - apply ex_least. apply ex_dx3_val.
  - exists t3, t'. split; [exact E|]. assert (C' := C (ex_no_obstacle _ _)). split; [|split; [exact C'|exact P]].
    destruct K as [K|[[m K] _]]; [exact K|unfold clean in C'; congruence].
Qed.

Print Assumptions c14_fresnel_mode_safe.
Print Assumptions c16_newton_threads.
Print Assumptions c52_legendre_modes_safe.
