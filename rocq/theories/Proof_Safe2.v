(** * Proof_Safe2: the driver results in the vocabulary of Spec_Safety. *)
From Coq Require Import List ZArith Bool String Lia Reals.
From Verif Require Import Base BaseFacts Dbl Scalar Model_TauRec Model_Checks Model_Select
  Model_Transform Model_Interp Model_Recon Spec_Tau Spec_Select Proof_Checks Spec_Safety Spec_Fft Spec_Recon Proof_Safety
  Proof_Recon Proof_Drivers Proof_SafeDbl Proof_Sched Proof_Fft.
Import ListNotations.
Open Scope Z_scope.

Lemma fresnel_safe (L : dlib) sch (t : dtau) :
  max_law L -> valid_schedule sch -> prepared t -> extra_sample_fits t ->
  room t (dmul (dofZ 2) (dx t)) (start t) (start t + n_used t + 1) ->
  exists t', dc_fresnel L sch t = Ok t' /\
    profile_written t (fresnel_sample L t (dmul (dofZ 2) (dx t))) t' (n_used t + 1) /\
    (no_obstacle L t -> clean t').
Proof. intros HL V (H1 & H2 & H3 & H4 & H5 & H6) (He & Hx) HR. apply fresnel_driver_safe; auto. Qed.

Lemma newton_safe_all (L : dlib) sch (t : dtau) two_dx :
  max_law L -> valid_schedule sch -> prepared t -> start t + n_used t <= arr_size t ->
  spacing_at t 0 two_dx -> room t two_dx (start t) (start t + n_used t) ->
  (psinum t = PsiNewtonFilon02 \/ psinum t = PsiNewtonFilon12 -> widths_at_least t two_dx) ->
  exists t', dc_newton L sch t = Ok t' /\ (exists Q, profile_written t Q t' (n_used t)) /\
    (forall f rho, window_method L (psinum t) = Some f -> arr t RHO = Some rho ->
       profile_written t (newton_sample L t f two_dx rho) t' (n_used t) /\ (no_obstacle L t -> clean t')).
Proof.
  intros HL V (H1 & H2 & H3 & H4 & H5 & H6) He (r0 & r1 & E0 & E1 & ->) HR Hf.
  assert (2 <= arr_size t).
  { unfold rd in E1. destruct (arr t RHO) as [l|] eqn:El; [|discriminate]. cbn [deref bind] in E1.
    destruct (proj1 H2 RHO ltac:(simpl; tauto)) as (l' & El' & Ll). apply aread_ok in E1.
    assert (l = l') by congruence. subst l'. lia. }
  destruct (newton_driver_safe L sch t HL V H1 H2 H3 H4 H5 H6 r0 r1) as (t' & Q & E & P & HQ & HC); auto.
  { destruct (psinum t); auto; apply Hf; auto. }
  exists t'. split; [exact E|]. split; [eauto|]. intros f rho Ef Er. apply newton_selected in Ef.
  rewrite (HQ f rho Ef Er) in P. split; [exact P|]. intros O. apply HC; eauto.
Qed.

Lemma interp_safe_all (L : dlib) (t : dtau) two_dx :
  max_law L -> prepared t -> start t + n_used t <= arr_size t ->
  spacing_at t (start t) two_dx -> room t two_dx (start t) (start t + n_used t) -> widths_at_least t two_dx ->
  exists t', dc_interp L t = Ok t' /\ (exists Q, profile_written t Q t' (n_used t)) /\
    (forall f, interp_method L (psinum t) = Some f ->
       profile_written t (interp_sample L t f two_dx) t' (n_used t) /\ (no_obstacle L t -> clean t')).
Proof.
  intros HL (H1 & H2 & H3 & H4 & H5 & H6) He (r0 & r1 & E0 & E1 & ->) HR Hf.
  destruct (interp_driver_safe L t H1 H2 H3 H4 H5 H6 r0 r1 He E0 E1 HR Hf) as (t' & Q & E & P & HQ & HC).
  exists t'. split; [exact E|]. split; [eauto|]. intros f Ef. apply interp_selected in Ef.
  rewrite (HQ f Ef) in P. split; [exact P|]. intros O. apply HC; eauto.
Qed.

Lemma legendre_safe_all (L : dlib) (t : dtau) two_dx :
  prepared t -> start t + n_used t <= arr_size t -> n_used t < arr_size t ->
  2 <= order t -> (forall a b, zlen (t_legendre L a b (order t)) = order t) ->
  spacing_at t (start t) two_dx -> room t two_dx (start t) (start t + n_used t) -> widths_at_least t two_dx ->
  exists t3 t', dc_legendre L t = Ok t' /\ (same_but_k t t3 \/ (failed t' /\ t3 = t)) /\
    profile_written t3 (interp_sample L t3 (legendre_step L (series_method L (order t + 1) (use_norm t))) two_dx) t' (n_used t) /\
    (no_obstacle L t -> clean t').
Proof.
  intros (H1 & H2 & H3 & H4 & H5 & H6) He Hlt Ho Hl (r0 & r1 & E0 & E1 & ->) HR Hf.
  destruct (legendre_driver_safe L t r0 r1 H1 H2 H3 H4 H5 He Hlt H6 Ho Hl E0 E1 HR Hf) as (t3 & t' & f & E & K & Ef & P & HC).
  rewrite series_selected in Ef. injection Ef as <-. eauto 10.
Qed.

Lemma fresnel_indep (L : dlib) sch sch' (t : dtau) :
  max_law L -> valid_schedule sch -> valid_schedule sch' -> prepared t -> extra_sample_fits t ->
  room t (dmul (dofZ 2) (dx t)) (start t) (start t + n_used t + 1) ->
  same_widths t (dmul (dofZ 2) (dx t)) (start t) (start t + n_used t + 1) ->
  dc_fresnel L sch t = dc_fresnel L sch' t.
Proof. intros HL V V' (H1 & H2 & H3 & H4 & H5 & H6) (He & Hx) HR Hs. apply fresnel_schedule_indep; auto. Qed.
Lemma newton_indep (L : dlib) sch sch' (t : dtau) two_dx :
  max_law L -> valid_schedule sch -> valid_schedule sch' -> prepared t -> start t + n_used t <= arr_size t ->
  spacing_at t 0 two_dx -> room t two_dx (start t) (start t + n_used t) ->
  (psinum t = PsiNewtonFilon02 \/ psinum t = PsiNewtonFilon12 -> widths_at_least t two_dx) ->
  same_windows t two_dx (start t) (start t + n_used t) ->
  dc_newton L sch t = dc_newton L sch' t.
Proof.
  intros HL V V' (H1 & H2 & H3 & H4 & H5 & H6) He (r0 & r1 & E0 & E1 & ->) HR Hf Hs.
  assert (2 <= arr_size t).
  { unfold rd in E1. destruct (arr t RHO) as [l|] eqn:El; [|discriminate]. cbn [deref bind] in E1.
    destruct (proj1 H2 RHO ltac:(simpl; tauto)) as (l' & El' & Ll). apply aread_ok in E1.
    assert (l = l') by congruence. subst l'. lia. }
  eapply newton_schedule_indep; eauto. destruct (psinum t); auto; apply Hf; auto.
Qed.

(** One window point: the quadratic quadratures read past the buffer. *)
Lemma filon_single {S} (L : tmpl S) (t : tau S) (w : @buffer S) c :
  complete t -> zlen w = 1 -> written w 1 -> 0 <= c -> c + 1 < arr_size t ->
  newton_filon02 L t w 1 c = UB OutOfBounds /\ newton_filon12 L t w 1 c = UB OutOfBounds.
Proof.
  intros HC Lw Ww Hc Hc2.
  assert (Ew : rdb w (2 * 0 + 1) = UB OutOfBounds).
  { unfold rdb, aread. rewrite Lw. reflexivity. }
  assert (Ep : pair_count 1 = 9223372036854775808) by reflexivity.
  split.
  - unfold newton_filon02. change (1 / 2) with 0. cbv zeta.
    destruct (filon_first_safe L t HC w c (c - 0) 1) as (ls & lp & l & E); auto; try lia.
    rewrite E. cbn [bind]. rewrite for_range_step by (rewrite Ep; lia).
    unfold filon02_body at 1. cbv zeta.
    destruct (pw_safe L t HC c (c - 0 + 2 * 0 + 1)) as (wt & mp & Epw); [lia|lia|]. rewrite Epw. cbn [bind].
    rewrite Ew. reflexivity.
  - unfold newton_filon12. change (1 / 2) with 0. cbv zeta.
    destruct (rd_safe t HC PHI (c - 0)) as [ph Eph]; [simpl; tauto|lia|]. rewrite Eph. cbn [bind].
    destruct (fpw_safe L t HC c (c - 0) ph) as (p & wt & psi & E); [lia|lia|]. rewrite E. cbn [bind].
    destruct (rdb_safe w 1 0) as [w0 E0]; auto; [lia|]. rewrite E0. cbn [bind].
    destruct (rdT_safe t HC (c - 0)) as [T ET]; [lia|]. rewrite ET. cbn [bind].
    rewrite for_range_step by (rewrite Ep; lia). unfold filon12_body at 1. cbv zeta.
    destruct (fpw_safe L t HC c (c - 0 + 2 * 0 + 1) p) as (p2 & wt2 & psi2 & E2); [lia|lia|]. rewrite E2. cbn [bind].
    rewrite Ew. reflexivity.
Qed.
Lemma filon_odd {S} (L : tmpl S) (t : tau S) (w : @buffer S) m c :
  complete t -> 1 <= m -> written w (2 * m + 1) -> m <= c -> c + m < arr_size t ->
  (exists v, newton_filon02 L t w (2 * m + 1) c = Ok v) /\ (exists v, newton_filon12 L t w (2 * m + 1) c = Ok v).
Proof. intros. split; [eapply filon02_safe|eapply filon12_safe]; eauto; lia. Qed.

(** Window buffers. *)
Lemma half_window_buffers {S} (L : tmpl S) (t : tau S) x w n c wc :
  width t c wc -> 0 <= n <= zlen x -> n <= zlen w ->
  (exists x' w', reset_window L t (x, w) n c = Ok (x', w') /\ zlen x' = zlen x /\ zlen w' = zlen w /\
     holds x' n (offset_x t n) /\ holds w' n (half_weight L t n wc)) /\
  (exists x' w', reset_fresnel_window L t (x, w) n c = Ok (x', w') /\ zlen x' = zlen x /\ zlen w' = zlen w /\
     holds x' n (fresnel_x t n) /\ holds w' n (half_weight L t n wc)).
Proof.
  intros Hw Hn Hn2. apply width_rd in Hw. split; [apply reset_window_ok|apply reset_fresnel_ok]; auto; lia.
Qed.
Lemma full_window_buffer {S} (L : tmpl S) (t : tau S) rho w m c wc :
  width t c wc -> arr t RHO = Some rho -> 0 <= m <= c -> c + m < zlen rho -> 2 * m + 1 <= zlen w ->
  exists w', compute_window L t w (2 * m + 1) c = Ok w' /\ zlen w' = zlen w /\
    holds w' (2 * m + 1) (full_weight L t rho c m wc).
Proof.
  intros Hw Hr Hm Hc Hl. apply width_rd in Hw. apply (compute_window_ok L t w m c wc rho); auto.
  intros k a b Hk Ea Eb. apply aread_cell in Ea. apply aread_cell in Eb. subst. reflexivity.
Qed.
(** The interpolated and Legendre modes: a resize gives buffers of exactly the new
    number of points, all of them written; otherwise the old buffers are kept. *)
Lemma resize_buffers {S} (L : tmpl S) (t : tau S) x w w_init two_dx c wc m :
  width t c wc -> scast (wc / two_dx)%S = Ok m -> 0 <= m -> (m = 0 -> t_realloc0 L = false) ->
  (sge (sabs (w_init - wc)%S) two_dx = false -> resize_half_window L t (x, w) w_init two_dx c = Ok None) /\
  (sge (sabs (w_init - wc)%S) two_dx = true ->
   (exists msg, resize_half_window L t (x, w) w_init two_dx c = Ok (Some (inr msg))) \/
   exists x' w', resize_half_window L t (x, w) w_init two_dx c = Ok (Some (inl (x', w'))) /\
     zlen x' = m /\ zlen w' = m /\ holds x' m (offset_x t m) /\ holds w' m (half_weight L t m wc)).
Proof.
  intros Hw Em Hm Hre. apply width_rd in Hw. unfold resize_half_window. rewrite Hw. cbn [bind].
  split; intros E; rewrite E; [reflexivity|]. rewrite Em. cbn [bind].
  assert (Er : (m =? 0) && t_realloc0 L = false).
  { destruct (Z.eqb_spec m 0); [rewrite Hre; auto|reflexivity]. }
  rewrite Er. destruct (negb (t_alloc L (100 + 2 * c))); [left; eauto|].
  destruct (negb (t_alloc L (101 + 2 * c))); [left; eauto|]. right. cbn [fst snd].
  destruct (reset_window_ok L t (firstn (Z.to_nat m) x ++ fresh (m - zlen x))
           (firstn (Z.to_nat m) w ++ fresh (m - zlen w)) m c wc) as (x' & w' & E' & L1 & L2 & G1 & G2);
          auto; rewrite ?(grow_len t) by lia; try lia.
  rewrite (grow_len t) in L1, L2 by lia. exists x', w'. rwc E'. auto.
Qed.

Lemma fft_safe_all (L : dlib) (t : dtau) w half :
  prepared t -> (forall l, zlen (t_fft L l) = zlen l) -> (forall l, zlen (t_ifft L l) = zlen l) ->
  width t (start t + n_used t / 2) w -> dcast (ddiv w (dx t)) = Ok half ->
  0 <= half <= start t -> start t + n_used t + half <= arr_size t ->
  exists t', dc_fft L t = Ok t' /\ profile_written t (fft_sample_value L t w half) t' (n_used t) /\
    (no_obstacle L t -> clean t').
Proof.
  intros (H1 & H2 & H3 & H4 & H5 & H6) F1 F2 Hw Hc Hh He. apply (fft_driver_value L t H1 H2 F1 F2 half w); auto.
  change (2 ^ 61) with 2305843009213693952. lia.
Qed.
