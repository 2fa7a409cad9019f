(** * Properties_Recon: dispatch, reprocessing, orientation, finishing and the
    whole reconstruction (C07, C12, C20-C24). *)
From Coq Require Import List ZArith Bool Reals String Lia Lra.
From Flocq Require Import Core IEEE754.BinarySingleNaN.
From Verif Require Import Base BaseFacts Dbl DblFacts DblArith Scalar Model_TauRec Model_Checks
  Model_Select Model_Strings Model_Transform Model_Interp Model_Recon Spec_Tau Spec_Select Spec_Safety
  Spec_Strings Spec_Recon Ref_Tmpl Ex_Tau Proof_Safe2 Proof_Recon Proof_Recon2 Proof_Recon3 Proof_Recon4
  Properties_Safety.
Import ListNotations.
Open Scope Z_scope.

(** ** C07: dispatch *)
(** The driver of each method. *)
Theorem c07_dispatch : forall (S : scalar) (L : tmpl S) (sch : schedule) (t : tau S), clean t ->
  match psinum t with
  | PsiFresnel => diffraction_correction L sch t = dc_fresnel L sch t
  | PsiLegendre => diffraction_correction L sch t = dc_legendre L t
  | PsiSimpleFFT => diffraction_correction L sch t = dc_fft L t
  | PsiNewton4 | PsiNewton8 | PsiNewton16 | PsiEllipticNewton4 | PsiEllipticNewton8 | PsiEllipticNewton16 =>
      diffraction_correction L sch t = dc_interp L t
  | PsiNone => exists m, diffraction_correction L sch t = Ok (set_err t (Some m))
  | _ => diffraction_correction L sch t = dc_newton L sch t
  end.
Proof. exact @dispatch_driver. Qed.
Print Assumptions c07_dispatch.
(** The transform each driver then uses is that of the method. *)
Theorem c07_transforms : forall (S : scalar) (L : tmpl S),
  (forall p f, select_newton L p = Ok (inl f) <-> window_method L p = Some f) /\
  (forall p f, select_interp L p = Ok (inl (Some f)) <-> interp_method L p = Some f) /\
  (forall t : tau S, aread (legendre_table L) (legendre_index t) = Ok (series_method L (order t + 1) (use_norm t))).
Proof. intros S L. split; [apply newton_selected|]. split; [apply interp_selected|apply series_selected]. Qed.
Print Assumptions c07_transforms.
(** In particular the profile of a full-window method consists of the values of
    that method's transform. *)
Theorem c07_profile_of_method : forall (L : dlib) (sch : schedule) (t : dtau) (two_dx : double) f rho,
  max_law L -> valid_schedule sch -> prepared t -> start t + n_used t <= arr_size t ->
  spacing_at t 0 two_dx -> room t two_dx (start t) (start t + n_used t) -> widths_at_least t two_dx ->
  arr t RHO = Some rho -> window_method L (psinum t) = Some f ->
  exists t', diffraction_correction L sch t = Ok t' /\
    profile_written t (newton_sample L t f two_dx rho) t' (n_used t).
Proof.
  intros L sch t two_dx f rho H1 H2 H3 H4 H5 H6 H7 Hr Hf.
  destruct (newton_safe_all L sch t two_dx H1 H2 H3 H4 H5 H6 (fun _ => H7)) as (t' & E & _ & HQ).
  destruct (HQ f rho Hf Hr) as [P _]. exists t'. split; [|exact P].
  assert (D := dispatch_driver L sch t (proj1 H3)). destruct (psinum t); try discriminate Hf; rewrite D; exact E.
Qed.
Print Assumptions c07_profile_of_method.
(** A method that is not implemented is refused and nothing else changes. *)
Theorem c07_unimplemented_refused : forall (S : scalar) (L : tmpl S) (sch : schedule) (t t' : tau S),
  clean t -> ~ implemented L (psinum t) -> diffraction_correction L sch t = Ok t' ->
  failed t' /\ same_data t t'.
Proof. exact @unimplemented. Qed.
Print Assumptions c07_unimplemented_refused.
(** Whatever name is accepted, its method is implemented. *)
Theorem c07_named_methods_implemented : forall (S : scalar) (L : tmpl S) (X : strlib) s (t t' : tau S),
  clean t -> set_psi_type L X s t = Ok t' -> clean t' ->
  implemented L (psinum t') /\ (psinum t' = PsiLegendre -> (psinum t' = psinum t /\ order t' = order t) \/ order t' <> 0).
Proof. exact @named_implemented. Qed.
Print Assumptions c07_named_methods_implemented.
Example c07_example : forall p f, window_method ref_dlib p = Some f ->
  exists t', diffraction_correction ref_dlib three_threads (ex_safe_in p 0) = Ok t' /\
    profile_written (ex_safe_in p 0) (newton_sample ref_dlib (ex_safe_in p 0) f ex_dx2 (radii 12)) t' 5.
Proof.
  intros p f Hf. apply (c07_profile_of_method ref_dlib three_threads (ex_safe_in p 0) ex_dx2 f (radii 12)).
  - exact ref_max. - exact three_threads_valid. - apply ex_prepared. - vm_compute; discriminate.
  - apply ex_spacing0.
  - destruct ex_dx2_val as [F V]. apply ex_room; [exact F|exact V|vm_compute; discriminate|vm_compute; discriminate].
  - apply ex_least. apply ex_dx2_val. - reflexivity. - exact Hf.
Qed.
Example c07_example_refused : exists t', diffraction_correction ref_dlib one_thread (ex_safe_in PsiEllipticNewton8 0) = Ok t' /\ failed t'.
Proof. apply okfailed_spec. vm_compute. reflexivity. Qed.

(** ** C12: reprocessing *)
Theorem c12_reconstruction_refused : forall (S : scalar) (L : tmpl S) (sch : schedule) (t t' : tau S) w,
  clean t -> arr t WKM = Some w -> reconstruction L sch t = Ok t' ->
  failed t' /\ T_in t' = T_in t /\ T_out t' = T_out t /\ T_fwd t' = T_fwd t /\ arr_size t' = arr_size t /\
  (forall f, ~ In f occ_reversed -> arr t' f = arr t f) /\
  (check_occ_type L t = Ok t \/ (exists m, check_occ_type L t = Ok (set_err t (Some m))) -> arr t' = arr t).
Proof. exact @refused. Qed.
Print Assumptions c12_reconstruction_refused.
(** Running the reconstruction on its own result: refused, nothing changed. *)
Theorem c12_second_run_refused : forall (L : dlib) (sch : schedule) (t t1 t2 : dtau) v,
  minmax_law L -> velocities t v -> notnan (dx t) -> (inward t -> has_sizes t occ_reversed) ->
  reconstruction L sch t = Ok t1 -> clean t1 -> reconstruction L sch t1 = Ok t2 ->
  failed t2 /\ arr t2 = arr t1 /\ T_in t2 = T_in t1 /\ T_out t2 = T_out t1 /\ T_fwd t2 = T_fwd t1 /\
  arr_size t2 = arr_size t1.
Proof. exact twice. Qed.
Print Assumptions c12_second_run_refused.
Definition ex_run : dtau := ex_vary (repeat (dofZ 2) 16).
Lemma repeat_velocities (t : dtau) z n : notnan (dofZ z) -> arr t RHODOT = Some (repeat (dofZ z) n) -> arr_size t = Z.of_nat n ->
  velocities t (repeat (dofZ z) n).
Proof.
  intros Hz E Hs. split; [exact E|]. split; [unfold zlen; rewrite repeat_length; auto|].
  intros x Hx. apply repeat_spec in Hx. subst. exact Hz.
Qed.
Example c12_second_run_example : exists t1 t2, reconstruction ref_dlib one_thread ex_run = Ok t1 /\ clean t1 /\
  reconstruction ref_dlib one_thread t1 = Ok t2 /\ failed t2 /\ arr t2 = arr t1.
Proof.
  assert (E : okclean (reconstruction ref_dlib one_thread ex_run) = true) by (vm_compute; reflexivity).
  destruct (okclean_spec _ E) as (t1 & E1 & C1).
  assert (E' : okfailed (do t1 <- reconstruction ref_dlib one_thread ex_run; reconstruction ref_dlib one_thread t1) = true)
    by (vm_compute; reflexivity).
  rewrite E1 in E'. cbn [bind] in E'. destruct (okfailed_spec _ E') as (t2 & E2 & F2).
  exists t1, t2. destruct (c12_second_run_refused ref_dlib one_thread ex_run t1 t2 (repeat (dofZ 1) 16)) as (H1 & H2 & _); auto.
  - exact ref_minmax.
  - apply repeat_velocities; reflexivity.
  - reflexivity.
  - intros H. exfalso. destruct H as [[_ H]|H]; [|discriminate H]. revert H. change (dx ex_run) with (dofZ 1). dz. lra.
Qed.
(** When the refused object holds inward data, the refusal comes after the
    arrays have been reversed. *)
Definition inward_tau (t : dtau) : dtau :=
  set_f (set_dx t (dofZ (-1))) RHODOT (Some (repeat (dofZ (-1)) 16)).
Definition first_of (r : res dtau) (f : rf) : option double :=
  match r with Ok t => match arr t f with Some l => match aread l 0 with Ok x => Some x | _ => None end | None => None end | _ => None end.
Definition test_first (r : res dtau) (f : rf) (z : Z) : bool :=
  match first_of r f with Some x => deq x (dofZ z) | None => false end.
Lemma test_first_spec r f z t : r = Ok t -> test_first r f z = true ->
  exists l x, arr t f = Some l /\ entry l 0 x /\ deq x (dofZ z) = true.
Proof.
  intros ->. unfold test_first, first_of. destruct (arr t f) as [l|]; [|discriminate].
  destruct (aread l 0) as [x|] eqn:E; [|discriminate]. intros H. exists l, x. split; auto. split; auto.
  apply Proof_Select.entry_aread. exact E.
Qed.
Theorem c12_refusal_after_reversal_refuted : exists (L : dlib) (t t' : dtau) w l l' x x',
  clean t /\ arr t WKM = Some w /\ reconstruction L one_thread t = Ok t' /\ failed t' /\
  arr t RHO = Some l /\ entry l 0 x /\ arr t' RHO = Some l' /\ entry l' 0 x' /\ x <> x'.
Proof.
  set (t := inward_tau (ex_tau 16 (Some (radii 16)) (Some (repeat (dofZ 1) 16)) (Some (repeat (dofZ 2) 16)) (dofZ 1004) (dofZ 1010) (dofZ 2))).
  assert (E : okfailed (reconstruction ref_dlib one_thread t) = true) by (vm_compute; reflexivity).
  destruct (okfailed_spec _ E) as (t' & E1 & F1).
  destruct (test_first_spec (reconstruction ref_dlib one_thread t) RHO 1015 t' E1) as (l' & x' & A & B & C).
  { vm_compute. reflexivity. }
  exists ref_dlib, t, t', (repeat (dofZ 2) 16), (radii 16), l', (dofZ 1000), x'.
  split; [reflexivity|]. split; [reflexivity|]. split; [exact E1|]. split; [exact F1|]. split; [reflexivity|].
  split; [split; [lia|reflexivity]|]. split; [exact A|]. split; [exact B|].
  intros <-. vm_compute in C. discriminate C.
Qed.
Print Assumptions c12_refusal_after_reversal_refuted.

(** ** C20, C21: orientation *)
(** Inward data with negative velocities: the geometry is reversed, velocities
    and spacing lose their sign; the input profile, the wave numbers, the Fresnel
    scales and everything else are as before. *)
Definition reversed_fields : list rf :=
  [RHO; PHI; BDEG; DKM; TOET; TRET; TSET; PHIRL; RX; RY; RZ; CPOLE; CTIM].
Theorem c20_reversal : forall (L : dlib) (t : dtau) v,
  minmax_law L -> clean t -> velocities t v -> 1 < arr_size t -> inward t -> all_negative v ->
  has_sizes t occ_reversed ->
  exists t', check_occ_type L t = Ok t' /\ clean t' /\
    (forall f, In f reversed_fields -> backwards t t' f) /\
    arr t' RHODOT = Some (map dabs (rev v)) /\ dx t' = dabs (dx t) /\
    T_in t' = T_in t /\ (forall f, In f [KV; FKM; WKM; TTHR] -> arr t' f = arr t f) /\
    start t' = start t /\ n_used t' = n_used t /\ arr_size t' = arr_size t.
Proof.
  intros L t v HL Hc Hv Hs Hi Hn Hz.
  destruct (occ_type_exact L HL t v Hc Hv (negative_notnan _ Hi) (fun _ => Hz)) as (t' & E & H).
  exists t'. split; [exact E|].
  destruct H as [(_ & O & _)|[(_ & O & _)|[(_ & _ & _ & A & -> & HR & HA & HB)|(H & _)]]].
  - exfalso. destruct (sign_cases (dx t) (negative_notnan _ Hi)) as [D|[D|D]]; unfold inward, outward in *; tauto.
  - exfalso. destruct (sign_cases (dx t) (negative_notnan _ Hi)) as [D|[D|D]]; unfold inward, outward in *; tauto.
  - split; [exact Hc|]. split.
    { intros f Hf. apply HA; [|intros ->; cbn in Hf; intuition congruence].
      cbn in Hf |- *. tauto. }
    split; [exact HR|]. split; [reflexivity|]. split; [reflexivity|]. split; [|auto].
    intros f Hf. apply HB. cbn in Hf |- *. intuition congruence.
  - exfalso. apply H. auto.
Qed.
Print Assumptions c20_reversal.
Definition ex_inward : dtau := inward_tau ex_run.
Lemma ex_inward_sizes : has_sizes ex_inward occ_reversed.
Proof. intros f Hf. cbn in Hf. repeat (destruct Hf as [<-|Hf]; [eexists; split; reflexivity|]). contradiction. Qed.
Lemma minus_one_negative : negative_number (dofZ (-1)).
Proof. left. split; [dz|]. dz. lra. Qed.
Lemma one_positive : positive_number (dofZ 1).
Proof. left. split; [dz|]. dz. lra. Qed.
Lemma ex_inward_negative : all_negative (repeat (dofZ (-1)) 16).
Proof. intros x Hx. apply repeat_spec in Hx. subst. apply minus_one_negative. Qed.
Example c20_example : exists t', check_occ_type ref_dlib ex_inward = Ok t' /\ clean t' /\
  arr t' RHO = Some (rev (radii 16)).
Proof.
  destruct (c20_reversal ref_dlib ex_inward (repeat (dofZ (-1)) 16)) as (t' & H1 & H2 & H3 & _).
  - exact ref_minmax. - reflexivity. - apply repeat_velocities; reflexivity. - reflexivity.
  - apply minus_one_negative. - apply ex_inward_negative. - apply ex_inward_sizes.
  - exists t'. split; auto. split; auto. destruct (H3 RHO) as (l & A & B); [cbn; tauto|]. injection A as <-. exact B.
Qed.
(** The samples do not stay together: radius is reversed, the profile measured at
    it and its Fresnel scale are not. *)
Theorem c20_profile_not_reversed_refuted : exists (L : dlib) (t t' : dtau) (F rho : list double) T,
  minmax_law L /\ clean t /\ check_occ_type L t = Ok t' /\ clean t' /\
  arr t RHO = Some rho /\ arr t' RHO = Some (rev rho) /\ rev rho <> rho /\
  arr t FKM = Some F /\ arr t' FKM = Some F /\ rev F <> F /\
  T_in t = Some T /\ T_in t' = Some T /\ rev T <> T.
Proof.
  set (F := map dofZ (map Z.of_nat (seq 1 16))). set (T := map (fun z => Some (dofZ z, dofZ 0)) (map Z.of_nat (seq 1 16))).
  set (t := set_T_in (inward_tau (ex_vary F)) (Some T)).
  destruct (c20_reversal ref_dlib t (repeat (dofZ (-1)) 16)) as (t' & H1 & H2 & H3 & _ & _ & HT & HF & _).
  - exact ref_minmax. - reflexivity. - apply repeat_velocities; reflexivity. - reflexivity.
  - apply minus_one_negative. - apply ex_inward_negative.
  - intros f Hf. cbn in Hf. repeat (destruct Hf as [<-|Hf]; [eexists; split; reflexivity|]). contradiction.
  - exists ref_dlib, t, t', F, (radii 16), T. split; [exact ref_minmax|]. split; [reflexivity|]. split; [exact H1|]. split; [exact H2|].
    split; [reflexivity|]. split; [destruct (H3 RHO) as (l & A & B); [cbn; tauto|]; injection A as <-; exact B|].
    split; [|split; [reflexivity|split; [apply (HF FKM); cbn; tauto|split; [|split; [reflexivity|split; [exact HT|]]]]]].
    + intros E. apply (f_equal (fun l => match l with x :: _ => deq x (dofZ 1000) | _ => true end)) in E.
      vm_compute in E. discriminate E.
    + intros E. apply (f_equal (fun l => match l with x :: _ => deq x (dofZ 1) | _ => true end)) in E.
      vm_compute in E. discriminate E.
    + intros E. apply (f_equal (fun l => match l with Some x :: _ => deq (fst x) (dofZ 1) | _ => true end)) in E.
      vm_compute in E. discriminate E.
Qed.
Print Assumptions c20_profile_not_reversed_refuted.

(** C21: acceptance, and what acceptance guarantees. *)
Theorem c21_orientation_exact : forall (L : dlib) (t : dtau) v,
  minmax_law L -> clean t -> velocities t v -> notnan (dx t) -> (inward t -> has_sizes t occ_reversed) ->
  exists t', check_occ_type L t = Ok t' /\
    (clean t' <-> 1 < arr_size t /\ ((outward t /\ (all_positive v \/ all_negative v)) \/ (inward t /\ all_negative v))) /\
    (clean t' -> outward t' /\ exists v', velocities t' v' /\ all_positive v') /\
    (failed t' -> same_data t t').
Proof.
  intros L t v HL Hc Hv Hd Hs. destruct (occ_type_exact L HL t v Hc Hv Hd Hs) as (t' & E & H). exists t'. split; [exact E|].
  assert (Hv0 := Hv). destruct Hv0 as (V1 & V2 & V3).
  assert (AP : all_negative v -> all_positive (map dabs v)).
  { intros N x Hx. apply in_map_iff in Hx. destruct Hx as (y & <- & Hy). apply abs_negative. apply N; auto. }
  assert (AR : all_negative v -> all_positive (map dabs (rev v))).
  { intros N x Hx. apply in_map_iff in Hx. destruct Hx as (y & <- & Hy). apply abs_negative. apply N. apply in_rev; auto. }
  destruct H as [(H1 & O & P & ->)|[(H1 & O & N & ->)|[(H1 & I & N & A & -> & HR & HA & HB)|(H & m & ->)]]].
  - split; [tauto|]. split; [intros _; split; eauto|]. intros F; exfalso; eapply clean_not_failed; eauto.
  - split; [split; [tauto|intros _; exact Hc]|]. split.
    + intros _. split; [exact O|]. exists (map dabs v). split; [|auto]. split; [reflexivity|].
      split; [rewrite zlen_map; exact V2|]. intros x Hx. apply positive_notnan. apply AP; auto.
    + intros F; exfalso; eapply clean_not_failed; [|exact F]; exact Hc.
  - split; [split; [tauto|intros _; exact Hc]|]. split.
    + intros _. split; [apply abs_negative; exact I|]. exists (map dabs (rev v)). split; [|auto]. split; [exact HR|].
      split; [rewrite zlen_map, zlen_rev; exact V2|]. intros x Hx. apply positive_notnan. apply AR; auto.
    + intros F; exfalso; eapply clean_not_failed; [|exact F]; exact Hc.
  - split; [split; [discriminate|contradiction]|]. split; [discriminate|]. intros _. apply Proof_Checks.same_data_set_err.
Qed.
Print Assumptions c21_orientation_exact.
Example c21_example : exists t', check_occ_type ref_dlib ex_inward = Ok t' /\ clean t' /\ outward t'.
Proof.
  destruct (c21_orientation_exact ref_dlib ex_inward (repeat (dofZ (-1)) 16)) as (t' & H1 & H2 & H3 & _).
  - exact ref_minmax. - reflexivity. - apply repeat_velocities; reflexivity. - reflexivity. - intros _; apply ex_inward_sizes.
  - exists t'. assert (C : clean t').
    { apply H2. split; [reflexivity|]. right. split; [apply minus_one_negative|apply ex_inward_negative]. }
    split; auto. split; auto. apply H3; auto.
Qed.
Example c21_example_rejected : exists t', check_occ_type ref_dlib (set_dx ex_run (dofZ (-1))) = Ok t' /\ failed t'.
Proof. apply okfailed_spec. vm_compute. reflexivity. Qed.

(** ** C22: finishing *)
Theorem c22_finish : forall (S : scalar) (L : tmpl S) (t : tau S),
  clean t -> 0 <= start t -> 0 <= n_used t -> t_alloc L 8 = true ->
  (forall f, In f aligned_fields -> exists l, arr t f = Some l /\ start t + n_used t <= zlen l) ->
  (exists T, T_in t = Some T /\ start t + n_used t <= zlen T) ->
  (exists T, T_out t = Some T /\ start t + n_used t <= zlen T) ->
  (use_fwd t = true -> exists T, T_fwd t = Some T /\ start t + n_used t <= zlen T) ->
  exists t', finish L t = Ok t' /\ clean t' /\ aligned t' /\ n_used t' = n_used t /\
    (forall f l, In f aligned_fields -> arr t f = Some l ->
       exists l', arr t' f = Some l' /\ piece l (start t) (n_used t) l') /\
    (forall T, T_in t = Some T -> exists T', T_in t' = Some T' /\ piece T (start t) (n_used t) T') /\
    (forall T, T_out t = Some T -> exists T', T_out t' = Some T' /\ piece T (start t) (n_used t) T') /\
    (forall T, use_fwd t = true -> T_fwd t = Some T -> exists T', T_fwd t' = Some T' /\ piece T (start t) (n_used t) T') /\
    (forall f, ~ In f aligned_fields -> arr t' f = arr t f).
Proof.
  intros S L t H1 H2 H3 H4 H5 H6 H7 H8. destruct (finish_total L t H1 H2 H3 H4 H5 H6 H7 H8) as [t' E].
  destruct (finish_pieces L t t' H1 H3 E) as (A1 & A2 & A3 & _ & _ & _ & A4 & A5 & A6 & A7 & A8).
  exists t'. auto 10.
Qed.
Print Assumptions c22_finish.
Example c22_example : exists t', finish ref_dlib ex_safe = Ok t' /\ aligned t' /\ arr_size t' = 5 /\
  exists l', arr t' RHO = Some l' /\ piece (radii 12) 3 5 l'.
Proof.
  destruct (c22_finish dbl_scalar ref_dlib ex_safe) as (t' & H1 & H2 & H3 & H4 & H5 & _).
  - reflexivity. - discriminate. - discriminate. - reflexivity.
  - intros f Hf. cbn in Hf. repeat (destruct Hf as [<-|Hf]; [eexists; split; [reflexivity|vm_compute; discriminate]|]). contradiction.
  - eexists; split; [reflexivity|vm_compute; discriminate].
  - eexists; split; [reflexivity|vm_compute; discriminate].
  - intros H. discriminate H.
  - exists t'. split; [exact H1|]. split; [exact H3|]. split; [rewrite (proj1 H3), H4; reflexivity|].
    apply (H5 RHO); [cbn; tauto|reflexivity].
Qed.
(** The ring-plane positions are not cut down with the rest: after a successful
    reconstruction they have the length of the input. *)
Theorem c22_positions_not_cut : forall (S : scalar) (L : tmpl S) (t t' : tau S) f,
  clean t -> 0 <= n_used t -> finish L t = Ok t' -> In f [RX; RY; RZ; TTHR] -> arr t' f = arr t f.
Proof.
  intros S L t t' f H1 H3 E Hf. destruct (finish_pieces L t t' H1 H3 E) as (_ & _ & _ & _ & _ & _ & _ & _ & _ & _ & A8).
  apply A8. cbn in Hf |- *. intuition congruence.
Qed.
Print Assumptions c22_positions_not_cut.
Definition test_len (r : res dtau) (f : rf) (n k : Z) : bool :=
  match r with Ok t => match arr t f with Some l => (zlen l =? n) && (arr_size t =? k) | None => false end | _ => false end.
Lemma test_len_spec r f n k t : r = Ok t -> test_len r f n k = true ->
  exists l, arr t f = Some l /\ zlen l = n /\ arr_size t = k.
Proof.
  intros ->. unfold test_len. destruct (arr t f) as [l|]; [|discriminate]. rewrite andb_true_iff, !Z.eqb_eq. eauto.
Qed.
Theorem c22_positions_misaligned_refuted : exists (L : dlib) (t t' : dtau) l,
  clean t /\ reconstruction L one_thread t = Ok t' /\ clean t' /\
  arr t' RX = Some l /\ zlen l <> arr_size t'.
Proof.
  assert (E : okclean (reconstruction ref_dlib one_thread ex_run) = true) by (vm_compute; reflexivity).
  destruct (okclean_spec _ E) as (t1 & E1 & C1).
  destruct (test_len_spec _ RX 16 6 t1 E1) as (l & A & B & C); [vm_compute; reflexivity|].
  exists ref_dlib, ex_run, t1, l. split; [reflexivity|]. split; [exact E1|]. split; [exact C1|]. split; [exact A|]. lia.
Qed.
Print Assumptions c22_positions_misaligned_refuted.

(** ** C23: forward modelling *)
Theorem c23_forward_keeps_inverse : forall (S : scalar) (L : tmpl S) (sch : schedule) (t t1 : tau S),
  reconstruction L sch (set_use_fwd t true) = Ok t1 -> clean t1 ->
  exists t2, reconstruction L sch (set_use_fwd t false) = Ok t2 /\ clean t2 /\ same_inverse t2 t1 /\
    (psinum t <> PsiLegendre -> arr t1 KV = arr t2 KV).
Proof. exact @forward_same_inverse. Qed.
Print Assumptions c23_forward_keeps_inverse.
Definition ex_long : dtau :=
  ex_tau 40 (Some (radii 40)) (Some (repeat (dofZ 2) 40)) None (dofZ 1004) (dofZ 1034) (dofZ 2).
Example c23_example : exists t1 t2, reconstruction ref_dlib two_threads (set_use_fwd ex_long true) = Ok t1 /\ clean t1 /\
  reconstruction ref_dlib two_threads (set_use_fwd ex_long false) = Ok t2 /\ clean t2 /\ T_out t1 = T_out t2 /\
  T_fwd t1 <> None /\ arr t1 KV = arr t2 KV.
Proof.
  assert (E : okclean (reconstruction ref_dlib two_threads (set_use_fwd ex_long true)) = true) by (vm_compute; reflexivity).
  destruct (okclean_spec _ E) as (t1 & E1 & C1).
  destruct (c23_forward_keeps_inverse _ _ _ _ _ E1 C1) as (t2 & E2 & C2 & Hs & Hk).
  exists t1, t2. split; [exact E1|]. split; [exact C1|]. split; [exact E2|]. split; [exact C2|].
  split; [apply Hs|]. split; [|apply Hk; discriminate].
  assert (H : match reconstruction ref_dlib two_threads (set_use_fwd ex_long true) with
    Ok t => match T_fwd t with Some _ => true | None => false end | _ => false end = true) by (vm_compute; reflexivity).
  rewrite E1 in H. intros Hn. rewrite Hn in H. discriminate H.
Qed.
(** Asking for the forward model can cost the inverse: with few samples the plain
    run succeeds, the forward run ends with an error, no reconstructed profile,
    and the input profile overwritten. *)
Definition cell_is (o : option (list (option (cplx dbl_scalar)))) (z : Z) : bool :=
  match o with Some (Some v :: _) => deq (cre v) (dofZ z) | _ => false end.
Definition written (o : option (list (option (cplx dbl_scalar)))) : bool :=
  match o with Some (Some _ :: _) => true | _ => false end.
Theorem c23_forward_failure_loses_refuted : exists (L : dlib) (t t1 t2 : dtau),
  reconstruction L one_thread (set_use_fwd t false) = Ok t2 /\ clean t2 /\ 0 < n_used t2 /\
  reconstruction L one_thread (set_use_fwd t true) = Ok t1 /\ failed t1 /\
  T_in t1 <> T_in t /\ T_out t1 <> T_out t2 /\ T_fwd t1 = None.
Proof.
  set (t := set_range1 ex_run (dofZ 1006)).
  assert (E : okclean (reconstruction ref_dlib one_thread (set_use_fwd t false)) = true) by (vm_compute; reflexivity).
  destruct (okclean_spec _ E) as (t2 & E2 & C2).
  assert (E' : okfailed (reconstruction ref_dlib one_thread (set_use_fwd t true)) = true) by (vm_compute; reflexivity).
  destruct (okfailed_spec _ E') as (t1 & E1 & F1).
  exists ref_dlib, t, t1, t2. split; [exact E2|]. split; [exact C2|].
  assert (H : match reconstruction ref_dlib one_thread (set_use_fwd t false) with Ok t => 0 <? n_used t | _ => false end = true)
    by (vm_compute; reflexivity).
  rewrite E2 in H. split; [apply Z.ltb_lt; exact H|]. split; [exact E1|]. split; [exact F1|].
  assert (H1 : match reconstruction ref_dlib one_thread (set_use_fwd t true) with Ok t => written (T_in t) | _ => true end = false)
    by (vm_compute; reflexivity).
  assert (H2 : match reconstruction ref_dlib one_thread (set_use_fwd t true) with Ok t => (cell_is (T_out t) 0, T_fwd t) | _ => (false, None) end = (true, None))
    by (vm_compute; reflexivity).
  assert (H3 : match reconstruction ref_dlib one_thread (set_use_fwd t false) with Ok t => cell_is (T_out t) 0 | _ => true end = false)
    by (vm_compute; reflexivity).
  rewrite E1 in H1, H2. rewrite E2 in H3. injection H2 as H2 H4.
  split; [|split; [|exact H4]].
  - intros Q. rewrite Q in H1. vm_compute in H1. discriminate H1.
  - intros Q. rewrite Q in H2. congruence.
Qed.
Print Assumptions c23_forward_failure_loses_refuted.
(** In the "fresnelN" modes the forward run leaves some wave numbers negated. *)
Theorem c23_wave_number_sign_refuted : exists (L : dlib) (t t1 t2 : dtau),
  psinum t = PsiLegendre /\ reconstruction L one_thread (set_use_fwd t true) = Ok t1 /\ clean t1 /\
  reconstruction L one_thread (set_use_fwd t false) = Ok t2 /\ clean t2 /\ arr t1 KV <> arr t2 KV.
Proof.
  set (t := set_order (set_psinum ex_long PsiLegendre) 2).
  assert (E : okclean (reconstruction ref_dlib one_thread (set_use_fwd t true)) = true) by (vm_compute; reflexivity).
  destruct (okclean_spec _ E) as (t1 & E1 & C1).
  assert (E' : okclean (reconstruction ref_dlib one_thread (set_use_fwd t false)) = true) by (vm_compute; reflexivity).
  destruct (okclean_spec _ E') as (t2 & E2 & C2).
  exists ref_dlib, t, t1, t2. split; [reflexivity|]. split; [exact E1|]. split; [exact C1|]. split; [exact E2|]. split; [exact C2|].
  destruct (test_first_spec _ KV (-1) t1 E1) as (l1 & x1 & A1 & B1 & D1); [vm_compute; reflexivity|].
  destruct (test_first_spec _ KV 1 t2 E2) as (l2 & x2 & A2 & B2 & D2); [vm_compute; reflexivity|].
  rewrite A1, A2. intros Q. injection Q as ->. destruct B1 as [_ B1], B2 as [_ B2]. rewrite B1 in B2. injection B2 as ->.
  clear -D1 D2.
  assert (H : forall x a b, deq x a = true -> deq x b = true -> dfinite a = true -> dfinite b = true -> val a = val b).
  { intros x a b Ha Hb Fa Fb. destruct (dfinite x) eqn:Fx.
    - apply deq_iff in Ha; auto. apply deq_iff in Hb; auto. unfold val; rewrite <- Ha; exact Hb.
    - exfalso. destruct x as [s|s| |s m e He]; try discriminate Fx; [|discriminate Ha]. destruct a; try discriminate Fa; destruct s; discriminate Ha. }
  assert (V := H x2 (dofZ (-1)) (dofZ 1) D1 D2 eq_refl eq_refl). rewrite (proj2 (val_dofZ (-1) ltac:(lia))), (proj2 (val_dofZ 1 ltac:(lia))) in V. apply eq_IZR in V. discriminate V.
Qed.
Print Assumptions c23_wave_number_sign_refuted.

(** ** C24: outcome of a reconstruction *)
Theorem c24_reconstruction_aligned : forall (S : scalar) (L : tmpl S) (sch : schedule) (t t' : tau S),
  reconstruction L sch t = Ok t' -> failed t' \/ (clean t' /\ aligned t').
Proof. exact @reconstruction_aligned. Qed.
Print Assumptions c24_reconstruction_aligned.
Example c24_example : exists t', reconstruction ref_dlib three_threads (set_use_fwd ex_long true) = Ok t' /\ clean t' /\
  aligned t' /\ arr_size t' = 30.
Proof.
  assert (E : okclean (reconstruction ref_dlib three_threads (set_use_fwd ex_long true)) = true) by (vm_compute; reflexivity).
  destruct (okclean_spec _ E) as (t1 & E1 & C1). exists t1. split; [exact E1|]. split; [exact C1|].
  destruct (test_len_spec _ RHO 30 30 t1 E1) as (l & A & B & C); [vm_compute; reflexivity|].
  destruct (c24_reconstruction_aligned _ _ _ _ _ E1) as [H|[_ H]]; [|auto].
  exfalso. eapply clean_not_failed; eauto.
Qed.
Example c24_example_fails : exists t', reconstruction ref_dlib one_thread (set_range1 ex_long (dofZ 2000)) = Ok t' /\ (failed t' \/ aligned t').
Proof.
  assert (E : is_ok (reconstruction ref_dlib one_thread (set_range1 ex_long (dofZ 2000))) = true) by (vm_compute; reflexivity).
  destruct (reconstruction ref_dlib one_thread (set_range1 ex_long (dofZ 2000))) as [t'|] eqn:Q; [|discriminate E].
  exists t'. split; [reflexivity|]. destruct (c24_reconstruction_aligned _ _ _ _ _ Q); tauto.
Qed.
