(** * Properties_Misc: revolution lookup, history printing, straight-edge models
    (C47-C50). *)
From Coq Require Import List ZArith Bool Reals String Lia Lra.
From Verif Require Import Base BaseFacts Dbl DblFacts Scalar Model_TauRec Model_Checks Model_Recon Model_Misc
  Ref_Tmpl Spec_Tau Spec_Select Spec_Safety Spec_Misc Ex_Tau Proof_Misc.
Import ListNotations.
Open Scope list_scope.
Open Scope Z_scope.

(** ** C47: date to revolution *)
Theorem c47_date_to_rev : forall year doy, exists r, date_to_rev year doy = Ok r /\
  match r with
  | Some s => In (year, doy, s) occultations
  | None => forall s, ~ In (year, doy, s) occultations
  end.
Proof. exact rev_correct. Qed.
Print Assumptions c47_date_to_rev.
Theorem c47_rev_of_each_event : forall year doy s,
  In (year, doy, s) occultations -> (year, doy) <> (2017, 135) -> date_to_rev year doy = Ok (Some s).
Proof. exact rev_unique. Qed.
Print Assumptions c47_rev_of_each_event.
(** Two events share the day 135 of 2017; only the first is found. *)
Theorem c47_shared_day_refuted : exists s1 s2 : string,
  In (2017, 135, s1) occultations /\ In (2017, 135, s2) occultations /\ s1 <> s2 /\ date_to_rev 2017 135 = Ok (Some s1).
Proof.
  exists "PERIO"%string, "274RI"%string. split; [|split; [|split]]; [| |discriminate|reflexivity].
  - apply (nth_error_In _ 70). reflexivity.
  - apply (nth_error_In _ 71). reflexivity.
Qed.
Print Assumptions c47_shared_day_refuted.
Example c47_example : date_to_rev 2008 254 = Ok (Some "084RI"%string) /\ date_to_rev 2008 255 = Ok None /\ date_to_rev 4294967295 254 = Ok None.
Proof. repeat split. Qed.

(** ** C48: history printing *)
Theorem c48_history_print : forall hs vs ks tv tk, table_of vs tv -> table_of ks tk ->
  history_print (Some (mkHistory (map Str hs) tv tk)) =
  Ok (header_lines hs ++ [TextLine "Input Arguments:"] ++ table_lines vs ++ [TextLine "Input Keywords:"] ++ table_lines ks).
Proof. exact history_print_ok. Qed.
Print Assumptions c48_history_print.
(** A table without terminator is read past its end. *)
Theorem c48_full_table_refuted : forall hs tv tk, (forall c, In c tv -> exists s, c = Str s) -> List.length tv = 17%nat ->
  history_print (Some (mkHistory (map Str hs) tv tk)) = UB OutOfBounds.
Proof. exact history_print_full. Qed.
Print Assumptions c48_full_table_refuted.
(** The history written for a geometry table can be printed. *)
Theorem c48_geo_history : forall env filename dep, List.length env = 6%nat ->
  history_print (Some (geo_history (map Str env) (Str filename) dep)) =
  Ok (header_lines ("1.3"%string :: env) ++ [TextLine "Input Arguments:"; PairLine "filename" filename; TextLine "Input Keywords:";
      PairLine "use_deprecated" (if dep then "True" else "False")]).
Proof.
  intros env f dep H. unfold geo_history. cbn [history_create_base h_header h_vars h_kwds].
  change (Str "1.3" :: map Str env) with (map Str ("1.3"%string :: env)).
  rewrite (history_print_ok _ [("filename", f)]%string [("use_deprecated", if dep then "True" else "False")]%string); [reflexivity| |].
  - split; [reflexivity|]. eexists. reflexivity.
  - split; [reflexivity|]. eexists. reflexivity.
Qed.
Print Assumptions c48_geo_history.
Example c48_eight_pairs : exists tb, table_of (repeat ("name", "value")%string 8) tb.
Proof. exists (flat_map (fun p => [Str (fst p); Str (snd p)]) (repeat ("name", "value")%string 8) ++ [Null]). split; [reflexivity|]. exists []. reflexivity. Qed.
Example c48_full_exists : exists tv, (forall c, In c tv -> exists s, c = Str s) /\ List.length tv = 17%nat.
Proof. exists (repeat (Str "x") 17). split; [|reflexivity]. intros c I. apply repeat_spec in I. eauto. Qed.

(** ** C49: straight edges *)
Theorem c49_right_edge : forall (t : dtau) (p : parameters dbl_scalar) (rho : list double) T,
  err t = None -> p_model p = RightEdge ->
  arr t RHO = Some rho -> zlen rho = arr_size t -> 1 <= arr_size t < two64 -> increasing rho ->
  T_in t = Some T -> zlen T = arr_size t -> finite (p_center p) ->
  (forall a, entry rho (arr_size t - 1) a -> val a <> val (p_center p)) ->
  model_right (Some t) (Some p) =
  Ok (Some (set_T_in t (Some (step_profile (S := dbl_scalar) rho (p_center p) (dofZ 0, dofZ 0) (p_opacity p, dofZ 0))))).
Proof. exact right_profile. Qed.
Print Assumptions c49_right_edge.
(** The left model continues, for an edge inside the data, with the diffraction of
    the step profile and its reconstruction. *)
Theorem c49_left_edge : forall (L : tmpl dbl_scalar) sch (t : dtau) (p : parameters dbl_scalar) (rho : list double),
  err t = None -> p_model p = LeftEdge -> complete t -> t_alloc L 33 = true ->
  arr t RHO = Some rho -> 1 <= arr_size t -> increasing rho -> finite (p_center p) ->
  (forall a, entry rho (arr_size t - 1) a -> val a <> val (p_center p)) ->
  let t1 := set_T_in (set_T_out t (Some (repeat None (Z.to_nat (arr_size t)))))
                     (Some (step_profile (S := dbl_scalar) rho (p_center p) (p_opacity p, dofZ 0) (dofZ 0, dofZ 0))) in
  model_left L sch (Some t) (Some p) =
  if existsb (fun r => dlt r (p_center p)) rho && existsb (fun r => negb (dlt r (p_center p))) rho
  then (do t' <- model_tail L sch t1; Ok (Some t')) else Ok (Some t1).
Proof. exact left_profile. Qed.
Print Assumptions c49_left_edge.
Definition ex_edge (m : model_type) (c : double) : parameters dbl_scalar := @mkParameters dbl_scalar m (dofZ 1) c.
Definition ex4 : dtau := ex_tau 4 (Some (radii 4)) (Some (repeat (dofZ 1) 4)) (Some (repeat (dofZ 1) 4)) (dofZ 1000) (dofZ 1003) (dofZ 2).
Lemma ex4_increasing : increasing (radii 4).
Proof. apply radii_increasing; lia. Qed.
Example c49_right_example : exists t', model_right (Some ex4) (Some (ex_edge RightEdge (dofZ 1001))) = Ok (Some t') /\
  T_in t' = Some [Some (dofZ 0, dofZ 0); Some (dofZ 1, dofZ 0); Some (dofZ 1, dofZ 0); Some (dofZ 1, dofZ 0)].
Proof.
  eexists. split.
  - apply (c49_right_edge ex4 (ex_edge RightEdge (dofZ 1001)) (radii 4) (repeat (Some (dofZ 1, dofZ 0)) 4)); try reflexivity; try (unfold two64; cbn; lia).
    + exact ex4_increasing.
    + intros a [_ E]. cbn in E. inversion E. cbn [p_center ex_edge]. rewrite !(fun z H => proj2 (val_dofZ z H)) by lia. apply IZR_neq. lia.
  - cbn [T_in set_T_in]. f_equal.
Qed.
Definition last_is_one (T : option (list (option (cplx dbl_scalar)))) : bool :=
  match T with Some l => match nth 3 l None with Some z => deq (fst z) (dofZ 1) | None => false end | None => false end.
(** Decreasing radii: no step. *)
Theorem c49_decreasing_refuted : exists (t : dtau) (p : parameters dbl_scalar) (rho : list double) t',
  arr t RHO = Some rho /\ p_model p = RightEdge /\ err t = None /\ model_right (Some t) (Some p) = Ok (Some t') /\
  T_in t' <> Some (step_profile (S := dbl_scalar) rho (p_center p) (dofZ 0, dofZ 0) (p_opacity p, dofZ 0)).
Proof.
  pose (rho := zs [1003; 1002; 1001; 1000]).
  pose (t := ex_tau 4 (Some rho) (Some (repeat (dofZ 1) 4)) None (dofZ 1000) (dofZ 1003) (dofZ 2)).
  exists t, (ex_edge RightEdge (dofZ 1002)), rho. eexists.
  split; [reflexivity|]. split; [reflexivity|]. split; [reflexivity|]. split.
  - unfold model_right, guarded. cbn [err t ex_tau p_model ex_edge model_eqb negb].
    rewrite (edge_before t rho (dofZ 1003) (repeat (Some (dofZ 1, dofZ 0)) 4)); [reflexivity|reflexivity|reflexivity|cbn; lia|reflexivity|reflexivity|].
    vm_compute. reflexivity.
  - cbn [T_in set_T_in]. intros E. apply (f_equal last_is_one) in E. vm_compute in E. discriminate.
Qed.
Print Assumptions c49_decreasing_refuted.
(** A sample exactly at the edge counts as right of it, except the last one. *)
Theorem c49_edge_at_end_refuted : exists (t : dtau) (p : parameters dbl_scalar) (rho : list double) t',
  arr t RHO = Some rho /\ increasing rho /\ p_model p = RightEdge /\ err t = None /\ model_right (Some t) (Some p) = Ok (Some t') /\
  T_in t' <> Some (step_profile (S := dbl_scalar) rho (p_center p) (dofZ 0, dofZ 0) (p_opacity p, dofZ 0)).
Proof.
  exists ex4, (ex_edge RightEdge (dofZ 1003)), (radii 4). eexists.
  split; [reflexivity|]. split; [exact ex4_increasing|]. split; [reflexivity|]. split; [reflexivity|]. split.
  - unfold model_right, guarded. cbn [err ex4 ex_tau p_model ex_edge model_eqb negb].
    rewrite (edge_after ex4 (radii 4) (dofZ 1000) (dofZ 1003) (repeat (Some (dofZ 1, dofZ 0)) 4));
      [reflexivity|reflexivity|reflexivity|unfold two64; cbn; lia|reflexivity|reflexivity|reflexivity| |]; vm_compute; reflexivity.
  - cbn [T_in set_T_in]. intros E. apply (f_equal last_is_one) in E. vm_compute in E. discriminate.
Qed.
Print Assumptions c49_edge_at_end_refuted.
(** For an edge outside the data the left model computes no diffraction: the
    output profile it allocates is never written. *)
Theorem c49_left_outside_refuted : forall (L : tmpl dbl_scalar) sch, t_alloc L 33 = true ->
  exists (t : dtau) p t', p_model p = LeftEdge /\ err t = None /\ complete t /\
  model_left L sch (Some t) (Some p) = Ok (Some t') /\ err t' = None /\ T_out t' = Some [None; None; None; None].
Proof.
  intros L sch HA. exists ex4, (ex_edge LeftEdge (dofZ 1)). eexists.
  assert (CC : complete ex4).
  { split; [|split; [|split; [|split; [reflexivity|reflexivity]]]].
    - intros f I. cbn in I. repeat (destruct I as [<-|I]; [eexists; split; reflexivity|]). contradiction.
    - eexists. split; [reflexivity|]. split; [reflexivity|]. intros c I. cbn in I. intuition congruence.
    - eexists. split; reflexivity. }
  split; [reflexivity|]. split; [reflexivity|]. split; [exact CC|]. split; [|split; [|]].
  - rewrite (c49_left_edge L sch ex4 (ex_edge LeftEdge (dofZ 1)) (radii 4)); try reflexivity; try exact HA; try exact CC; try (unfold two64; cbn; lia).
    + exact ex4_increasing.
    + intros a [_ E]. cbn in E. inversion E. cbn [p_center ex_edge]. rewrite !(fun z H => proj2 (val_dofZ z H)) by lia. apply IZR_neq. lia.
  - reflexivity.
  - reflexivity.
Qed.
Print Assumptions c49_left_outside_refuted.

(** ** C50: model types *)
Theorem c50_left_type : forall (S : scalar) (L : tmpl S) sch (t : tau S) p, err t = None ->
  (forall q, p = Some q -> p_model q <> LeftEdge) ->
  exists t', model_left L sch (Some t) p = Ok (Some t') /\ failed t' /\ same_data t t'.
Proof.
  intros S L sch t p HE H. destruct (left_refused L sch t p HE H) as (m & E & _). eexists. split; [exact E|]. split; [eexists; reflexivity|].
  repeat split.
Qed.
Print Assumptions c50_left_type.
Theorem c50_right_type : forall (S : scalar) (t : tau S) p, err t = None ->
  (forall q, p = Some q -> p_model q <> RightEdge) ->
  exists t', model_right (Some t) p = Ok (Some t') /\ failed t' /\ same_data t t'.
Proof.
  intros S t p HE H. destruct (right_refused t p HE H) as (m & E). eexists. split; [exact E|]. split; [eexists; reflexivity|].
  repeat split.
Qed.
Print Assumptions c50_right_type.
(** The sine-wave model refuses its own type, and runs when asked for a left
    edge. *)
Theorem c50_sine_refuted : forall (S : scalar) (L : tmpl S) sch (t : tau S) p, err t = None -> p_model p = SineWave ->
  exists t', model_sine L sch (Some t) (Some p) = Ok (Some t') /\ failed t' /\ same_data t t'.
Proof.
  intros S L sch t p HE H. destruct (left_refused L sch t (Some p) HE) as (m & _ & E); [intros q [= <-]; congruence|].
  eexists. split; [exact E|]. split; [eexists; reflexivity|]. repeat split.
Qed.
Print Assumptions c50_sine_refuted.
Theorem c50_sine_as_left_edge : forall (S : scalar) (L : tmpl S) sch (t : tau S) p (rho : list S),
  err t = None -> p_model p = LeftEdge -> complete t -> t_alloc L 33 = true -> arr t RHO = Some rho -> 1 <= arr_size t ->
  let wave r := let y := t_sin L (sofZ 3 * (r - p_center p))%S in Some (y * y, s0)%S in
  model_sine L sch (Some t) (Some p) =
  (do t' <- model_tail L sch (set_T_in (set_T_out t (Some (repeat None (Z.to_nat (arr_size t))))) (Some (map wave rho))); Ok (Some t')).
Proof. exact @sine_profile. Qed.
Print Assumptions c50_sine_as_left_edge.
Example c50_example : exists t', model_right (Some ex4) (Some (ex_edge LeftEdge (dofZ 1001))) = Ok (Some t') /\ failed t'.
Proof. destruct (c50_right_type _ ex4 (Some (ex_edge LeftEdge (dofZ 1001))) eq_refl) as (t' & E & F & _); [intros q [= <-]; discriminate|]. eauto. Qed.
