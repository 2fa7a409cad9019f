(** * Properties_Select: window selection (C08-C12). *)
From Coq Require Import List ZArith Bool Reals String Lia Lra.
From Flocq Require Import Core IEEE754.BinarySingleNaN.
From Verif Require Import Base BaseFacts Dbl DblFacts Scalar Model_TauRec
  Model_Select Spec_Tau Spec_Select Ref_Tmpl Proof_Select Ex_Tau.
Import ListNotations.
Open Scope Z_scope.

(** Ten samples at radii 1000..1009, request 1..400000, resolution 2 km, Fresnel
    scale 1/2 km: widths 1/4 km. *)
Definition ex_sel : dtau :=
  ex_tau 10 (Some (radii 10)) (Some (repeat (dfrac 1 2) 10)) None (dofZ 1) (dofZ 400000) (dofZ 2).
(** The same with one sample in the middle (index 5) of Fresnel scale 4 km. *)
Definition ex_bump : dtau :=
  set_f ex_sel FKM (Some (qs [(1,2);(1,2);(1,2);(1,2);(1,2);(4,1);(1,2);(1,2);(1,2);(1,2)])).
Lemma ex_sel_ready : ready ex_sel (radii 10).
Proof.
  split; [reflexivity|]. split; [reflexivity|]. split; [reflexivity|].
  split; [vm_compute; split; [discriminate|reflexivity]|].
  split; [apply radii_increasing; lia|]. split; reflexivity.
Qed.
Lemma ex_bump_ready : ready ex_bump (radii 10).
Proof.
  split; [reflexivity|]. split; [reflexivity|]. split; [reflexivity|].
  split; [vm_compute; split; [discriminate|reflexivity]|].
  split; [apply radii_increasing; lia|]. split; reflexivity.
Qed.
(** The widths of a processed object and its selection, for evaluation. *)
Definition widths_of (r : res dtau) : list double :=
  match r with Ok t => match arr t WKM with Some w => w | None => [] end | _ => [] end.
Definition sel_of (r : res dtau) : Z * Z :=
  match r with Ok t => (start t, n_used t) | _ => (-1, -1) end.
Lemma run_spec (r : res dtau) :
  okclean r = true ->
  match r with Ok t => match arr t WKM with Some _ => true | None => false end | _ => false end = true ->
  exists t', r = Ok t' /\ clean t' /\ arr t' WKM = Some (widths_of r) /\
    start t' = fst (sel_of r) /\ n_used t' = snd (sel_of r).
Proof.
  intros H1 H2. destruct (okclean_spec _ H1) as (t' & -> & Hc). exists t'.
  split; auto. split; auto. simpl in *. destruct (arr t' WKM); [auto|discriminate].
Qed.
Lemma ex_sel_run : exists t', get_window_width ref_dlib ex_sel = Ok t' /\ clean t' /\
  arr t' WKM = Some (widths_of (get_window_width ref_dlib ex_sel)) /\ start t' = 1 /\ n_used t' = 7.
Proof.
  destruct (run_spec (get_window_width ref_dlib ex_sel)) as (t' & H1 & H2 & H3 & H4 & H5);
    [vm_compute; reflexivity|vm_compute; reflexivity|].
  exists t'. split; [exact H1|]. split; [exact H2|]. split; [exact H3|].
  rewrite H4, H5. vm_compute. split; reflexivity.
Qed.
Lemma ex_sel_edges :
  edges_increase ex_sel (radii 10) (widths_of (get_window_width ref_dlib ex_sel)).
Proof. apply edge_test_spec. vm_compute. reflexivity. Qed.

(** ** C08 *)
Theorem c08_selected_inside : forall (L : dlib) (t t' : dtau) (rho : list double),
  ready t rho -> get_window_width L t = Ok t' -> clean t' ->
  0 <= start t' /\ 0 <= n_used t' /\ start t' + n_used t' <= arr_size t /\
  forall i, selected t' i -> exists a, entry rho i a /\
    (val (range0 t) <= val a <= val (range1 t))%R.
Proof. exact selection_inside. Qed.
Print Assumptions c08_selected_inside.
(** Seven samples, from the second on, are selected. *)
Example c08_case : ready ex_sel (radii 10) /\
  exists t', get_window_width ref_dlib ex_sel = Ok t' /\ clean t' /\ start t' = 1 /\ n_used t' = 7.
Proof.
  split; [exact ex_sel_ready|]. destruct ex_sel_run as (t' & H1 & H2 & _ & H3). exists t'; auto.
Qed.

(** ** C09 *)
Theorem c09_windows_fit : forall (L : dlib) (t t' : dtau) (rho w : list double),
  ready t rho -> get_window_width L t = Ok t' -> clean t' -> arr t' WKM = Some w ->
  edges_increase t rho w ->
  forall i, selected t' i -> exists a x lo hi,
    entry rho i a /\ entry w i x /\ entry rho 0 lo /\ entry rho (arr_size t - 1) hi /\
    (finite x -> fits lo hi a x).
Proof. exact selection_fits. Qed.
Print Assumptions c09_windows_fit.
Example c09_case : ready ex_sel (radii 10) /\
  exists t' w, get_window_width ref_dlib ex_sel = Ok t' /\ clean t' /\ arr t' WKM = Some w /\
    edges_increase ex_sel (radii 10) w /\ selected t' 4.
Proof.
  split; [exact ex_sel_ready|]. destruct ex_sel_run as (t' & H1 & H2 & H3 & H4 & H5).
  eexists t', _. split; [exact H1|]. split; [exact H2|]. split; [exact H3|].
  split; [exact ex_sel_edges|]. unfold selected. rewrite H4, H5. lia.
Qed.
(** Without the condition on the window edges the property is false of the code:
    a wide window in the middle of the request is selected although it reaches
    beyond both ends of the data. *)
Theorem c09_wide_window_selected_refuted : exists (t t' : dtau) (rho w : list double) i a x lo hi,
  ready t rho /\ get_window_width ref_dlib t = Ok t' /\ clean t' /\ arr t' WKM = Some w /\
  selected t' i /\ entry rho i a /\ entry w i x /\ entry rho 0 lo /\
  entry rho (arr_size t - 1) hi /\ finite x /\
  (val a - val x / 2 < val lo /\ val hi < val a + val x / 2)%R.
Proof.
  destruct (run_spec (get_window_width ref_dlib ex_bump)) as (t' & H1 & H2 & H3 & H4 & H5);
    [vm_compute; reflexivity|vm_compute; reflexivity|].
  assert (E : deq (nth 5 (widths_of (get_window_width ref_dlib ex_bump)) dNaN) (dofZ 16) = true)
    by (vm_compute; reflexivity).
  set (r := get_window_width ref_dlib ex_bump) in *.
  exists ex_bump, t', (radii 10), (widths_of r), 5, (dofZ 1005), (nth 5 (widths_of r) dNaN),
    (dofZ 1000), (dofZ 1009).
  assert (F : finite (nth 5 (widths_of r) dNaN)) by (vm_compute; reflexivity).
  split; [exact ex_bump_ready|]. split; [exact H1|]. split; [exact H2|]. split; [exact H3|].
  split. { unfold selected. rewrite H4, H5. vm_compute. split; [discriminate|reflexivity]. }
  split. { split; [lia|reflexivity]. }
  split. { split; [lia|]. apply nth_error_nth'. apply Nat.leb_le. vm_compute. reflexivity. }
  split. { split; [lia|reflexivity]. }
  split. { split; [vm_compute; discriminate|reflexivity]. }
  split; [exact F|].
  revert E F. generalize (nth 5 (widths_of r) dNaN). clear. intros x E F.
  apply (proj1 (deq_iff x (dofZ 16) F (proj1 (val_dofZ 16 ltac:(lia))))) in E.
  change (val x = val (dofZ 16)) in E. rewrite E.
  repeat dz. lra.
Qed.
Print Assumptions c09_wide_window_selected_refuted.

(** ** C10 *)
Theorem c10_selection_exact : forall (L : dlib) (t t' : dtau) (rho w : list double),
  ready t rho -> get_window_width L t = Ok t' -> clean t' -> arr t' WKM = Some w ->
  edges_increase t rho w ->
  forall i, selected t' i <->
    admissible t rho w i /\ exists j, i < j /\ admissible t rho w j.
Proof. exact selection_exact. Qed.
Print Assumptions c10_selection_exact.
(** The last admissible sample is dropped. *)
Theorem c10_last_dropped_refuted : exists (t t' : dtau) (rho w : list double) i,
  ready t rho /\ get_window_width ref_dlib t = Ok t' /\ clean t' /\ arr t' WKM = Some w /\
  edges_increase t rho w /\ admissible t rho w i /\ ~ selected t' i.
Proof.
  destruct ex_sel_run as (t' & H1 & H2 & H3 & H4 & H5).
  set (r := get_window_width ref_dlib ex_sel) in *.
  exists ex_sel, t', (radii 10), (widths_of r), 8.
  split; [exact ex_sel_ready|]. split; [exact H1|]. split; [exact H2|]. split; [exact H3|].
  split; [exact ex_sel_edges|]. split; [|unfold selected; rewrite H4, H5; lia].
  exists (dofZ 1008), (nth 8 (widths_of r) dNaN), (dofZ 1000), (dofZ 1009).
  split. { split; [split; [lia|reflexivity]|]. split.
    - split; [lia|]. apply nth_error_nth'. apply Nat.leb_le. vm_compute. reflexivity.
    - change (range0 ex_sel) with (dofZ 1). change (range1 ex_sel) with (dofZ 400000).
      repeat dz. lra. }
  split. { split; [lia|reflexivity]. }
  split. { split; [vm_compute; discriminate|reflexivity]. }
  split; vm_compute; reflexivity.
Qed.
Print Assumptions c10_last_dropped_refuted.

(** ** C11 *)
Theorem c11_widths_plain : forall (L : dlib) (t t' : dtau) (rho w Fk : list double),
  ready t rho -> get_window_width L t = Ok t' -> clean t' -> arr t' WKM = Some w ->
  bfac t = false -> arr t FKM = Some Fk ->
  zlen w = arr_size t /\
  forall i a, entry rho i a -> exists x, entry w i x /\
    ((val (range0 t) <= val a <= val (range1 t))%R ->
       exists F, entry Fk i F /\ x = plain_width F (normeq t) (reso t)) /\
    (~ (val (range0 t) <= val a <= val (range1 t))%R -> x = dofZ 0).
Proof. exact widths_plain. Qed.
Print Assumptions c11_widths_plain.
Example c11_plain_case : ready ex_sel (radii 10) /\ bfac ex_sel = false /\
  exists t' w, get_window_width ref_dlib ex_sel = Ok t' /\ clean t' /\ arr t' WKM = Some w.
Proof.
  split; [exact ex_sel_ready|]. split; [reflexivity|].
  destruct ex_sel_run as (t' & H1 & H2 & H3 & _). eauto.
Qed.
Theorem c11_widths_bfac : forall (L : dlib) (t t' : dtau) (rho w Fk kv rd : list double),
  ready t rho -> get_window_width L t = Ok t' -> clean t' -> arr t' WKM = Some w ->
  bfac t = true -> arr t FKM = Some Fk -> arr t KV = Some kv -> arr t RHODOT = Some rd ->
  (forall a, entry rho 0 a -> (val (range0 t) <= val a)%R) ->
  (forall i a F k v, entry rho i a -> (val a <= val (range1 t))%R ->
     entry Fk i F -> entry kv i k -> entry rd i v ->
     dlt (dofZ 1) (bfac_P F k v (sigma t) (reso t)) = true) ->
  forall i a, entry rho i a -> (val a <= val (range1 t))%R ->
    exists x F k v, entry w i x /\ entry Fk i F /\ entry kv i k /\ entry rd i v /\
      x = bfac_width (t_resinv L) F k v (sigma t) (normeq t) (reso t).
Proof. exact widths_bfac. Qed.
Print Assumptions c11_widths_bfac.

(** When the request starts at sample [s]: the width of sample [i] follows from its
    own Fresnel scale and wave number and from the velocity of sample [i - s]. *)
Theorem c11_widths_bfac_offset : forall (L : dlib) (t t' : dtau) (rho w Fk kv rd : list double) (s : Z),
  ready t rho -> get_window_width L t = Ok t' -> clean t' -> arr t' WKM = Some w ->
  bfac t = true -> arr t FKM = Some Fk -> arr t KV = Some kv -> arr t RHODOT = Some rd ->
  0 <= s ->
  (forall i a, i < s -> entry rho i a -> (val a < val (range0 t))%R) ->
  (forall a, entry rho s a -> (val (range0 t) <= val a)%R) ->
  (forall i a F k v, s <= i -> entry rho i a -> (val a <= val (range1 t))%R ->
     entry Fk i F -> entry kv i k -> entry rd (i - s) v ->
     dlt (dofZ 1) (bfac_P F k v (sigma t) (reso t)) = true) ->
  forall i a, s <= i -> entry rho i a -> (val a <= val (range1 t))%R ->
    exists x F k v, entry w i x /\ entry Fk i F /\ entry kv i k /\ entry rd (i - s) v /\
      x = bfac_width (t_resinv L) F k v (sigma t) (normeq t) (reso t).
Proof. exact widths_bfac_from. Qed.
Print Assumptions c11_widths_bfac_offset.

(** Ten samples, F = 1, Allan deviation such that c k sigma is about 1, and
    velocities 1/2 (first five) and 3/5. *)
Definition ex_v : list double := qs [(1,2);(1,2);(1,2);(1,2);(1,2);(3,5);(3,5);(3,5);(3,5);(3,5)].
Definition ex_bfac (lo : Z) (F v : list double) : dtau :=
  set_f (set_f (set_range0 (set_sigma (set_bfac ex_sel true) (dfrac 1 299792)) (dofZ lo))
    FKM (Some F)) RHODOT (Some v).
Lemma ex_bfac_ready lo F v : Z.abs lo <= 9007199254740992 -> ready (ex_bfac lo F v) (radii 10).
Proof.
  intros H. split; [reflexivity|]. split; [reflexivity|]. split; [reflexivity|].
  split; [vm_compute; split; [discriminate|reflexivity]|].
  split; [apply radii_increasing; lia|]. split; [apply (val_dofZ lo H)|reflexivity].
Qed.
Lemma repeat_entry {A} (a b : A) n i : entry (repeat a n) i b -> b = a.
Proof. intros [_ H]. apply nth_error_In, repeat_spec in H. exact H. Qed.
Lemma ex_v_entry i v : entry ex_v i v -> v = dfrac 1 2 \/ v = dfrac 3 5.
Proof.
  intros [_ H]. apply nth_error_In in H. unfold ex_v, qs in H. simpl map in H.
  repeat (destruct H as [H|H]; [subst v; auto|]). contradiction.
Qed.
Example c11_bfac_case :
  let t := ex_bfac 1 (repeat (dofZ 1) 10) ex_v in
  ready t (radii 10) /\ bfac t = true /\
  (exists t' w, get_window_width ref_dlib t = Ok t' /\ clean t' /\ arr t' WKM = Some w) /\
  (forall a, entry (radii 10) 0 a -> (val (range0 t) <= val a)%R) /\
  (forall F k v, In F (repeat (dofZ 1) 10) -> In k (repeat (dofZ 1) 10) -> In v ex_v ->
     dlt (dofZ 1) (bfac_P F k v (sigma t) (reso t)) = true).
Proof.
  cbv zeta. split; [apply ex_bfac_ready; lia|]. split; [reflexivity|]. split.
  { destruct (run_spec (get_window_width ref_dlib (ex_bfac 1 (repeat (dofZ 1) 10) ex_v)))
      as (t' & H1 & H2 & H3 & _); [vm_compute; reflexivity|vm_compute; reflexivity|]. eexists t', _. split; [exact H1|]. split; [exact H2|exact H3]. }
  split.
  { intros a Ha. apply radii_entry in Ha; [|lia]. destruct Ha as [Ha0 ->].
    change (range0 _) with (dofZ 1). repeat dz. apply IZR_le. lia. }
  intros F k v HF Hk Hv. apply repeat_spec in HF, Hk. subst F k.
  assert (E : v = dfrac 1 2 \/ v = dfrac 3 5).
  { apply In_nth_error in Hv. destruct Hv as [n Hn]. apply (ex_v_entry (Z.of_nat n)).
    split; [lia|rewrite Nat2Z.id; auto]. }
  destruct E as [-> | ->]; vm_compute; reflexivity.
Qed.
Example c11_bfac_offset_case :
  let t := ex_bfac 1003 (repeat (dofZ 1) 10) ex_v in
  ready t (radii 10) /\ bfac t = true /\
  (exists t' w, get_window_width ref_dlib t = Ok t' /\ clean t' /\ arr t' WKM = Some w) /\
  (forall i a, i < 3 -> entry (radii 10) i a -> (val a < val (range0 t))%R) /\
  (forall a, entry (radii 10) 3 a -> (val (range0 t) <= val a)%R) /\
  (forall F k v, In F (repeat (dofZ 1) 10) -> In k (repeat (dofZ 1) 10) -> In v ex_v ->
     dlt (dofZ 1) (bfac_P F k v (sigma t) (reso t)) = true).
Proof.
  cbv zeta. split; [apply ex_bfac_ready; lia|]. split; [reflexivity|]. split.
  { destruct (run_spec (get_window_width ref_dlib (ex_bfac 1003 (repeat (dofZ 1) 10) ex_v)))
      as (t' & H1 & H2 & H3 & _); [vm_compute; reflexivity|vm_compute; reflexivity|]. eexists t', _. split; [exact H1|]. split; [exact H2|exact H3]. }
  split.
  { intros i a Hi Ha. apply radii_entry in Ha; [|lia]. destruct Ha as [Ha0 ->].
    change (range0 _) with (dofZ 1003). repeat dz. apply IZR_lt. lia. }
  split.
  { intros a Ha. apply radii_entry in Ha; [|lia]. destruct Ha as [Ha0 ->].
    change (range0 _) with (dofZ 1003). repeat dz. apply IZR_le. lia. }
  exact (proj2 (proj2 (proj2 (proj2 c11_bfac_case)))).
Qed.
(** A request that starts at the fourth sample: the sixth sample gets a width
    computed from the velocity of the third. *)
Theorem c11_velocity_index_refuted : exists (t t' : dtau) (rho w Fk kv rd : list double) i x F k v,
  ready t rho /\ get_window_width ref_dlib t = Ok t' /\ clean t' /\ arr t' WKM = Some w /\
  bfac t = true /\ arr t FKM = Some Fk /\ arr t KV = Some kv /\ arr t RHODOT = Some rd /\
  selected t' i /\ entry w i x /\ entry Fk i F /\ entry kv i k /\ entry rd i v /\
  x <> bfac_width (t_resinv ref_dlib) F k v (sigma t) (normeq t) (reso t).
Proof.
  set (t := ex_bfac 1003 (repeat (dofZ 1) 10) ex_v).
  destruct (run_spec (get_window_width ref_dlib t)) as (t' & H1 & H2 & H3 & H4 & H5);
    [vm_compute; reflexivity|vm_compute; reflexivity|].
  set (r := get_window_width ref_dlib t) in *.
  exists t, t', (radii 10), (widths_of r), (repeat (dofZ 1) 10), (repeat (dofZ 1) 10), ex_v, 5,
    (nth 5 (widths_of r) dNaN), (dofZ 1), (dofZ 1), (dfrac 3 5).
  split; [apply ex_bfac_ready; lia|]. split; [exact H1|]. split; [exact H2|]. split; [exact H3|].
  split; [reflexivity|]. split; [reflexivity|]. split; [reflexivity|]. split; [reflexivity|].
  split. { unfold selected. rewrite H4, H5. vm_compute. split; [discriminate|reflexivity]. }
  split. { split; [lia|]. apply nth_error_nth'. apply Nat.leb_le. vm_compute. reflexivity. }
  split; [split; [lia|reflexivity]|]. split; [split; [lia|reflexivity]|].
  split; [split; [lia|reflexivity]|].
  apply deq_false_neq; vm_compute; reflexivity.
Qed.
Print Assumptions c11_velocity_index_refuted.
(** A request from the first sample on, whose first sample cannot reach the
    resolution (P <= 1): the later widths are divided by the wrong parameter. *)
Theorem c11_parameter_index_refuted : exists (t t' : dtau) (rho w Fk kv rd : list double) i x F k v,
  ready t rho /\ get_window_width ref_dlib t = Ok t' /\ clean t' /\ arr t' WKM = Some w /\
  bfac t = true /\ arr t FKM = Some Fk /\ arr t KV = Some kv /\ arr t RHODOT = Some rd /\
  (forall a, entry rho 0 a -> (val (range0 t) <= val a)%R) /\
  selected t' i /\ entry w i x /\ entry Fk i F /\ entry kv i k /\ entry rd i v /\
  x <> bfac_width (t_resinv ref_dlib) F k v (sigma t) (normeq t) (reso t).
Proof.
  set (t := ex_bfac 1 (dofZ 2 :: repeat (dofZ 1) 9) ex_v).
  destruct (run_spec (get_window_width ref_dlib t)) as (t' & H1 & H2 & H3 & H4 & H5);
    [vm_compute; reflexivity|vm_compute; reflexivity|].
  set (r := get_window_width ref_dlib t) in *.
  exists t, t', (radii 10), (widths_of r), (dofZ 2 :: repeat (dofZ 1) 9), (repeat (dofZ 1) 10), ex_v, 5,
    (nth 5 (widths_of r) dNaN), (dofZ 1), (dofZ 1), (dfrac 3 5).
  split; [apply ex_bfac_ready; lia|]. split; [exact H1|]. split; [exact H2|]. split; [exact H3|].
  split; [reflexivity|]. split; [reflexivity|]. split; [reflexivity|]. split; [reflexivity|].
  split. { intros a Ha. apply radii_entry in Ha; [|lia]. destruct Ha as [Ha0 ->].
    change (range0 t) with (dofZ 1). repeat dz. apply IZR_le. lia. }
  split. { unfold selected. rewrite H4, H5. vm_compute. split; [discriminate|reflexivity]. }
  split. { split; [lia|]. apply nth_error_nth'. apply Nat.leb_le. vm_compute. reflexivity. }
  split; [split; [lia|reflexivity]|]. split; [split; [lia|reflexivity]|].
  split; [split; [lia|reflexivity]|].
  apply deq_false_neq; vm_compute; reflexivity.
Qed.
Print Assumptions c11_parameter_index_refuted.

(** ** C12 *)
Theorem c12_reprocessing_refused : forall (L : dlib) (t t' : dtau) (w : list double),
  clean t -> arr t WKM = Some w -> get_window_width L t = Ok t' ->
  failed t' /\ arr t' = arr t /\ T_in t' = T_in t /\ T_out t' = T_out t /\
  T_fwd t' = T_fwd t /\ arr_size t' = arr_size t.
Proof. exact reprocess_refused. Qed.
Print Assumptions c12_reprocessing_refused.
Theorem c12_reprocessing_defined : forall (L : dlib) (t : dtau) (rho w : list double),
  ready t rho -> arr t WKM = Some w -> exists t', get_window_width L t = Ok t'.
Proof. exact reprocess_total. Qed.
Print Assumptions c12_reprocessing_defined.
Example c12_case : exists t t', get_window_width ref_dlib ex_sel = Ok t /\ clean t /\
  (exists w, arr t WKM = Some w) /\ get_window_width ref_dlib t = Ok t' /\ failed t'.
Proof.
  destruct ex_sel_run as (t & H1 & H2 & H3 & H4 & H5).
  assert (E : okfailed (do t <- get_window_width ref_dlib ex_sel; get_window_width ref_dlib t) = true)
    by (vm_compute; reflexivity).
  rewrite H1 in E. cbn [bind] in E. destruct (okfailed_spec _ E) as (t' & E1 & E2).
  exists t, t'. eauto 10.
Qed.
