(** * Properties_Create: creating and destroying tau objects (C44-C46).
    Each theorem is followed by its assumptions and by a concrete case. *)
From Coq Require Import List ZArith Bool Reals String Lia Lra.
From Verif Require Import Base BaseFacts Dbl DblFacts Scalar Model_TauRec Model_Checks Model_Heap Model_Csv
  Model_CsvData Spec_Tau Spec_Select Spec_Csv Model_Create Spec_Create Ref_Tmpl Ex_Tau Ex_Csv
  Proof_Create4.
Import ListNotations.
Open Scope list_scope.
Open Scope Z_scope.

(** ** C44 *)
(** Input that can be used, with memory: the object carries exactly the data of the
    input (see [made_from]) and the documented default parameters. *)
Theorem c44_creation : forall (S : scalar) (L : tmpl S) (C : createlib S) (d : dlp S) (res : S) (h : heap),
  usable d -> sle res s0 = false -> good_heap h ->
  k_obj C = true -> (forall m, In m allocated_members -> k_mem C m = true) ->
  exists o h1 t, create_from_dlp L C (Some d) res h = Ok (Some o, h1) /\ view o = Ok t /\
    made_from C d res t /\ default_parameters L t.
Proof. intros S. exact (@creation S). Qed.
Print Assumptions c44_creation.

(** Doubles: it is free of errors exactly if the geometry is usable (C02). *)
Theorem c44_accepted : forall L : dlib, minmax_law L -> min_law L ->
  forall (C : createlib dbl_scalar) (d : dlp dbl_scalar) (res : double) (h : heap),
  usable d -> notnan res -> dle res (dofZ 0) = false -> good_heap h ->
  (forall g, In g [dPHI; dB; dD; dRHO] -> samples_are d g notnan) ->
  k_obj C = true -> (forall m, In m allocated_members -> k_mem C m = true) ->
  exists o h1 t, create_from_dlp L C (Some d) res h = Ok (Some o, h1) /\ view o = Ok t /\
    made_from C d res t /\ (clean t <-> input_geometry_ok d res).
Proof. exact acceptance. Qed.
Print Assumptions c44_accepted.

(** Input that cannot be used: an object with the error flag set and no array. *)
Theorem c44_refused : forall (S : scalar) (L : tmpl S) (C : createlib S) (p : option (dlp S)) (res : S) (h : heap),
  refused p res -> good_heap h -> k_obj C = true ->
  exists o h1, create_from_dlp L C p res h = Ok (Some o, h1) /\ x_err o <> None /\
    arr_size (x_tau o) = 0 /\ forall m, block o m = None.
Proof. intros S. exact (@refusal S). Qed.
Print Assumptions c44_refused.

(** Exact arithmetic: the squared modulus of the profile is the power, its argument
    is minus the phase; wave number and Fresnel scale are the physical ones. *)
Theorem c44_profile_exact :
  forall (L : tmpl real_scalar) (C : createlib real_scalar) (d : dlp real_scalar) (res : R) (t : tau real_scalar),
  polard_law C -> wave_law C -> scale_law C -> made_from (S := real_scalar) C d res t ->
  forall i (p ph f dist phi b : R), 0 <= i < d_n d ->
    sample d dPNORM i p -> sample d dPHASE i ph -> sample d dFSKY i f ->
    sample d dD i dist -> sample d dPHI i phi -> sample d dB i b ->
    (0 <= p)%R -> f <> 0%R ->
    exists T re im k F, T_in t = Some T /\ entry T i (Some (re, im)) /\
      (re * re + im * im = p)%R /\
      re = (R_sqrt.sqrt p * cos (degree (- ph)))%R /\ im = (R_sqrt.sqrt p * sin (degree (- ph)))%R /\
      tau_entry t KV i k /\ (k = 2 * PI * f / light_speed)%R /\
      tau_entry t FKM i F /\
      F = R_sqrt.sqrt ((light_speed / f * dist / 2) *
            (1 - Rsqr (cos (degree b)) * Rsqr (sin (degree phi))) / Rsqr (sin (degree b))).
Proof. exact exact_data. Qed.
Print Assumptions c44_profile_exact.

(** Concrete input: four samples, and the same with a distance of zero. *)
Definition ex_input (dist : Z) : dlp dbl_scalar :=
  mkDlp (S := dbl_scalar) (fun g => match g with
    | dRHO => Some (radii 4)
    | dPHI => Some (repeat (dofZ 45) 4)
    | dB => Some (repeat (dofZ 20) 4)
    | dD => Some [dofZ 200000; dofZ 200000; dofZ dist; dofZ 200000]
    | dRAWTHR => None
    | _ => Some (repeat (dofZ 1) 4)
    end) 4 false.
Definition ex_clib (full : bool) : createlib dbl_scalar := {|
  k_polard := fun r t => (r, t); k_wavelength := fun f => f; k_wavenumber := fun l => l;
  k_scale := fun l d _ _ => d; k_obj := true;
  k_mem := fun m => match m with MArr TSET => full | _ => true end |}.
Lemma ex_usable dist : usable (ex_input dist).
Proof.
  split; [reflexivity|]. split; [vm_compute; split; congruence|].
  intros g Hg. destruct g; try congruence; (eexists; split; [reflexivity|vm_compute; congruence]).
Qed.
Lemma ex_mem : forall m, In m allocated_members -> k_mem (ex_clib true) m = true.
Proof. intros [[]| | |] _; reflexivity. Qed.

(** Whether a creation succeeds and whether the object has no error. *)
Definition made_clean (r : res (option (tobj (S := dbl_scalar)) * heap)) : option bool :=
  match r with
  | Ok (Some o, _) => match view o with
                      | Ok t => match err t with None => Some true | _ => Some false end
                      | _ => None
                      end
  | _ => None
  end.
Example c44_example :
  made_clean (create_from_dlp ref_dlib (ex_clib true) (Some (ex_input 200000)) (dofZ 2) ex_heap) = Some true /\
  made_clean (create_from_dlp ref_dlib (ex_clib true) (Some (ex_input 0)) (dofZ 2) ex_heap) = Some false.
Proof. split; vm_compute; reflexivity. Qed.
(** The hypotheses of [c44_accepted] hold of both. *)
Lemma ex_numbers dist : Z.abs dist <= 1000000 ->
  forall g, In g [dPHI; dB; dD; dRHO] -> samples_are (ex_input dist) g notnan.
Proof.
  intros Hd g Hg i x Hi (l & E & Hn).
  assert (A : In x l) by (apply (nth_error_In l (Z.to_nat i)); apply Hn).
  assert (F : forall z, Z.abs z <= 1000000 -> notnan (dofZ z)).
  { intros z Hz. destruct (val_dofZ z ltac:(lia)) as [Fz _]. unfold finite, notnan in *. destruct (dofZ z); (reflexivity || discriminate). }
  cbn [In] in Hg. destruct Hg as [<-|[<-|[<-|[<-|[]]]]]; injection E as <-.
  all: cbn [In] in A; destruct A as [<-|[<-|[<-|[<-|[]]]]]; apply F; cbn; lia.
Qed.
Example c44_example_ok : input_geometry_ok (ex_input 200000) (dofZ 2) /\ ~ input_geometry_ok (ex_input 0) (dofZ 2).
Proof.
  assert (G : forall dist b, Z.abs dist <= 1000000 ->
    made_clean (create_from_dlp ref_dlib (ex_clib true) (Some (ex_input dist)) (dofZ 2) ex_heap) = Some b ->
    (b = true <-> input_geometry_ok (ex_input dist) (dofZ 2))).
  { intros dist b Hd Hb.
    destruct (c44_accepted ref_dlib ref_minmax ref_min (ex_clib true) (ex_input dist) (dofZ 2) ex_heap
      (ex_usable dist) eq_refl eq_refl ex_good_heap (ex_numbers dist Hd) eq_refl ex_mem)
      as (o & h1 & t & E & V & M & X).
    rewrite E in Hb. unfold made_clean in Hb. rewrite V in Hb. rewrite <- X. unfold clean.
    destruct (err t); injection Hb as <-; split; congruence. }
  split.
  - apply (G 200000 true); [lia|exact (proj1 c44_example)|reflexivity].
  - intro N. apply (G 0 false) in N; [discriminate|lia|exact (proj2 c44_example)].
Qed.
Example c44_refused_example : refused (S := dbl_scalar) (Some (ex_input 1)) (dofZ 0) /\
  made_clean (create_from_dlp ref_dlib (ex_clib true) (Some (ex_input 1)) (dofZ 0) ex_heap) = Some false.
Proof. split; [right; eexists; split; [reflexivity|right; right; reflexivity]|vm_compute; reflexivity]. Qed.
(** A library satisfying the three laws, and a power of 1/4 with phase 90 degrees. *)
Definition ex_rclib : createlib real_scalar := Build_createlib real_scalar
  (fun r t : R => ((r * cos (degree t))%R, (r * sin (degree t))%R))
  (fun f : R => (light_speed / f)%R) (fun l : R => (2 * PI / l)%R)
  (fun l dist phi b : R => R_sqrt.sqrt ((l * dist / 2) *
     (1 - Rsqr (cos (degree b)) * Rsqr (sin (degree phi))) / Rsqr (sin (degree b)))%R)
  true (fun _ => true).
Definition ex_rinput : dlp real_scalar :=
  mkDlp (S := real_scalar) (fun g => match g with
    | dRHO => Some [1000; 1001]%R | dPNORM => Some [1/4; 1]%R | dPHASE => Some [90; 0]%R
    | _ => Some [1; 1]%R end) 2 false.
Example c44_exact_example : exists (t : tau real_scalar) T re im, made_from (S := real_scalar) ex_rclib ex_rinput 2%R t /\
  T_in t = Some T /\ entry T 0 (Some (re, im)) /\ (re * re + im * im = 1/4)%R.
Proof.
  destruct (c44_creation real_scalar ref_rlib ex_rclib ex_rinput 2%R ex_heap) as (o & h1 & t & _ & _ & M & _).
  - split; [reflexivity|]. split; [vm_compute; split; congruence|].
    intros g _. destruct g; (eexists; split; [reflexivity|vm_compute; congruence]).
  - cbn. destruct (Rle_dec 2 _) as [Q|Q]; [cbn in Q; lra|reflexivity].
  - exact ex_good_heap.
  - reflexivity.
  - reflexivity.
  - destruct (c44_profile_exact ref_rlib ex_rclib ex_rinput 2%R t) with (i := 0) (p := (1/4)%R) (ph := 90%R) (f := 1%R)
      (dist := 1%R) (phi := 1%R) (b := 1%R) as (T & re & im & k & F & A & B & Q & _);
      try (eexists; split; [reflexivity|split; [lia|reflexivity]]).
    + intros r th. reflexivity.
    + split; reflexivity.
    + intros l dist phi b. reflexivity.
    + exact M.
    + vm_compute; split; congruence.
    + lra.
    + lra.
    + exists t, T, re, im. auto.
Qed.

(** ** C45 *)
(** Any memory behaviour, any input of documented form or refused: the call returns;
    no object exactly if its own allocation fails; every object it returns is
    destroyed freeing exactly what was allocated; a failed array is reported. *)
Theorem c45_allocation_failure : forall (S : scalar) (L : tmpl S) (C : createlib S) (p : option (dlp S)) (res : S) (h : heap),
  good_heap h -> ((exists d, p = Some d /\ usable d) \/ refused p res) ->
  exists r h1, create_from_dlp L C p res h = Ok (r, h1) /\
    (r = None <-> k_obj C = false) /\ (r = None -> h1 = h) /\
    (forall o, r = Some o -> exists q h2, tau_destroy (Some o) h1 = Ok (q, h2) /\ same_resources h h2) /\
    (forall o m, r = Some o -> In m allocated_members -> k_mem C m = false -> x_err o <> None).
Proof.
  intros S L C p res h G D. destruct (memory L C p res h G D) as (r & h1 & A & B & B' & M & N).
  exists r, h1. split; [exact A|]. split; [exact B|]. split; [exact B'|]. split; [|exact N].
  intros o Ho. destruct (M o Ho) as (q & h2 & X & Y & _). eauto.
Qed.
Print Assumptions c45_allocation_failure.
(** One array cannot be allocated: the object is returned with an error. *)
Example c45_example : k_mem (ex_clib false) (MArr TSET) = false /\
  match create_from_dlp ref_dlib (ex_clib false) (Some (ex_input 200000)) (dofZ 2) ex_heap with
  | Ok (Some o, h1) => match x_err o, tau_destroy (Some o) h1 with
                       | Some _, Ok (_, h2) => Nat.ltb 1 (List.length (live h1)) && Nat.eqb (List.length (live h2)) 0
                       | _, _ => false
                       end
  | _ => false
  end = true.
Proof. split; [reflexivity|vm_compute; reflexivity]. Qed.

(** ** C46 *)
(** After a CSV table or a combined CSV object is destroyed, its handle is null and
    any number of further destructions does nothing. *)
Theorem c46_csv_tables : forall (S : scalar) t (p : option (obj S)) (h : heap) q h1 (k : nat),
  destroy_table t p h = Ok (q, h1) -> q = None /\ again (destroy_table t) k q h1 = Ok (None, h1).
Proof. intros S. exact (@table_again S). Qed.
Print Assumptions c46_csv_tables.
Theorem c46_csv_data : forall (S : scalar) K (p : option (csv S)) (h : heap) q h1 (k : nat),
  csv_destroy K p h = Ok (q, h1) -> q = None /\ again (csv_destroy K) k q h1 = Ok (None, h1).
Proof. intros S. exact (@csv_again S). Qed.
Print Assumptions c46_csv_data.
(** The handle of a tau object keeps its value: destroying any created object a second
    time uses freed memory. *)
Theorem c46_tau_handle_refuted : forall (S : scalar) (L : tmpl S) (C : createlib S) (p : option (dlp S)) (res : S) (h : heap) o h1,
  good_heap h -> ((exists d, p = Some d /\ usable d) \/ refused p res) ->
  create_from_dlp L C p res h = Ok (Some o, h1) ->
  exists q h2, tau_destroy (Some o) h1 = Ok (q, h2) /\ tau_destroy q h2 = UB UseAfterFree.
Proof.
  intros S L C p res h o h1 G D E. destruct (memory L C p res h G D) as (r & h' & A & _ & _ & M & _).
  rewrite E in A. injection A as <- <-. destruct (M o eq_refl) as (q & h2 & X & _ & Y). eauto.
Qed.
Print Assumptions c46_tau_handle_refuted.
(** A null handle is accepted. *)
Theorem c46_tau_null : forall (S : scalar) (h : heap), tau_destroy (S := S) None h = Ok (None, h).
Proof. intros S. exact (@tau_null S). Qed.
Print Assumptions c46_tau_null.
