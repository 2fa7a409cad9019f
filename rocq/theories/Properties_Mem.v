(** * Properties_Mem: who owns the memory during a reconstruction (C63).
    Each theorem is followed by its assumptions and by a concrete case. *)
From Coq Require Import List ZArith Bool String Permutation Lia.
From Verif Require Import Base Dbl Scalar Model_TauRec Model_Checks Model_Strings Model_Recon
  Model_Heap Model_Create Model_Py Model_Mem Spec_Tau Spec_Csv Spec_Create Spec_Mem
  Proof_Mem3 Proof_Mem4 Proof_Mem5 Ref_Tmpl Ex_Tau Ex_Csv Properties_Checks Properties_Safety Properties_Py.
Import ListNotations.
Open Scope list_scope.
Open Scope Z_scope.

(** ** C63 *)
(** With every pointer, block, [malloc] and [free] in view, a reconstruction has
    exactly the outcome of the model without them: no block is used after it was
    freed, none is freed twice.  Afterwards the object owns the arrays its members
    point to, all different; what else was live is still live; the only further
    blocks are the [lost] ones. *)
Theorem c63_reconstruction : forall (S : scalar) (L : tmpl S) (sep : bool) (o : mobj (S := S)) (sch : schedule)
    (others : list Z) (h : heap),
  owned_by o others h -> unprocessed o ->
  match reconstruction L sch (m_tau o) with
  | UB u => reconstruction_h L sep sch o h = UB u
  | Ok t' => exists o' h' forgotten, reconstruction_h L sep sch o h = Ok (o', h') /\ m_tau o' = t' /\
      m_id o' = m_id o /\ List.length forgotten = lost L sep o t' /\
      owned_by o' (forgotten ++ others) h' /\ files h' = files h
  end.
Proof. intros S. exact (@reconstruction_memory S). Qed.
Print Assumptions c63_reconstruction.

(** Destroying an object frees all it owns and nothing else. *)
Theorem c63_destroy : forall (S : scalar) (o : mobj (S := S)) (others : list Z) (h : heap),
  owned_by o others h ->
  exists q h', tau_destroy (Some (to_tobj o)) h = Ok (q, h') /\ good_heap h' /\
    Permutation (live h') others /\ files h' = files h.
Proof. intros S. exact (@destroy_memory S). Qed.
Print Assumptions c63_destroy.

(** The life of an object: created, given any values (that keep an error), run,
    destroyed.  Exactly the [lost] blocks remain. *)
Theorem c63_lifetime : forall (S : scalar) (L : tmpl S) (C : createlib S) (sep : bool) (p : option (dlp S)) (res : S)
    (sch : schedule) (h : heap) (o : @tobj S) (h1 : heap) (t1 t2 : tau S),
  good_heap h -> ((exists d, p = Some d /\ usable d) \/ refused p res) ->
  create_from_dlp L C p res h = Ok (Some o, h1) ->
  (x_err o <> None -> err t1 <> None) ->
  reconstruction L sch t1 = Ok t2 ->
  exists o2 h2 q h3, reconstruction_h L sep sch (of_tobj o t1) h1 = Ok (o2, h2) /\ m_tau o2 = t2 /\
    tau_destroy (Some (to_tobj o2)) h2 = Ok (q, h3) /\
    blocks_more (lost L sep (of_tobj o t1) t2) h h3.
Proof. intros S. exact (@lifetime S). Qed.
Print Assumptions c63_lifetime.

(** If the searches return one block for indices and size, a reconstruction loses
    memory only with three of its errors; in particular, a successful one none. *)
Theorem c63_three_leaks : forall (S : scalar) (L : tmpl S) (o : mobj (S := S)) (t' : tau S),
  lost L false o t' <> 0%nat ->
  err t' = Some "window: left"%string \/ err t' = Some "window: right"%string \/
  err t' = Some "forward: not enough data"%string.
Proof. intros S. exact (@three_leaks S). Qed.
Print Assumptions c63_three_leaks.

(** Twenty samples 1 km apart. *)
Definition mem_input : dlp dbl_scalar :=
  mkDlp (S := dbl_scalar) (fun g => match g with
    | dRHO => Some (radii 20)
    | dPHI => Some (repeat (dofZ 45) 20)
    | dB => Some (repeat (dofZ 20) 20)
    | dD => Some (repeat (dofZ 200000) 20)
    | dRAWTHR => None
    | _ => Some (repeat (dofZ 1) 20)
    end) 20 false.
(** Fresnel scales of [F] km; memory for everything. *)
Definition mem_clib (F : Z) : createlib dbl_scalar := {|
  k_polard := fun r t => (r, t); k_wavelength := fun f => f; k_wavenumber := fun l => l;
  k_scale := fun _ _ _ _ => dofZ F : car dbl_scalar; k_obj := true; k_mem := fun _ => true |}.
(** Resolution 4 km with factor 1/2, rectangular window. *)
Definition mem_args (lo hi : Z) (bf fwd : bool) : pyargs :=
  mkPyargs None (Some (dofZ 4)) (Some (PList [PInt lo; PInt hi])) (Some "Rect"%string)
    (Some fwd) None (Some bf) None (Some "Newton Filon 11"%string) (Some (dfrac 1 2)) None None None.
(** The blocks left after a call of the constructor and, if it succeeds, the
    destruction of the instance; with the message of the exception or "". *)
Definition mem_run (sep : bool) (F : Z) (a : pyargs) : option (string * nat) :=
  match diffrec_init_h ref_dlib sep ex_strlib (mem_clib F) three_threads (dofZ 1) a (Some mem_input) no_blocks ex_heap with
  | Ok (MRaised m, h1) => Some (m, List.length (live h1))
  | Ok (MConstructed _ v, h1) =>
      match diffrec_destroy v h1 with Ok (_, h2) => Some (""%string, List.length (live h2)) | UB _ => None end
  | UB _ => None
  end.

(** The three errors do lose memory: 1, 2 and 1 blocks for every run. *)
Definition mem_tau (F lo hi : Z) (fwd : bool) : dtau :=
  set_use_fwd (Ex_Tau.ex_tau 20 (Some (radii 20)) (Some (repeat (dofZ F) 20)) None (dofZ lo) (dofZ hi) (dofZ 2)) fwd.
Definition mem_end (t1 : dtau) : option (option string * nat) :=
  match create_from_dlp ref_dlib (mem_clib 2) (Some mem_input) (dofZ 2) ex_heap with
  | Ok (Some o, h1) =>
      match reconstruction_h ref_dlib false three_threads (of_tobj o t1) h1 with
      | Ok (o2, h2) =>
          match tau_destroy (Some (to_tobj o2)) h2 with
          | Ok (_, h3) => Some (err (m_tau o2), List.length (live h3))
          | UB _ => None
          end
      | UB _ => None
      end
  | _ => None
  end.
Theorem c63_failed_runs_leak_refuted :
  live ex_heap = [] /\
  mem_end (mem_tau 100 1006 1012 false) = Some (Some "window: left"%string, 1%nat) /\
  mem_end (mem_tau 4 1017 1018 false) = Some (Some "window: right"%string, 2%nat) /\
  mem_end (mem_tau 3 1007 1009 true) = Some (Some "forward: not enough data"%string, 1%nat).
Proof. repeat split; vm_compute; reflexivity. Qed.
Print Assumptions c63_failed_runs_leak_refuted.
Example c63_success_keeps_nothing :
  mem_end (mem_tau 2 1006 1012 false) = Some (None, 0%nat) /\
  mem_end (mem_tau 2 1005 1013 true) = Some (None, 0%nat).
Proof. split; vm_compute; reflexivity. Qed.

(** Python.  Data that cannot be converted: the call leaves no memory behind. *)
Theorem c63_python_rejected : forall (L : tmpl dbl_scalar) (sep : bool) (X : strlib) (C : createlib dbl_scalar)
    (sch : schedule) (r : double) (a : pyargs) (p : option (dlp dbl_scalar)) (v : blocks) (h : heap),
  good_heap h -> p = None \/ (exists d, p = Some d /\ d_err d = true) ->
  exists m h1, diffrec_init_h L sep X C sch r a p v h = Ok (MRaised m, h1) /\ blocks_more 0 h h1.
Proof. exact python_rejected. Qed.
Print Assumptions c63_python_rejected.

(** A tau object that cannot be made: the call leaves the converted data. *)
Theorem c63_python_failed : forall (L : tmpl dbl_scalar) (sep : bool) (X : strlib) (C : createlib dbl_scalar)
    (sch : schedule) (r : double) (a : pyargs) (d : dlp dbl_scalar) (h : heap),
  good_heap h -> d_err d = false ->
  usable d \/ refused (Some d) (dmul (given (a_resolution a) r) (given (a_factor a) (dfrac 3 4))) ->
  forall (q : option (@tobj dbl_scalar)) (h0 : heap) (v : blocks) (m : string),
  create_from_dlp L C (Some d) (dmul (given (a_resolution a) r) (given (a_factor a) (dfrac 3 4))) (one_more h) = Ok (q, h0) ->
  match q with Some o => x_err o = Some m | None => m = "tau: NULL"%string end ->
  exists h1, diffrec_init_h L sep X C sch r a (Some d) v h = Ok (MRaised m, h1) /\ blocks_more 1 h h1.
Proof. exact python_failed. Qed.
Print Assumptions c63_python_failed.

(** A tau object that is made and run.  The message or the values are those of the
    reconstruction.  A call that raises leaves one block (the converted data) and
    the [lost] ones.  After a call that succeeds and the destruction of the
    instance, one block (the wave numbers) and the [lost] ones are left. *)
Theorem c63_python_run : forall (L : tmpl dbl_scalar) (sep : bool) (X : strlib) (C : createlib dbl_scalar)
    (sch : schedule) (r : double) (a : pyargs) (d : dlp dbl_scalar) (h : heap),
  good_heap h -> d_err d = false ->
  usable d \/ refused (Some d) (dmul (given (a_resolution a) r) (given (a_factor a) (dfrac 3 4))) ->
  forall (o : @tobj dbl_scalar) (h0 : heap) (t0 t5 : dtau) (b : bool) (t6 : dtau),
  t_alloc L 8 = true ->
  create_from_dlp L C (Some d) (dmul (given (a_resolution a) r) (given (a_factor a) (dfrac 3 4))) (one_more h) = Ok (Some o, h0) ->
  x_err o = None -> view o = Ok t0 -> configure L X a t0 = Ok (t5, b) -> reconstruction L sch t5 = Ok t6 ->
  match err t6 with
  | Some m => exists h1, diffrec_init_h L sep X C sch r a (Some d) no_blocks h = Ok (MRaised m, h1) /\
      blocks_more (1 + lost L sep (of_tobj o t5) t6) h h1
  | None => exists v h1 h2, diffrec_init_h L sep X C sch r a (Some d) no_blocks h = Ok (MConstructed t6 v, h1) /\
      diffrec_destroy v h1 = Ok (tt, h2) /\
      blocks_more (1 + lost L sep (of_tobj o t5) t6) h h2
  end.
Proof. exact python_run. Qed.
Print Assumptions c63_python_run.

(** So no call with convertible data gives all its memory back. *)
Theorem c63_python_leaks_refuted : forall (L : tmpl dbl_scalar) (sep : bool) (X : strlib) (C : createlib dbl_scalar)
    (sch : schedule) (r : double) (a : pyargs) (d : dlp dbl_scalar) (h : heap),
  good_heap h -> d_err d = false ->
  usable d \/ refused (Some d) (dmul (given (a_resolution a) r) (given (a_factor a) (dfrac 3 4))) ->
  t_alloc L 8 = true ->
  forall (q : pymem) (h1 : heap), diffrec_init_h L sep X C sch r a (Some d) no_blocks h = Ok (q, h1) ->
  match q with
  | MRaised _ => exists n, blocks_more (1 + n) h h1
  | MConstructed _ v => exists n h2, diffrec_destroy v h1 = Ok (tt, h2) /\ blocks_more (1 + n) h h2
  end.
Proof. exact python_leaks. Qed.
Print Assumptions c63_python_leaks_refuted.

(** The constructor uses the same data as the model of C55-C57. *)
Theorem c63_python_same : forall (L : tmpl dbl_scalar) (sep : bool) (X : strlib) (C : createlib dbl_scalar)
    (sch : schedule) (r : double) (a : pyargs) (d : dlp dbl_scalar) (h : heap),
  good_heap h -> forall y : pydlp, a_dlp a = Some y -> py_dlp_to_c true (Some y) = Ok (Some d) ->
  usable d \/ refused (Some d) (dmul (given (a_resolution a) r) (given (a_factor a) (dfrac 3 4))) \/ d_err d = true ->
  t_alloc L 8 = true ->
  forall x, diffrec_init L X C true sch r a (one_more h) = Ok x ->
  exists q h1, diffrec_init_h L sep X C sch r a (Some d) no_blocks h = Ok (q, h1) /\
    match x, q with
    | Raised m, MRaised m' => m = m'
    | Constructed p, MConstructed t _ => forall f, In f exposed_fields -> numpy (arr t f) (arr_size t) = Ok (y_arr p f)
    | _, _ => False
    end.
Proof. exact python_same. Qed.
Print Assumptions c63_python_same.

Example c63_python_examples :
  mem_run false 2 (mem_args 1006 1012 false false) = Some (""%string, 1%nat) /\
  mem_run false 2 (mem_args 1006 1012 false true) = Some (""%string, 1%nat) /\
  mem_run false 100 (mem_args 1006 1012 false false) = Some ("window: left"%string, 2%nat) /\
  mem_run false 4 (mem_args 1017 1018 false false) = Some ("window: right"%string, 3%nat) /\
  mem_run true 4 (mem_args 1017 1018 false false) = Some ("window: right"%string, 5%nat) /\
  mem_run false 3 (mem_args 1007 1009 false true) = Some ("forward: not enough data"%string, 2%nat).
Proof. repeat split; vm_compute; reflexivity. Qed.
(** The hypotheses of the theorems above hold for these data. *)
Example c63_hypotheses : usable mem_input /\ good_heap ex_heap /\ t_alloc ref_dlib 8 = true /\
  exists o h1, create_from_dlp ref_dlib (mem_clib 2) (Some mem_input) (dofZ 2) ex_heap = Ok (Some o, h1) /\
    x_err o = None /\ (exists t, view o = Ok t) /\ owned_by (of_tobj o (mem_tau 2 1006 1012 false)) [] h1 /\
    unprocessed (of_tobj o (mem_tau 2 1006 1012 false)).
Proof.
  assert (U : usable mem_input).
  { split; [reflexivity|]. split; [vm_compute; split; congruence|].
    intros g Hg. destruct g; try congruence; (eexists; split; [reflexivity|vm_compute; congruence]). }
  assert (G : good_heap ex_heap) by (split; [constructor|intros ? []]).
  split; [exact U|]. split; [exact G|]. split; [reflexivity|].
  destruct (create_from_dlp ref_dlib (mem_clib 2) (Some mem_input) (dofZ 2) ex_heap) as [[[o|] h1]|u] eqn:E.
  2, 3: exfalso.
  - assert (X : x_err o = None).
    { assert (T : match create_from_dlp ref_dlib (mem_clib 2) (Some mem_input) (dofZ 2) ex_heap with
                  | Ok (Some o, _) => match x_err o with None => true | _ => false end | _ => false end = true) by (vm_compute; reflexivity).
      rewrite E in T. destruct (x_err o); [discriminate T|reflexivity]. }
    destruct (created ref_dlib (mem_clib 2) _ _ _ _ _ G ltac:(left; eauto) E) as (_ & O & K). destruct (K X) as (V & A & B & B' & _).
    exists o, h1. split; [reflexivity|]. split; [exact X|]. split; [exact V|]. split; [apply owned_owns; exact O|].
    intros _ _. auto.
  - assert (T : match create_from_dlp ref_dlib (mem_clib 2) (Some mem_input) (dofZ 2) ex_heap with
                  | Ok (Some o, _) => true | _ => false end = true) by (vm_compute; reflexivity).
    rewrite E in T. discriminate T.
  - assert (T : match create_from_dlp ref_dlib (mem_clib 2) (Some mem_input) (dofZ 2) ex_heap with
                  | Ok (Some o, _) => true | _ => false end = true) by (vm_compute; reflexivity).
    rewrite E in T. discriminate T.
Qed.
