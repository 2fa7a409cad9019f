(** * Properties_Py: the Python class (C55-C57). *)
From Coq Require Import List ZArith Bool String Reals Lia Lra.
From Verif Require Import Base BaseFacts Dbl DblFacts Scalar Model_TauRec Model_Checks Model_Strings Model_Recon
  Model_Heap Model_Create Model_Py
  Spec_Tau Spec_Select Spec_Strings Spec_Recon Spec_Csv Spec_Create Spec_Safety Spec_Pipe Spec_Py
  Proof_Select Proof_Py Proof_Py3 Ex_Tau Ref_Tmpl Ex_Csv Properties_Checks Properties_Select Properties_Safety
  Properties_Create Properties_Pipe.
Import ListNotations.
Open Scope Z_scope.

(** ** C55 *)
(** An object whose eighteen attributes are arrays of the same length becomes a C
    object with those arrays.  Otherwise the first attribute that is not such an
    array decides: if it is missing or has another length, or if the radii are
    missing or not an array, the C object has the error flag; if it is something
    else than an array of numbers, the extension module reads through NULL. *)
Theorem c55_conversion : forall y : pydlp,
  (forall n, full_dlp y n -> exists d, py_dlp_to_c true (Some y) = Ok (Some d) /\
     d_err d = false /\ d_n d = n /\ carries y d) /\
  (forall n g, g <> dRHO -> first_problem y n g ->
     match p_attr y (attribute g) with
     | AOther | ABad => py_dlp_to_c true (Some y) = UB NullDeref
     | _ => exists d, py_dlp_to_c true (Some y) = Ok (Some d) /\ d_err d = true
     end) /\
  ((forall l, p_attr y "rho_km_vals" <> AArray l) ->
     exists d, py_dlp_to_c true (Some y) = Ok (Some d) /\ d_err d = true).
Proof. exact conversion. Qed.
Print Assumptions c55_conversion.
(** There are no other cases. *)
Theorem c55_cases : forall y : pydlp,
  (exists n, full_dlp y n) \/ (exists n g, g <> dRHO /\ first_problem y n g) \/
  (forall l, p_attr y "rho_km_vals" <> AArray l).
Proof. exact conversion_cases. Qed.
Print Assumptions c55_cases.
Theorem c55_error_iff : forall (y : pydlp) (d : dlp dbl_scalar), py_dlp_to_c true (Some y) = Ok (Some d) ->
  d_err d = false -> full_dlp y (d_n d) /\ carries y d.
Proof. exact conversion_error. Qed.
Print Assumptions c55_error_iff.

(** A DLP object with twenty samples 1 km apart. *)
Definition ex_dlp (phi : pyattr) : pydlp := mkPydlp (fun s =>
  if String.eqb s "rho_km_vals" then AArray (radii 20)
  else if String.eqb s "rho_dot_kms_vals" then AArray (repeat (dofZ (-1)) 20)
  else if String.eqb s "D_km_vals" then AArray (repeat (dofZ 2) 20)
  else if String.eqb s "phi_deg_vals" then phi
  else AArray (repeat (dofZ 1) 20)) true.
Definition ex_phi : pyattr := AArray (repeat (dofZ 45) 20).
Lemma ex_full : full_dlp (ex_dlp ex_phi) 20.
Proof. intros g. destruct g; (eexists; split; [reflexivity|reflexivity]). Qed.
Lemma ex_problem phi : (forall l, phi = AArray l -> zlen l <> 20) -> first_problem (ex_dlp phi) 20 dPHI.
Proof.
  intros H. exists [dRHO; dPNORM; dPHASE], (tl (tl (tl (tl reading_order)))). split; [reflexivity|]. split.
  - intros g [<-|[<-|[<-|[]]]]; (eexists; split; [reflexivity|reflexivity]).
  - intros (l & E & Z). cbn in E. apply (H l E Z).
Qed.
Example c55_examples :
  (exists d, py_dlp_to_c true (Some (ex_dlp ex_phi)) = Ok (Some d) /\ d_err d = false /\ d_n d = 20) /\
  (exists d, py_dlp_to_c true (Some (ex_dlp AMissing)) = Ok (Some d) /\ d_err d = true) /\
  (exists d, py_dlp_to_c true (Some (ex_dlp (AArray [dofZ 1]))) = Ok (Some d) /\ d_err d = true).
Proof.
  split; [|split].
  - destruct (proj1 (c55_conversion (ex_dlp ex_phi)) 20 ex_full) as (d & H). exists d. tauto.
  - apply (proj1 (proj2 (c55_conversion (ex_dlp AMissing))) 20 dPHI); [discriminate|]. apply ex_problem. discriminate.
  - apply (proj1 (proj2 (c55_conversion (ex_dlp (AArray [dofZ 1])))) 20 dPHI); [discriminate|]. apply ex_problem.
    intros l E. injection E as <-. discriminate.
Qed.
(** A list instead of an array crashes the interpreter. *)
Theorem c55_list_crashes_refuted : exists y : pydlp, py_dlp_to_c true (Some y) = UB NullDeref.
Proof.
  exists (ex_dlp AOther).
  apply (proj1 (proj2 (c55_conversion (ex_dlp AOther))) 20 dPHI); [discriminate|]. apply ex_problem. discriminate.
Qed.
Print Assumptions c55_list_crashes_refuted.

(** ** C56 *)
Theorem c56_range : forall (L : dlib) (X : strlib) (v : pyval) (t : dtau),
  clean t -> t_alloc L 12 = true ->
  (forall lo hi, range_value X v lo hi -> get_py_range L X (Some v) t = Ok (set_range1 (set_range0 t lo) hi, false)) /\
  (sized v -> (forall lo hi, ~ range_value X v lo hi) ->
     exists t' b, get_py_range L X (Some v) t = Ok (t', b) /\ failed t').
Proof. intros L X v t Hc Ha. split; [intros; apply range_value_ok; auto|intros; apply range_value_bad; auto]. Qed.
Print Assumptions c56_range.
Theorem c56_perturb : forall (v : option pyval) (t : dtau),
  clean t -> zlen (perturb t) = 5 ->
  (forall xs, perturb_value v xs -> get_py_perturb v t = Ok (set_perturb t xs, false)) /\
  ((forall p, v = Some p -> sized p) -> (forall xs, ~ perturb_value v xs) ->
     exists t' b, get_py_perturb v t = Ok (t', b) /\ failed t').
Proof. intros v t Hc Hp. split; [intros; apply perturb_value_ok; auto|intros; apply perturb_value_bad; auto]. Qed.
Print Assumptions c56_perturb.
Example c56_examples :
  range_value ex_strlib (PStr "Maxwell Ringlet") (dofZ 87410) (dofZ 87610) /\
  range_value ex_strlib (PList [PInt 1006; PFloat (dfrac 2025 2)]) (dofZ 1006) (dfrac 2025 2) /\
  (forall lo hi, ~ range_value ex_strlib (PList [PInt 1006; PStr "1012"]) lo hi) /\
  perturb_value (Some (PList [PInt 0; PFloat (dfrac 1 2); PInt 0; PInt 0; PInt 0]))
    [dofZ 0; dfrac 1 2; dofZ 0; dofZ 0; dofZ 0] /\
  (forall xs, ~ perturb_value (Some (PList [PInt 0; PInt 1])) xs).
Proof.
  assert (N : forall z, Z.abs z <= 9007199254740992 -> number (PInt z) (dofZ z)) by (intros z Hz; constructor; apply (val_dofZ z Hz)).
  split; [|split; [|split; [|split]]].
  - apply (rv_str ex_strlib "Maxwell Ringlet" "maxwellringlet" 87410 87610); [cbn; tauto|].
    apply Proof_Strings.spells_iff; [reflexivity|vm_compute; reflexivity].
  - apply rv_list; [apply N; lia|constructor].
  - intros lo hi H. inversion H; subst. match goal with H : number (PStr _) _ |- _ => inversion H end.
  - apply pv_list; [reflexivity|]. repeat (constructor; [first [apply N; lia|constructor]|]). constructor.
  - intros xs H. inversion H; subst. discriminate.
Qed.
(** An integer beyond the doubles is replaced by -1, with an exception pending. *)
Theorem c56_big_integer_refuted : exists z : Z, ~ finite (dofZ z) /\
  forall (L : dlib) (X : strlib) (t : dtau), clean t ->
    get_py_range L X (Some (PList [PInt 1; PInt z])) t = Ok (set_range1 (set_range0 t (dofZ 1)) (dofZ (-1)), true).
Proof.
  exists (2 ^ 1100). assert (F : dfinite (dofZ (2 ^ 1100)) = false) by (vm_compute; reflexivity).
  split; [unfold finite; rewrite F; discriminate|].
  intros L X t Hc. unfold get_py_range. rewrite Hc.
  change (negb (zlen [PInt 1; PInt (2 ^ 1100)] =? 2)) with false. cbn iota. cbn [py_numbers]. unfold py_number. rewrite F.
  assert (F1 : dfinite (dofZ 1) = true) by (vm_compute; reflexivity). rewrite F1. reflexivity.
Qed.
Print Assumptions c56_big_integer_refuted.

(** ** C57 *)
(** A constructed instance: the DLP object was complete, every option was valid,
    the reconstruction of the object made from them succeeded, and the instance
    shows its result. *)
Theorem c57_constructed : forall (L : dlib) (X : strlib) (C : createlib dbl_scalar) (ok : bool) (sch : schedule)
  (self_res : double) (a : pyargs) (h : heap) (o : pydiff),
  good_heap h -> sized_args a ->
  (forall y l, a_dlp a = Some y -> p_attr y "rho_km_vals" = AArray l -> zlen l < two64) ->
  diffrec_init L X C ok sch self_res a h = Ok (Constructed o) ->
  exists y d t t', a_dlp a = Some y /\ p_history y = true /\ full_dlp y (d_n d) /\ 2 <= d_n d /\ carries y d /\
    dle (effective_resolution a self_res) (dofZ 0) = false /\
    configured L X C d self_res a t /\ clean t /\
    reconstruction L sch t = Ok t' /\ clean t' /\ shows a self_res t' o /\ y_pending o = false.
Proof. exact constructed. Qed.
Print Assumptions c57_constructed.

(** Calls with a complete DLP object and enough memory: unusable geometry, or an
    option that is not valid, raises; otherwise the call constructs an instance or
    raises as the reconstruction of the configured object succeeds or fails. *)
Theorem c57_call : forall (L : dlib) (X : strlib) (C : createlib dbl_scalar) (sch : schedule)
  (self_res : double) (a : pyargs) (h : heap) (y : pydlp) (n : Z) (d : dlp dbl_scalar),
  minmax_law L -> min_law L ->
  a_dlp a = Some y -> full_dlp y n -> 2 <= n < two64 -> p_history y = true ->
  py_dlp_to_c true (Some y) = Ok (Some d) ->
  notnan (effective_resolution a self_res) -> dle (effective_resolution a self_res) (dofZ 0) = false -> good_heap h ->
  (forall g, In g [dPHI; dB; dD; dRHO] -> samples_are d g notnan) ->
  k_obj C = true -> (forall m, In m allocated_members -> k_mem C m = true) ->
  t_alloc L 10 = true -> t_alloc L 11 = true -> t_alloc L 12 = true ->
  (~ input_geometry_ok d (effective_resolution a self_res) -> exists m, diffrec_init L X C true sch self_res a h = Ok (Raised m)) /\
  (sized_args a -> some_option_invalid X a -> exists m, diffrec_init L X C true sch self_res a h = Ok (Raised m)) /\
  (input_geometry_ok d (effective_resolution a self_res) -> forall xs lo hi w p o,
     perturb_value (a_perturb a) xs -> range_value X (given (a_rng a) (PStr "all")) lo hi ->
     window_named X (given (a_wtype a) "kbmd20"%string) w -> method_named X (given (a_psitype a) "fresnel4"%string) p o ->
   exists t, configured L X C d self_res a t /\ clean t /\
     perturb t = xs /\ range0 t = lo /\ range1 t = hi /\ window t = w /\ psinum t = p /\ order t = o /\
     forall t', reconstruction L sch t = Ok t' ->
       (failed t' -> exists m, diffrec_init L X C true sch self_res a h = Ok (Raised m)) /\
       (clean t' -> exists o, diffrec_init L X C true sch self_res a h = Ok (Constructed o) /\ shows a self_res t' o)).
Proof. exact whole. Qed.
Print Assumptions c57_call.

(** Refused before any object is reconstructed. *)
Theorem c57_refused : forall (L : dlib) (X : strlib) (C : createlib dbl_scalar) (ok : bool) (sch : schedule)
  (self_res : double) (a : pyargs) (h : heap) (y : pydlp) (d : dlp dbl_scalar),
  a_dlp a = Some y -> py_dlp_to_c ok (Some y) = Ok (Some d) -> good_heap h ->
  (d_err d = true \/ d_n d <= 1 \/ dle (effective_resolution a self_res) (dofZ 0) = true) ->
  exists m, diffrec_init L X C ok sch self_res a h = Ok (Raised m).
Proof. exact init_refused. Qed.
Print Assumptions c57_refused.

(** The object the reconstruction starts from has the arrays of the DLP object. *)
Theorem c57_data : forall (L : dlib) (X : strlib) (C : createlib dbl_scalar) (y : pydlp) (n : Z) (d : dlp dbl_scalar)
  (self_res : double) (a : pyargs) (t : dtau),
  full_dlp y n -> d_n d = n -> carries y d -> configured L X C d self_res a t ->
  (forall f g l, In (f, g) same_arrays -> p_attr y (attribute g) = AArray l -> arr t f = Some l) /\
  has_sizes t sampled /\
  (exists T, T_in t = Some T /\ zlen T = arr_size t /\ forall c, In c T -> c <> None).
Proof. intros L X C y n d r a t F En Cr Cf. exact (made_data C y n d _ t F En Cr (cf_data _ _ _ _ _ _ _ Cf)). Qed.
Print Assumptions c57_data.

(** A well-posed reconstruction (C54) asked for from Python constructs an instance
    whose arrays hold the requested samples and the values of the method. *)
Theorem c57_well_posed : forall (L : dlib) (X : strlib) (C : createlib dbl_scalar) (sch : schedule)
  (self_res : double) (a : pyargs) (h : heap) (y : pydlp) (n : Z) (d : dlp dbl_scalar) xs lo hi w p o,
  minmax_law L -> min_law L -> max_law L ->
  a_dlp a = Some y -> full_dlp y n -> 2 <= n < two64 -> p_history y = true ->
  py_dlp_to_c true (Some y) = Ok (Some d) ->
  notnan (effective_resolution a self_res) -> dle (effective_resolution a self_res) (dofZ 0) = false -> good_heap h ->
  (forall g, In g [dPHI; dB; dD; dRHO] -> samples_are d g notnan) ->
  k_obj C = true -> (forall m, In m allocated_members -> k_mem C m = true) ->
  (forall site, t_alloc L site = true) -> valid_schedule sch ->
  input_geometry_ok d (effective_resolution a self_res) ->
  perturb_value (a_perturb a) xs -> range_value X (given (a_rng a) (PStr "all")) lo hi ->
  window_named X (given (a_wtype a) "kbmd20"%string) w -> method_named X (given (a_psitype a) "fresnel4"%string) p o ->
  exists t, configured L X C d self_res a t /\ clean t /\
    perturb t = xs /\ range0 t = lo /\ range1 t = hi /\ window t = w /\ psinum t = p /\ order t = o /\
    forall rho Fk v step W, posed L t rho Fk v step W -> method_fits L t rho Fk v step ->
    exists t' tw out, diffrec_init L X C true sch self_res a h = Ok (Constructed out) /\ shows a self_res t' out /\
      aligned t' /\ 0 < n_used t' /\ prepared_from L t tw Fk v (start t') (n_used t') /\
      (forall i, selected t' i <-> wanted t rho i /\ exists j, i < j /\ wanted t rho j) /\
      (forall f l, In f aligned_fields -> arr tw f = Some l ->
         exists l', y_arr out f = Some l' /\ piece l (start t') (n_used t') l') /\
      (exists T', y_out out = Some T' /\ forall k, 0 <= k < n_used t' ->
         exists x, entry T' k (Some x) /\ method_value L tw rho (start t' + k) x).
Proof. exact whole_posed. Qed.
Print Assumptions c57_well_posed.

(** *** A concrete call *)
(** Resolution 4 km with the factor 1/2, range given by two integers, rectangular
    window, no window-width correction, the linear window-by-window method. *)
Definition ex_args (win : string) : pyargs :=
  mkPyargs (Some (ex_dlp ex_phi)) (Some (dofZ 4)) (Some (PList [PInt 1006; PInt 1012])) (Some win)
    None None (Some false) None (Some "Newton Filon 11"%string) (Some (dfrac 1 2)) None None None.
Definition constructed_ok (r : res pyresult) : bool :=
  match r with Ok (Constructed o) => negb (y_pending o) | _ => false end.
Definition raised_ok (r : res pyresult) : bool := match r with Ok (Raised _) => true | _ => false end.
Example c57_example_runs :
  constructed_ok (diffrec_init ref_dlib ex_strlib (ex_clib true) true three_threads (dofZ 1) (ex_args "Rect") ex_heap) = true /\
  raised_ok (diffrec_init ref_dlib ex_strlib (ex_clib true) true three_threads (dofZ 1) (ex_args "rekt") ex_heap) = true.
Proof. split; vm_compute; reflexivity. Qed.

Lemma ex_conv : exists d, py_dlp_to_c true (Some (ex_dlp ex_phi)) = Ok (Some d) /\
  d_err d = false /\ d_n d = 20 /\ carries (ex_dlp ex_phi) d.
Proof. exact (proj1 (c55_conversion (ex_dlp ex_phi)) 20 ex_full). Qed.
Lemma ex_numbers_ok (z : Z) : Z.abs z <= 1000000 -> notnan (dofZ z).
Proof. intros Hz. destruct (val_dofZ z ltac:(lia)) as [Fz _]. unfold finite, notnan in *. destruct (dofZ z); (reflexivity || discriminate). Qed.
Lemma ex_samples d g l : carries (ex_dlp ex_phi) d -> p_attr (ex_dlp ex_phi) (attribute g) = AArray l ->
  forall i x, sample d g i x -> entry l i x.
Proof. intros Cr E i x (m & Em & Hm). rewrite (Cr g l E) in Em. injection Em as <-. exact Hm. Qed.
Lemma ex_sample_values d : carries (ex_dlp ex_phi) d -> forall g i x, In g [dPHI; dB; dD; dRHO] -> sample d g i x ->
  exists z, x = dofZ z /\ 1 <= z <= 1020 /\ (g = dPHI \/ g = dB -> z <= 45).
Proof.
  intros Cr g i x Hg Hs. cbn [In] in Hg. destruct Hg as [<-|[<-|[<-|[<-|[]]]]].
  - apply (ex_samples d dPHI _ Cr eq_refl), repeat_entry in Hs. exists 45. split; [congruence|lia].
  - apply (ex_samples d dB _ Cr eq_refl), repeat_entry in Hs. exists 1. split; [congruence|lia].
  - apply (ex_samples d dD _ Cr eq_refl), repeat_entry in Hs. exists 2. split; [congruence|lia].
  - apply (ex_samples d dRHO _ Cr eq_refl), radii_entry in Hs; [|lia]. destruct Hs as [Hi Hs].
    exists (1000 + i). split; [congruence|]. split; [lia|]. intros [H|H]; discriminate.
Qed.
Lemma ex_res : finite (effective_resolution (ex_args "Rect") (dofZ 1)) /\ val (effective_resolution (ex_args "Rect") (dofZ 1)) = 2%R.
Proof. apply (val_z 2); [lia|vm_compute; reflexivity|vm_compute; reflexivity]. Qed.
Lemma ex_width : finite (plain_width (dofZ 2) (dofZ 1) (effective_resolution (ex_args "Rect") (dofZ 1))) /\
  val (plain_width (dofZ 2) (dofZ 1) (effective_resolution (ex_args "Rect") (dofZ 1))) = 4%R.
Proof. apply (val_z 4); [lia|vm_compute; reflexivity|vm_compute; reflexivity]. Qed.
Lemma ex_geometry d : d_n d = 20 -> carries (ex_dlp ex_phi) d -> input_geometry_ok d (effective_resolution (ex_args "Rect") (dofZ 1)).
Proof.
  intros Hn Cr. assert (V := ex_sample_values d Cr).
  assert (A : forall g, In g [dPHI; dB] -> samples_are d g angle_ok).
  { intros g Hg i x Hi Hs. destruct (V g i x) as (z & -> & Hz & Ha); [cbn in *; tauto|exact Hs|].
    assert (z <= 45) by (apply Ha; cbn in Hg; intuition congruence).
    destruct (val_dofZ z ltac:(lia)) as [F E]. split; [exact F|]. rewrite E.
    assert (1 <= IZR z <= 45)%R by (split; apply IZR_le; lia). lra. }
  assert (P : forall g, In g [dD; dRHO] -> samples_are d g positive_number).
  { intros g Hg i x Hi Hs. destruct (V g i x) as (z & -> & Hz & _); [cbn in *; tauto|exact Hs|].
    destruct (val_dofZ z ltac:(lia)) as [F E]. left. split; [exact F|]. rewrite E. apply IZR_lt; lia. }
  split; [apply A; cbn; tauto|]. split; [apply A; cbn; tauto|]. split; [apply P; cbn; tauto|]. split; [apply P; cbn; tauto|].
  exists (dofZ 1000), (dofZ 1001).
  split; [eexists; split; [apply (Cr dRHO); reflexivity|split; [lia|reflexivity]]|].
  split; [eexists; split; [apply (Cr dRHO); reflexivity|split; [lia|reflexivity]]|].
  destruct (val_z 1 (dsub (dofZ 1001) (dofZ 1000))) as [F E]; [lia|vm_compute; reflexivity|vm_compute; reflexivity|].
  split; [exact F|]. split; [rewrite E; lra|]. vm_compute. reflexivity.
Qed.

Lemma ex_wanted (t : dtau) i : range0 t = dofZ 1006 -> range1 t = dofZ 1012 -> wanted t (radii 20) i <-> 6 <= i <= 12.
Proof.
  intros R0 R1. rewrite <- (ex_pose_wanted false PsiNone 0 i). unfold wanted. rewrite R0, R1. reflexivity.
Qed.
(** The object made by the example call is well posed. *)
Lemma ex_call_posed d t : d_n d = 20 -> carries (ex_dlp ex_phi) d ->
  configured ref_dlib ex_strlib (ex_clib true) d (dofZ 1) (ex_args "Rect") t -> clean t ->
  range0 t = dofZ 1006 -> range1 t = dofZ 1012 ->
  posed ref_dlib t (radii 20) (repeat (dofZ 2) 20) (repeat (dofZ (-1)) 20) 1 4.
Proof.
  intros Hn Cr Cf Hc R0 R1. assert (M := cf_data _ _ _ _ _ _ _ Cf). assert (W := fun i => ex_wanted t i R0 R1).
  destruct (c57_data _ _ _ _ 20 d _ _ t ex_full Hn Cr Cf) as (D1 & D2 & D3).
  assert (Sz : arr_size t = 20) by (rewrite (mf_size _ _ _ _ M); exact Hn).
  assert (ER : arr t RHO = Some (radii 20)) by (apply (D1 RHO dRHO); [cbn; tauto|reflexivity]).
  assert (EV : arr t RHODOT = Some (repeat (dofZ (-1)) 20)) by (apply (D1 RHODOT dRHODOT); [cbn; tauto|reflexivity]).
  assert (EF : arr t FKM = Some (repeat (dofZ 2) 20)).
  { destruct (mf_scale _ _ _ _ M) as [(l & El & Zl) Q]. rewrite El. f_equal. apply entries_eq.
    - rewrite Zl, Hn. reflexivity.
    - intros i Hi. change (zlen (repeat (dofZ 2) 20)) with 20 in Hi.
      destruct (Q i) as (f & dist & phi & b & _ & Hd & _ & _ & (m & Em & Hm)); [rewrite Hn; exact Hi|].
      rewrite El in Em. injection Em as <-. cbn [k_scale ex_clib] in Hm.
      apply (ex_samples d dD _ Cr eq_refl) in Hd. eauto. }
  assert (Edx : dx t = dsub (dofZ 1001) (dofZ 1000)).
  { destruct (mf_spacing _ _ _ _ M) as (r0 & r1 & H0 & H1 & ->).
    apply (ex_samples d dRHO _ Cr eq_refl), radii_entry in H0; [|lia]. apply (ex_samples d dRHO _ Cr eq_refl), radii_entry in H1; [|lia].
    destruct H0 as [_ ->], H1 as [_ ->]. reflexivity. }
  assert (Vdx : finite (dx t) /\ val (dx t) = 1%R) by (rewrite Edx; apply (val_z 1); [lia|vm_compute; reflexivity|vm_compute; reflexivity]).
  assert (En : normeq t = dofZ 1) by (rewrite (cf_normeq _ _ _ _ _ _ _ Cf); reflexivity).
  assert (Er : reso t = effective_resolution (ex_args "Rect") (dofZ 1)) by apply (mf_reso _ _ _ _ M).
  split; auto.
  - assert (P := cf_perturb _ _ _ _ _ _ _ Cf). cbn [a_perturb ex_args] in P. inversion P. reflexivity.
  - rewrite Sz. vm_compute. discriminate.
  - apply (mf_fresh _ _ _ _ M).
  - destruct (val_dofZ 0 ltac:(lia)) as [F0 V0]. destruct (val_dofZ 1006 ltac:(lia)) as [F1 V1]. destruct (val_dofZ 1012 ltac:(lia)) as [F2 V2].
    assert (PI0 := PI_RGT_0). unfold keywords_ok.
    rewrite (cf_sigma _ _ _ _ _ _ _ Cf), (cf_ecc _ _ _ _ _ _ _ Cf), (cf_peri _ _ _ _ _ _ _ Cf), R0, R1, Er.
    cbn [a_sigma a_ecc a_peri ex_args given].
    assert (Fs : finite (dfrac 2 10000000000000)) by (vm_compute; reflexivity).
    assert (Gs : dlt (dofZ 0) (dfrac 2 10000000000000) = true) by (vm_compute; reflexivity).
    apply (dlt_iff _ _ F0 Fs) in Gs. fold (val (dofZ 0)) in Gs. fold (val (dfrac 2 10000000000000)) in Gs.
    destruct ex_res as [F3 V3]. rewrite V0 in Gs. rewrite V0, V1, V2, V3. repeat split; auto; lra.
  - intros i a Ha. apply radii_entry in Ha; [|lia]. destruct Ha as [Hi ->].
    destruct (val_dofZ (1000 + i) ltac:(lia)) as [F V]. split; [exact F|]. rewrite V.
    split; [split; [apply IZR_lt; lia|apply IZR_le; lia]|].
    exists (dofZ 1000). split; [split; [lia|reflexivity]|].
    rewrite (proj2 (val_dofZ 1000 ltac:(lia))). rewrite plus_IZR. lra.
  - lra.
  - split.
    + split; [exact EV|]. split; [rewrite Sz; reflexivity|]. intros x Hx. apply repeat_spec in Hx. subst x. vm_compute. reflexivity.
    + right. intros x Hx. apply repeat_spec in Hx. subst x. left. destruct (val_dofZ (-1) ltac:(lia)) as [F V].
      split; [exact F|]. rewrite V. lra.
  - rewrite (cf_fwd _ _ _ _ _ _ _ Cf). reflexivity.
  - exists 6, 12. split; [lia|]. split; apply W; lia.
  - intros i Hi. apply W in Hi. exists (plain_width (dofZ 2) (dofZ 1) (effective_resolution (ex_args "Rect") (dofZ 1))).
    destruct ex_width as [Fw Vw]. split; [|split; [exact Fw|rewrite Vw; lra]].
    exists (dofZ 2). split; [apply nth_repeat_entry; lia|]. left. split; [rewrite (cf_bfac _ _ _ _ _ _ _ Cf); reflexivity|].
    rewrite En, Er. reflexivity.
  - intros i a r0 rl Hi Ha H0 Hl. apply W in Hi. rewrite Sz in Hl.
    apply radii_entry in Ha, H0, Hl; try lia. destruct Ha as [_ ->], H0 as [_ ->], Hl as [_ ->].
    rewrite !(fun z H => proj2 (val_dofZ z H)) by lia.
    split; [assert (IZR (1000 + 0) + 3 <= IZR (1000 + i))%R; [rewrite <- plus_IZR; apply IZR_le; lia|lra]|].
    assert (IZR (1000 + i) + 3 <= IZR (1000 + (20 - 1)))%R; [rewrite <- plus_IZR; apply IZR_le; lia|lra].
Qed.
(** The call of the example satisfies every hypothesis of the theorem: it constructs
    an instance with the six samples 1006 .. 1011. *)
Example c57_example : exists o t', diffrec_init ref_dlib ex_strlib (ex_clib true) true three_threads (dofZ 1) (ex_args "Rect") ex_heap
    = Ok (Constructed o) /\ shows (ex_args "Rect") (dofZ 1) t' o /\ (forall i, selected t' i <-> 6 <= i < 12).
Proof.
  destruct ex_conv as (d & Ed & He & Hn & Cr).
  destruct (c57_well_posed ref_dlib ex_strlib (ex_clib true) three_threads (dofZ 1) (ex_args "Rect") ex_heap (ex_dlp ex_phi) 20 d
    [dofZ 0; dofZ 0; dofZ 0; dofZ 0; dofZ 0] (dofZ 1006) (dofZ 1012) Rect PsiNewtonFilon11 0)
    as (t & Cf & Hc & _ & R0 & R1 & _ & Ep & _ & Q); auto.
  - exact ref_minmax.
  - exact ref_min.
  - exact ref_max.
  - exact ex_full.
  - unfold two64; lia.
  - destruct ex_res as [F _]. unfold finite, notnan in *. destruct (effective_resolution (ex_args "Rect") (dofZ 1)); (reflexivity || discriminate).
  - exact ex_good_heap.
  - intros g Hg i x Hi Hs. destruct (ex_sample_values d Cr g i x Hg Hs) as (z & -> & Hz & _). apply ex_numbers_ok. lia.
  - exact ex_mem.
  - exact three_threads_valid.
  - exact (ex_geometry d Hn Cr).
  - constructor.
  - apply rv_list; constructor; apply val_dofZ; lia.
  - exists "rect"%string. split; [cbn; tauto|]. apply Proof_Strings.spells_iff; [reflexivity|vm_compute; reflexivity].
  - apply (mn_documented ex_strlib _ "newtonfilon11"); [cbn; tauto|]. apply Proof_Strings.spells_iff; [reflexivity|vm_compute; reflexivity].
  - destruct (Q _ _ _ _ _ (ex_call_posed d t Hn Cr Cf Hc R0 R1)) as (t' & tw & o & E & Sh & _ & _ & _ & S & _).
    { unfold method_fits. rewrite Ep. exact I. }
    exists o, t'. split; [exact E|]. split; [exact Sh|]. intros i. rewrite S, (ex_wanted t i R0 R1). split.
    + intros [Hi (j & Hj & Wj)]. apply (ex_wanted t j R0 R1) in Wj. lia.
    + intros Hi. split; [lia|]. exists 12. split; [lia|]. apply (ex_wanted t 12 R0 R1). lia.
Qed.

(** What a caller cannot rely on.  A call without the DLP argument reads an
    uninitialised pointer; a DLP object without the attribute [history] crashes the
    interpreter after the reconstruction. *)
Theorem c57_no_dlp_refuted : forall (L : dlib) (X : strlib) (C : createlib dbl_scalar) (ok : bool) (sch : schedule)
  (self_res : double) (a : pyargs) (h : heap), a_dlp a = None ->
  diffrec_init L X C ok sch self_res a h = UB Uninitialised.
Proof. intros L X C ok sch r a h E. unfold diffrec_init. rewrite E. reflexivity. Qed.
Print Assumptions c57_no_dlp_refuted.
Theorem c57_no_history_refuted : exists (y : pydlp) (a : pyargs), full_dlp y 20 /\ a_dlp a = Some y /\
  diffrec_init ref_dlib ex_strlib (ex_clib true) true three_threads (dofZ 1) a ex_heap = UB NullDeref.
Proof.
  pose (y := mkPydlp (p_attr (ex_dlp ex_phi)) false).
  exists y, (mkPyargs (Some y) (Some (dofZ 4)) (Some (PList [PInt 1006; PInt 1012])) (Some "rect"%string)
    None None (Some false) None (Some "newtonfilon11"%string) (Some (dfrac 1 2)) None None None).
  split; [exact ex_full|]. split; [reflexivity|]. vm_compute. reflexivity.
Qed.
Print Assumptions c57_no_history_refuted.
(** The position arrays of the instance are the first samples of the input, not the
    samples of the reconstructed range. *)
Definition shows_x (r : res pyresult) (k : Z) (x : double) : bool :=
  match r with
  | Ok (Constructed o) =>
      match y_arr o RX, y_arr o RHO with
      | Some l, Some rho => match nth_error l (Z.to_nat k), nth_error rho (Z.to_nat k) with
                            | Some u, Some r => deq u x && deq r (dofZ 1006) | _, _ => false end
      | _, _ => false
      end
  | _ => false
  end.
Definition ex_moving : pydlp := mkPydlp (fun s =>
  if String.eqb s "rx_km_vals" then AArray (radii 20) else p_attr (ex_dlp ex_phi) s) true.
(** Here the x coordinate of every sample is its radius. *)
Theorem c57_positions_refuted : exists (y : pydlp) (a : pyargs), full_dlp y 20 /\ a_dlp a = Some y /\
  p_attr y "rx_km_vals" = p_attr y "rho_km_vals" /\
  shows_x (diffrec_init ref_dlib ex_strlib (ex_clib true) true three_threads (dofZ 1) a ex_heap) 0 (dofZ 1000) = true.
Proof.
  exists ex_moving, (mkPyargs (Some ex_moving) (Some (dofZ 4)) (Some (PList [PInt 1006; PInt 1012])) (Some "rect"%string)
    None None (Some false) None (Some "newtonfilon11"%string) (Some (dfrac 1 2)) None None None).
  split; [intros g; destruct g; (eexists; split; [reflexivity|reflexivity])|]. split; [reflexivity|]. split; [reflexivity|].
  vm_compute. reflexivity.
Qed.
Print Assumptions c57_positions_refuted.
