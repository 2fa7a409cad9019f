(** * Properties_Checks: validation, sticky errors and option names (C01-C06).
    Each theorem is followed by its assumptions and by a concrete case. *)
From Coq Require Import List ZArith Bool Reals String Ascii Lia Lra DecimalNat DecimalString.
From Flocq Require Import Core IEEE754.BinarySingleNaN.
From Verif Require Import Base BaseFacts Dbl DblFacts Scalar Model_TauRec
  Model_Checks Model_Select Model_Strings Model_Recon Spec_Tau Spec_Ops Spec_Strings
  Ref_Tmpl Proof_Checks Proof_Sticky Proof_Strings Ex_Tau.
Import ListNotations.
Open Scope Z_scope.

(** ** C01 *)
Theorem c01_keywords_exact : forall t : dtau,
  clean t ->
  exists t', check_keywords t = Ok t' /\ same_data t t' /\ (clean t' <-> keywords_ok t).
Proof. exact check_keywords_exact. Qed.
Print Assumptions c01_keywords_exact.

(** A usable object; the same with NaN as resolution, and with a reversed range. *)
Definition ex_good : dtau :=
  ex_tau 4 (Some (radii 4)) (Some (repeat (dofZ 1) 4)) None (dofZ 1000) (dofZ 1002) (dofZ 2).
Definition ex_nan_res : dtau :=
  ex_tau 4 (Some (radii 4)) (Some (repeat (dofZ 1) 4)) None (dofZ 1000) (dofZ 1002) dNaN.
Definition ex_reversed : dtau :=
  ex_tau 4 (Some (radii 4)) (Some (repeat (dofZ 1) 4)) None (dofZ 1002) (dofZ 1000) (dofZ 2).
Example c01_accepts : clean ex_good /\ exists t', check_keywords ex_good = Ok t' /\ clean t'.
Proof. split; [reflexivity|apply okclean_spec; vm_compute; reflexivity]. Qed.
Example c01_accepts_ok : keywords_ok ex_good.
Proof.
  destruct (c01_keywords_exact ex_good eq_refl) as (t' & H & _ & Hk). apply Hk.
  destruct (proj2 c01_accepts) as (u & E & Hu). rewrite E in H. injection H as <-. exact Hu.
Qed.
Example c01_rejects_nan : ~ keywords_ok ex_nan_res.
Proof. intros (_ & (H & _) & _). discriminate H. Qed.
Example c01_rejects_reversed :
  exists t', check_keywords ex_reversed = Ok t' /\ failed t'.
Proof. apply okfailed_spec. vm_compute. reflexivity. Qed.

(** ** C02 *)
(** libtmpl's extrema obey their laws; an array is not partly NaN (see
    [has_array]); the resolution is a number (it is checked by C01). *)
Theorem c02_geometry_exact : forall (L : dlib),
  minmax_law L -> min_law L -> forall (t : dtau) phi b d r,
  clean t -> 1 <= arr_size t ->
  has_array t PHI phi -> has_array t BDEG b -> has_array t DKM d -> has_array t RHO r ->
  notnan (reso t) ->
  exists t', check_geometry L t = Ok t' /\ same_data t t' /\
             (clean t' <-> geometry_ok phi b d r t).
Proof. intros L H1 H2; exact (check_geometry_exact L H1 H2). Qed.
Print Assumptions c02_geometry_exact.

Definition ex_with (t : dtau) (f : rf) (l : list double) : dtau := set_f t f (Some l).
Lemma ex_good_array f l : arr ex_good f = Some l -> zlen l = 4 ->
  forallb (fun x => negb (dnan x)) l = true -> has_array ex_good f l.
Proof.
  intros H1 H2 H3. split; auto. split; auto. intros x Hx.
  rewrite forallb_forall in H3. apply H3 in Hx. apply negb_true_iff in Hx. exact Hx.
Qed.
Example c02_accepts :
  minmax_law ref_dlib /\ min_law ref_dlib /\ clean ex_good /\
  has_array ex_good PHI (repeat (dofZ 45) 4) /\ has_array ex_good BDEG (repeat (dofZ 20) 4) /\
  has_array ex_good DKM (repeat (dofZ 200000) 4) /\ has_array ex_good RHO (radii 4) /\
  notnan (reso ex_good) /\ exists t', check_geometry ref_dlib ex_good = Ok t' /\ clean t'.
Proof.
  split; [exact ref_minmax|]. split; [exact ref_min|]. split; [reflexivity|].
  repeat (split; [apply ex_good_array; [reflexivity|reflexivity|vm_compute; reflexivity]|]).
  split; [reflexivity|apply okclean_spec; vm_compute; reflexivity].
Qed.
(** One azimuth of 361 degrees among four is found. *)
Example c02_rejects :
  exists t', check_geometry ref_dlib (ex_with ex_good PHI (zs [45; 361; 45; 45])) = Ok t' /\ failed t'.
Proof. apply okfailed_spec. vm_compute. reflexivity. Qed.

(** Without the no-NaN condition the property is false of the code: opening
    angles that are all NaN are accepted, for every library whose extrema treat
    an all-NaN array in either of the usual ways; *)
Theorem c02_nan_opening_accepted_refuted : forall (L : dlib) (t : dtau) (b : list double),
  nan_law L -> clean t -> arr t BDEG = Some b -> zlen b = arr_size t -> b <> [] ->
  (forall x, In x b -> dnan x = true) ->
  check_opening_angle L t = Ok t.
Proof. exact opening_nan_accepted. Qed.
Print Assumptions c02_nan_opening_accepted_refuted.
(** ... and so the whole geometry check accepts such an object; *)
Theorem c02_nan_refuted : exists (L : dlib) (t : dtau) (b : list double),
  minmax_law L /\ min_law L /\ nan_law L /\ clean t /\
  arr t BDEG = Some b /\ zlen b = arr_size t /\ (forall x, In x b -> ~ angle_ok x) /\
  exists t', check_geometry L t = Ok t' /\ clean t'.
Proof.
  exists ref_dlib, (ex_with ex_good BDEG (repeat dNaN 4)), (repeat dNaN 4).
  split; [exact ref_minmax|]. split; [exact ref_min|]. split; [exact ref_nan|].
  split; [reflexivity|]. split; [reflexivity|]. split; [reflexivity|].
  split; [|apply okclean_spec; vm_compute; reflexivity].
  intros x Hx [Hf _]. apply repeat_spec in Hx. subst. discriminate Hf.
Qed.
Print Assumptions c02_nan_refuted.
(** ... and a NaN resolution passes the spacing check (it is C01 that rejects
    it). *)
Theorem c02_nan_resolution_refuted : forall t : dtau,
  clean t -> dnan (reso t) = true -> finite (dx t) -> val (dx t) <> 0%R ->
  check_displacement t = Ok t.
Proof. exact displacement_nan_accepted. Qed.
Print Assumptions c02_nan_resolution_refuted.
Example c02_nan_resolution_case : clean ex_nan_res /\ check_displacement ex_nan_res = Ok ex_nan_res.
Proof.
  split; [reflexivity|]. apply c02_nan_resolution_refuted; try reflexivity.
  change (dx ex_nan_res) with (dofZ 1). rewrite (proj2 (val_dofZ 1 ltac:(lia))). lra.
Qed.

(** ** C03 *)
Theorem c03_errors_are_sticky : forall (S : scalar) (L : tmpl S) (X : strlib)
    (calls : list call) (t : tau S) (m : string),
  err t = Some m -> run_calls L X calls t = Ok t.
Proof. intros S L X; exact (run_calls_sticky L X). Qed.
Print Assumptions c03_errors_are_sticky.

Definition ex_strlib : strlib :=
  {| is_ws := fun c => orb (Ascii.eqb c " "%char) (Nat.eqb (nat_of_ascii c) 9);
     to_uchar := fun s => match DecimalString.NilEmpty.uint_of_string s with
                          | Some u => Z.of_nat (Nat.of_uint u) mod 256 | None => 0 end |}.
(** A rejected object keeps its message through a reconstruction and a setter
    that would have succeeded. *)
Example c03_case :
  exists t1 m, check_keywords ex_reversed = Ok t1 /\ err t1 = Some m /\
    run_calls ref_dlib ex_strlib
      [CallSetRange (Some "all"%string); CallReconstruction (fun n => [(0, n)])] t1 = Ok t1.
Proof.
  destruct c01_rejects_reversed as (t1 & E & H).
  destruct H as [m Hm]. exists t1, m. split; auto. split; auto.
  eapply c03_errors_are_sticky; eauto.
Qed.

(** ** C04 *)
Theorem c04_named_ranges : forall (S : scalar) (L : tmpl S) (X : strlib) (s : string) (t : tau S),
  clean t -> t_alloc L 12 = true ->
  (forall k lo hi, In (k, (lo, hi)) documented_ranges -> spells (is_ws X) s k ->
     set_range_from_string L X (Some s) t = Ok (set_range1 (set_range0 t (sofZ lo)) (sofZ hi))) /\
  ((forall k v, In (k, v) documented_ranges -> ~ spells (is_ws X) s k) ->
     exists t', set_range_from_string L X (Some s) t = Ok t' /\ failed t').
Proof. intros S L X; exact (set_range_exact X L). Qed.
Print Assumptions c04_named_ranges.
(** Strings that differ only in case and white space behave identically. *)
Theorem c04_case_and_blanks : forall (S : scalar) (L : tmpl S) (X : strlib) s1 s2 k (t : tau S),
  lowercase k -> spells (is_ws X) s1 k -> spells (is_ws X) s2 k ->
  set_range_from_string L X (Some s1) t = set_range_from_string L X (Some s2) t.
Proof. intros S L X; exact (set_range_same X L). Qed.
Print Assumptions c04_case_and_blanks.
(** Every documented pair passes the range check. *)
Theorem c04_named_ranges_valid : forall (t : dtau) k lo hi,
  clean t -> In (k, (lo, hi)) documented_ranges ->
  check_range (set_range1 (set_range0 t (dofZ lo)) (dofZ hi))
  = Ok (set_range1 (set_range0 t (dofZ lo)) (dofZ hi)).
Proof. exact named_range_valid. Qed.
Print Assumptions c04_named_ranges_valid.

Ltac spell := repeat first
  [ apply spells_nil
  | apply spells_ws; [reflexivity|]
  | apply spells_letter; [reflexivity|first [left; reflexivity | right; vm_compute; repeat split; discriminate]|] ].
Example c04_case : spells (is_ws ex_strlib) "  Encke Gap"%string "enckegap"%string /\
  In ("enckegap"%string, (132900, 134200)) documented_ranges.
Proof. split; [spell|]. simpl. tauto. Qed.
Example c04_unknown_case : forall k v, In (k, v) documented_ranges ->
  ~ spells (is_ws ex_strlib) "Keeler"%string k.
Proof.
  intros k v H Hs. inversion Hs as [|? ? ? Hw _|c d s' k' Hw Hl Hr]; [discriminate Hw|subst].
  simpl in H. repeat (destruct H as [H|H]; [inversion H; subst; clear H|]); try contradiction;
    destruct Hl as [Hl|[_ Hl]]; try discriminate; vm_compute in Hl; try discriminate;
    inversion Hr as [|? ? ? Hw2 _|c2 d2 s2 k2 Hw2 Hl2 Hr2]; try discriminate;
    destruct Hl2 as [Hl2|[_ Hl2]]; try discriminate; vm_compute in Hl2; discriminate.
Qed.

(** ** C05 *)
Theorem c05_methods : forall (S : scalar) (L : tmpl S) (X : strlib) (s : string) (t : tau S),
  clean t -> t_alloc L 11 = true ->
  (forall k p, In (k, p) documented_methods -> spells (is_ws X) s k ->
     set_psi_type L X (Some s) t = Ok (set_psinum t p)) /\
  ((forall k v, In (k, v) documented_methods -> ~ spells (is_ws X) s k) ->
   ~ spells_prefix (is_ws X) s "fresnel" ->
     exists t', set_psi_type L X (Some s) t = Ok t' /\ failed t').
Proof. intros S L X; exact (set_psi_exact X L). Qed.
Print Assumptions c05_methods.
Theorem c05_fresnelN : forall (S : scalar) (L : tmpl S) (X : strlib) (s : string) (t : tau S) (n : nat),
  clean t -> t_alloc L 11 = true -> uchar_law X -> (n <= 255)%nat ->
  spells (is_ws X) s ("fresnel" ++ decimal n) ->
  (n = 2%nat -> set_psi_type L X (Some s) t = Ok (set_order (set_psinum t PsiFresnel) 0)) /\
  ((3 <= n)%nat ->
     set_psi_type L X (Some s) t = Ok (set_order (set_psinum t PsiLegendre) (Z.of_nat n - 1))) /\
  ((n <= 1)%nat -> exists t', set_psi_type L X (Some s) t = Ok t' /\ failed t').
Proof. intros S L X; exact (set_psi_fresnelN X L). Qed.
Print Assumptions c05_fresnelN.
Example c05_case : spells (is_ws ex_strlib) "Newton 16"%string "newton16"%string /\
  In ("newton16"%string, PsiNewton16) documented_methods.
Proof. split; [spell|]. simpl. tauto. Qed.
Lemma ex_uchar : uchar_law ex_strlib.
Proof.
  intros n Hn. unfold decimal, ex_strlib, to_uchar.
  rewrite DecimalString.NilEmpty.usu. rewrite DecimalNat.Unsigned.of_to.
  apply Z.mod_small. lia.
Qed.
Example c05_fresnel_case : uchar_law ex_strlib /\
  spells (is_ws ex_strlib) "FRESNEL 17"%string ("fresnel" ++ decimal 17)%string.
Proof. split; [exact ex_uchar|]. vm_compute (_ ++ _)%string. spell. Qed.

(** ** C06 *)
Theorem c06_windows : forall (S : scalar) (L : tmpl S) (X : strlib) (s : string) (t : tau S),
  clean t -> t_alloc L 10 = true ->
  (forall k w, In (k, w) documented_windows -> spells (is_ws X) s k ->
     set_window_type L X (Some s) t = Ok (set_window (set_normeq t (t_normeq L w)) w)) /\
  ((forall k v, In (k, v) documented_windows -> ~ spells (is_ws X) s k) ->
     exists t', set_window_type L X (Some s) t = Ok t' /\ failed t').
Proof. intros S L X; exact (set_window_exact X L). Qed.
Print Assumptions c06_windows.
Example c06_case : spells (is_ws ex_strlib) "KBmd 20"%string "kbmd20"%string /\
  In ("kbmd20"%string, KBMD20) documented_windows.
Proof. split; [spell|]. simpl. tauto. Qed.
