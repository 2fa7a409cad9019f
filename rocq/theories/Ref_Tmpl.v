(** * Ref_Tmpl: a concrete library that satisfies the laws assumed of libtmpl.
    Used to show that the hypotheses of the theorems are satisfiable and as the
    library of the counterexamples; it models no code of /repo. *)
From Coq Require Import List ZArith Bool Reals.
From Flocq Require Import Core IEEE754.BinarySingleNaN.
From Verif Require Import Base Dbl DblFacts Scalar Model_TauRec Spec_Tau.
Import ListNotations.

Section Ref.
  Context {S : scalar}.
  (** minimum / maximum scan, starting from the first entry *)
  Definition list_min (l : list S) : S :=
    match l with
    | [] => s0
    | h :: r => fold_left (fun m x => if slt x m then x else m) r h
    end.
  Definition list_max (l : list S) : S :=
    match l with
    | [] => s0
    | h :: r => fold_left (fun m x => if slt m x then x else m) r h
    end.
  (** [sn], [cs], [ex]: sine, cosine, exponential. All allocations succeed. *)
  Definition ref_lib (sn cs ex : S -> S) : tmpl S := {|
    t_minmax := fun l => (list_min l, list_max l);
    t_min := list_min; t_max := list_max;
    t_resinv := fun p => p;
    t_window := fun _ _ _ => s1;
    t_normeq := fun _ => s1;
    t_sin := sn; t_cos := cs; t_exp := ex;
    t_sind := sn; t_cosd := cs;
    t_cabs := fun z => ssqrt (cabs2 z);
    t_kernel := fun k g _ _ =>
      let psi := (k * (fst (g_intercept g) - fst (g_dummy g)))%S in (cs psi, sn psi);
    t_phasew := fun k g _ _ =>
      (snd (g_dummy g), s1, (k * (fst (g_intercept g) - fst (g_dummy g)))%S);
    t_psi := fun k g _ _ => (k * (fst (g_intercept g) - fst (g_dummy g)))%S;
    t_filon01 := fun m a b d =>
      let p := (shalf * (a + b))%S in cscale d (cmul m (cs p, sn p));
    t_rfilon01 := fun m a b d =>
      let p := (shalf * (a + b))%S in cscale (d * m)%S (cs p, sn p);
    t_filon11 := fun l r a b d =>
      let p := (shalf * (a + b))%S in cscale (d * shalf)%S (cmul (cadd l r) (cs p, sn p));
    t_rfilon11 := fun l r a b d =>
      let p := (shalf * (a + b))%S in cscale (d * shalf * (l + r))%S (cs p, sn p);
    t_filon02 := fun l r a m b d => cscale d (cmul (cadd l r) (cs m, sn m));
    t_filon12 := fun l c r a m b d => cscale d (cmul (cadd l (cadd c r)) (cs m, sn m));
    t_ellphi := fun l _ => nth 2 l s0;
    t_obsdist := fun l => s1;
    t_idealpsi := fun l => nth 0 l s0;
    t_idealphi := fun l _ => nth 2 l s0;
    t_legendre := fun a b n => repeat s1 (Z.to_nat n);
    t_fft := fun l => l; t_ifft := fun l => l;
    t_alloc := fun _ => true;
    t_realloc0 := true |}.
End Ref.

Definition ref_dlib : dlib :=
  ref_lib (S := dbl_scalar) (fun x => x) (fun _ => done) (fun _ => done).
Definition ref_rlib : tmpl real_scalar :=
  ref_lib (S := real_scalar) sin cos exp.

Lemma list_min_law l : l <> [] -> (forall x, In x l -> notnan x) ->
  In (list_min (S := dbl_scalar) l) l /\
  forall x, In x l -> dle (list_min (S := dbl_scalar) l) x = true.
Proof.
  destruct l as [|h r]; [congruence|]. intros _ Hn. unfold list_min.
  assert (G : forall r h, (forall x, In x (h :: r) -> notnan x) ->
    In (fold_left (fun m x => if slt (s:=dbl_scalar) x m then x else m) r h) (h :: r) /\
    forall x, In x (h :: r) ->
      dle (fold_left (fun m x => if slt (s:=dbl_scalar) x m then x else m) r h) x = true).
  { clear. induction r as [|a r IH]; intros h Hn; simpl.
    - split; auto. intros x [->|[]]. apply dle_refl. apply Hn; simpl; auto.
    - destruct (dlt a h) eqn:E.
      + destruct (IH a) as [H1 H2]. { intros; apply Hn; simpl in *; tauto. }
        split; [simpl in *; tauto|].
        intros x [->|[->|Hx]]; [|apply H2; simpl; auto|apply H2; simpl; auto].
        apply dle_trans with a; [apply H2; simpl; auto| apply dlt_dle; auto].
      + destruct (IH h) as [H1 H2]. { intros; apply Hn; simpl in *; tauto. }
        split; [simpl in *; tauto|].
        intros x [->|[->|Hx]]; [apply H2; simpl; auto| |apply H2; simpl; auto].
        apply dle_trans with h; [apply H2; simpl; auto|].
        apply dlt_false_dle; auto; apply Hn; simpl; auto. }
  apply G; auto.
Qed.
Lemma list_max_law l : l <> [] -> (forall x, In x l -> notnan x) ->
  In (list_max (S := dbl_scalar) l) l /\
  forall x, In x l -> dle x (list_max (S := dbl_scalar) l) = true.
Proof.
  destruct l as [|h r]; [congruence|]. intros _ Hn. unfold list_max.
  assert (G : forall r h, (forall x, In x (h :: r) -> notnan x) ->
    In (fold_left (fun m x => if slt (s:=dbl_scalar) m x then x else m) r h) (h :: r) /\
    forall x, In x (h :: r) ->
      dle x (fold_left (fun m x => if slt (s:=dbl_scalar) m x then x else m) r h) = true).
  { clear. induction r as [|a r IH]; intros h Hn; simpl.
    - split; auto. intros x [->|[]]. apply dle_refl. apply Hn; simpl; auto.
    - destruct (dlt h a) eqn:E.
      + destruct (IH a) as [H1 H2]. { intros; apply Hn; simpl in *; tauto. }
        split; [simpl in *; tauto|].
        intros x [->|[->|Hx]]; [|apply H2; simpl; auto|apply H2; simpl; auto].
        apply dle_trans with a; [apply dlt_dle; auto|apply H2; simpl; auto].
      + destruct (IH h) as [H1 H2]. { intros; apply Hn; simpl in *; tauto. }
        split; [simpl in *; tauto|].
        intros x [->|[->|Hx]]; [apply H2; simpl; auto| |apply H2; simpl; auto].
        apply dle_trans with h; [|apply H2; simpl; auto].
        apply dlt_false_dle; auto; apply Hn; simpl; auto. }
  apply G; auto.
Qed.
Lemma ref_minmax : minmax_law ref_dlib.
Proof.
  intros l Hl Hn. destruct (list_min_law l Hl Hn), (list_max_law l Hl Hn).
  simpl. repeat split; auto.
Qed.
Lemma ref_min : min_law ref_dlib.
Proof. intros l Hl Hn. apply (list_min_law l Hl Hn). Qed.
Lemma ref_max : max_law ref_dlib.
Proof. intros l Hl Hn. apply (list_max_law l Hl Hn). Qed.
Lemma ref_nan : nan_law ref_dlib.
Proof.
  intros l Hl Hn. destruct l as [|h r]; [congruence|].
  assert (H1 : dnan (list_min (S:=dbl_scalar) (h :: r)) = true).
  { unfold list_min.
    assert (G : forall r h, dnan h = true -> (forall x, In x r -> dnan x = true) ->
      dnan (fold_left (fun m x => if slt (s:=dbl_scalar) x m then x else m) r h) = true).
    { clear; induction r; simpl; intros; auto. destruct (dlt a h); apply IHr; auto. }
    apply G; intros; apply Hn; simpl; auto. }
  assert (H2 : dnan (list_max (S:=dbl_scalar) (h :: r)) = true).
  { unfold list_max.
    assert (G : forall r h, dnan h = true -> (forall x, In x r -> dnan x = true) ->
      dnan (fold_left (fun m x => if slt (s:=dbl_scalar) m x then x else m) r h) = true).
    { clear; induction r; simpl; intros; auto. destruct (dlt h a); apply IHr; auto. }
    apply G; intros; apply Hn; simpl; auto. }
  repeat split; left; auto.
Qed.
