(** * Ex_Tau: concrete tau objects used by the examples and counterexamples. *)
From Coq Require Import List ZArith Bool Reals String Lra Lia.
From Flocq Require Import Core IEEE754.BinarySingleNaN.
From Verif Require Import Base BaseFacts Dbl DblFacts Scalar Model_TauRec Spec_Tau.
Import ListNotations.
Open Scope Z_scope.

(** An array of integer-valued doubles, and one of ratios. *)
Definition zs (l : list Z) : list double := map dofZ l.
Definition qs (l : list (Z * Z)) : list double := map (fun p => dfrac (fst p) (snd p)) l.

(** A clean object with [n] samples at radii 1000, 1001, ...; unit Fresnel scale,
    wave number and velocity; keywords as the defaults of the library except for
    round numbers. [F] the Fresnel scales. *)
Definition ex_arr (rho F w : option (list double)) (n : nat) (f : rf) : option (list double) :=
  match f with
  | RHO => rho
  | FKM => F
  | WKM => w
  | TTHR => None
  | PHI => Some (repeat (dofZ 45) n)
  | BDEG => Some (repeat (dofZ 20) n)
  | DKM => Some (repeat (dofZ 200000) n)
  | _ => Some (repeat (dofZ 1) n)
  end.
Definition ex_tau (n : nat) (rho F w : option (list double)) (lo hi reso : double) : dtau :=
  mkTau (S:=dbl_scalar) (ex_arr rho F w n)
    (Some (repeat (Some (dofZ 1, dofZ 0)) n)) (Some (repeat None n)) None
    (dofZ 1) (dofZ 1) (dfrac 1 5000000000000) (dofZ 0) (dofZ 0) reso
    [dofZ 0; dofZ 0; dofZ 0; dofZ 0; dofZ 0] lo hi (dfrac 1 1000000) 6
    0 0 (Z.of_nat n) KBMD20 PsiFresnel 0 true false false None.
Definition radii (n : nat) : list double :=
  map (fun k => dofZ (1000 + Z.of_nat k)) (seq 0 n).

(** Values of integer doubles. *)
Lemma val_dofZ z : Z.abs z <= 9007199254740992 -> finite (dofZ z) /\ val (dofZ z) = IZR z.
Proof. intros H. destruct (dofZ_exact z H). split; auto. Qed.
Ltac dz := match goal with
  | |- finite (dofZ ?z) => apply (val_dofZ z); lia
  | |- context [val (dofZ ?z)] => rewrite (proj2 (val_dofZ z ltac:(lia)))
  end.

(** Outcome tests that can be evaluated. *)
Definition okclean (r : res dtau) : bool :=
  match r with Ok t => match err t with None => true | _ => false end | _ => false end.
Definition okfailed (r : res dtau) : bool :=
  match r with Ok t => match err t with None => false | _ => true end | _ => false end.
Lemma okclean_spec r : okclean r = true -> exists t, r = Ok t /\ clean t.
Proof.
  destruct r as [t|]; simpl; try discriminate. intros H. exists t. split; auto.
  unfold clean. destruct (err t); [discriminate|reflexivity].
Qed.
Lemma okfailed_spec r : okfailed r = true -> exists t, r = Ok t /\ failed t.
Proof.
  destruct r as [t|]; simpl; try discriminate. intros H. exists t. split; auto.
  unfold failed. destruct (err t); [eauto|discriminate].
Qed.

(** The example radii are increasing. *)
From Verif Require Import Spec_Select.
Lemma radii_entry n i a : Z.of_nat n <= 1000000 -> entry (radii n) i a ->
  0 <= i < Z.of_nat n /\ a = dofZ (1000 + i).
Proof.
  intros Hn [Hi H]. unfold radii in H.
  rewrite nth_error_map in H.
  destruct (nth_error (seq 0 n) (Z.to_nat i)) as [k|] eqn:E; [|discriminate].
  simpl in H. injection H as <-.
  assert (Hk : (Z.to_nat i < n)%nat).
  { rewrite <- (seq_length n 0). apply nth_error_Some. congruence. }
  assert (Hk2 : k = Z.to_nat i).
  { apply (nth_error_nth _ _ 0%nat) in E. rewrite seq_nth in E by auto. lia. }
  subst k. split; [lia|]. rewrite Z2Nat.id by auto. reflexivity.
Qed.
Lemma radii_increasing n : Z.of_nat n <= 1000000 -> increasing (radii n).
Proof.
  intros Hn. split.
  - intros x Hx. apply In_nth_error in Hx. destruct Hx as [k Hk].
    assert (E : entry (radii n) (Z.of_nat k) x) by (split; [lia|rewrite Nat2Z.id; auto]).
    apply radii_entry in E; auto. destruct E as [Hi ->]. apply val_dofZ. lia.
  - intros i j a b Hij Ha Hb. apply radii_entry in Ha; auto. apply radii_entry in Hb; auto.
    destruct Ha as [Hi ->], Hb as [Hj ->].
    rewrite (proj2 (val_dofZ (1000 + i) ltac:(lia))), (proj2 (val_dofZ (1000 + j) ltac:(lia))).
    apply IZR_lt. lia.
Qed.
Lemma radii_length n : zlen (radii n) = Z.of_nat n.
Proof. unfold zlen, radii. rewrite map_length, seq_length. reflexivity. Qed.

(** [edges_increase] can be tested. *)
Definition edge_test (rho w : list double) : bool :=
  let l := combine rho w in
  forallb (fun i => forallb (fun j =>
    match nth_error l i, nth_error l j with
    | Some (a, x), Some (b, y) =>
        dle (left_edge a x) (left_edge b y) && dle (right_edge a x) (right_edge b y)
    | _, _ => true
    end) (seq (S i) (List.length l))) (seq 0 (List.length l)).
Lemma edge_test_spec t rho w : edge_test rho w = true -> edges_increase t rho w.
Proof.
  intros H i j a b x y Hij ([Hi Ha] & [_ Hx] & _) ([Hj Hb] & [_ Hy] & _).
  unfold edge_test in H. rewrite forallb_forall in H.
  assert (C : forall k u v, nth_error rho k = Some u -> nth_error w k = Some v ->
            nth_error (combine rho w) k = Some (u, v)).
  { clear. intros k. revert rho w. induction k; intros [|r rho] [|z w] u v; simpl; try discriminate.
    - congruence.
    - apply IHk. }
  assert (Ci := C _ _ _ Ha Hx). assert (Cj := C _ _ _ Hb Hy).
  assert (Li : (Z.to_nat i < List.length (combine rho w))%nat) by (apply nth_error_Some; congruence).
  assert (Lj : (Z.to_nat j < List.length (combine rho w))%nat) by (apply nth_error_Some; congruence).
  specialize (H (Z.to_nat i)). rewrite in_seq in H. specialize (H ltac:(lia)).
  rewrite forallb_forall in H. specialize (H (Z.to_nat j)). rewrite in_seq in H.
  specialize (H ltac:(lia)). rewrite Ci, Cj in H. apply andb_true_iff in H. exact H.
Qed.
Lemma deq_false_neq (x y : double) : dnan y = false -> deq x y = false -> x <> y.
Proof.
  intros Hn H ->. unfold deq, Beqb, SpecFloat.SFeqb in H.
  destruct y as [[]|[]| |[] m e He]; try discriminate; simpl in H;
    rewrite Z.compare_refl, ?Pos.compare_cont_refl in H; discriminate.
Qed.
