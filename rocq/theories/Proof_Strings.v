(** * Proof_Strings: proofs about the string setters (C04, C05, C06). *)
From Coq Require Import List ZArith Bool String Ascii Lia DecimalString.
From Verif Require Import Base BaseFacts Scalar Model_TauRec Model_Checks Model_Strings
  Spec_Strings Spec_Tau.
Import ListNotations.
Open Scope string_scope.
Open Scope Z_scope.

(** A word that lower-casing leaves alone. *)
Definition lowercase (k : string) : Prop := lower k = k.

Lemma lower_ascii_spec c : same_letter c (lower_ascii c).
Proof.
  unfold lower_ascii, same_letter.
  destruct (Nat.leb_spec 65 (nat_of_ascii c)); simpl; auto.
  destruct (Nat.leb_spec (nat_of_ascii c) 90); simpl; auto.
  right. rewrite nat_ascii_embedding by lia. lia.
Qed.
Lemma same_letter_lower c d : same_letter c d -> lower_ascii d = d -> lower_ascii c = d.
Proof.
  intros [->|[H1 H2]] Hd; auto.
  unfold lower_ascii.
  destruct (Nat.leb_spec 65 (nat_of_ascii c)); simpl; [|lia].
  destruct (Nat.leb_spec (nat_of_ascii c) 90); simpl; [|lia].
  replace (nat_of_ascii c + 32)%nat with (nat_of_ascii d) by lia.
  apply ascii_nat_embedding.
Qed.
Lemma lower_idem_ascii c : lower_ascii (lower_ascii c) = lower_ascii c.
Proof.
  unfold lower_ascii at 2 3.
  destruct (Nat.leb 65 (nat_of_ascii c) && Nat.leb (nat_of_ascii c) 90)%bool eqn:E.
  - apply andb_true_iff in E. destruct E as [E1 E2].
    apply Nat.leb_le in E1. apply Nat.leb_le in E2.
    unfold lower_ascii. rewrite nat_ascii_embedding by lia.
    destruct (Nat.leb_spec (nat_of_ascii c + 32) 90); [lia|]. rewrite andb_false_r. reflexivity.
  - unfold lower_ascii. rewrite E. reflexivity.
Qed.
Lemma lower_idem s : lower (lower s) = lower s.
Proof. induction s; simpl; auto. rewrite lower_idem_ascii, IHs; auto. Qed.
Lemma lower_app a b : lower (a ++ b) = lower a ++ lower b.
Proof. induction a; simpl; auto. rewrite IHa; auto. Qed.

Section Str.
  Variable X : strlib.
  Lemma spells_normalise s : spells (is_ws X) s (normalise X s).
  Proof.
    unfold normalise. induction s as [|c s IH]; simpl; [constructor|].
    destruct (is_ws X c) eqn:E; simpl.
    - apply spells_ws; auto.
    - apply spells_letter; auto. apply lower_ascii_spec.
  Qed.
  Lemma spells_unique s k : lowercase k -> spells (is_ws X) s k -> normalise X s = k.
  Proof.
    unfold normalise. intros Hk H. induction H; simpl.
    - reflexivity.
    - rewrite H. auto.
    - rewrite H; simpl. injection Hk as Hd Hk. f_equal.
      + apply same_letter_lower; auto.
      + apply IHspells; exact Hk.
  Qed.
  Lemma spells_iff s k : lowercase k -> (spells (is_ws X) s k <-> normalise X s = k).
  Proof.
    intros Hk; split; [apply spells_unique; auto|].
    intros <-. apply spells_normalise.
  Qed.
  Lemma lowercase_normalise s : lowercase (normalise X s).
  Proof. apply lower_idem. Qed.

  Lemma lookup_some {A} (tbl : list (string * A)) s v :
    lookup tbl s = Some v -> In (s, v) tbl.
  Proof.
    induction tbl as [|[k w] r IH]; simpl; [discriminate|].
    destruct (String.eqb_spec s k) as [->|]; auto. intros E; inversion E; auto.
  Qed.
  Lemma lookup_none {A} (tbl : list (string * A)) s :
    lookup tbl s = None -> forall k v, In (k, v) tbl -> k <> s.
  Proof.
    induction tbl as [|[k w] r IH]; simpl; [tauto|].
    destruct (String.eqb_spec s k) as [->|]; [discriminate|].
    intros H k' v [E|Hin]; [inversion E; subst; auto|eauto].
  Qed.
  Lemma lookup_in {A} (tbl : list (string * A)) s v :
    NoDup (map fst tbl) -> In (s, v) tbl -> lookup tbl s = Some v.
  Proof.
    induction tbl as [|[k w] r IH]; simpl; [tauto|].
    intros Hn [E|Hin].
    - inversion E; subst. rewrite String.eqb_refl. reflexivity.
    - inversion Hn; subst. destruct (String.eqb_spec s k) as [->|]; auto.
      exfalso. apply H1. apply (in_map fst) in Hin. exact Hin.
  Qed.

  Ltac nodup := repeat (constructor; [simpl; intuition discriminate|]); constructor.

  Lemma lowercase_ranges k v : In (k, v) documented_ranges -> lowercase k.
  Proof. intros H; simpl in H; repeat (destruct H as [H|H]; [inversion H; reflexivity|]); destruct H. Qed.
  Lemma lowercase_windows k v : In (k, v) documented_windows -> lowercase k.
  Proof. intros H; simpl in H; repeat (destruct H as [H|H]; [inversion H; reflexivity|]); destruct H. Qed.
  Lemma lowercase_methods k v : In (k, v) documented_methods -> lowercase k.
  Proof. intros H; simpl in H; repeat (destruct H as [H|H]; [inversion H; reflexivity|]); destruct H. Qed.

  Context {S : scalar} (L : tmpl S).

  (** C04 *)
  Lemma set_range_documented s t k lo hi :
    clean t -> t_alloc L 12 = true ->
    In (k, (lo, hi)) documented_ranges -> spells (is_ws X) s k ->
    set_range_from_string L X (Some s) t = Ok (set_range1 (set_range0 t (sofZ lo)) (sofZ hi)).
  Proof.
    intros Hc Ha Hin Hs. unfold set_range_from_string, guarded. unfold clean in Hc. rewrite Hc. rewrite Ha. simpl need.
    cbn [bind].
    rewrite (spells_unique s k); auto; [|eapply lowercase_ranges; eauto].
    replace (lookup range_table k) with (Some (lo, hi)); auto.
    symmetry. apply lookup_in; [|exact Hin]. nodup.
  Qed.
  Lemma set_range_unknown s t :
    clean t -> t_alloc L 12 = true ->
    (forall k v, In (k, v) documented_ranges -> ~ spells (is_ws X) s k) ->
    exists t', set_range_from_string L X (Some s) t = Ok t' /\ failed t'.
  Proof.
    intros Hc Ha Hno. unfold set_range_from_string, guarded. unfold clean in Hc. rewrite Hc. rewrite Ha. simpl need.
    cbn [bind].
    destruct (lookup range_table (normalise X s)) as [[lo hi]|] eqn:E.
    - apply lookup_some in E. exfalso. apply (Hno _ _ E). apply spells_normalise.
    - eexists; split; [reflexivity|]. eexists; reflexivity.
  Qed.
  Lemma set_range_null t :
    clean t -> exists t', set_range_from_string L X None t = Ok t' /\ failed t'.
  Proof.
    intros Hc. unfold set_range_from_string, guarded. unfold clean in Hc. rewrite Hc.
    eexists; split; [reflexivity|]. eexists; reflexivity.
  Qed.
  Lemma set_range_same s1 s2 k t :
    lowercase k -> spells (is_ws X) s1 k -> spells (is_ws X) s2 k ->
    set_range_from_string L X (Some s1) t = set_range_from_string L X (Some s2) t.
  Proof.
    intros Hk H1 H2. apply spells_unique in H1; auto. apply spells_unique in H2; auto.
    unfold set_range_from_string. rewrite H1, H2. reflexivity.
  Qed.

  (** C06 *)
  Lemma set_window_documented s t k w :
    clean t -> t_alloc L 10 = true ->
    In (k, w) documented_windows -> spells (is_ws X) s k ->
    set_window_type L X (Some s) t = Ok (set_window (set_normeq t (t_normeq L w)) w).
  Proof.
    intros Hc Ha Hin Hs. unfold set_window_type, guarded. unfold clean in Hc. rewrite Hc, Ha. cbn [negb].
    rewrite (spells_unique s k); auto; [|eapply lowercase_windows; eauto].
    replace (lookup window_table k) with (Some w); auto.
    symmetry. apply lookup_in; [|exact Hin]. nodup.
  Qed.
  Lemma set_window_unknown s t :
    clean t ->
    (forall k v, In (k, v) documented_windows -> ~ spells (is_ws X) s k) ->
    exists t', set_window_type L X (Some s) t = Ok t' /\ failed t'.
  Proof.
    intros Hc Hno. unfold set_window_type, guarded. unfold clean in Hc. rewrite Hc.
    destruct (negb (t_alloc L 10)).
    { eexists; split; [reflexivity|]. eexists; reflexivity. }
    destruct (lookup window_table (normalise X s)) eqn:E.
    - apply lookup_some in E. exfalso. apply (Hno _ _ E). apply spells_normalise.
    - eexists; split; [reflexivity|]. eexists; reflexivity.
  Qed.

  (** C05 *)
  Lemma set_psi_documented s t k p :
    clean t -> t_alloc L 11 = true ->
    In (k, p) documented_methods -> spells (is_ws X) s k ->
    set_psi_type L X (Some s) t = Ok (set_psinum t p).
  Proof.
    intros Hc Ha Hin Hs. unfold set_psi_type, guarded. unfold clean in Hc. rewrite Hc, Ha. cbn [negb]. cbv zeta.
    rewrite (spells_unique s k); auto; [|eapply lowercase_methods; eauto].
    replace (lookup psi_table k) with (Some p); auto.
    symmetry. apply lookup_in; [|exact Hin]. nodup.
  Qed.

  Lemma lower_decimal_all :
    forallb (fun n => String.eqb (lower (decimal n)) (decimal n) &&
                      match lookup psi_table ("fresnel" ++ decimal n) with None => true | _ => false end)%bool
      (seq 0 256) = true.
  Proof. vm_compute. reflexivity. Qed.
  Lemma decimal_facts n : (n <= 255)%nat ->
    lowercase ("fresnel" ++ decimal n) /\ lookup psi_table ("fresnel" ++ decimal n) = None.
  Proof.
    intros H. assert (G := proj1 (forallb_forall _ _) lower_decimal_all n).
    assert (Hi : In n (seq 0 256)) by (apply in_seq; lia).
    apply G in Hi. apply andb_true_iff in Hi. destruct Hi as [H1 H2].
    apply String.eqb_eq in H1. split.
    - unfold lowercase. rewrite lower_app, H1. reflexivity.
    - destruct (lookup psi_table ("fresnel" ++ decimal n)); [discriminate|reflexivity].
  Qed.
  Lemma substring_all s : substring 0 (String.length s) s = s.
  Proof. induction s; simpl; auto. rewrite IHs; auto. Qed.
  Lemma set_psi_fresnelN s t n :
    clean t -> t_alloc L 11 = true -> uchar_law X -> (n <= 255)%nat ->
    spells (is_ws X) s ("fresnel" ++ decimal n) ->
    (n = 2%nat ->
       set_psi_type L X (Some s) t = Ok (set_order (set_psinum t PsiFresnel) 0)) /\
    ((3 <= n)%nat ->
       set_psi_type L X (Some s) t
       = Ok (set_order (set_psinum t PsiLegendre) (Z.of_nat n - 1))) /\
    ((n <= 1)%nat -> exists t', set_psi_type L X (Some s) t = Ok t' /\ failed t').
  Proof.
    intros Hc Ha HX Hn Hs. destruct (decimal_facts n Hn) as [Hl Hlk].
    apply spells_unique in Hs; auto.
    unfold set_psi_type, guarded. unfold clean in Hc. rewrite Hc, Ha. cbn [negb]. cbv zeta.
    rewrite Hs, Hlk.
    replace (substring 0 7 ("fresnel" ++ decimal n)) with "fresnel"
      by (simpl; destruct (decimal n); reflexivity).
    rewrite String.eqb_refl.
    replace (substring 7 (String.length ("fresnel" ++ decimal n) - 7) ("fresnel" ++ decimal n))
      with (decimal n)
      by (simpl; rewrite Nat.sub_0_r; symmetry; apply substring_all).
    rewrite (HX n Hn).
    split; [|split].
    - intros ->. reflexivity.
    - intros H3. destruct (Z.eqb_spec (Z.of_nat n) 0); [lia|].
      destruct (Z.eqb_spec (Z.of_nat n) 1); [lia|].
      destruct (Z.eqb_spec (Z.of_nat n) 2); [lia|]. reflexivity.
    - intros H1. rewrite ?Hc. destruct (Z.eqb_spec (Z.of_nat n) 0).
      { eexists; split; [reflexivity|]. eexists; reflexivity. }
      destruct (Z.eqb_spec (Z.of_nat n) 1); [|lia].
      eexists; split; [reflexivity|]. eexists; reflexivity.
  Qed.
  Lemma prefix7 a : substring 0 7 a = "fresnel" -> exists r, a = "fresnel" ++ r.
  Proof.
    do 7 (destruct a as [|? a]; [discriminate|]). simpl. intros H.
    injection H as -> -> -> -> -> -> ->. exists a. reflexivity.
  Qed.
  Lemma set_psi_unknown s t :
    clean t ->
    (forall k v, In (k, v) documented_methods -> ~ spells (is_ws X) s k) ->
    ~ spells_prefix (is_ws X) s "fresnel" ->
    exists t', set_psi_type L X (Some s) t = Ok t' /\ failed t'.
  Proof.
    intros Hc Hno Hp. unfold set_psi_type, guarded. unfold clean in Hc. rewrite Hc.
    destruct (negb (t_alloc L 11)).
    { eexists; split; [reflexivity|]. eexists; reflexivity. }
    cbv zeta. destruct (lookup psi_table (normalise X s)) eqn:E.
    - apply lookup_some in E. exfalso. apply (Hno _ _ E). apply spells_normalise.
    - destruct (String.eqb_spec (substring 0 7 (normalise X s)) "fresnel") as [Ef|].
      + exfalso. apply Hp. apply prefix7 in Ef. destruct Ef as [r Er].
        exists r. rewrite <- Er. apply spells_normalise.
      + eexists; split; [reflexivity|]. eexists; reflexivity.
  Qed.
  Lemma set_range_exact s t :
    clean t -> t_alloc L 12 = true ->
    (forall k lo hi, In (k, (lo, hi)) documented_ranges -> spells (is_ws X) s k ->
       set_range_from_string L X (Some s) t = Ok (set_range1 (set_range0 t (sofZ lo)) (sofZ hi))) /\
    ((forall k v, In (k, v) documented_ranges -> ~ spells (is_ws X) s k) ->
       exists t', set_range_from_string L X (Some s) t = Ok t' /\ failed t').
  Proof.
    intros Hc Ha. split; [intros; eapply set_range_documented; eauto|apply set_range_unknown; auto].
  Qed.
  Lemma set_psi_exact s t :
    clean t -> t_alloc L 11 = true ->
    (forall k p, In (k, p) documented_methods -> spells (is_ws X) s k ->
       set_psi_type L X (Some s) t = Ok (set_psinum t p)) /\
    ((forall k v, In (k, v) documented_methods -> ~ spells (is_ws X) s k) ->
     ~ spells_prefix (is_ws X) s "fresnel" ->
       exists t', set_psi_type L X (Some s) t = Ok t' /\ failed t').
  Proof.
    intros Hc Ha. split; [intros; eapply set_psi_documented; eauto|apply set_psi_unknown; auto].
  Qed.
  Lemma set_window_exact s t :
    clean t -> t_alloc L 10 = true ->
    (forall k w, In (k, w) documented_windows -> spells (is_ws X) s k ->
       set_window_type L X (Some s) t = Ok (set_window (set_normeq t (t_normeq L w)) w)) /\
    ((forall k v, In (k, v) documented_windows -> ~ spells (is_ws X) s k) ->
       exists t', set_window_type L X (Some s) t = Ok t' /\ failed t').
  Proof.
    intros Hc Ha. split; [intros; eapply set_window_documented; eauto|apply set_window_unknown; auto].
  Qed.
End Str.

(** The documented pairs pass the range check. *)
From Coq Require Import Reals Lra.
From Verif Require Import Dbl DblFacts Spec_Tau Proof_Checks.
Lemma named_range_valid (t : dtau) k lo hi :
  clean t -> In (k, (lo, hi)) documented_ranges ->
  check_range (set_range1 (set_range0 t (dofZ lo)) (dofZ hi))
  = Ok (set_range1 (set_range0 t (dofZ lo)) (dofZ hi)).
Proof.
  intros Hc Hin. unfold check_range. rewrite guarded_clean by exact Hc.
  cbn [range0 range1 set_range0 set_range1 snan sinf sle slt dbl_scalar].
  unfold sgt, s0; cbn [slt sofZ dbl_scalar].
  assert (Hb : forallb (fun p : string * (Z * Z) => let '(_, (a, b)) := p in
            (0 <=? a) && (a <=? b) && (b <=? 400000)) documented_ranges = true) by reflexivity.
  rewrite forallb_forall in Hb. specialize (Hb _ Hin). cbv beta iota in Hb.
  rewrite !andb_true_iff, !Z.leb_le in Hb.
  destruct (dofZ_exact lo) as [F1 V1]; [lia|]. destruct (dofZ_exact hi) as [F2 V2]; [lia|].
  destruct (proj1 (dfinite_iff _) F1) as [-> ->]. destruct (proj1 (dfinite_iff _) F2) as [-> ->].
  assert (A : dlt (dofZ lo) (dofZ 0) = false).
  { apply (proj2 (dlt_false _ _ F1 fin_0)). rewrite V1, d2r_0. apply IZR_le. lia. }
  assert (B : dlt (dofZ hi) (dofZ lo) = false).
  { apply (proj2 (dlt_false _ _ F2 F1)). rewrite V1, V2. apply IZR_le. lia. }
  rewrite ?A, ?B. reflexivity.
Qed.
