(** * Proof_Linear: the reconstruction is linear in the recorded profile (C25). *)
From Coq Require Import List ZArith Bool Reals String Lia Lra.
From Verif Require Import Base BaseFacts Scalar Model_TauRec Model_Checks Model_Select Model_Transform
  Model_Interp Model_Recon Spec_Select Spec_Real.
Import ListNotations.
Open Scope Z_scope.

Ltac calg :=
  unfold superposition, cadd, csub, cmul, cscale, cconj, cre, cim, c0, c1, s0, s1, s2 in *;
  cbn [fst snd car sadd ssub smul sdiv sneg sofZ sfrac real_scalar] in *;
  try (apply f_equal2); try ring.

(** Three outcomes in relation. *)
Definition rel3 {A} (P : A -> A -> A -> Prop) (r1 r2 r3 : res A) : Prop :=
  match r1, r2, r3 with
  | Ok x, Ok y, Ok z => P x y z
  | UB u, UB v, UB w => u = v /\ v = w
  | _, _, _ => False
  end.
Definition eq3 {A} (x y z : A) : Prop := x = y /\ y = z.
Lemma rel3_eq {A} (r : res A) : rel3 eq3 r r r.
Proof. destruct r; cbn; split; reflexivity. Qed.
Lemma rel3_ok {A} (P : A -> A -> A -> Prop) x y z : P x y z -> rel3 P (Ok x) (Ok y) (Ok z).
Proof. auto. Qed.
Lemma rel3_bind {A B} (P : A -> A -> A -> Prop) (Q : B -> B -> B -> Prop) m1 m2 m3 f g h :
  rel3 P m1 m2 m3 -> (forall x y z, P x y z -> rel3 Q (f x) (g y) (h z)) ->
  rel3 Q (bind m1 f) (bind m2 g) (bind m3 h).
Proof. destruct m1, m2, m3; cbn; auto; contradiction. Qed.
(** The same computation in all three. *)
Lemma rel3_same {A B} (Q : B -> B -> B -> Prop) (m : res A) f g h :
  (forall x, m = Ok x -> rel3 Q (f x) (g x) (h x)) ->
  rel3 Q (bind m f) (bind m g) (bind m h).
Proof. destruct m; cbn; auto. Qed.
Lemma rel3_weaken {A} (P Q : A -> A -> A -> Prop) m1 m2 m3 :
  rel3 P m1 m2 m3 -> (forall x y z, P x y z -> Q x y z) -> rel3 Q m1 m2 m3.
Proof. destruct m1, m2, m3; cbn; auto. Qed.
Lemma rel3_for {A} (P : A -> A -> A -> Prop) lo n b1 b2 b3 : forall x y z,
  P x y z ->
  (forall i x y z, P x y z -> rel3 P (b1 i x) (b2 i y) (b3 i z)) ->
  rel3 P (for_range lo n b1 x) (for_range lo n b2 y) (for_range lo n b3 z).
Proof.
  intros x y z H HB. rewrite !for_range_nat. revert lo x y z H.
  induction (Z.to_nat n) as [|k IH]; intros lo x y z H; cbn [for_nat]; [exact H|].
  eapply rel3_bind; [apply HB; exact H|]. intros; apply IH; auto.
Qed.
Lemma rel3_tab {A} (P : A -> A -> A -> Prop) n f g h :
  (forall i, rel3 P (f i) (g i) (h i)) ->
  rel3 (fun l1 l2 l3 => List.length l1 = List.length l3 /\ List.length l2 = List.length l3 /\
          forall i, match nth_error l1 i, nth_error l2 i, nth_error l3 i with
                    | Some x, Some y, Some z => P x y z
                    | None, None, None => True | _, _, _ => False end)
    (tabulate n f) (tabulate n g) (tabulate n h).
Proof.
  intros H. unfold tabulate. generalize 0. induction (Z.to_nat n) as [|k IH]; intros i; cbn [tab_from].
  - cbn. split; [auto|]. split; [auto|]. intros [|j]; exact I.
  - eapply rel3_bind; [apply H|]. intros x y z Hx. eapply rel3_bind; [apply IH|].
    intros l1 l2 l3 (H1 & H2 & H3). cbn. split; [congruence|]. split; [congruence|]. intros [|j]; cbn; [exact Hx|apply H3].
Qed.

Section Linear.
  Variable L : rlib.
  Variables a b : RC.
  Local Notation sp := (superposition a b).
  Definition lin (x y z : RC) : Prop := z = sp x y.
  Definition lcell (x y z : option RC) : Prop :=
    match x, y, z with Some x, Some y, Some z => lin x y z | None, None, None => True | _, _, _ => False end.
  Local Notation lprof := (superposed a b).
  Local Notation lptr := (superposed_ptr a b).

  Lemma lprof_read T1 T2 T3 i : lprof T1 T2 T3 -> rel3 lcell (aread T1 i) (aread T2 i) (aread T3 i).
  Proof.
    intros (H1 & H2 & H3). unfold aread, zlen. rewrite H1, H2.
    destruct (i <? 0); [cbn; auto|]. destruct (_ <=? i); [cbn; auto|].
    specialize (H3 (Z.to_nat i)).
    destruct (nth_error T1 _) as [[x|]|], (nth_error T2 _) as [[y|]|], (nth_error T3 _) as [[z|]|]; cbn; auto.
  Qed.
  Lemma lprof_write T1 T2 T3 i x y z : lprof T1 T2 T3 -> lcell x y z ->
    rel3 lprof (awrite T1 i x) (awrite T2 i y) (awrite T3 i z).
  Proof.
    intros (H1 & H2 & H3) Hc. unfold awrite, zlen. rewrite H1, H2.
    destruct (_ && _) eqn:E; [|cbn; auto]. cbn. split; [rewrite !lset_length; auto|]. split; [rewrite !lset_length; auto|].
    intros j. destruct (Nat.eq_dec (Z.to_nat i) j) as [<-|N].
    - apply andb_prop in E. destruct E as [E1 E2]. apply Z.leb_le in E1. apply Z.ltb_lt in E2.
      rewrite !lset_same by lia. unfold lcell, lin in Hc. destruct x, y, z; auto.
    - rewrite !lset_other by auto. apply H3.
  Qed.
  Lemma lptr_deref p1 p2 p3 : lptr p1 p2 p3 -> rel3 lprof (deref p1) (deref p2) (deref p3).
  Proof. destruct p1, p2, p3; cbn; auto. Qed.
  Lemma lptr_rdT p1 p2 p3 i : lptr p1 p2 p3 -> rel3 lin (rdT p1 i) (rdT p2 i) (rdT p3 i).
  Proof.
    intros H. unfold rdT. eapply rel3_bind; [apply lptr_deref; exact H|]. intros T1 T2 T3 HT.
    eapply rel3_bind; [apply lprof_read; exact HT|]. intros [x|] [y|] [z|]; cbn; auto.
  Qed.

  (** An object with given profiles. *)
  Definition put (t : rtau) (P Q W : option (list (option RC))) : rtau :=
    set_T_fwd (set_T_out (set_T_in t P) Q) W.
  Lemma put_self t : put t (T_in t) (T_out t) (T_fwd t) = t.
  Proof. destruct t; reflexivity. Qed.

  (** *** Transforms *)
  Section Transforms.
    Variable t : rtau.
    Variables P1 P2 P3 Q1 Q2 Q3 W1 W2 W3 : option (list (option RC)).
    Hypothesis HP : lptr P1 P2 P3.
    Local Notation t1 := (put t P1 Q1 W1).
    Local Notation t2 := (put t P2 Q2 W2).
    Local Notation t3 := (put t P3 Q3 W3).
    Ltac same := eapply rel3_same; intros ? _.
    Ltac same2 := eapply rel3_same; intros [? ?] _.
    Ltac same3 := eapply rel3_same; intros [[? ?] ?] _.
    Ltac rdt := eapply rel3_bind; [apply lptr_rdT; exact HP|]; intros ? ? ? ?.


    (** States whose first component is superposed and whose rest is common. *)
    Definition acc3 {B} (s1 s2 s3 : RC * B) : Prop := lin (fst s1) (fst s2) (fst s3) /\ eq3 (snd s1) (snd s2) (snd s3).
    Ltac lsub := unfold lin in *; subst.
    Ltac accs := let a1 := fresh in let a2 := fresh in let a3 := fresh in
      intros [a1 ?] [a2 ?] [a3 ?] [? [? ?]]; cbn [fst snd] in *; subst.

    Lemma lin_scale (r : real_scalar) x y z : lin x y z -> lin (cscale r x) (cscale r y) (cscale r z).
    Proof. lsub. intros ->. calg. Qed.
    Lemma lin_add x y z x' y' z' : lin x y z -> lin x' y' z' -> lin (cadd x x') (cadd y y') (cadd z z').
    Proof. lsub. intros -> ->. calg. Qed.
    Lemma lin_mid x y z x' y' z' : lin x y z -> lin x' y' z' -> lin (cmid x x') (cmid y y') (cmid z z').
    Proof. intros. unfold cmid. apply lin_scale. apply lin_add; auto. Qed.
    Lemma lin_mul (r : RC) x y z : lin x y z -> lin (cmul r x) (cmul r y) (cmul r z).
    Proof. lsub. intros ->. calg. Qed.
    Lemma lin_mulr (r : RC) x y z : lin x y z -> lin (cmul x r) (cmul y r) (cmul z r).
    Proof. lsub. intros ->. calg. Qed.
    Lemma lin_zero : lin c0 c0 c0.
    Proof. lsub. calg. Qed.
    Lemma lin_fresnel x w c n :
      rel3 lin (fresnel_transform L t1 x w c n) (fresnel_transform L t2 x w c n) (fresnel_transform L t3 x w c n).
    Proof.
      unfold fresnel_transform. same. cbv zeta. cbn [T_in put set_T_fwd set_T_out set_T_in use_norm use_fwd dx]. rdt.
      eapply rel3_bind.
      - apply (rel3_for acc3).
        + split; [assumption|split; reflexivity].
        + intros i. accs. unfold fresnel_body. same. cbv zeta. same. cbn [T_in put set_T_fwd set_T_out set_T_in use_norm].
          rdt. rdt. apply rel3_ok. split; [|split; reflexivity]. lsub. cbn [fst]. calg.
      - accs. apply rel3_ok. lsub.
        match goal with |- (?sc * _, _)%S = _ => generalize sc; intros e end. cbn in e. calg.
    Qed.
    Lemma lin_riemann w n c :
      rel3 lin (newton_riemann L t1 w n c) (newton_riemann L t2 w n c) (newton_riemann L t3 w n c).
    Proof.
      unfold newton_riemann. cbv zeta. eapply rel3_bind.
      - apply (rel3_for acc3).
        + split; [apply lin_zero|split; reflexivity].
        + intros i. accs. unfold riemann_body. same. same. cbv zeta. cbn [T_in put set_T_fwd set_T_out set_T_in use_norm].
          rdt. apply rel3_ok. split; [|split; reflexivity]. lsub. cbn [fst]. calg.
      - accs. apply rel3_ok. cbn [put set_T_fwd set_T_out set_T_in use_norm dx]. lsub.
        destruct (use_norm t); [|generalize (dx t); intros; calg].
        match goal with |- cscale ?sc _ = _ => generalize sc; intros e end. cbn in e. calg.
    Qed.

    (** Filon: the left sample is superposed as well. *)
    Definition fil3 (s1 s2 s3 : RC * RC * real_scalar * real_scalar * RC) : Prop :=
      let '(a1, n1, p1, q1, l1) := s1 in let '(a2, n2, p2, q2, l2) := s2 in let '(a3, n3, p3, q3, l3) := s3 in
      lin a1 a2 a3 /\ lin l1 l2 l3 /\ eq3 n1 n2 n3 /\ eq3 p1 p2 p3 /\ eq3 q1 q2 q3.
    Hypothesis HF : filon_linear L.
    Definition first3 (s1 s2 s3 : real_scalar * real_scalar * RC) : Prop :=
      let '(p1, q1, l1) := s1 in let '(p2, q2, l2) := s2 in let '(p3, q3, l3) := s3 in
      lin l1 l2 l3 /\ eq3 p1 p2 p3 /\ eq3 q1 q2 q3.
    Lemma lin_first w c o : rel3 first3 (filon_first L t1 w c o) (filon_first L t2 w c o) (filon_first L t3 w c o).
    Proof.
      unfold filon_first. same2. same. cbv zeta. cbn [T_in put set_T_fwd set_T_out set_T_in]. rdt.
      apply rel3_ok. split; [apply lin_scale; auto|]. repeat split; reflexivity.
    Qed.
    Ltac fils := intros [[[[? ?] ?] ?] ?] [[[[? ?] ?] ?] ?] [[[[? ?] ?] ?] ?] (? & ? & [? ?] & [? ?] & [? ?]); subst.
    Lemma lin_filon01 w n c :
      rel3 lin (newton_filon01 L t1 w n c) (newton_filon01 L t2 w n c) (newton_filon01 L t3 w n c).
    Proof.
      unfold newton_filon01. cbv zeta. eapply rel3_bind; [apply lin_first|].
      intros [[? ?] ?] [[? ?] ?] [[? ?] ?] (? & [? ?] & [? ?]). subst. eapply rel3_bind.
      - apply (rel3_for fil3).
        + split; [apply lin_zero|]. split; [assumption|]. repeat split; reflexivity.
        + intros i. fils. unfold filon01_body. same2. same. cbv zeta.
          cbn [T_in put set_T_fwd set_T_out set_T_in use_norm dx]. rdt. apply rel3_ok.
          split; [|split; [apply lin_scale; auto|repeat split; reflexivity]].
          apply lin_add; auto. unfold lin. rewrite <- (proj1 HF). f_equal. apply lin_mid; auto. apply lin_scale; auto.
      - fils. apply rel3_ok. cbn [put set_T_fwd set_T_out set_T_in use_norm]. destruct (use_norm t); [apply lin_scale|]; auto.
    Qed.
    Lemma lin_filon11 w n c :
      rel3 lin (newton_filon11 L t1 w n c) (newton_filon11 L t2 w n c) (newton_filon11 L t3 w n c).
    Proof.
      unfold newton_filon11. cbv zeta. eapply rel3_bind; [apply lin_first|].
      intros [[? ?] ?] [[? ?] ?] [[? ?] ?] (? & [? ?] & [? ?]). subst. eapply rel3_bind.
      - apply (rel3_for fil3).
        + split; [apply lin_zero|]. split; [assumption|]. repeat split; reflexivity.
        + intros i. fils. unfold filon11_body. same2. same. cbv zeta.
          cbn [T_in put set_T_fwd set_T_out set_T_in use_norm dx]. rdt. apply rel3_ok.
          split; [|split; [apply lin_scale; auto|repeat split; reflexivity]].
          apply lin_add; auto. unfold lin. rewrite <- (proj1 (proj2 HF)). f_equal; [assumption|]. apply lin_scale; auto.
      - fils. apply rel3_ok. cbn [put set_T_fwd set_T_out set_T_in use_norm]. destruct (use_norm t); [apply lin_scale|]; auto.
    Qed.
    Definition fil2 (s1 s2 s3 : RC * real_scalar * RC) : Prop :=
      let '(a1, p1, l1) := s1 in let '(a2, p2, l2) := s2 in let '(a3, p3, l3) := s3 in
      lin a1 a2 a3 /\ lin l1 l2 l3 /\ eq3 p1 p2 p3.
    Lemma lin_filon02 w n c :
      rel3 lin (newton_filon02 L t1 w n c) (newton_filon02 L t2 w n c) (newton_filon02 L t3 w n c).
    Proof.
      unfold newton_filon02. cbv zeta. eapply rel3_bind; [apply lin_first|].
      intros [[? ?] ?] [[? ?] ?] [[? ?] ?] (? & [? ?] & [? ?]). subst. eapply rel3_bind.
      - apply (rel3_for fil2).
        + split; [apply lin_zero|]. split; [assumption|]. repeat split; reflexivity.
        + intros i [[? ?] ?] [[? ?] ?] [[? ?] ?] (? & ? & [? ?]). subst. unfold filon02_body. cbv zeta.
          same2. same. cbn [T_in put set_T_fwd set_T_out set_T_in use_norm dx]. rdt.
          same2. same. rdt. apply rel3_ok.
          split; [|split; [apply lin_scale; auto|repeat split; reflexivity]].
          apply lin_add; auto. unfold lin. rewrite <- (proj1 (proj2 (proj2 HF))).
          f_equal; apply lin_mid; auto; apply lin_scale; auto.
      - intros [[? ?] ?] [[? ?] ?] [[? ?] ?] (? & ? & [? ?]). apply rel3_ok. auto.
    Qed.
    Definition fil12 (s1 s2 s3 : RC * real_scalar * real_scalar * RC) : Prop :=
      let '(a1, q1, p1, l1) := s1 in let '(a2, q2, p2, l2) := s2 in let '(a3, q3, p3, l3) := s3 in
      lin a1 a2 a3 /\ lin l1 l2 l3 /\ eq3 p1 p2 p3 /\ eq3 q1 q2 q3.
    Lemma lin_filon12 w n c :
      rel3 lin (newton_filon12 L t1 w n c) (newton_filon12 L t2 w n c) (newton_filon12 L t3 w n c).
    Proof.
      unfold newton_filon12. cbv zeta. same. same3. same.
      cbn [T_in put set_T_fwd set_T_out set_T_in]. rdt. eapply rel3_bind.
      - apply (rel3_for fil12).
        + split; [apply lin_zero|]. split; [apply lin_scale; assumption|]. repeat split; reflexivity.
        + intros i [[[? ?] ?] ?] [[[? ?] ?] ?] [[[? ?] ?] ?] (? & ? & [? ?] & [? ?]). subst. unfold filon12_body. cbv zeta.
          same3. same. cbn [T_in put set_T_fwd set_T_out set_T_in use_norm dx]. rdt.
          same3. same. rdt. apply rel3_ok.
          split; [|split; [apply lin_scale; auto|repeat split; reflexivity]].
          apply lin_add; auto. unfold lin. rewrite <- (proj2 (proj2 (proj2 HF))).
          f_equal; auto; apply lin_scale; auto.
      - intros [[[? ?] ?] ?] [[[? ?] ?] ?] [[[? ?] ?] ?] (? & ? & [? ?] & [? ?]). apply rel3_ok. auto.
    Qed.

    Lemma lin_newton_sum psi w o n :
      rel3 acc3 (for_range 0 n (newton_sum_body L t1 psi w o) (c0, c0)) (for_range 0 n (newton_sum_body L t2 psi w o) (c0, c0))
        (for_range 0 n (newton_sum_body L t3 psi w o) (c0, c0)).
    Proof.
      apply (rel3_for acc3).
      - split; [apply lin_zero|split; reflexivity].
      - intros i. accs. unfold newton_sum_body. same. same. cbv zeta. cbn [T_in put set_T_fwd set_T_out set_T_in use_norm].
        rdt. apply rel3_ok. split; [|split; reflexivity]. apply lin_add; auto. apply lin_mul; auto.
    Qed.
    Lemma lin_elliptical w n c :
      rel3 lin (elliptical_newton L t1 w n c) (elliptical_newton L t2 w n c) (elliptical_newton L t3 w n c).
    Proof.
      unfold elliptical_newton. cbv zeta. eapply rel3_bind; [apply (lin_newton_sum (elliptic_psi L t c))|].
      accs. apply rel3_ok. apply lin_mul; auto.
    Qed.
    Lemma lin_perturbed w n c :
      rel3 lin (perturbed_newton L t1 w n c) (perturbed_newton L t2 w n c) (perturbed_newton L t3 w n c).
    Proof.
      unfold perturbed_newton. cbv zeta. eapply rel3_bind; [apply (lin_newton_sum (perturbed_psi L t c))|].
      accs. apply rel3_ok. apply lin_mul; auto.
    Qed.
    Lemma lin_legendre_sum ph x w n c :
      rel3 acc3 (legendre_sum L t1 ph x w n c) (legendre_sum L t2 ph x w n c) (legendre_sum L t3 ph x w n c).
    Proof.
      unfold legendre_sum. same. same. cbv zeta. eapply rel3_bind.
      - apply (rel3_for acc3).
        + split; [apply lin_zero|split; reflexivity].
        + intros i. accs. unfold legendre_body. cbv zeta. same. same2. same.
          cbn [T_in put set_T_fwd set_T_out set_T_in]. rdt. rdt. apply rel3_ok. split; [|split; reflexivity].
          apply lin_add; [apply lin_add; auto|]; apply lin_mul; auto.
      - accs. cbn [T_in put set_T_fwd set_T_out set_T_in]. rdt. apply rel3_ok. split; [|split; reflexivity].
        apply lin_add; auto.
    Qed.
    Lemma lin_legendre f : In f (legendre_table L) -> forall x w cs n c,
      rel3 lin (f t1 x w cs n c) (f t2 x w cs n c) (f t3 x w cs n c).
    Proof.
      intros [<-|[<-|[<-|[<-|[]]]]] x w cs n c.
      - unfold legendre_odd. same. eapply rel3_bind; [apply lin_legendre_sum|]. accs. apply rel3_ok. apply lin_mul; auto.
      - unfold legendre_even. same. eapply rel3_bind; [apply lin_legendre_sum|]. accs. apply rel3_ok. apply lin_mul; auto.
      - unfold legendre_odd_norm. eapply rel3_bind; [apply lin_legendre_sum|]. accs. apply rel3_ok. apply lin_mul; auto.
      - unfold legendre_even_norm. eapply rel3_bind; [apply lin_legendre_sum|]. accs. apply rel3_ok. apply lin_mul; auto.
    Qed.
    Lemma lin_interp_sum tb h x w n c s :
      rel3 acc3 (interp_sum L tb h t1 x w n c s) (interp_sum L tb h t2 x w n c s) (interp_sum L tb h t3 x w n c s).
    Proof.
      unfold interp_sum. cbv zeta. cbn [T_in put set_T_fwd set_T_out set_T_in dx]. rdt. same.
      apply (rel3_for acc3).
      - split; [assumption|split; reflexivity].
      - intros i. accs. unfold interp_body. cbv zeta. same.
        match goal with |- context [interp_eval ?a ?b] => destruct (interp_eval a b) as [pl pr] end. same.
        cbn [T_in put set_T_fwd set_T_out set_T_in]. rdt. rdt. apply rel3_ok. split; [|split; reflexivity].
        apply lin_add; [apply lin_add; auto|]; apply lin_mul; auto.
    Qed.
    Lemma lin_newton8 x w n c :
      rel3 lin (newton8 L t1 x w n c) (newton8 L t2 x w n c) (newton8 L t3 x w n c).
    Proof.
      unfold newton8. eapply rel3_bind; [apply lin_interp_sum|]. accs. cbn [put set_T_fwd set_T_out set_T_in use_norm].
      destruct (use_norm t); apply rel3_ok; auto. apply lin_mulr; auto.
    Qed.
    Lemma lin_newton16 x w n c :
      rel3 lin (newton16 L t1 x w n c) (newton16 L t2 x w n c) (newton16 L t3 x w n c).
    Proof.
      unfold newton16. eapply rel3_bind; [apply lin_interp_sum|]. accs. apply rel3_ok. apply lin_mul; auto.
    Qed.
    Definition pt4 (s1 s2 s3 : real_scalar * real_scalar * RC * RC) : Prop :=
      let '(p1, q1, l1, r1) := s1 in let '(p2, q2, l2, r2) := s2 in let '(p3, q3, l3, r3) := s3 in
      lin l1 l2 l3 /\ lin r1 r2 r3 /\ eq3 p1 p2 p3 /\ eq3 q1 q2 q3.
    Lemma lin_point4 pc wc x w rw l r n :
      rel3 pt4 (newton4_point t1 pc wc x w rw l r n) (newton4_point t2 pc wc x w rw l r n) (newton4_point t3 pc wc x w rw l r n).
    Proof.
      unfold newton4_point. cbv zeta. same.
      match goal with |- context [deg4_eval pc ?b] => destruct (deg4_eval pc b) as [pl pr], (deg4_eval wc b) as [wl wr] end. same.
      cbn [T_in put set_T_fwd set_T_out set_T_in]. rdt. rdt. apply rel3_ok.
      split; [apply lin_scale; auto|]. split; [apply lin_scale; auto|]. repeat split; reflexivity.
    Qed.
    Lemma lin_newton4 x w n c :
      rel3 lin (newton4 L t1 x w n c) (newton4 L t2 x w n c) (newton4 L t3 x w n c).
    Proof.
      unfold newton4. cbv zeta. same. 
      destruct x0 as [|[w0 p0] [|[w1 p1] [|[w2 p2] [|[w3 p3] [|[w4 p4] [|]]]]]]; try (cbn; auto; fail).
      cbn [T_in put set_T_fwd set_T_out set_T_in dx]. rdt.
      eapply rel3_bind; [apply lin_point4|]. intros f1 f2 f3 Hf. eapply rel3_bind.
      - apply (rel3_for (fun s1 s2 s3 => lin (fst s1) (fst s2) (fst s3) /\ pt4 (snd s1) (snd s2) (snd s3))).
        + split; [apply lin_zero|exact Hf].
        + intros i [? [[[? ?] ?] ?]] [? [[[? ?] ?] ?]] [? [[[? ?] ?] ?]] [Ha (? & ? & [? ?] & [? ?])]. cbn [fst snd] in *. subst.
          unfold newton4_body. eapply rel3_bind; [apply lin_point4|].
          intros [[[? ?] ?] ?] [[[? ?] ?] ?] [[[? ?] ?] ?] (? & ? & [? ?] & [? ?]). subst. apply rel3_ok.
          split; [|cbn; repeat split; auto]. cbn [fst].
          apply lin_add; [apply lin_add; auto|]; unfold lin; rewrite <- (proj1 (proj2 HF)); f_equal; auto.
      - intros [? [[[? ?] ?] ?]] [? [[[? ?] ?] ?]] [? [[[? ?] ?] ?]] [Ha (? & ? & [? ?] & [? ?])]. cbn [fst snd] in *. subst.
        apply rel3_ok. apply lin_add; auto. unfold lin. rewrite <- (proj2 (proj2 (proj2 HF))). f_equal; auto. apply lin_scale; auto.
    Qed.
  End Transforms.
End Linear.
