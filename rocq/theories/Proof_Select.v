(** * Proof_Select: proofs about window selection (C08-C12). *)
From Coq Require Import List ZArith Bool Reals String Lra Lia.
From Flocq Require Import Core IEEE754.BinarySingleNaN.
From Verif Require Import Base BaseFacts Dbl DblFacts DblArith Scalar Model_TauRec
  Model_Checks Model_Select Spec_Tau Spec_Select Proof_Checks.
Import ListNotations.
Open Scope Z_scope.

Lemma entry_aread {A} (l : list A) i a : entry l i a <-> aread l i = Ok a.
Proof.
  unfold entry. rewrite aread_ok. split.
  - intros [H1 H2]. split; auto. split; auto.
    assert (Z.to_nat i < List.length l)%nat by (apply nth_error_Some; congruence).
    unfold zlen; lia.
  - tauto.
Qed.
Lemma entry_range {A} (l : list A) i a : entry l i a -> 0 <= i < zlen l.
Proof. rewrite entry_aread, aread_ok. tauto. Qed.
Lemma entry_in {A} (l : list A) i a : entry l i a -> In a l.
Proof. rewrite entry_aread. apply aread_In. Qed.
Lemma entry_fun {A} (l : list A) i a b : entry l i a -> entry l i b -> a = b.
Proof. rewrite !entry_aread; congruence. Qed.
Lemma entry_ex {A} (l : list A) i : 0 <= i < zlen l -> exists a, entry l i a.
Proof. intros H. destruct (aread_in l i H) as [a Ha]. exists a; apply entry_aread; auto. Qed.

Lemma fail_not_clean {S} (t t' : tau S) m : fail t m = Ok t' -> err t' = None -> False.
Proof. unfold fail. intros E. injection E as <-. discriminate. Qed.

Section Select.
  Variable L : dlib.

  Lemma inc_le rho i j a b :
    increasing rho -> i <= j -> entry rho i a -> entry rho j b -> (val a <= val b)%R.
  Proof.
    intros [_ H] Hij Ha Hb. destruct (Z.eq_dec i j) as [->|].
    - rewrite (entry_fun _ _ _ _ Ha Hb). lra.
    - apply Rlt_le. eapply H; eauto. lia.
  Qed.

  Lemma gww_start_ok (t : dtau) rho r0 s :
    zlen rho = arr_size t -> 1 <= arr_size t < two64 -> increasing rho -> finite (range0 t) ->
    gww_start t rho = Ok (Some (r0, s)) ->
    entry rho s r0 /\
    (forall i a, s <= i -> entry rho i a -> (val (range0 t) <= val a)%R) /\
    (forall i a, i < s -> entry rho i a -> (val a < val (range0 t))%R).
  Proof.
    intros Hlen Hsz Hinc Hf. unfold gww_start.
    intros H. apply bind_ok in H. destruct H as [x0 [E0 H]].
    cbn [sle slt dbl_scalar sgt] in H.
    assert (F0 : finite x0) by (apply (proj1 Hinc); eapply aread_In; eauto).
    apply entry_aread in E0.
    destruct (dle (range0 t) x0) eqn:C1.
    - inversion H; subst. split; auto. apply dle_iff in C1; auto.
      split.
      + intros i a Hi Ha. assert (val r0 <= val a)%R by (eapply inc_le; eauto). unfold val in *; lra.
      + intros i a Hi Ha. apply entry_range in Ha. lia.
    - apply bind_ok in H. destruct H as [xl [El H]]. unfold sgt in H. cbn [slt dbl_scalar] in H.
      destruct (dlt xl (range0 t)) eqn:C2; [discriminate|].
      apply bind_ok in H. destruct H as [n [En H]].
      apply bind_ok in H. destruct H as [xn [Exn H]]. inversion H; subst. clear H.
      apply scan_ok in En. destruct En as [Hn1 [Hn2 [Hall [a [Ha Hp]]]]].
      assert (a = r0) by congruence. subst a.
      apply entry_aread in Exn. split; auto.
      assert (Fr : finite r0) by (apply (proj1 Hinc); eapply entry_in; eauto).
      apply dlt_false in Hp; auto. split.
      + intros i b Hi Hb. assert (val r0 <= val b)%R by (eapply inc_le; eauto). unfold val in *; lra.
      + intros i b Hi Hb. assert (Hr := entry_range _ _ _ Hb).
        assert (Hb' := Hb). apply entry_aread in Hb'. specialize (Hall i b ltac:(lia) Hb').
        apply dlt_iff in Hall; auto. apply (proj1 Hinc); eapply entry_in; eauto.
  Qed.

  Lemma gww_count_ok (t : dtau) rho r1 n :
    zlen rho = arr_size t -> 1 <= arr_size t < two64 -> increasing rho -> finite (range1 t) ->
    0 <= start t < zlen rho ->
    gww_count t rho = Ok (Some (r1, n)) ->
    0 <= n /\ start t + n <= arr_size t /\
    (forall i a, start t <= i < start t + n -> entry rho i a -> (val a <= val (range1 t))%R) /\
    (forall i a, start t + n <= i -> entry rho i a -> (val (range1 t) < val a)%R).
  Proof.
    intros Hlen Hsz Hinc Hf Hst. unfold gww_count. rewrite wrap64_id by lia.
    intros H. apply bind_ok in H. destruct H as [xl [El H]].
    unfold sge in H. cbn [sle slt dbl_scalar] in H.
    assert (Fl : finite xl) by (apply (proj1 Hinc); eapply aread_In; eauto).
    apply entry_aread in El.
    destruct (dle xl (range1 t)) eqn:C1.
    - rewrite wrap64_id in H by lia. inversion H; subst.
      apply dle_iff in C1; auto.
      split; [lia|]. split; [lia|]. split.
      + intros i a Hi Ha. assert (val a <= val r1)%R by (eapply inc_le; eauto; lia). unfold val in *; lra.
      + intros i a Hi Ha. apply entry_range in Ha. lia.
    - apply bind_ok in H. destruct H as [x0 [E0 H]].
      destruct (dlt (range1 t) x0) eqn:C2; [discriminate|].
      apply bind_ok in H. destruct H as [m [Em H]].
      apply bind_ok in H. destruct H as [xn [Exn H]]. inversion H; subst. clear H.
      apply scan_ok in Em. destruct Em as [Hn1 [Hn2 [Hall [a [Ha Hp]]]]].
      assert (a = r1) by congruence. subst a.
      split; [lia|]. split; [simpl in *; lia|]. split.
      + intros i b Hi Hb. assert (Hb' := Hb). apply entry_aread in Hb'.
        specialize (Hall i b ltac:(lia) Hb').
        apply dle_iff in Hall; auto. apply (proj1 Hinc); eapply entry_in; eauto.
      + intros i b Hi Hb. apply entry_aread in Ha.
        assert (Fr : finite r1) by (apply (proj1 Hinc); eapply entry_in; eauto).
        apply dle_false in Hp; auto.
        assert (val r1 <= val b)%R by (eapply inc_le; [eauto| |exact Ha|exact Hb]; lia).
        unfold val in *; lra.
  Qed.

  Lemma last_In {A} (l : list A) d : l <> [] -> In (List.last l d) l.
  Proof.
    induction l as [|a [|b r] IH]; intros H; [congruence|left; reflexivity|].
    right. apply IH. discriminate.
  Qed.

  (** Everything a successful trimming says. *)
  Lemma gww_trim_ok (t t' : dtau) rho w :
    zlen rho = arr_size t -> zlen w = arr_size t -> 1 <= arr_size t < two64 ->
    0 <= start t -> 0 <= n_used t -> start t + n_used t <= arr_size t ->
    err t = None ->
    gww_trim L t rho w = Ok t' -> err t' = None ->
    exists i0 lft rgt r0 rl i r,
      rho_legal ssub t rho w = Ok lft /\ aread rho 0 = Ok r0 /\
      aread rho (arr_size t - 1) = Ok rl /\
      (exists tl, where_ (fun x => dlt r0 x) lft = i0 :: tl) /\
      rho_legal sadd (set_n_used (set_start t (start t + i0)) (n_used t - i0)) rho w = Ok rgt /\
      where_ (fun x => dlt x rl) rgt = i :: r /\
      t' = set_n_used (set_start t (start t + i0)) (zlen (i :: r) - 1) /\
      0 <= i0 < n_used t /\ zlen rgt = n_used t - i0.
  Proof.
    intros Hlr Hlw Hsz Hs0 Hn0 Hsn He. unfold gww_trim.
    intros H Hc. apply bind_ok in H. destruct H as [u1 [_ H]].
    apply bind_ok in H. destruct H as [lft [Elft H]].
    apply bind_ok in H. destruct H as [r0 [Er0 H]].
    apply bind_ok in H. destruct H as [u2 [_ H]].
    unfold sgt in H. cbn [slt dbl_scalar] in H.
    match type of H with (match ?x with _ => _ end) = _ => destruct x as [|i0 tl] eqn:Ew end.
    { exfalso; unfold clean in *; eapply fail_not_clean; [exact H|assumption]. }
    assert (Hlft : zlen lft = n_used t) by (unfold rho_legal in Elft; apply tabulate_ok in Elft; tauto).
    assert (Hi0 : 0 <= i0 < n_used t).
    { assert (Hin : In i0 (i0 :: tl)) by (left; auto). rewrite <- Ew in Hin.
      apply where_In in Hin. destruct Hin as [H0 [a [Ha _]]]. apply aread_ok in Ha. lia. }
    set (t1 := if 0 <? i0 then set_n_used (set_start t (start t + i0)) (n_used t - i0) else t) in H.
    assert (Ht1 : t1 = set_n_used (set_start t (start t + i0)) (n_used t - i0)).
    { unfold t1. destruct (Z.ltb_spec 0 i0); auto.
      assert (i0 = 0) by lia. subst i0. rewrite Z.add_0_r, Z.sub_0_r. destruct t; reflexivity. }
    cbv zeta in H. rewrite Ht1 in H. clear t1 Ht1.
    apply bind_ok in H. destruct H as [rgt [Ergt H]].
    apply bind_ok in H. destruct H as [rl [Erl H]].
    rewrite wrap64_id in Erl by lia.
    apply bind_ok in H. destruct H as [u3 [_ H]].
    match type of H with (match ?x with _ => _ end) = _ => destruct x as [|i r] eqn:Ew2 end.
    { exfalso; unfold clean in *; eapply fail_not_clean; [exact H|assumption]. }
    assert (Hrgt : zlen rgt = n_used t - i0).
    { unfold rho_legal in Ergt. apply tabulate_ok in Ergt; simpl in *; [tauto|lia]. }
    assert (Hlast : List.last (i :: r) 0 < n_used t - i0).
    { assert (Hin : In (List.last (i :: r) 0) (i :: r)) by (apply last_In; discriminate).
      rewrite <- Ew2 in Hin at 2. apply where_In in Hin. destruct Hin as [_ [a [Ha _]]].
      apply aread_ok in Ha. lia. }
    cbn [n_used set_n_used] in H.
    destruct (Z.ltb_spec (List.last (i :: r) 0) (n_used t - i0)); [|lia].
    cbn [arr_size start n_used set_n_used set_start] in H.
    match type of Ew2 with where_ ?p ?l = _ => assert (Hlen := where_length p l) end. rewrite Ew2 in Hlen.
    assert (Hpos : 1 <= zlen (i :: r)) by (rewrite zlen_cons; assert (Q := zlen_nonneg r); lia).
    rewrite wrap64_id in H by lia.
    destruct (Z.ltb_spec (arr_size t) (start t + i0)); [lia|].
    destruct (Z.ltb_spec (arr_size t) (start t + i0 + (zlen (i :: r) - 1))); [lia|].
    inversion H; subst t'.
    exists i0, lft, rgt, r0, rl, i, r.
    repeat (split; [first [assumption | lia | eauto | reflexivity]|]); auto.
  Qed.

  Lemma fill_len t al Ps idx n w w' :
    fill_w_bfac L (t : dtau) al Ps idx n w = Ok w' -> zlen w' = zlen w.
  Proof.
    revert n w; induction idx as [|i idx IH]; intros n w; simpl.
    - intros E; inversion E; auto.
    - intros H. apply bind_ok in H. destruct H as [p [_ H]].
      apply bind_ok in H. destruct H as [a [_ H]].
      apply bind_ok in H. destruct H as [w1 [Ew H]].
      apply awrite_ok in Ew. apply IH in H. etransitivity; [exact H|tauto].
  Qed.
  Lemma gww_widths_len (t : dtau) w :
    0 <= arr_size t -> 0 <= n_used t -> gww_widths L t = Ok w -> zlen w = arr_size t.
  Proof.
    intros Hs Hn. unfold gww_widths. intros H.
    apply bind_ok in H. destruct H as [u [_ H]]. cbv zeta in H.
    destruct (bfac t).
    - apply bind_ok in H. destruct H as [u1 [_ H]].
      apply bind_ok in H. destruct H as [Fk [_ H]].
      apply bind_ok in H. destruct H as [kv [_ H]].
      apply bind_ok in H. destruct H as [rd [_ H]].
      apply bind_ok in H. destruct H as [ap [_ H]].
      apply bind_ok in H. destruct H as [u4 [_ H]].
      apply fill_len in H. rewrite zlen_repeat in H; auto.
    - apply bind_ok in H. destruct H as [Fk [_ H]].
      apply (for_range_partial (fun _ (w : list double) => zlen w = arr_size t)) in H; auto.
      + rewrite zlen_repeat; auto.
      + intros i s s' Hi Hl Hb. apply bind_ok in Hb. destruct Hb as [F [_ Hb]].
        apply awrite_ok in Hb. etransitivity; [|exact Hl]. tauto.
  Qed.

  (** Everything a successful window selection says. *)
  Lemma get_window_width_ok (t t' : dtau) rho :
    ready t rho ->
    get_window_width L t = Ok t' -> clean t' ->
    exists s n w r0' r1' i0 i r t2,
      t2 = set_n_used (set_range1 (set_start (set_range0 t r0') s) r1') n /\
      gww_widths L t2 = Ok w /\ zlen w = arr_size t /\
      0 <= s /\ 0 <= n /\ s + n <= arr_size t /\
      (forall i a, s <= i -> entry rho i a -> (val (range0 t) <= val a)%R) /\
      (forall i a, i < s -> entry rho i a -> (val a < val (range0 t))%R) /\
      (forall i a, s <= i < s + n -> entry rho i a -> (val a <= val (range1 t))%R) /\
      (forall i a, s + n <= i -> entry rho i a -> (val (range1 t) < val a)%R) /\
      (exists lft rgt x0 xl,
        rho_legal ssub t2 rho w = Ok lft /\ entry rho 0 x0 /\ entry rho (arr_size t - 1) xl /\
        (exists tl, where_ (fun x => dlt x0 x) lft = i0 :: tl) /\
        rho_legal sadd (set_n_used (set_start t2 (s + i0)) (n - i0)) rho w = Ok rgt /\
        where_ (fun x => dlt x xl) rgt = i :: r /\ zlen rgt = n - i0) /\
      0 <= i0 < n /\
      start t' = s + i0 /\ n_used t' = zlen (i :: r) - 1 /\
      arr t' WKM = Some w /\ arr_size t' = arr_size t /\
      (forall f, f <> WKM -> arr t' f = arr t f) /\ T_in t' = T_in t /\ arr t WKM = None /\
      dx t' = dx t.
  Proof.
    intros (Hc & Hr & Hlen & Hsz & Hinc & Hf0 & Hf1). unfold get_window_width.
    rewrite guarded_clean by exact Hc. rewrite Hr. cbn [deref bind].
    intros H Hcl. apply bind_ok in H. destruct H as [[[r0' s]|] [Es H]].
    2:{ exfalso; unfold clean in *; eapply fail_not_clean; [exact H|assumption]. }
    apply gww_start_ok in Es; auto. destruct Es as [Es0 [Es1 Es2]].
    assert (Hs := entry_range _ _ _ Es0).
    apply bind_ok in H. destruct H as [[[r1' n]|] [En H]].
    2:{ exfalso; unfold clean in *; eapply fail_not_clean; [exact H|assumption]. }
    apply gww_count_ok in En; simpl; auto. destruct En as [En0 [En1 [En2 En3]]]. simpl in *.
    destruct (arr t WKM) eqn:EW.
    { exfalso; unfold clean in *; eapply fail_not_clean; [exact H|assumption]. }
    apply bind_ok in H. destruct H as [w [Ew H]].
    set (t2 := set_n_used (set_range1 (set_start (set_range0 t r0') s) r1') n) in *.
    assert (Hlw : zlen w = arr_size t) by (apply (gww_widths_len t2); simpl; auto; lia).
    assert (Hc2 : err (set_f t2 WKM (Some w)) = None) by exact Hc.
    apply gww_trim_ok in H; simpl; auto; try lia.
    destruct H as (i0 & lft & rgt & x0 & xl & i & r & H1 & H2 & H3 & H4 & H5 & H6 & H7 & H8 & H9).
    simpl in *.
    exists s, n, w, r0', r1', i0, i, r, t2.
    split; [reflexivity|]. split; [exact Ew|]. split; [exact Hlw|].
    split; [lia|]. split; [lia|]. split; [lia|].
    split; [exact Es1|]. split; [exact Es2|]. split; [exact En2|]. split; [exact En3|].
    split.
    { exists lft, rgt, x0, xl. split; [exact H1|].
      rewrite !entry_aread. repeat (split; [assumption|]). assumption. }
    subst t'; simpl. repeat (split; [first [lia | reflexivity | assumption]|]).
    split; auto. intros f Hff. destruct f; simpl; congruence.
  Qed.

  (** C08 *)
  Lemma selection_inside (t t' : dtau) rho :
    ready t rho -> get_window_width L t = Ok t' -> clean t' ->
    0 <= start t' /\ 0 <= n_used t' /\ start t' + n_used t' <= arr_size t /\
    forall i, selected t' i -> exists a, entry rho i a /\
      (val (range0 t) <= val a <= val (range1 t))%R.
  Proof.
    intros Hr H Hc. destruct (get_window_width_ok t t' rho Hr H Hc) as
      (s & n & w & r0' & r1' & i0 & i & r & t2 & Ht2 & Ew & Hlw & Hs & Hn & Hsn & A1 & A2 & A3 & A4 &
       (lft & rgt & x0 & xl & B1 & B2 & B3 & B4 & B5 & B6 & B7) & Hi0 & E1 & E2 & E3 & E4 & E5 & E6 & E7 & E8).
    match type of B6 with where_ ?p ?l = _ => assert (Hlen := where_length p l) end. rewrite B6 in Hlen.
    assert (Hpos : 1 <= zlen (i :: r)) by (rewrite zlen_cons; assert (Q := zlen_nonneg r); lia). change (car dbl_scalar) with double in *.
    split; [lia|]. split; [lia|]. split; [lia|].
    intros j Hj. unfold selected in Hj.
    destruct Hr as (_ & _ & Hl & _).
    change (car dbl_scalar) with double in *. destruct (entry_ex rho j) as [a Ha]; [lia|]. exists a. split; auto.
    split; [apply (A1 j); auto; lia|apply (A3 j); auto; lia].
  Qed.

  (** Where: prefix-closed predicates and first hits. *)
  Lemma where_prefix {A} (p : A -> bool) l :
    (forall i j a b, 0 <= i <= j -> aread l i = Ok a -> aread l j = Ok b -> p b = true -> p a = true) ->
    forall k a, aread l k = Ok a -> (p a = true <-> k < zlen (where_ p l)).
  Proof.
    unfold where_. generalize 0 at 2 as z0.
    induction l as [|x l IH]; intros z0 H k a Ha.
    - apply aread_ok in Ha. unfold zlen in Ha; simpl in Ha; lia.
    - assert (Hk : 0 <= k < zlen (x :: l)) by (apply aread_ok in Ha; tauto).
      assert (E0 : aread (x :: l) 0 = Ok x) by (apply aread_ok; rewrite zlen_cons; assert (Q := zlen_nonneg l); split; [lia|reflexivity]).
      assert (Hs : forall i, 0 <= i -> aread (x :: l) (i + 1) = aread l i).
      { intros i Hi. change (x :: l) with ([x] ++ l)%list. rewrite aread_app2; unfold zlen; simpl; [f_equal; lia|lia]. }
      simpl. destruct (p x) eqn:Px.
      + destruct (Z.eq_dec k 0) as [->|Hk0].
        * rewrite zlen_cons. assert (Q := zlen_nonneg (where_from p l (z0 + 1))).
          assert (a = x) by congruence. subst. rewrite Px. split; auto; lia.
        * replace k with (k - 1 + 1) in Ha by lia. rewrite Hs in Ha by lia.
          rewrite zlen_cons.
          rewrite (IH (z0 + 1)) with (k := k - 1); auto; [lia|].
          intros i j b c Hij Hb Hc. apply (H (i + 1) (j + 1)); try lia; rewrite Hs; auto; lia.
      + assert (N : forall i b, aread l i = Ok b -> p b = false).
        { intros i b Hb. destruct (p b) eqn:Pb; auto.
          assert (0 <= i) by (apply aread_ok in Hb; lia).
          rewrite (H 0 (i + 1) x b) in Px; auto; try lia. rewrite Hs; auto. }
        assert (W : where_from p l (z0 + 1) = []).
        { destruct (where_from p l (z0 + 1)) as [|y r] eqn:E; auto.
          assert (Hin : In y (where_from p l (z0 + 1))) by (rewrite E; left; auto).
          apply where_from_In in Hin. destruct Hin as (b & _ & Hb & Pb). rewrite (N _ _ Hb) in Pb. discriminate. }
        rewrite W, zlen_nil. split; [|lia]. intros Pa. exfalso.
        destruct (Z.eq_dec k 0) as [->|Hk0].
        * congruence.
        * replace k with (k - 1 + 1) in Ha by lia. rewrite Hs in Ha by lia. rewrite (N _ _ Ha) in Pa. discriminate.
  Qed.
  Lemma where_first {A} (p : A -> bool) l i0 tl :
    where_ p l = i0 :: tl ->
    (exists a, aread l i0 = Ok a /\ p a = true) /\
    forall k a, k < i0 -> aread l k = Ok a -> p a = false.
  Proof.
    intros E. assert (Hin : In i0 (where_ p l)) by (rewrite E; left; auto).
    apply where_In in Hin. destruct Hin as [H0 [a [Ha Pa]]]. split; eauto.
    intros k b Hk Hb. destruct (p b) eqn:Pb; auto. exfalso.
    assert (Hin : In k (where_ p l)). { apply where_In. split; eauto. apply aread_ok in Hb; lia. }
    rewrite E in Hin. destruct Hin as [->|Hin]; [lia|].
    apply In_aread in Hin. destruct Hin as [j Hj].
    assert (Hj0 : 0 <= j) by (apply aread_ok in Hj; lia).
    assert (i0 < k); [|lia].
    eapply (where_sorted p l 0 (j + 1)); [lia| |].
    - rewrite E. reflexivity || (apply aread_ok; rewrite zlen_cons; assert (Q := zlen_nonneg tl); split; [lia|reflexivity]).
    - rewrite E. change (i0 :: tl) with ([i0] ++ tl)%list. rewrite aread_app2; unfold zlen; simpl; [|lia].
      rewrite <- Hj. f_equal. lia.
  Qed.

  Lemma rho_legal_ok op (t : dtau) rho w lft k :
    0 <= n_used t -> rho_legal op t rho w = Ok lft -> 0 <= k < n_used t ->
    exists a x, entry rho (start t + k) a /\ entry w (start t + k) x /\
      aread lft k = Ok (op a (dmul (dfrac 1 2) x)).
  Proof.
    intros Hn H Hk. unfold rho_legal in H. apply tabulate_ok in H; auto.
    destruct H as [Hl H]. specialize (H k Hk).
    destruct (aread_cases lft k) as [[_ [e He]]|[Hc _]].
    2:{ change (car dbl_scalar) with double in *. lia. }
    rewrite He in H. symmetry in H. apply bind_ok in H. destruct H as [a [Ha H]].
    apply bind_ok in H. destruct H as [x [Hx H]]. exists a, x.
    rewrite !entry_aread. split; auto. split; auto. rewrite He. symmetry. exact H.
  Qed.

  (** C09, C10: exactly the admissible samples, except the last one. *)
  Lemma selection_exact (t t' : dtau) rho w :
    ready t rho -> get_window_width L t = Ok t' -> clean t' -> arr t' WKM = Some w ->
    edges_increase t rho w ->
    forall i, selected t' i <->
      admissible t rho w i /\ exists j, i < j /\ admissible t rho w j.
  Proof.
    intros Hr H Hc Hw Hedge. destruct (get_window_width_ok t t' rho Hr H Hc) as
      (s & n & w' & r0' & r1' & i0 & i & r & t2 & Ht2 & Ew & Hlw & Hs & Hn & Hsn & A1 & A2 & A3 & A4 &
       (lft & rgt & x0 & xl & B1 & B2 & B3 & B4 & B5 & B6 & B7) & Hi0 & E1 & E2 & E3 & E4 & E5 & E6 & E7 & E8).
    assert (w' = w) by congruence. subst w'. change (car dbl_scalar) with double in *.
    destruct Hr as (_ & _ & Hlen & Hsz & Hinc & Hf0 & Hf1).
    assert (Rq : forall j a x, requested t rho w j a x <-> (s <= j < s + n /\ entry rho j a /\ entry w j x)).
    { intros j a x. unfold requested. split.
      - intros (Ha & Hx & Hb). split; auto.
        assert (Hj := entry_range _ _ _ Ha).
        destruct (Z_lt_ge_dec j s) as [Hl|Hl]; [specialize (A2 j a Hl Ha); lra|].
        destruct (Z_lt_ge_dec j (s + n)) as [Hl2|Hl2]; [lia|].
        specialize (A4 j a ltac:(lia) Ha); lra.
      - intros (Hj & Ha & Hx). split; auto. split; auto. split; [eapply A1; eauto; lia|eapply A3; eauto]. }
    subst t2. destruct B4 as [tl B4].
    destruct (where_first _ _ _ _ B4) as [[e0 [He0 Pe0]] Hfst].
    assert (Lf : forall k, 0 <= k < n -> exists a x, entry rho (s + k) a /\ entry w (s + k) x /\
       aread lft k = Ok (left_edge a x)).
    { intros k Hk. eapply rho_legal_ok in B1; simpl; eauto. }
    assert (Rt : forall k, 0 <= k < n - i0 -> exists a x, entry rho (s + i0 + k) a /\ entry w (s + i0 + k) x /\
       aread rgt k = Ok (right_edge a x)).
    { intros k Hk. eapply rho_legal_ok in B5; simpl; eauto. lia. }
    assert (Pre : forall k a, aread rgt k = Ok a -> (dlt a xl = true <-> k < zlen (i :: r))).
    { rewrite <- B6. apply where_prefix. intros p q a b Hpq Ha Hb Pb.
      assert (Kq : q < n - i0) by (apply aread_ok in Hb; lia).
      destruct (Rt p ltac:(lia)) as (ap & xp & P1 & P2 & P3).
      destruct (Rt q ltac:(lia)) as (aq & xq & Q1 & Q2 & Q3).
      assert (a = right_edge ap xp) by congruence. assert (b = right_edge aq xq) by congruence. subst.
      destruct (Z.eq_dec p q) as [->|Hne].
      { assert (ap = aq) by (eapply entry_fun; eauto). assert (xp = xq) by (eapply entry_fun; eauto). subst; auto. }
      destruct (Hedge (s + i0 + p) (s + i0 + q) ap aq xp xq) as [_ K]; [lia| | |].
      - apply Rq; split; [lia|split; auto].
      - apply Rq; split; [lia|split; auto].
      - eapply dle_dlt_trans; eauto. }
    assert (Hmlen : zlen (i :: r) <= n - i0).
    { match type of B6 with where_ ?p ?l = _ => assert (Hlen' := where_length p l) end.
      rewrite B6 in Hlen'. lia. }
    assert (Adm : forall j, admissible t rho w j <-> s + i0 <= j < s + i0 + zlen (i :: r)).
    { intros j. split.
      - intros (a & x & lo & hi & Hq & Hlo & Hhi & C1 & C2). apply Rq in Hq.
        destruct Hq as (Hj & Ha & Hx).
        assert (lo = x0) by (eapply entry_fun; eauto). assert (hi = xl) by (eapply entry_fun; eauto). subst.
        destruct (Lf (j - s)) as (a' & x' & F1 & F2 & F3); [lia|].
        replace (s + (j - s)) with j in * by lia.
        assert (a' = a) by (eapply entry_fun; eauto). assert (x' = x) by (eapply entry_fun; eauto). subst.
        destruct (Z_lt_ge_dec (j - s) i0) as [Hl|Hl].
        { rewrite (Hfst _ _ Hl F3) in C1. discriminate. }
        destruct (Rt (j - s - i0)) as (a' & x' & G1 & G2 & G3); [lia|].
        replace (s + i0 + (j - s - i0)) with j in * by lia.
        assert (a' = a) by (eapply entry_fun; eauto). assert (x' = x) by (eapply entry_fun; eauto). subst.
        apply (Pre _ _ G3) in C2. lia.
      - intros Hj.
        destruct (Rt (j - s - i0)) as (a & x & G1 & G2 & G3); [lia|].
        replace (s + i0 + (j - s - i0)) with j in * by lia.
        exists a, x, x0, xl. split; [apply Rq; split; [lia|split; auto]|].
        split; auto. split; auto. split.
        + destruct (Lf i0) as (a' & x' & F1 & F2 & F3); [lia|].
          assert (e0 = left_edge a' x') by congruence. subst e0.
          destruct (Z.eq_dec j (s + i0)) as [->|Hne].
          { assert (a' = a) by (eapply entry_fun; eauto). assert (x' = x) by (eapply entry_fun; eauto). subst; auto. }
          destruct (Hedge (s + i0) j a' a x' x) as [K _]; [lia| | |].
          * apply Rq; split; [lia|split; auto].
          * apply Rq; split; [lia|split; auto].
          * eapply dlt_dle_trans; eauto.
        + apply (Pre _ _ G3). lia. }
    intros j. unfold selected. rewrite E1, E2. rewrite Adm. split.
    - intros Hj. split; [lia|]. exists (j + 1). split; [lia|]. apply Adm. lia.
    - intros [Hj [k [Hk Ak]]]. apply Adm in Ak. lia.
  Qed.

  Lemma selection_fits (t t' : dtau) rho w :
    ready t rho -> get_window_width L t = Ok t' -> clean t' -> arr t' WKM = Some w ->
    edges_increase t rho w ->
    forall i, selected t' i -> exists a x lo hi,
      entry rho i a /\ entry w i x /\ entry rho 0 lo /\ entry rho (arr_size t - 1) hi /\
      (finite x -> fits lo hi a x).
  Proof.
    intros Hr H Hc Hw He i Hi.
    destruct (proj1 (selection_exact t t' rho w Hr H Hc Hw He i) Hi) as [(a & x & lo & hi & (Ha & Hx & _) & Hlo & Hhi & C1 & C2) _].
    destruct Hr as (_ & _ & _ & _ & [Hfin _] & _).
    exists a, x, lo, hi. split; auto. split; auto. split; auto. split; auto. intros Fx.
    assert (Fa : finite a) by (apply Hfin; eapply entry_in; eauto).
    assert (Flo : finite lo) by (apply Hfin; eapply entry_in; eauto).
    assert (Fhi : finite hi) by (apply Hfin; eapply entry_in; eauto).
    split; [apply left_fits|apply right_fits]; auto.
  Qed.

  (** C11 without the Allan-deviation correction. *)
  Lemma widths_plain (t t' : dtau) rho w Fk :
    ready t rho -> get_window_width L t = Ok t' -> clean t' -> arr t' WKM = Some w ->
    bfac t = false -> arr t FKM = Some Fk ->
    zlen w = arr_size t /\
    forall i a, entry rho i a -> exists x, entry w i x /\
      ((val (range0 t) <= val a <= val (range1 t))%R ->
         exists F, entry Fk i F /\ x = plain_width F (normeq t) (reso t)) /\
      (~ (val (range0 t) <= val a <= val (range1 t))%R -> x = dofZ 0).
  Proof.
    intros Hr H Hc Hw Hb HF. destruct (get_window_width_ok t t' rho Hr H Hc) as
      (s & n & w' & r0' & r1' & i0 & i & r & t2 & Ht2 & Ew & Hlw & Hs & Hn & Hsn & A1 & A2 & A3 & A4 &
       _ & Hi0 & E1 & E2 & E3 & E4 & E5 & E6 & E7 & E8).
    assert (w' = w) by congruence. subst w'. change (car dbl_scalar) with double in *.
    destruct Hr as (_ & _ & Hlen & Hsz & Hinc & Hf0 & Hf1).
    split; auto. subst t2. unfold gww_widths in Ew. simpl in Ew.
    apply bind_ok in Ew. destruct Ew as [u [_ Ew]]. rewrite Hb, HF in Ew. simpl in Ew.
    assert (G : zlen w = arr_size t /\ (forall j, s <= j < s + (0 + n) -> exists F, entry Fk j F /\
      entry w j (plain_width F (normeq t) (reso t))) /\
      (forall j, 0 <= j < arr_size t -> ~ (s <= j < s + (0 + n)) -> entry w j (dofZ 0))).
    { eapply (for_range_partial (fun k (w : list double) => zlen w = arr_size t /\
        (forall j, s <= j < s + k -> exists F, entry Fk j F /\
           entry w j (plain_width F (normeq t) (reso t))) /\
        (forall j, 0 <= j < arr_size t -> ~ (s <= j < s + k) -> entry w j (dofZ 0)))) in Ew; auto.
      - split; [apply zlen_repeat; lia|]. split; [lia|].
        intros j Hj _. apply entry_aread. apply aread_repeat. lia.
      - intros k v v' Hk (V1 & V2 & V3) Hstep.
        apply bind_ok in Hstep. destruct Hstep as [F [HFk Hwr]]. apply awrite_ok in Hwr.
        change (car dbl_scalar) with double in *.
        destruct Hwr as (W1 & W2 & W3 & W4). split; [congruence|].
        apply entry_aread in HFk. split.
        + intros j Hj. destruct (Z.eq_dec j (k + s)) as [->|Hne].
          * exists F. split; auto. apply entry_aread. exact W3.
          * destruct (V2 j) as [F' [Q1 Q2]]; [lia|]. exists F'. split; auto.
            apply entry_aread. rewrite W4 by lia. apply entry_aread. auto.
        + intros j Hj Hnj. apply entry_aread. rewrite W4 by lia. apply entry_aread. apply V3; auto. lia. }
    destruct G as (_ & G1 & G2). rewrite Z.add_0_l in *.
    intros j a Ha. assert (Hj := entry_range _ _ _ Ha). rewrite Hlen in Hj.
    destruct (Z_lt_ge_dec j s) as [Hl|Hl].
    { exists (dofZ 0). split; [apply G2; lia|]. split; auto.
      specialize (A2 j a Hl Ha). lra. }
    destruct (Z_lt_ge_dec j (s + n)) as [Hl2|Hl2].
    - destruct (G1 j) as [F [Q1 Q2]]; [lia|]. eexists. split; [exact Q2|]. split; [eauto|].
      intros Hno. exfalso. apply Hno. split; [eapply A1; eauto; lia|eapply A3; eauto; lia].
    - exists (dofZ 0). split; [apply G2; lia|]. split; auto.
      specialize (A4 j a ltac:(lia) Ha). lra.
  Qed.

  (** C12: a second call is refused. *)
  Lemma reprocess_refused (t t' : dtau) w :
    clean t -> arr t WKM = Some w -> get_window_width L t = Ok t' ->
    failed t' /\ arr t' = arr t /\ T_in t' = T_in t /\ T_out t' = T_out t /\
    T_fwd t' = T_fwd t /\ arr_size t' = arr_size t.
  Proof.
    intros Hc Hw H. unfold get_window_width in H. rewrite guarded_clean in H by exact Hc.
    apply bind_ok in H. destruct H as [rho [Hrho H]].
    apply bind_ok in H. destruct H as [[[r0' s]|] [Es H]].
    2:{ injection H as <-. simpl. unfold failed; simpl; eauto 10. }
    apply bind_ok in H. destruct H as [[[r1' n]|] [En H]].
    2:{ injection H as <-. simpl. unfold failed; simpl; eauto 10. }
    simpl in H. rewrite Hw in H. injection H as <-. simpl. unfold failed; simpl; eauto 10.
  Qed.
  (** ... and does not run into undefined behaviour when the radii are there. *)
  Lemma reprocess_total (t : dtau) rho w :
    ready t rho -> arr t WKM = Some w -> exists t', get_window_width L t = Ok t'.
  Proof.
    intros (Hc & Hr & Hlen & Hsz & Hinc & Hf0 & Hf1) Hw.
    unfold get_window_width. rewrite guarded_clean by exact Hc. rewrite Hr. cbn [deref bind].
    change (car dbl_scalar) with double in *.
    destruct (aread_in rho 0) as [x0 Hx0]; [lia|].
    destruct (aread_in rho (arr_size t - 1)) as [xl Hxl]; [lia|].
    assert (Fl : finite xl) by (apply (proj1 Hinc); eapply aread_In; eauto).
    assert (S1 : exists o, gww_start t rho = Ok o /\ forall r s, o = Some (r, s) -> 0 <= s < zlen rho).
    { unfold gww_start. change (car dbl_scalar) with double in *. rewrite Hx0. cbn [bind].
      destruct (sle (range0 t) x0); [eexists; split; [reflexivity|intros r s E; inversion E; lia]|].
      rewrite wrap64_id by lia. rewrite Hxl. cbn [bind].
      destruct (sgt (range0 t) xl) eqn:C; [eexists; split; [reflexivity|discriminate]|].
      destruct (scan_total (fun r : double => dlt r (range0 t)) rho 0 (arr_size t - 1) xl) as [m Hm]; auto; [lia|].
      match goal with |- exists o, bind ?x _ = _ /\ _ => change x with (scan (fun r : double => dlt r (range0 t)) rho 0) end.
      rewrite Hm. cbn [bind]. apply scan_ok in Hm. destruct Hm as (_ & _ & _ & a & Ha & _).
      rewrite Ha. cbn [bind]. eexists; split; [reflexivity|]. intros r s E; inversion E; subst.
      apply aread_ok in Ha. tauto. }
    destruct S1 as [o [-> Ho]]. cbn [bind]. destruct o as [[r0' s]|]; [|eexists; reflexivity].
    specialize (Ho _ _ eq_refl).
    assert (S2 : exists o, gww_count (set_start (set_range0 t r0') s) rho = Ok o).
    { unfold gww_count. change (car dbl_scalar) with double in *. simpl. rewrite wrap64_id by lia. rewrite Hxl. cbn [bind].
      destruct (dle xl (range1 t)) eqn:C1; [eexists; reflexivity|].
      rewrite Hx0. cbn [bind]. destruct (dlt (range1 t) x0); [eexists; reflexivity|].
      destruct (scan_total (fun r : double => dle r (range1 t)) rho s (arr_size t - 1) xl) as [m Hm]; auto; [lia|].
      match goal with |- exists o, bind ?x _ = _ => change x with (scan (fun r : double => dle r (range1 t)) rho s) end.
      rewrite Hm. cbn [bind]. apply scan_ok in Hm. destruct Hm as (_ & _ & _ & a & Ha & _).
      rewrite Ha. cbn [bind]. eexists; reflexivity. }
    destruct S2 as [o ->]. cbn [bind]. destruct o as [[r1' n]|]; [|eexists; reflexivity].
    simpl. rewrite Hw. eexists; reflexivity.
  Qed.

  Lemma where_all {A} (p : A -> bool) l k :
    (forall a, In a l -> p a = true) -> forall j, 0 <= j < zlen l ->
    aread (where_from p l k) j = Ok (k + j) /\ zlen (where_from p l k) = zlen l.
  Proof.
    revert k. induction l as [|x l IH]; intros k H j Hj.
    - unfold zlen in Hj; simpl in Hj; lia.
    - simpl. rewrite (H x) by (left; auto). rewrite !zlen_cons in *.
      destruct (Z.eq_dec j 0) as [->|Hne].
      + split.
        * apply aread_ok. rewrite zlen_cons. assert (Q := zlen_nonneg (where_from p l (k + 1))).
          split; [lia|]. simpl. f_equal; lia.
        * destruct l as [|y l].
          -- reflexivity.
          -- destruct (IH (k + 1)) with (j := 0) as [_ E]; [intros; apply H; right; auto| |rewrite E; reflexivity].
             rewrite zlen_cons in *. assert (Q := zlen_nonneg l). lia.
      + destruct (IH (k + 1)) with (j := j - 1) as [E1 E2]; [intros; apply H; right; auto|lia|].
        split; [|rewrite E2; reflexivity].
        change (k :: where_from p l (k + 1)) with ([k] ++ where_from p l (k + 1))%list.
        rewrite aread_app2; unfold zlen at 1; simpl; [|lia]. unfold zlen; simpl.
        replace (Z.of_nat 1) with 1 by reflexivity. rewrite E1. f_equal; lia.
  Qed.

  Lemma fill_ok (t : dtau) al Ps idx : forall n w w',
    (forall j k a b, 0 <= j < k -> aread idx j = Ok a -> aread idx k = Ok b -> a < b) ->
    fill_w_bfac L t al Ps idx n w = Ok w' ->
    (forall m i, aread idx m = Ok i -> exists p a, aread Ps i = Ok p /\ aread al (n + m) = Ok a /\
        aread w' (start t + i) = Ok (ddiv (dmul (normeq t) (t_resinv L p)) a)) /\
    (forall j, (forall m i, aread idx m = Ok i -> start t + i <> j) -> aread w' j = aread w j).
  Proof.
    induction idx as [|i0 idx IH]; intros n w w' Hs H; simpl in H.
    - injection H as <-. split; auto.
      intros m i Hm. apply aread_ok in Hm. unfold zlen in Hm; simpl in Hm; lia.
    - apply bind_ok in H. destruct H as [p [Hp H]].
      apply bind_ok in H. destruct H as [a [Ha H]].
      apply bind_ok in H. destruct H as [w1 [Hw1 H]]. apply awrite_ok in Hw1.
      change (car dbl_scalar) with double in *.
      destruct Hw1 as (W1 & W2 & W3 & W4).
      assert (Hsh : forall m, 0 <= m -> aread (i0 :: idx) (m + 1) = aread idx m).
      { intros m Hm. change (i0 :: idx) with ([i0] ++ idx)%list. rewrite aread_app2; unfold zlen; simpl; [f_equal; lia|lia]. }
      assert (H0 : aread (i0 :: idx) 0 = Ok i0).
      { apply aread_ok. rewrite zlen_cons. assert (Q := zlen_nonneg idx). split; [lia|reflexivity]. }
      apply IH in H.
      2:{ intros j k b c Hjk Hb Hc. apply (Hs (j + 1) (k + 1)); [lia|rewrite Hsh; auto; lia|rewrite Hsh; auto; lia]. }
      destruct H as [G1 G2]. split.
      + intros m i Hm. destruct (Z.eq_dec m 0) as [->|Hne].
        * assert (i = i0) by congruence. subst i. exists p, a. split; auto. rewrite Z.add_0_r. split; auto.
          rewrite G2; [exact W3|]. intros q j Hq. assert (0 <= q) by (apply aread_ok in Hq; lia).
          assert (i0 < j); [|lia]. apply (Hs 0 (q + 1)); [lia|auto|rewrite Hsh; auto].
        * assert (0 <= m) by (apply aread_ok in Hm; lia).
          replace m with (m - 1 + 1) in Hm by lia. rewrite Hsh in Hm by lia.
          destruct (G1 _ _ Hm) as (p' & a' & P1 & P2 & P3). exists p', a'.
          replace (n + m) with (n + 1 + (m - 1)) by lia. auto.
      + intros j Hj. rewrite G2.
        * apply W4. apply not_eq_sym. apply (Hj 0); auto.
        * intros m i Hm. apply (Hj (m + 1)). rewrite Hsh; auto. apply aread_ok in Hm; lia.
  Qed.

  (** C11 with the correction, the resolution being attainable (P > 1) at each
      requested sample: when the request starts at sample [s], sample [i] takes the
      velocity of sample [i - s]. *)
  Lemma widths_bfac_from (t t' : dtau) rho w Fk kv rd s :
    ready t rho -> get_window_width L t = Ok t' -> clean t' -> arr t' WKM = Some w ->
    bfac t = true -> arr t FKM = Some Fk -> arr t KV = Some kv -> arr t RHODOT = Some rd ->
    0 <= s ->
    (forall i a, i < s -> entry rho i a -> (val a < val (range0 t))%R) ->
    (forall a, entry rho s a -> (val (range0 t) <= val a)%R) ->
    (forall i a F k v, s <= i -> entry rho i a -> (val a <= val (range1 t))%R ->
       entry Fk i F -> entry kv i k -> entry rd (i - s) v ->
       dlt (dofZ 1) (bfac_P F k v (sigma t) (reso t)) = true) ->
    forall i a, s <= i -> entry rho i a -> (val a <= val (range1 t))%R ->
      exists x F k v, entry w i x /\ entry Fk i F /\ entry kv i k /\ entry rd (i - s) v /\
        x = bfac_width (t_resinv L) F k v (sigma t) (normeq t) (reso t).
  Proof.
    intros Hr H Hc Hw Hb HF HK HR Hs0 Hbefore Hfirst HP. destruct (get_window_width_ok t t' rho Hr H Hc) as
      (s' & n & w' & r0' & r1' & i0 & i & r & t2 & Ht2 & Ew & Hlw & Hs & Hn & Hsn & A1 & A2 & A3 & A4 &
       _ & Hi0 & E1 & E2 & E3 & E4 & E5 & E6 & E7 & E8).
    assert (w' = w) by congruence. subst w'. change (car dbl_scalar) with double in *.
    destruct Hr as (_ & _ & Hlen & Hsz & Hinc & Hf0 & Hf1).
    intros j b Hsj Hb1 Hb2. assert (Hj := entry_range _ _ _ Hb1).
    assert (s' = s).
    { destruct (Z.lt_trichotomy s' s) as [K|[K|K]]; auto; exfalso.
      - destruct (Z_lt_ge_dec s' (s' + n)) as [Q|Q]; [|].
        + destruct (entry_ex rho s') as [a Ha]; [lia|]. specialize (Hbefore s' a K Ha). specialize (A1 s' a ltac:(lia) Ha). lra.
        + assert (n = 0) by lia. specialize (A4 j b ltac:(lia) Hb1). lra.
      - destruct (entry_ex rho s) as [a Ha]; [lia|]. specialize (A2 s a ltac:(lia) Ha). specialize (Hfirst a Ha). lra. }
    subst s'. subst t2. unfold gww_widths in Ew. simpl in Ew.
    apply bind_ok in Ew. destruct Ew as [u [_ Ew]]. rewrite Hb, HF, HK, HR in Ew. simpl in Ew.
    apply bind_ok in Ew. destruct Ew as [u2 [_ Ew]].
    apply bind_ok in Ew. destruct Ew as [ap [Hap Ew]].
    apply bind_ok in Ew. destruct Ew as [u3 [_ Ew]].
    apply tabulate_ok in Hap; auto. destruct Hap as [Lap Hap].
    assert (AP : forall j, 0 <= j < n -> exists F k v, entry Fk (j + s) F /\ entry kv (j + s) k /\ entry rd j v /\
      aread ap j = Ok (bfac_alpha k (sigma t) v, bfac_P F k v (sigma t) (reso t))).
    { clear j b Hsj Hb1 Hb2 Hj. intros j Hj. specialize (Hap j Hj). destruct (aread_in ap j) as [e He]; [change (car dbl_scalar) with double in *; lia|].
      rewrite He in Hap. symmetry in Hap. unfold alpha_P in Hap. simpl in Hap.
      apply bind_ok in Hap. destruct Hap as [F [HF' Hap]]. apply bind_ok in Hap. destruct Hap as [k [HK' Hap]].
      apply bind_ok in Hap. destruct Hap as [v [HR' Hap]]. injection Hap as Hap.
      exists F, k, v. rewrite !entry_aread. repeat (split; [assumption|]). rewrite He, <- Hap. reflexivity. }
    assert (All : forall p, In p (map snd ap) -> dlt (dofZ 1) p = true).
    { clear j b Hsj Hb1 Hb2 Hj. intros p Hp. apply In_aread in Hp. destruct Hp as [j Hj]. rewrite aread_map in Hj.
      apply bind_ok in Hj. destruct Hj as [e [He Hj]]. injection Hj as <-.
      assert (Hj : 0 <= j < n) by (apply aread_ok in He; change (car dbl_scalar) with double in *; lia).
      destruct (AP j Hj) as (F & k & v & Q1 & Q2 & Q3 & Q4).
      change (car dbl_scalar) with double in *. rewrite He in Q4. injection Q4 as ->. simpl.
      destruct (entry_ex rho (j + s)) as [b Hb']; [lia|].
      apply (HP (j + s) b F k v); auto; [lia|apply (A3 (j + s) b ltac:(lia) Hb')|].
      replace (j + s - s) with j by lia. exact Q3. }
    apply fill_ok in Ew.
    2:{ clear. intros j k a b Hjk Ha Hb'. eapply where_sorted; eauto. }
    destruct Ew as [G _].
    assert (Hjn : 0 <= j - s < n).
    { split; [lia|]. destruct (Z_lt_ge_dec j (s + n)); [lia|]. specialize (A4 j b ltac:(lia) Hb1). lra. }
    destruct (AP (j - s) Hjn) as (F & k & v & Q1 & Q2 & Q3 & Q4). replace (j - s + s) with j in Q1, Q2 by lia.
    assert (Hz : 0 <= j - s < zlen (map snd ap)) by (rewrite zlen_map; change (car dbl_scalar) with double in *; lia).
    destruct (where_all (fun p : double => dlt (dofZ 1) p) (map snd ap) 0 All (j - s) Hz) as [Wj _].
    rewrite Z.add_0_l in Wj.
    destruct (G (j - s) (j - s) Wj) as (p & al & P1 & P2 & P3). simpl in P3. rewrite Z.add_0_l in P2.
    rewrite aread_map in P1, P2. change (car dbl_scalar) with double in *.
    rewrite Q4 in P1, P2. simpl in P1, P2. injection P1 as <-. injection P2 as <-.
    replace (s + (j - s)) with j in P3 by lia.
    exists (ddiv (dmul (normeq t) (t_resinv L (bfac_P F k v (sigma t) (reso t)))) (bfac_alpha k (sigma t) v)), F, k, v.
    split; [apply entry_aread; exact P3|]. repeat (split; [assumption|]).
    unfold bfac_width. rewrite (HP j b F k v); auto.
  Qed.
  Lemma widths_bfac (t t' : dtau) rho w Fk kv rd :
    ready t rho -> get_window_width L t = Ok t' -> clean t' -> arr t' WKM = Some w ->
    bfac t = true -> arr t FKM = Some Fk -> arr t KV = Some kv -> arr t RHODOT = Some rd ->
    (forall a, entry rho 0 a -> (val (range0 t) <= val a)%R) ->
    (forall i a F k v, entry rho i a -> (val a <= val (range1 t))%R ->
       entry Fk i F -> entry kv i k -> entry rd i v ->
       dlt (dofZ 1) (bfac_P F k v (sigma t) (reso t)) = true) ->
    forall i a, entry rho i a -> (val a <= val (range1 t))%R ->
      exists x F k v, entry w i x /\ entry Fk i F /\ entry kv i k /\ entry rd i v /\
        x = bfac_width (t_resinv L) F k v (sigma t) (normeq t) (reso t).
  Proof.
    intros Hr H Hc Hw Hb HF HK HR Hfirst HP i a Ha Hle.
    destruct (widths_bfac_from t t' rho w Fk kv rd 0 Hr H Hc Hw Hb HF HK HR ltac:(lia)) with (i := i) (a := a)
      as (x & F & k & v & R); auto.
    - intros j b Hj Hb'. apply entry_range in Hb'. lia.
    - intros j b F k v _ Hb' Hle' QF Qk Qv. rewrite Z.sub_0_r in Qv. eapply HP; eauto.
    - apply entry_range in Ha. lia.
    - rewrite Z.sub_0_r in R. eauto 10.
  Qed.
End Select.
