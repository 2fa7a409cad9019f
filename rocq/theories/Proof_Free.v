(** * Proof_Free: proofs of C69, the regions in radius. *)
From Coq Require Import List ZArith Bool Reals Lra Lia Arith Sorted.
From Verif Require Import Base Model_Time Model_Chord Model_Free Spec_Chord Spec_Free Proof_Chord.
Import ListNotations.
Open Scope R_scope.

(** ** Edges. *)
Lemma cos_bounds : forall x, -1 <= cos x <= 1.
Proof. intro x. apply COS_bound. Qed.
Lemma radius_bounds : forall days xs e g, ellipse e -> g_a e - g_ae e <= radius_at days xs e g <= g_a e + g_ae e.
Proof.
  intros days xs e g (A & E). unfold radius_at. set (c := cos _). assert (C : -1 <= c <= 1) by apply cos_bounds.
  set (ecc := g_ae e / g_a e). assert (Ee : g_ae e = ecc * g_a e) by (unfold ecc; field; lra).
  assert (E0 : 0 <= ecc) by (unfold ecc; apply Rmult_le_pos; [lra|left; apply Rinv_0_lt_compat; exact A]).
  assert (E1 : ecc < 1) by (apply Rmult_lt_reg_r with (g_a e); lra).
  rewrite Ee. set (a := g_a e) in *. assert (D : 0 < 1 + ecc * c) by nra.
  split.
  - apply Rmult_le_reg_r with (1 + ecc * c); [exact D|]. replace (a * (1 - ecc * ecc) / (1 + ecc * c) * (1 + ecc * c)) with (a * (1 - ecc * ecc)) by (field; lra).
    assert (0 <= a * (ecc * (1 - ecc) * (1 - c))); [|nra]. apply Rmult_le_pos; [lra|]. apply Rmult_le_pos; [apply Rmult_le_pos; lra|lra].
  - apply Rmult_le_reg_r with (1 + ecc * c); [exact D|]. replace (a * (1 - ecc * ecc) / (1 + ecc * c) * (1 + ecc * c)) with (a * (1 - ecc * ecc)) by (field; lra).
    assert (0 <= a * (ecc * (1 + ecc) * (1 + c))); [|nra]. apply Rmult_le_pos; [lra|]. apply Rmult_le_pos; [apply Rmult_le_pos; lra|lra].
Qed.
Lemma converge_bounds : forall days xs e tol n old new, ellipse e -> g_a e - g_ae e <= new <= g_a e + g_ae e ->
  g_a e - g_ae e <= converge days xs e tol n old new <= g_a e + g_ae e.
Proof.
  intros days xs e tol. induction n as [|n IH]; intros old new E B; [exact B|]. cbn [converge].
  destruct (ltb tol (Rabs (new - old))); [|exact B]. apply IH; [exact E|]. apply radius_bounds. exact E.
Qed.
Lemma edge_bounds : forall days xs e n tol, ellipse e -> g_a e - g_ae e <= rad_converge days xs e n tol <= g_a e + g_ae e.
Proof. intros days xs e n tol E. unfold rad_converge. cbv zeta. apply converge_bounds; [exact E|]. apply radius_bounds. exact E. Qed.
(** What the result satisfies: it is the radius on the ellipse at the sample closest to the
    radius before, which differs by at most the tolerance, unless the passes ran out. *)
Lemma converge_fixed : forall days xs e tol n old new, 0 <= tol -> new = radius_at days xs e old ->
  exists prev, converge days xs e tol n old new = radius_at days xs e prev /\
    (Rabs (converge days xs e tol n old new - prev) <= tol \/
     converge days xs e tol n old new = Nat.iter n (radius_at days xs e) new).
Proof.
  intros days xs e tol n. induction n as [|n IH]; intros old new T N.
  - exists old. split; [exact N|right; reflexivity].
  - cbn [converge]. destruct (ltb tol (Rabs (new - old))) eqn:L.
    + destruct (IH new (radius_at days xs e new) T eq_refl) as (p & P1 & P2). exists p. split; [exact P1|].
      destruct P2 as [P2|P2]; [left; exact P2|right]. rewrite P2. clear. 
      change (Nat.iter (S n) (radius_at days xs e) new) with (radius_at days xs e (Nat.iter n (radius_at days xs e) new)).
      induction n as [|n IH]; [reflexivity|]. cbn in *. f_equal. exact IH.
    + exists old. split; [exact N|left]. apply ltb_false in L. exact L.
Qed.
Lemma edge_fixed : forall days xs e n tol, 0 <= tol -> exists prev, rad_converge days xs e n tol = radius_at days xs e prev /\
  (Rabs (rad_converge days xs e n tol - prev) <= tol \/
   rad_converge days xs e n tol = Nat.iter (S n) (radius_at days xs e) (g_a e * (1 + g_ae e / g_a e))).
Proof.
  intros days xs e n tol T. unfold rad_converge. destruct (converge_fixed days xs e tol n (g_a e * (1 + g_ae e / g_a e)) _ T eq_refl) as (p & P1 & P2).
  exists p. split; [exact P1|]. destruct P2 as [P2|P2]; [left; exact P2|right]. rewrite P2. clear.
  change (Nat.iter (S n) (radius_at days xs e) (g_a e * (1 + g_ae e / g_a e))) with
    (radius_at days xs e (Nat.iter n (radius_at days xs e) (g_a e * (1 + g_ae e / g_a e)))).
  induction n as [|n IH]; [reflexivity|]. cbn in *. f_equal. exact IH.
Qed.
(** ** Extremes. *)
Lemma lmin_in : forall l x, (In (lmin x l) (x :: l)) /\ forall y, In y (x :: l) -> lmin x l <= y.
Proof.
  unfold lmin. induction l as [|a l IH]; intro x.
  - cbn. split; [left; reflexivity|]. intros y [->|[]]. lra.
  - cbn [fold_left]. destruct (IH (if ltb a x then a else x)) as (I1 & I2). split.
    + destruct I1 as [I1|I1]; [|right; right; exact I1]. rewrite <- I1. destruct (ltb a x); [right; left|left]; reflexivity.
    + intros y Hy. assert (K := I2 (if ltb a x then a else x) (or_introl eq_refl)).
      destruct (ltb a x) eqn:L; [apply ltb_true in L|apply ltb_false in L]; destruct Hy as [<-|[<-|Hy]]; try lra; apply I2; right; exact Hy.
Qed.
Lemma lmax_in : forall l x, (In (lmax x l) (x :: l)) /\ forall y, In y (x :: l) -> y <= lmax x l.
Proof.
  unfold lmax. induction l as [|a l IH]; intro x.
  - cbn. split; [left; reflexivity|]. intros y [->|[]]. lra.
  - cbn [fold_left]. destruct (IH (if ltb x a then a else x)) as (I1 & I2). split.
    + destruct I1 as [I1|I1]; [|right; right; exact I1]. rewrite <- I1. destruct (ltb x a); [right; left|left]; reflexivity.
    + intros y Hy. assert (K := I2 (if ltb x a then a else x) (or_introl eq_refl)).
      destruct (ltb x a) eqn:L; [apply ltb_true in L|apply ltb_false in L]; destruct Hy as [<-|[<-|Hy]]; try lra; apply I2; right; exact Hy.
Qed.
Lemma minimum_least : forall xs, xs <> [] -> least xs (minimum (map s_rho xs)).
Proof.
  intros [|x xs] N; [congruence|]. cbn [map minimum]. destruct (lmin_in (map s_rho xs) (s_rho x)) as (I & J).
  change (s_rho x :: map s_rho xs) with (map s_rho (x :: xs)) in *. split.
  - apply in_map_iff in I. destruct I as (y & E & H). exists y. split; [exact H|exact E].
  - intros y H. apply J. apply in_map. exact H.
Qed.
Lemma maximum_largest : forall xs, xs <> [] -> largest xs (maximum (map s_rho xs)).
Proof.
  intros [|x xs] N; [congruence|]. cbn [map maximum]. destruct (lmax_in (map s_rho xs) (s_rho x)) as (I & J).
  change (s_rho x :: map s_rho xs) with (map s_rho (x :: xs)) in *. split.
  - apply in_map_iff in I. destruct I as (y & E & H). exists y. split; [exact H|exact E].
  - intros y H. apply J. apply in_map. exact H.
Qed.
Lemma least_unique : forall xs a b, least xs a -> least xs b -> a = b.
Proof. intros xs a b ((x & X & <-) & A) ((y & Y & <-) & B). specialize (A y Y). specialize (B x X). lra. Qed.
Lemma largest_unique : forall xs a b, largest xs a -> largest xs b -> a = b.
Proof. intros xs a b ((x & X & <-) & A) ((y & Y & <-) & B). specialize (A y Y). specialize (B x X). lra. Qed.

(** ** Gaps. *)
(** Which gaps are reported. *)
Lemma gaps_exact : forall days xs lo hi, xs <> [] -> forall rmin rmax, least xs rmin -> largest xs rmax ->
  forall n table, (length table <= n)%nat ->
  (In (lo, hi) (find_gaps days xs table) <->
   exists i e1 e2, nth_error table (2 * i) = Some e1 /\ nth_error table (2 * i + 1) = Some e2 /\
     lo = rad_converge days xs e1 100 (1 / 1000) /\ hi = rad_converge days xs e2 100 (1 / 1000) /\ rmin < lo /\ hi < rmax).
Proof.
  intros days xs lo hi N rmin rmax L1 L2.
  rewrite <- (least_unique _ _ _ (minimum_least xs N) L1), <- (largest_unique _ _ _ (maximum_largest xs N) L2).
  induction n as [|n IH]; intros table Hn.
  - destruct table; [|cbn in Hn; lia]. split; [intros []|]. intros (i & e1 & e2 & H & _). destruct (2 * i)%nat; discriminate.
  - destruct table as [|e1 [|e2 table]].
    + split; [intros []|]. intros (i & a & b & H & _). destruct (2 * i)%nat; discriminate.
    + split; [intros []|]. intros (i & a & b & _ & H & _). destruct i; [discriminate|].
      replace (2 * S i + 1)%nat with (S (S (2 * i + 1))) in H by lia. destruct (2 * i + 1)%nat; discriminate.
    + cbn [find_gaps]. specialize (IH table ltac:(cbn in Hn; lia)).
      assert (Sh : (exists i a b, nth_error (e1 :: e2 :: table) (2 * i) = Some a /\ nth_error (e1 :: e2 :: table) (2 * i + 1) = Some b /\
          lo = rad_converge days xs a 100 (1 / 1000) /\ hi = rad_converge days xs b 100 (1 / 1000) /\
          minimum (map s_rho xs) < lo /\ hi < maximum (map s_rho xs)) <->
         (lo = rad_converge days xs e1 100 (1 / 1000) /\ hi = rad_converge days xs e2 100 (1 / 1000) /\
          minimum (map s_rho xs) < lo /\ hi < maximum (map s_rho xs)) \/ In (lo, hi) (find_gaps days xs table)).
      { rewrite IH. split.
        - intros ([|i] & a & b & A & B & R).
          + cbn in A, B. injection A as <-. injection B as <-. left. exact R.
          + right. exists i, a, b. replace (2 * S i)%nat with (S (S (2 * i))) in A by lia.
            replace (2 * S i + 1)%nat with (S (S (2 * i + 1))) in B by lia. split; [exact A|]. split; [exact B|exact R].
        - intros [R|(i & a & b & A & B & R)].
          + exists O, e1, e2. split; [reflexivity|]. split; [reflexivity|exact R].
          + exists (S i), a, b. replace (2 * S i)%nat with (S (S (2 * i))) by lia.
            replace (2 * S i + 1)%nat with (S (S (2 * i + 1))) by lia. split; [exact A|]. split; [exact B|exact R]. }
      rewrite Sh. clear Sh IH.
      destruct (ltb (minimum (map s_rho xs)) (rad_converge days xs e1 100 (1 / 1000)) && ltb (rad_converge days xs e2 100 (1 / 1000)) (maximum (map s_rho xs)))%bool eqn:C.
      * apply andb_true_iff in C. rewrite !ltb_true in C. cbn [In]. split.
        -- intros [E|H]; [left; injection E as <- <-; tauto|right; exact H].
        -- intros [(-> & -> & _)|H]; [left; reflexivity|right; exact H].
      * apply andb_false_iff in C. rewrite !ltb_false in C. split; [intro H; right; exact H|].
        intros [(-> & -> & H1 & H2)|H]; [exfalso; lra|exact H].
Qed.
(** A table whose pairs are in order, as far as the bounds of the edges tell. *)
Fixpoint table_ok (lo hi : R) (table : list edge) : Prop :=
  match table with
  | e1 :: e2 :: table' =>
      ellipse e1 /\ ellipse e2 /\ lo < g_a e1 - g_ae e1 /\ hi < g_a e2 - g_ae e2 /\ g_a e1 + g_ae e1 < g_a e2 - g_ae e2 /\
      table_ok (g_a e1 + g_ae e1) (g_a e2 + g_ae e2) table'
  | _ => True
  end.
Lemma table_mono : forall table lo hi lo' hi', lo' <= lo -> hi' <= hi -> table_ok lo hi table -> table_ok lo' hi' table.
Proof.
  intros [|e1 [|e2 table]] lo hi lo' hi' L H; [exact (fun x => x)|exact (fun x => x)|]. cbn. intuition lra.
Qed.
Lemma gaps_after : forall days xs n table lo hi, (length table <= n)%nat -> table_ok lo hi table ->
  Forall (fun r => lo < fst r /\ hi < snd r /\ fst r < snd r) (find_gaps days xs table).
Proof.
  intros days xs. induction n as [|n IH]; intros table lo hi Hn T; [destruct table; [constructor|cbn in Hn; lia]|].
  destruct table as [|e1 [|e2 table]]; [constructor|constructor|]. destruct T as (E1 & E2 & T1 & T2 & T3 & T4). cbn [find_gaps].
  pose proof (edge_bounds days xs e1 100 (1 / 1000) E1) as B1. pose proof (edge_bounds days xs e2 100 (1 / 1000) E2) as B2.
  assert (K : Forall (fun r => lo < fst r /\ hi < snd r /\ fst r < snd r) (find_gaps days xs table)).
  { apply IH; [cbn in Hn; lia|]. apply table_mono with (3 := T4); unfold ellipse in *; lra. }
  destruct (_ && _)%bool; [|exact K]. constructor; [cbn [fst snd]; lra|exact K].
Qed.
Lemma gaps_sorted : forall days xs n table lo hi, (length table <= n)%nat -> table_ok lo hi table ->
  StronglySorted (fun p q => fst p < fst q /\ snd p < snd q) (find_gaps days xs table).
Proof.
  intros days xs. induction n as [|n IH]; intros table lo hi Hn T; [destruct table; [constructor|cbn in Hn; lia]|].
  destruct table as [|e1 [|e2 table]]; [constructor|constructor|]. destruct T as (E1 & E2 & T1 & T2 & T3 & T4). cbn [find_gaps].
  pose proof (edge_bounds days xs e1 100 (1 / 1000) E1) as B1. pose proof (edge_bounds days xs e2 100 (1 / 1000) E2) as B2.
  assert (K := IH table _ _ ltac:(cbn in Hn; lia) T4).
  destruct (_ && _)%bool; [|exact K]. constructor; [exact K|].
  pose proof (gaps_after days xs n table _ _ ltac:(cbn in Hn; lia) T4) as F. rewrite Forall_forall in *. intros r Hr.
  specialize (F r Hr). cbn [fst snd]. lra.
Qed.
Lemma gap_table_ok : table_ok 72000 72000 gap_table.
Proof.
  unfold gap_table. cbn [table_ok]. unfold row, ellipse. cbn [g_a g_ae]. repeat split; lra.
Qed.
Lemma gaps_below : forall days xs table, Forall (fun e => ellipse e /\ g_a e + g_ae e < 133500) table ->
  Forall (fun r => fst r < 133500 /\ snd r < 133500) (find_gaps days xs table).
Proof.
  intros days xs. assert (G : forall n table, (length table <= n)%nat -> Forall (fun e => ellipse e /\ g_a e + g_ae e < 133500) table ->
    Forall (fun r => fst r < 133500 /\ snd r < 133500) (find_gaps days xs table)).
  { induction n as [|n IH]; intros table Hn T; [destruct table; [constructor|cbn in Hn; lia]|].
    destruct table as [|e1 [|e2 table]]; [constructor|constructor|]. inversion T as [|? ? (E1 & L1) T']; subst. inversion T' as [|? ? (E2 & L2) T'']; subst.
    cbn [find_gaps]. pose proof (edge_bounds days xs e1 100 (1 / 1000) E1) as B1. pose proof (edge_bounds days xs e2 100 (1 / 1000) E2) as B2.
    assert (K := IH table ltac:(cbn in Hn; lia) T''). destruct (_ && _)%bool; [|exact K]. constructor; [cbn [fst snd]; lra|exact K]. }
  intros table. apply (G (length table)). lia.
Qed.
Lemma gap_table_below : Forall (fun e => ellipse e /\ g_a e + g_ae e < 133500) gap_table.
Proof.
  unfold gap_table. repeat (apply Forall_cons; [unfold ellipse, row; cbn [g_a g_ae]; lra|]). apply Forall_nil.
Qed.
Lemma sorted_app : forall {A} (P : A -> A -> Prop) l l', StronglySorted P l -> StronglySorted P l' ->
  (forall x y, In x l -> In y l' -> P x y) -> StronglySorted P (l ++ l').
Proof.
  intros A P l l' S S' C. induction S as [|a l S IH F]; [exact S'|]. cbn. constructor.
  - apply IH. intros x y Hx Hy. apply C; [right; exact Hx|exact Hy].
  - rewrite Forall_forall in *. intros y Hy. apply in_app_or in Hy. destruct Hy as [Hy|Hy]; [apply F; exact Hy|]. apply C; [left; reflexivity|exact Hy].
Qed.
Lemma km_ascending : forall days xs, ascending (get_freespace_km days xs gap_table).
Proof.
  intros days xs. unfold get_freespace_km. set (mn := minimum _). set (mx := maximum _).
  set (region := fun lo hi : R => if (ltb lo mn || ltb mx hi)%bool then [] else [(lo, hi)]).
  pose proof (gaps_after days xs (length gap_table) gap_table 72000 72000 ltac:(lia) gap_table_ok) as Ga.
  pose proof (gaps_sorted days xs (length gap_table) gap_table 72000 72000 ltac:(lia) gap_table_ok) as Gs.
  pose proof (gaps_below days xs gap_table gap_table_below) as Gb.
  set (gaps := find_gaps days xs gap_table) in *.
  set (fsp0 := if (ltb mn 72000 && ltb 72000 mx)%bool then [(mn, 72000)] else []).
  assert (F0 : forall r, In r fsp0 -> fst r < 72000 /\ snd r = 72000).
  { unfold fsp0. destruct (ltb mn 72000) eqn:E; cbn [andb]; [|intros r []]. destruct (ltb 72000 mx); [|intros r []].
    intros r [<-|[]]. apply ltb_true in E. cbn. lra. }
  assert (R1 : forall lo hi r, In r (region lo hi) -> r = (lo, hi)).
  { intros lo hi r. unfold region. destruct (_ || _)%bool; [intros []|]. intros [<-|[]]. reflexivity. }
  assert (RS : forall (P : R * R -> R * R -> Prop) lo hi, StronglySorted P (region lo hi)).
  { intros P lo hi. unfold region. destruct (_ || _)%bool; repeat constructor. }
  rewrite Forall_forall in Ga, Gb.
  split.
  - rewrite Forall_forall. intros r H. repeat (apply in_app_or in H; destruct H as [H|H]).
    + specialize (F0 r H). lra.
    + specialize (Ga r H). lra.
    + apply R1 in H. subst r. cbn. lra.
    + apply R1 in H. subst r. cbn. lra.
    + apply R1 in H. subst r. cbn. lra.
  - apply sorted_app; [unfold fsp0; destruct (_ && _)%bool; repeat constructor| |].
    + apply sorted_app; [exact Gs| |].
      * apply sorted_app; [apply RS| |].
        -- apply sorted_app; [apply RS|apply RS|]. intros x y Hx Hy. apply R1 in Hx, Hy. subst. cbn. lra.
        -- intros x y Hx Hy. apply R1 in Hx. subst x. apply in_app_or in Hy. destruct Hy as [Hy|Hy]; apply R1 in Hy; subst y; cbn; lra.
      * intros x y Hx Hy. specialize (Gb x Hx). apply in_app_or in Hy. destruct Hy as [Hy|Hy].
        -- apply R1 in Hy. subst y. cbn. lra.
        -- apply in_app_or in Hy. destruct Hy as [Hy|Hy]; apply R1 in Hy; subst y; cbn; lra.
    + intros x y Hx Hy. specialize (F0 x Hx). apply in_app_or in Hy. destruct Hy as [Hy|Hy].
      * specialize (Ga y Hy). lra.
      * apply in_app_or in Hy. destruct Hy as [Hy|Hy]; [apply R1 in Hy; subst y; cbn; lra|].
        apply in_app_or in Hy. destruct Hy as [Hy|Hy]; apply R1 in Hy; subst y; cbn; lra.
Qed.
Lemma km_inside : forall days xs rmin rmax r, xs <> [] -> least xs rmin -> largest xs rmax ->
  In r (get_freespace_km days xs gap_table) -> rmin <= fst r /\ snd r <= rmax.
Proof.
  intros days xs rmin rmax r N L1 L2 H. unfold get_freespace_km in H.
  rewrite (least_unique _ _ _ (minimum_least xs N) L1), (largest_unique _ _ _ (maximum_largest xs N) L2) in H.
  assert (Rg : forall lo hi, In r (if (ltb lo rmin || ltb rmax hi)%bool then [] else [(lo, hi)]) -> rmin <= fst r /\ snd r <= rmax).
  { intros lo hi. destruct (ltb lo rmin || ltb rmax hi)%bool eqn:C; [intros []|]. apply orb_false_iff in C. rewrite !ltb_false in C.
    intros [<-|[]]. cbn. lra. }
  repeat (apply in_app_or in H; destruct H as [H|H]).
  - destruct (ltb rmin 72000 && ltb 72000 rmax)%bool eqn:C; [|destruct H]. apply andb_true_iff in C. rewrite !ltb_true in C.
    destruct H as [<-|[]]. cbn. lra.
  - destruct r as (lo, hi). apply (gaps_exact days xs lo hi N rmin rmax L1 L2 (length gap_table)) in H; [|lia].
    destruct H as (i & e1 & e2 & _ & _ & _ & _ & H). cbn. lra.
  - eapply Rg. exact H.
  - eapply Rg. exact H.
  - eapply Rg. exact H.
Qed.
(** ** One nearest sample. *)
Lemma nearest_radius : forall days xs e g x, nearest xs g x -> radius_at days xs e g = ellipse_radius e (from_periapse days e x).
Proof.
  intros days xs e g x (l1 & l2 & E & H). unfold radius_at, ellipse_radius. f_equal. f_equal. f_equal. f_equal.
  unfold anomaly, from_periapse.
  assert (M : minimum (map (fun y => Rabs (s_rho y - g)) xs) = Rabs (s_rho x - g)).
  { assert (Ix : In x xs) by (rewrite E; apply in_or_app; right; left; reflexivity). destruct xs as [|z xs]; [destruct Ix|].
    cbn [map minimum]. destruct (lmin_in (map (fun y => Rabs (s_rho y - g)) xs) (Rabs (s_rho z - g))) as (I & J).
    change (Rabs (s_rho z - g) :: map (fun y => Rabs (s_rho y - g)) xs) with (map (fun y => Rabs (s_rho y - g)) (z :: xs)) in *.
    apply Rle_antisym; [apply J; apply (in_map (fun y => Rabs (s_rho y - g))); exact Ix|].
    apply in_map_iff in I. destruct I as (y & Ey & Hy). rewrite <- Ey. rewrite E in Hy. apply in_app_or in Hy.
    destruct Hy as [Hy|[<-|Hy]]; [left; apply H; apply in_or_app; left; exact Hy|lra|left; apply H; apply in_or_app; right; exact Hy]. }
  rewrite M. assert (F : filter (fun y => eqb (Rabs (s_rho y - g)) (Rabs (s_rho x - g))) xs = [x]).
  { assert (Nn : forall l, (forall y, In y l -> Rabs (s_rho x - g) < Rabs (s_rho y - g)) -> filter (fun y => eqb (Rabs (s_rho y - g)) (Rabs (s_rho x - g))) l = []).
    { induction l as [|y l IH]; intro K; [reflexivity|]. cbn [filter]. destruct (eqb _ _) eqn:Q.
      - apply eqb_true in Q. specialize (K y (or_introl eq_refl)). lra.
      - apply IH. intros z Hz. apply K. right. exact Hz. }
    rewrite E, filter_app. cbn [filter]. rewrite (Nn l1), (Nn l2).
    - destruct (eqb _ _) eqn:Q; [reflexivity|]. unfold eqb in Q. destruct (Req_EM_T _ _); [discriminate|congruence].
    - intros y Hy. apply H. apply in_or_app. right. exact Hy.
    - intros y Hy. apply H. apply in_or_app. left. exact Hy. }
  rewrite F. unfold median, sorted. cbn. ring.
Qed.
Lemma circular : forall days xs e n tol, 0 < g_a e -> g_ae e = 0 -> rad_converge days xs e n tol = g_a e.
Proof. intros days xs e n tol A E. assert (P : ellipse e) by (unfold ellipse; lra). pose proof (edge_bounds days xs e n tol P). lra. Qed.
(** ** Which regions. *)
Lemma regions_exact : forall days xs rmin rmax lo hi, xs <> [] -> least xs rmin -> largest xs rmax ->
  (In (lo, hi) (get_freespace_km days xs gap_table) <->
   (lo = rmin /\ hi = 72000 /\ rmin < 72000 < rmax) \/
   (exists i e1 e2, nth_error gap_table (2 * i) = Some e1 /\ nth_error gap_table (2 * i + 1) = Some e2 /\
      lo = rad_converge days xs e1 100 (1 / 1000) /\ hi = rad_converge days xs e2 100 (1 / 1000) /\ rmin < lo /\ hi < rmax) \/
   (In (lo, hi) [(133500, 133650); (137000, 143000); (143000, 170000)] /\ rmin <= lo /\ hi <= rmax)).
Proof.
  intros days xs rmin rmax lo hi N L1 L2. unfold get_freespace_km.
  rewrite <- (gaps_exact days xs lo hi N rmin rmax L1 L2 (length gap_table) gap_table (Nat.le_refl _)).
  rewrite (least_unique _ _ _ (minimum_least xs N) L1), (largest_unique _ _ _ (maximum_largest xs N) L2).
  rewrite !in_app_iff.
  assert (Rg : forall a b, In (lo, hi) (if (ltb a rmin || ltb rmax b)%bool then [] else [(a, b)]) <-> (a, b) = (lo, hi) /\ rmin <= lo /\ hi <= rmax).
  { intros a b. destruct (ltb a rmin || ltb rmax b)%bool eqn:C.
    - apply orb_true_iff in C. rewrite !ltb_true in C. split; [intros []|]. intros (E & H). injection E as -> ->. lra.
    - apply orb_false_iff in C. rewrite !ltb_false in C. cbn [In]. split; [intros [E|[]]; split; [exact E|injection E as <- <-; lra]|intros (E & _); left; exact E]. }
  rewrite !Rg. clear Rg. cbn [In].
  assert (F : In (lo, hi) (if (ltb rmin 72000 && ltb 72000 rmax)%bool then [(rmin, 72000)] else []) <-> lo = rmin /\ hi = 72000 /\ rmin < 72000 < rmax).
  { destruct (ltb rmin 72000 && ltb 72000 rmax)%bool eqn:C.
    - apply andb_true_iff in C. rewrite !ltb_true in C. cbn [In]. split; [intros [E|[]]; injection E as <- <-; lra|intros (-> & -> & _); left; reflexivity].
    - apply andb_false_iff in C. rewrite !ltb_false in C. split; [intros []|]. intros (_ & _ & H). lra. }
  rewrite F. tauto.
Qed.
