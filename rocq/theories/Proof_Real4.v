(** * Proof_Real4: interpolated and expanded phases (C29-C31). *)
From Coq Require Import List ZArith Bool Reals QArith Qabs Qreals String Lia Lra Psatz.
From Verif Require Import Base BaseFacts Dbl Scalar Model_TauRec Model_Transform
  Model_Interp Spec_Select Spec_Safety Spec_Real Proof_Linear Proof_Real.
Import ListNotations.
Open Scope Z_scope.

(** ** C29 *)
Definition deg4_phase (i0 i1 i2 i3 i4 x : R) : R * R :=
  @deg4_eval real_scalar (@deg4_interp real_scalar i0 i1 i2 i3 i4) x.
Lemma deg4_nodes i0 i1 i2 i3 i4 :
  deg4_phase i0 i1 i2 i3 i4 (-1/2)%R = (i0, i4) /\ deg4_phase i0 i1 i2 i3 i4 (-1/4)%R = (i1, i3) /\
  deg4_phase i0 i1 i2 i3 i4 0%R = (i2, i2).
Proof.
  unfold deg4_phase, deg4_eval, deg4_interp, shalf, s1, s2. cbn [sadd ssub smul sdiv sofZ sfrac real_scalar].
  repeat split; apply f_equal2; req; lra.
Qed.
Lemma deg4_quartic a0 a1 a2 a3 a4 x :
  let p y := (a0 + a1 * y + a2 * (y * y) + a3 * (y * y * y) + a4 * (y * y * y * y))%R in
  (deg4_phase (p (-1/2)) (p (-1/4)) (p 0) (p (1/4)) (p (1/2)) x = (p x, p (- x)))%R.
Proof.
  intros p. unfold p, deg4_phase, deg4_eval, deg4_interp, shalf, s1, s2. cbn [sadd ssub smul sdiv sofZ sfrac real_scalar].
  apply f_equal2; req; field.
Qed.

(** ** C30 *)
Lemma abs_bound (x : R) : (- Rabs x <= x <= Rabs x)%R.
Proof. unfold Rabs. destruct (Rcase_abs x); lra. Qed.
Lemma abs_var (x : R) : exists t : R, Rabs x = t /\ (- t <= x <= t)%R.
Proof. exists (Rabs x). split; [reflexivity|apply abs_bound]. Qed.
Ltac absvars := repeat match goal with |- context [Rabs ?v] => is_var v;
  let t := fresh "t" in let H := fresh "B" in destruct (abs_var v) as (t & -> & H) end.
Ltac evalphase := unfold phase8, phase16, interp_eval, interp_coeffs, C8, C16, dot, shalf, s0, s1, s2;
  cbn [sadd ssub smul sdiv sofZ sfrac real_scalar combine map fold_left evens odds horner fst snd negb nth INR].

(** Linear forms with rational coefficients, so that the tables are evaluated by
    computation. *)
Definition rat_scalar : scalar := {|
  car := Q; sadd := Qplus; ssub := Qminus; smul := Qmult; sdiv := Qdiv; sneg := Qopp; sabs := Qabs;
  ssqrt := fun x => x; slt := fun _ _ => false; sle := Qle_bool; seqb := Qeq_bool; snan := fun _ => false;
  sinf := fun _ => false; scast := fun _ => Ok 0; sofZ := inject_Z; sfrac := fun p q => (p # Z.to_pos q)%Q;
  stwopi := 0%Q; spihalf := 0%Q; ssqrttwo := 0%Q; srsqrttwo := 0%Q |}.
Fixpoint qdot (q : list Q) (z : list R) : R :=
  match q, z with a :: q', v :: z' => (Q2R a * v + qdot q' z')%R | _, _ => 0%R end.
Fixpoint vadd (a b : list Q) : list Q :=
  match a, b with x :: a', y :: b' => Qred (x + y) :: vadd a' b' | _, _ => [] end.
Definition vscale (k : Q) (a : list Q) : list Q := map (fun x => Qred (k * x)) a.
Fixpoint vhorner (n : nat) (rows : list (list Q)) (y : Q) : list Q :=
  match rows with
  | [] => repeat 0%Q n
  | [r] => r
  | r :: rest => vadd r (vscale y (vhorner n rest y))
  end.
Lemma Q2R_red q : Q2R (Qred q) = Q2R q.
Proof. apply Qreals.Qeq_eqR, Qred_correct. Qed.
Lemma qdot_add a b z : List.length a = List.length b -> qdot (vadd a b) z = (qdot a z + qdot b z)%R.
Proof.
  revert b z. induction a as [|x a IH]; intros [|y b] z Hl; try discriminate Hl; [cbn; lra|].
  destruct z as [|v z]; cbn [vadd qdot]; [lra|]. rewrite IH by (injection Hl; auto). rewrite Q2R_red, Qreals.Q2R_plus. lra.
Qed.
Lemma qdot_scale k a z : qdot (vscale k a) z = (Q2R k * qdot a z)%R.
Proof.
  revert z. induction a as [|x a IH]; intros z; [cbn; lra|]. destruct z as [|v z]; cbn [vscale map qdot]; [lra|].
  fold (vscale k a). rewrite IH, Q2R_red, Qreals.Q2R_mult. lra.
Qed.
Lemma qdot_zero n z : qdot (repeat 0%Q n) z = 0%R.
Proof. revert z. induction n; intros [|v z]; cbn [repeat qdot]; try reflexivity. rewrite IHn. rewrite RMicromega.Q2R_0. lra. Qed.
Lemma vadd_len a b : List.length a = List.length b -> List.length (vadd a b) = List.length a.
Proof. revert b. induction a; intros [|y b] H; try discriminate H; [reflexivity|]. cbn. f_equal. apply IHa. injection H; auto. Qed.
Lemma vhorner_len n rows y : Forall (fun r => List.length r = n) rows -> List.length (vhorner n rows y) = n.
Proof.
  induction 1 as [|r rest Hr Hf IH]; [apply repeat_length|]. cbn [vhorner]. destruct rest as [|r' rest]; [exact Hr|].
  rewrite vadd_len; [exact Hr|]. unfold vscale. rewrite map_length, IH. exact Hr.
Qed.
Definition rdot (cs z : list R) : R := @dot real_scalar cs z.
Lemma rdot_qdot q z : rdot (map Q2R q) z = qdot q z.
Proof.
  unfold rdot, dot. destruct q as [|a q]; [reflexivity|]. destruct z as [|v z]; [reflexivity|].
  cbn [map combine qdot]. cbn [smul real_scalar].
  generalize (Q2R a * v)%R. revert z. induction q as [|b q IH]; intros z r; [cbn; lra|].
  destruct z as [|u z]; [cbn; lra|]. cbn [map combine fold_left fst snd qdot sadd smul real_scalar]. rewrite IH. lra.
Qed.
Definition rhorner (cs : list R) (y : R) : R := @horner real_scalar cs y.
Lemma rhorner_vec n rows (z : list R) y : Forall (fun r => List.length r = n) rows ->
  rhorner (map (fun row => rdot row z) (map (map Q2R) rows)) (Q2R y) = qdot (vhorner n rows y) z.
Proof.
  induction 1 as [|r rest Hr Hf IH]; [symmetry; apply qdot_zero|].
  destruct rest as [|r' rest]; [apply rdot_qdot|].
  change (rhorner (map (fun row => rdot row z) (map (map Q2R) (r :: r' :: rest))) (Q2R y))
    with (rdot (map Q2R r) z + Q2R y * rhorner (map (fun row => rdot row z) (map (map Q2R) (r' :: rest))) (Q2R y))%R.
  rewrite IH. change (vhorner n (r :: r' :: rest) y) with (vadd r (vscale y (vhorner n (r' :: rest) y))).
  rewrite qdot_add, qdot_scale, rdot_qdot; [reflexivity|]. unfold vscale. rewrite map_length, vhorner_len by exact Hf. exact Hr.
Qed.
Definition rdiff (lo hi : list R) : list R := map (fun p => (snd p - fst p)%R) (combine lo hi).
Definition rmean (lo hi : list R) : list R := map (fun p => ((snd p + fst p) * (1 / 2))%R) (combine lo hi).
Fixpoint alternate (tb : list (list R)) (even : bool) (d m : list R) : list R :=
  match tb with [] => [] | row :: r => rdot row (if even then d else m) :: alternate r (negb even) d m end.
Lemma alternate_split d m : forall tb,
  (evens (alternate tb true d m) = map (fun r => rdot r d) (evens tb) /\ evens (alternate tb false d m) = map (fun r => rdot r m) (evens tb)) /\
  (odds (alternate tb true d m) = map (fun r => rdot r m) (odds tb)).
Proof.
  assert (G : forall n tb, (List.length tb <= n)%nat ->
    evens (alternate tb true d m) = map (fun r => rdot r d) (evens tb) /\ evens (alternate tb false d m) = map (fun r => rdot r m) (evens tb)).
  { induction n as [|n IH]; intros tb Hl; [destruct tb; [split; reflexivity|cbn in Hl; lia]|].
    destruct tb as [|r1 [|r2 tb]]; [split; reflexivity|split; reflexivity|].
    cbn [alternate negb evens map]. destruct (IH tb) as [A B]; [cbn in Hl; lia|]. rewrite A, B. split; reflexivity. }
  intros tb. split; [exact (G _ tb (le_n _))|]. destruct tb as [|r tb]; [reflexivity|].
  cbn [alternate negb odds]. exact (proj2 (G _ tb (le_n _))).
Qed.
Lemma coeffs_alternate tb lo hi :
  @interp_coeffs real_scalar tb lo hi = alternate tb true (rdiff lo hi) (rmean lo hi).
Proof.
  unfold interp_coeffs. cbv zeta. change (@map (R * R) R (fun p => (snd p - fst p)%R) (combine lo hi)) with (rdiff lo hi).
  fold (rdiff lo hi).
  generalize true. induction tb as [|r tb IH]; intros b; [reflexivity|]. cbn [alternate]. rewrite <- (IH (negb b)). destruct b; reflexivity.
Qed.
Definition within (e : Q) (v : list Q) : bool := forallb (fun x => Qle_bool (- e) x && Qle_bool x e)%Q v.
Lemma abs_le_inv (x y : R) : (Rabs x <= y -> - y <= x <= y)%R.
Proof. unfold Rabs. destruct (Rcase_abs x); lra. Qed.
Lemma sum_abs_pos z : (0 <= sum_abs z)%R.
Proof. induction z as [|a z IH]; [cbn; lra|]. change (sum_abs (a :: z)) with (Rabs a + sum_abs z)%R. pose proof (Rabs_pos a). lra. Qed.
Lemma within_abs e v z : within e v = true -> (Rabs (qdot v z) <= Q2R e * sum_abs z)%R \/ (Q2R e < 0)%R.
Proof.
  intros H. destruct (Rlt_dec (Q2R e) 0) as [Hn|Hn]; [right; exact Hn|left].
  revert z H. induction v as [|x v IH]; intros z H; cbn [qdot].
  - rewrite Rabs_R0. pose proof (sum_abs_pos z). nra.
  - destruct z as [|u z]; [rewrite Rabs_R0; cbn; lra|]. cbn [within forallb] in H. apply andb_true_iff in H as [Hx Hv].
    apply andb_true_iff in Hx as [H1 H2]. apply Qle_bool_iff, Qreals.Qle_Rle in H1, H2. rewrite Qreals.Q2R_opp in H1.
    cbn [sum_abs fold_right]. fold (sum_abs z).
    eapply Rle_trans; [apply Rabs_triang|]. rewrite Rabs_mult, Rmult_plus_distr_l.
    apply Rplus_le_compat; [|apply IH; exact Hv]. apply Rmult_le_compat_r; [apply Rabs_pos|]. apply Rabs_le. lra.
Qed.
(** The unit vector e_j, times k. *)
Definition unit_vec (n j : nat) (k : Q) : list Q := map (fun i => if Nat.eqb i j then k else 0%Q) (seq 0 n).
Lemma qdot_unit n j k z : (j < n)%nat -> List.length z = n -> qdot (unit_vec n j k) z = (Q2R k * nth j z 0)%R.
Proof.
  unfold unit_vec. intros Hj Hl.
  assert (G : forall m s z, List.length z = m ->
    qdot (map (fun i => if Nat.eqb i j then k else 0%Q) (seq s m)) z = if (Nat.leb s j && Nat.ltb j (s + m))%bool then (Q2R k * nth (j - s) z 0)%R else 0%R).
  { induction m as [|m IH]; intros s z' Hz.
    - cbn [seq map qdot]. replace (Nat.leb s j && Nat.ltb j (s + 0))%bool with false; [reflexivity|].
      symmetry. apply andb_false_iff. destruct (Nat.leb_spec s j); [right; apply Nat.ltb_ge; lia|left; reflexivity].
    - destruct z' as [|v z']; [discriminate Hz|]. cbn [seq map qdot]. rewrite IH by (injection Hz; auto).
      destruct (Nat.eqb_spec s j) as [->|Hs].
      + rewrite Nat.leb_refl. replace (Nat.leb (Datatypes.S j) j) with false by (symmetry; apply Nat.leb_gt; lia).
        replace (Nat.ltb j (j + Datatypes.S m)) with true by (symmetry; apply Nat.ltb_lt; lia). cbn [andb].
        rewrite Nat.sub_diag. cbn [nth]. lra.
      + replace (Nat.ltb j (s + Datatypes.S m)) with (Nat.ltb j (Datatypes.S s + m)) by (f_equal; lia).
        rewrite RMicromega.Q2R_0.
        destruct (Nat.leb_spec s j) as [A|A]; destruct (Nat.leb_spec (Datatypes.S s) j) as [B|B]; try lia; cbn [andb]; try lra.
        destruct (Nat.ltb_spec j (Datatypes.S s + m)); [|lra]. replace (j - s)%nat with (Datatypes.S (j - Datatypes.S s)) by lia. cbn [nth]. lra. }
  rewrite G by exact Hl. replace (Nat.leb 0 j && Nat.ltb j (0 + n))%bool with true; [rewrite Nat.sub_0_r; reflexivity|].
  symmetry. apply andb_true_iff. split; [reflexivity|apply Nat.ltb_lt; lia].
Qed.
Definition errors (n : nat) (tb : list (list Q)) (x : Q) (j : nat) : list Q * list Q :=
  (vadd (vscale (x * x) (vhorner n (odds tb) (x * x))) (unit_vec n j (-1)),
   vadd (vscale x (vhorner n (evens tb) (x * x))) (unit_vec n j (1 # 2))).
Definition nodes_ok (n : nat) (tb : list (list Q)) (e : Q) : bool :=
  forallb (fun j => let '(m, d) := errors n tb (- (Z.of_nat j + 1) # (2 * Pos.of_nat n)) j in within e m && within e d) (seq 0 n).
Definition wide (n : nat) (tb : list (list Q)) : bool := forallb (fun r => Nat.eqb (List.length r) n) tb.
Lemma evens_incl {A} (l : list A) x : In x (evens l) -> In x l.
Proof.
  assert (G : forall n (l : list A), (List.length l <= n)%nat -> In x (evens l) -> In x l).
  { induction n as [|n IH]; intros [|a [|b m]] Hl Hi; try exact Hi; try (cbn in Hl; lia).
    destruct Hi as [<-|Hi]; [left; reflexivity|right; right; apply IH; [cbn in Hl; lia|exact Hi]]. }
  exact (G _ l (le_n _)).
Qed.
Lemma evens_map {A B} (f : A -> B) l : evens (map f l) = map f (evens l).
Proof.
  assert (G : forall n (l : list A), (List.length l <= n)%nat -> evens (map f l) = map f (evens l)).
  { induction n as [|n IH]; intros [|a [|b m]] Hl; try reflexivity; [cbn in Hl; lia|].
    cbn [map evens]. rewrite IH by (cbn in Hl; lia). reflexivity. }
  exact (G _ l (le_n _)).
Qed.
Lemma odds_map {A B} (f : A -> B) l : odds (map f l) = map f (odds l).
Proof. destruct l; [reflexivity|apply evens_map]. Qed.
Lemma len_diff lo hi : List.length lo = List.length hi -> List.length (rdiff lo hi) = List.length lo.
Proof. intros H. unfold rdiff. rewrite map_length, combine_length, H. apply Nat.min_id. Qed.
Lemma len_mean lo hi : List.length lo = List.length hi -> List.length (rmean lo hi) = List.length lo.
Proof. intros H. unfold rmean. rewrite map_length, combine_length, H. apply Nat.min_id. Qed.
Lemma sum_abs_diff lo hi : List.length lo = List.length hi -> (sum_abs (rdiff lo hi) <= sum_abs lo + sum_abs hi)%R.
Proof.
  revert hi. induction lo as [|a lo IH]; intros [|b hi] H; try discriminate H; [cbn; lra|]. injection H as H. specialize (IH hi H).
  change (rdiff (a :: lo) (b :: hi)) with ((b - a)%R :: rdiff lo hi). cbn [sum_abs fold_right]. fold (sum_abs (rdiff lo hi)) (sum_abs lo) (sum_abs hi).
  assert (Rabs (b - a) <= Rabs a + Rabs b)%R by (unfold Rabs; repeat destruct Rcase_abs; lra). lra.
Qed.
Lemma sum_abs_mean lo hi : List.length lo = List.length hi -> (sum_abs (rmean lo hi) <= (sum_abs lo + sum_abs hi) / 2)%R.
Proof.
  revert hi. induction lo as [|a lo IH]; intros [|b hi] H; try discriminate H; [cbn; lra|]. injection H as H. specialize (IH hi H).
  change (rmean (a :: lo) (b :: hi)) with (((b + a) * (1 / 2))%R :: rmean lo hi). cbn [sum_abs fold_right]. fold (sum_abs (rmean lo hi)) (sum_abs lo) (sum_abs hi).
  assert (Rabs ((b + a) * (1 / 2)) <= (Rabs a + Rabs b) / 2)%R by (unfold Rabs; repeat destruct Rcase_abs; lra). lra.
Qed.
Lemma nth_diff_mean lo hi j : List.length lo = List.length hi -> (j < List.length lo)%nat ->
  (nth j (rmean lo hi) 0 - nth j (rdiff lo hi) 0 * (1 / 2) = nth j lo 0 /\ nth j (rmean lo hi) 0 + nth j (rdiff lo hi) 0 * (1 / 2) = nth j hi 0)%R.
Proof.
  revert hi j. induction lo as [|a lo IH]; intros [|b hi] j H Hj; try discriminate H; [cbn in Hj; lia|].
  destruct j as [|j]; [cbn; lra|]. apply (IH hi j); [injection H; auto|cbn in Hj; lia].
Qed.
Lemma table_nodes (tb : list (list R)) (tq : list (list Q)) (n : nat) (e : Q) :
  tb = map (map Q2R) tq -> wide n tq = true -> nodes_ok n tq e = true -> (0 < n)%nat -> (0 <= Q2R e)%R ->
  reproduces_nodes (fun lo hi x => @interp_eval real_scalar (@interp_coeffs real_scalar tb lo hi) x) n (2 * Q2R e)%R.
Proof.
  intros -> Hw Hok Hn He lo hi Hl Hh. assert (Hlh : List.length lo = List.length hi) by congruence.
  assert (Hev : Forall (fun r => List.length r = n) (evens tq)).
  { apply Forall_forall. intros r Hr. apply Nat.eqb_eq. apply (proj1 (forallb_forall _ _) Hw). apply evens_incl, Hr. }
  assert (Hod : Forall (fun r => List.length r = n) (odds tq)).
  { apply Forall_forall. intros r Hr. apply Nat.eqb_eq. apply (proj1 (forallb_forall _ _) Hw). destruct tq; [exact Hr|]. right. apply evens_incl, Hr. }
  rewrite coeffs_alternate. set (d := rdiff lo hi). set (m := rmean lo hi).
  assert (EV : forall x : Q, @interp_eval real_scalar (alternate (map (map Q2R) tq) true d m) (Q2R x) =
     (let ev := (Q2R (x * x) * qdot (vhorner n (odds tq) (x * x)) m)%R in
      let od := (Q2R x * qdot (vhorner n (evens tq) (x * x)) d)%R in (ev + od, ev - od))%R).
  { intros x. unfold interp_eval. destruct (alternate_split d m (map (map Q2R) tq)) as [[A _] B].
    cbn [car real_scalar] in *. rewrite A, B, evens_map, odds_map. cbv zeta. cbn [smul sadd ssub real_scalar].
    rewrite <- !rhorner_vec by assumption. rewrite !Qreals.Q2R_mult. reflexivity. }
  split.
  - pose proof (EV 0%Q) as E0. replace (Q2R 0) with 0%R in E0 by (symmetry; apply RMicromega.Q2R_0). rewrite E0.
    cbv zeta. rewrite Qreals.Q2R_mult, RMicromega.Q2R_0. apply f_equal2; req; ring.
  - intros j Hj. cbv zeta. set (xq := (- (Z.of_nat j + 1) # (2 * Pos.of_nat n))).
    replace (- (INR j + 1) / (2 * INR n))%R with (Q2R xq).
    2: { unfold xq, Q2R. cbn [Qnum Qden]. rewrite Pos2Z.inj_mul, mult_IZR, opp_IZR, plus_IZR, <- INR_IZR_INZ.
         replace (Z.pos (Pos.of_nat n)) with (Z.of_nat n) by (rewrite <- positive_nat_Z, Nat2Pos.id by lia; reflexivity). rewrite <- INR_IZR_INZ. reflexivity. }
    rewrite EV. cbv zeta. cbn [fst snd].
    assert (Hin : In j (seq 0 n)) by (apply in_seq; lia).
    assert (Hj' := proj1 (forallb_forall _ _) Hok j Hin). cbv beta in Hj'.
    fold xq in Hj'. unfold errors in Hj'. apply andb_true_iff in Hj' as [Hm Hd].
    destruct (within_abs _ _ m Hm) as [Bm|]; [|lra]. destruct (within_abs _ _ d Hd) as [Bd|]; [|lra].
    assert (Lu : forall k, List.length (unit_vec n j k) = n) by (intros; unfold unit_vec; rewrite map_length, seq_length; reflexivity).
    assert (Lv : forall k k' r y, Forall (fun r => List.length r = n) r -> List.length (vscale k (vhorner n r y)) = List.length (unit_vec n j k')).
    { intros. unfold vscale. rewrite map_length, vhorner_len by assumption. symmetry. apply Lu. }
    rewrite qdot_add, qdot_scale, qdot_unit in Bm; [|exact Hj|unfold m; rewrite len_mean; assumption|apply Lv, Hod].
    rewrite qdot_add, qdot_scale, qdot_unit in Bd; [|exact Hj|unfold d; rewrite len_diff; assumption|apply Lv, Hev].
    assert (Hjl : (j < List.length lo)%nat) by (rewrite Hl; exact Hj).
    destruct (nth_diff_mean lo hi j Hlh Hjl) as [N1 N2]. fold d m in N1, N2.
    pose proof (sum_abs_diff lo hi Hlh) as S1. pose proof (sum_abs_mean lo hi Hlh) as S2. fold d in S1. fold m in S2.
    replace (Q2R (-1)) with (-1)%R in Bm by (unfold Q2R; cbn; lra). replace (Q2R (1 # 2)) with (1 / 2)%R in Bd by (unfold Q2R; cbn; lra).
    set (EVN := (Q2R (xq * xq) * qdot (vhorner n (odds tq) (xq * xq)) m)%R) in *.
    set (ODD := (Q2R xq * qdot (vhorner n (evens tq) (xq * xq)) d)%R) in *.
    apply abs_le_inv in Bm. apply abs_le_inv in Bd.
    assert (0 <= Q2R e * (sum_abs lo + sum_abs hi - sum_abs d))%R by (apply Rmult_le_pos; lra).
    assert (0 <= Q2R e * ((sum_abs lo + sum_abs hi) / 2 - sum_abs m))%R by (apply Rmult_le_pos; lra).
    assert (0 <= sum_abs lo + sum_abs hi)%R.
    { pose proof (sum_abs_pos lo). pose proof (sum_abs_pos hi). lra. }
    assert (0 <= Q2R e * (sum_abs lo + sum_abs hi))%R by (apply Rmult_le_pos; lra).
    split; apply Rabs_le; rewrite <- ?N1, <- ?N2; split; nra.
Qed.
Definition C8q : list (list Q) := Eval vm_compute in @C8 rat_scalar.
Definition C16q : list (list Q) := Eval vm_compute in @C16 rat_scalar.
Lemma C8_rat : @C8 real_scalar = map (map Q2R) C8q.
Proof. unfold C8, C8q. cbn [map sfrac real_scalar Q2R Qnum Qden]. reflexivity. Qed.
Lemma C16_rat : @C16 real_scalar = map (map Q2R) C16q.
Proof. unfold C16, C16q. cbn [map sfrac real_scalar Q2R Qnum Qden]. reflexivity. Qed.
Lemma phase8_nodes : reproduces_nodes phase8 4 (/ 1000000000000000000000)%R.
Proof.
  replace (/ 1000000000000000000000)%R with (2 * Q2R (1 # 2000000000000000000000))%R by (unfold Q2R; cbn [Qnum Qden]; lra).
  apply (table_nodes _ C8q); [exact C8_rat|vm_compute; reflexivity|vm_compute; reflexivity|lia|unfold Q2R; cbn [Qnum Qden]; lra].
Qed.
Lemma phase16_nodes : reproduces_nodes phase16 8 (/ 250000000000000000)%R.
Proof.
  replace (/ 250000000000000000)%R with (2 * Q2R (1 # 500000000000000000))%R by (unfold Q2R; cbn [Qnum Qden]; lra).
  apply (table_nodes _ C16q); [exact C16_rat|vm_compute; reflexivity|vm_compute; reflexivity|lia|unfold Q2R; cbn [Qnum Qden]; lra].
Qed.

(** ** C31 *)
Lemma poly_skip (cs : list R) (m : nat) c x : nth_error cs m = Some c -> poly (skipn m cs) x = (c + x * poly (skipn (Datatypes.S m) cs) x)%R.
Proof.
  revert m. induction cs as [|a cs IH]; intros [|m] H; cbn in H; try discriminate H.
  - injection H as ->. reflexivity.
  - cbn [skipn]. exact (IH m H).
Qed.
Lemma poly_nil n (cs : list R) x : (List.length cs <= n)%nat -> poly (skipn n cs) x = 0%R.
Proof. intros H. rewrite skipn_all2 by exact H. reflexivity. Qed.
Lemma horner_pair_series (cs : list R) (N bound : Z) (x : R) :
  2 <= N -> zlen cs = N -> 0 <= (bound - 2) / 2 -> 2 * ((bound - 2) / 2) + 2 <= N ->
  exists p q : R, @horner_pair real_scalar cs N bound (x * x)%R = Ok (p, q) /\
    let rest := skipn (Z.to_nat (N - 2 - 2 * ((bound - 2) / 2))) cs in
    (q + x * p = poly rest x /\ q - x * p = poly rest (- x))%R.
Proof.
  intros HN HL Hm Hb. unfold horner_pair. set (m := (bound - 2) / 2) in *.
  assert (RD : forall i, 0 <= i < N -> exists a : R, aread cs i = Ok a /\ nth_error cs (Z.to_nat i) = Some a).
  { intros i Hi. destruct (aread_in cs i) as (a & E); [lia|]. exists a. split; [exact E|]. apply aread_ok in E. tauto. }
  destruct (RD (N - 1) ltac:(lia)) as (a & Ea & Na). destruct (RD (N - 2) ltac:(lia)) as (b & Eb & Nb).
  change (car real_scalar) with R. rewrite Ea. cbn [bind]. rewrite Eb. cbn [bind].
  destruct (for_range_total (fun i (s : R * R) => let rest := skipn (Z.to_nat (N - 2 - 2 * i)) cs in
     (snd s + x * fst s = poly rest x /\ snd s - x * fst s = poly rest (- x))%R) 0 m
     (fun i (st : R * R) => let k := 3 + 2 * i in let '(p, q) := st in
        do u <- aread cs (N - k); do v <- aread cs (N - k - 1);
        Ok (p * (x * x) + u, q * (x * x) + v)%R) (a, b)) as ([p q] & E & Hs).
  - exact Hm.
  - cbv zeta. cbn [fst snd]. replace (Z.to_nat (N - 2 - 2 * 0)) with (Z.to_nat (N - 2)) by lia.
    rewrite !(poly_skip cs (Z.to_nat (N - 2)) b) by exact Nb. replace (Datatypes.S (Z.to_nat (N - 2))) with (Z.to_nat (N - 1)) by lia.
    rewrite !(poly_skip cs (Z.to_nat (N - 1)) a) by exact Na. rewrite !poly_nil by (unfold zlen in HL; lia). lra.
  - intros i [p q] Hi [H1 H2]. cbn [fst snd] in H1, H2.
    destruct (RD (N - (3 + 2 * i)) ltac:(lia)) as (u & Eu & Nu). destruct (RD (N - (3 + 2 * i) - 1) ltac:(lia)) as (v & Ev & Nv).
    cbv zeta. rewrite Eu. cbn [bind]. rewrite Ev. cbn [bind]. eexists. split; [reflexivity|]. cbv zeta. cbn [fst snd].
    replace (Z.to_nat (N - 2 - 2 * (i + 1))) with (Z.to_nat (N - (3 + 2 * i) - 1)) by lia.
    rewrite (poly_skip cs _ v x Nv), (poly_skip cs _ v (- x)%R Nv). replace (Datatypes.S (Z.to_nat (N - (3 + 2 * i) - 1))) with (Z.to_nat (N - (3 + 2 * i))) by lia.
    rewrite (poly_skip cs _ u x Nu), (poly_skip cs _ u (- x)%R Nu). replace (Datatypes.S (Z.to_nat (N - (3 + 2 * i)))) with (Z.to_nat (N - 2 - 2 * i)) by lia.
    rewrite <- H1, <- H2. split; ring.
  - exists p, q. split; [exact E|]. exact Hs.
Qed.
Lemma odd_norm_series (cs : list R) N kD x : 2 <= N -> N mod 2 = 0 -> zlen cs = N ->
  @legendre_odd_phases real_scalar cs N N kD x = Ok (series cs kD (- x)%R, series cs kD x).
Proof.
  intros H2 He HL. assert (N = 2 * (N / 2)) by (pose proof (Z.div_mod N 2 ltac:(lia)); lia).
  assert (E : (N - 2) / 2 = N / 2 - 1) by (replace (N - 2) with (N + (-1) * 2) by lia; rewrite Z.div_add by lia; lia).
  destruct (horner_pair_series cs N N x H2 HL ltac:(lia) ltac:(lia)) as (p & q & EP & H1 & H3).
  unfold legendre_odd_phases. cbv zeta. change (smul x x) with (x * x)%R. rewrite EP. cbn [bind].
  replace (Z.to_nat (N - 2 - 2 * ((N - 2) / 2))) with 0%nat in * by lia. cbn [skipn] in H1, H3.
  cbn [sadd ssub smul real_scalar]. unfold series. rewrite <- H1, <- H3. f_equal. apply f_equal2; req; ring.
Qed.
Lemma odd_series (cs : list R) N kD x : 4 <= N -> N mod 2 = 0 -> zlen cs = N ->
  @legendre_odd_phases real_scalar cs N (N - 1) kD x = Ok (series (skipn 2 cs) kD (- x)%R, series (skipn 2 cs) kD x).
Proof.
  intros H2 He HL. assert (N = 2 * (N / 2)) by (pose proof (Z.div_mod N 2 ltac:(lia)); lia).
  assert (E : (N - 1 - 2) / 2 = N / 2 - 2) by (replace (N - 1 - 2) with (1 + (N / 2 - 2) * 2) by lia; rewrite Z.div_add by lia; reflexivity).
  destruct (horner_pair_series cs N (N - 1) x ltac:(lia) HL ltac:(lia) ltac:(lia)) as (p & q & EP & H1 & H3).
  unfold legendre_odd_phases. cbv zeta. change (smul x x) with (x * x)%R. rewrite EP. cbn [bind].
  replace (Z.to_nat (N - 2 - 2 * ((N - 1 - 2) / 2))) with 2%nat in * by lia.
  cbn [sadd ssub smul real_scalar]. unfold series. rewrite <- H1, <- H3. f_equal. apply f_equal2; req; ring.
Qed.
Lemma odd2_series (c0 c1 kD x : R) :
  @legendre_odd_phases real_scalar [c0; c1] 2 1 kD x = Ok (series [c0; c1] kD (- x)%R, series [c0; c1] kD x).
Proof.
  unfold legendre_odd_phases. change (@horner_pair real_scalar [c0; c1] 2 1 _) with (@Ok (R * R) (c1, c0)).
  cbn [bind sadd ssub smul real_scalar]. unfold series, poly. f_equal. apply f_equal2; req; ring.
Qed.
Lemma even_series (cs : list R) N kD x : 3 <= N -> N mod 2 = 1 -> zlen cs = N ->
  @legendre_even_phases real_scalar cs N kD x = Ok (series cs kD x, series cs kD (- x)%R).
Proof.
  intros H2 He HL. assert (N = 2 * (N / 2) + 1) by (pose proof (Z.div_mod N 2 ltac:(lia)); lia).
  assert (E : (N - 1 - 2) / 2 = N / 2 - 1) by (replace (N - 1 - 2) with ((N / 2 - 1) * 2) by lia; apply Z.div_mul; lia).
  destruct (horner_pair_series cs N (N - 1) x ltac:(lia) HL ltac:(lia) ltac:(lia)) as (p & q & EP & H1 & H3).
  unfold legendre_even_phases. cbv zeta. change (smul x x) with (x * x)%R. rewrite EP. cbn [bind].
  replace (Z.to_nat (N - 2 - 2 * ((N - 1 - 2) / 2))) with 1%nat in * by lia.
  destruct (aread_in cs 0) as (c & Ec); [lia|]. change (car real_scalar) with R. rewrite Ec. cbn [bind]. apply aread_ok in Ec as [_ Nc].
  change (Z.to_nat 0) with 0%nat in Nc.
  cbn [sadd ssub smul real_scalar]. unfold series. rewrite (poly_skip cs 0 c x Nc : poly cs x = (c + x * poly (skipn 1 cs) x)%R), (poly_skip cs 0 c (- x)%R Nc : poly cs (- x)%R = (c + - x * poly (skipn 1 cs) (- x))%R).
  rewrite <- H1, <- H3. f_equal. apply f_equal2; req; ring.
Qed.
