(** * Proof_Rsr2: predicted frequencies of raw data files. *)
From Coq Require Import String List ZArith Bool Reals Lra Lia Sorting.Sorted.
From Flocq Require Import Core.
From Verif Require Import Base Model_Time Model_Chord Model_Free Model_Frame Model_Resample Model_Dlp Model_Rsr Spec_Rsr.
From Verif Require Import Proof_Chord Proof_Free Proof_Dlp Proof_Dlp2 Proof_Rsr.
Import ListNotations.
Local Open Scope R_scope.

Lemma ltb_t : forall a b, a < b -> ltb a b = true. Proof. intros. apply ltb_true. assumption. Qed.
Lemma ltb_f : forall a b, b <= a -> ltb a b = false. Proof. intros. apply ltb_false. assumption. Qed.
Section Sky.
  Variable f64 : list Z -> R.
  Variable dec : nat -> list (R * R) -> list (R * R).
  Variable o : options.
  Variables (rate : Z) (n : nat) (r0 : record) (rs : list record) (tail : list Z).
  Hypothesis W : well_formed rate n r0 rs tail.
  Hypothesis Rr : raw_rate rate.
  Hypothesis second : Z.of_nat n = (1000 * rate)%Z.
  Variable T0 : Z.
  Hypothesis T0p : (0 <= T0)%Z.
  Let t0 := f64 (field 80 8 (head r0)).
  Hypothesis Et0 : t0 = IZR T0.
  Let all := r0 :: rs.
  Let hz := (rate * 1000)%Z.
  Let c := length all.
  Let spm := spaced t0 hz (n * c).
  Let F : Forall (alike n) all. Proof. destruct W as (_ & F & _). exact F. Qed.
  Let Pn : (0 < n)%nat. Proof. destruct W as (P & _). exact P. Qed.
  Let Hz : (0 < hz)%Z. Proof. destruct (rate_known _ Rr) as (_ & P & _). exact P. Qed.
  Let Hzn : IZR hz = INR n. Proof. rewrite INR_IZR_INZ, second. unfold hz. f_equal. ring. Qed.
  Let Pnr : 0 < INR n. Proof. apply lt_0_INR, Pn. Qed.

  Lemma stamp : forall i, time_of t0 hz (i * n) = t0 + INR i.
  Proof. intros i. unfold time_of. rewrite Hzn, mult_INR. field. lra. Qed.
  Lemma round_whole : forall d z, round_to d (IZR z) = IZR z.
  Proof.
    intros d z. unfold round_to, pyround. rewrite (pow_IZR 10 d), <- mult_IZR, Znearest_imp with (n := (z * 10 ^ Z.of_nat d)%Z).
    - rewrite mult_IZR. field. apply IZR_neq. apply Z.pow_nonzero; lia.
    - rewrite Rminus_diag_eq by reflexivity. rewrite Rabs_R0. lra.
  Qed.
  Lemma nearest_low : forall t i j, during t0 j t -> nearest_index spm t = Some i -> (j < c)%nat -> (j * n <= i)%nat.
  Proof.
    intros t i j (D1 & D2) E Lj. assert (N : spm <> []) by (intros C; rewrite C in E; discriminate).
    destruct (nearest_spec _ t N) as (i' & E' & Li & M). rewrite E in E'. injection E' as <-. unfold spm in *. rewrite spaced_length in *.
    assert (Lk : (j * n < n * c)%nat) by nia. specialize (M _ Lk).
    rewrite (nth_error_nth _ _ _ (spaced_nth t0 hz (n * c) _ Lk)), (nth_error_nth _ _ _ (spaced_nth t0 hz (n * c) i Li)), stamp in M.
    destruct (Nat.le_gt_cases (j * n) i) as [C|C]; [exact C|exfalso]. pose proof (time_lt t0 hz _ _ Hz C) as T. rewrite stamp in T. unfold Rabs in M. destruct (Rcase_abs (_ - t)), (Rcase_abs (_ - t)) in M; lra.
  Qed.
  Lemma nearest_high : forall t i j, during t0 j t -> t < t0 + INR j + 1 - 1 / (2 * IZR hz) -> nearest_index spm t = Some i -> (j < c)%nat -> (i < (j + 1) * n)%nat.
  Proof.
    intros t i j (D1 & D2) Q E Lj. assert (N : spm <> []) by (intros C; rewrite C in E; discriminate).
    destruct (nearest_spec _ t N) as (i' & E' & Li & M). rewrite E in E'. injection E' as <-. unfold spm in *. rewrite spaced_length in *.
    destruct (Nat.le_gt_cases ((j + 1) * n) i) as [C|C]; [exfalso|exact C]. assert (Lk : ((j + 1) * n - 1 < n * c)%nat) by nia. specialize (M _ Lk).
    rewrite (nth_error_nth _ _ _ (spaced_nth t0 hz (n * c) _ Lk)), (nth_error_nth _ _ _ (spaced_nth t0 hz (n * c) i Li)) in M.
    pose proof (time_le t0 hz _ _ Hz C) as T. rewrite stamp, plus_INR in T. cbn [INR] in T.
    assert (K : time_of t0 hz ((j + 1) * n - 1) = t0 + INR j + 1 - 1 / IZR hz).
    { unfold time_of. rewrite minus_INR by nia. rewrite mult_INR, plus_INR, Hzn. cbn [INR]. field. lra. }
    rewrite K in M. replace (1 / (2 * IZR hz)) with (1 / IZR hz / 2) in Q by (field; rewrite Hzn; lra). assert (0 < 1 / IZR hz) by (rewrite Hzn; apply Rdiv_lt_0_compat; lra). unfold Rabs in M. destruct (Rcase_abs (_ - t)), (Rcase_abs (_ - t)) in M; lra.
  Qed.
  Lemma nearest_any : forall t, exists i, nearest_index spm t = Some i /\ (i < n * c)%nat.
  Proof.
    intros t. assert (N : spm <> []) by (intros E; apply (f_equal (@length R)) in E; unfold spm in E; rewrite spaced_length in E; unfold c, all in E; cbn in E; nia).
    destruct (nearest_spec _ t N) as (i & E & L & _). exists i. split; [exact E|]. unfold spm in L. rewrite spaced_length in L. exact L.
  Qed.

  (** The coefficients of the records. *)
  Let x := instance f64 dec o rate n r0 rs tail.
  Definition coefs_of (i : nat) (r : record) : coefs :=
    {| k_time := t0 + INR i; k_rfif := IZR (number (field 74 2 (head r))); k_ddc := IZR (number (field 72 2 (head r)));
       k_1 := f64 (field 176 8 (head r)); k_2 := f64 (field 184 8 (head r)); k_3 := f64 (field 192 8 (head r)) |}.
  Lemma field_head : forall r p s, length (head r) = 260%nat -> (p + s <= 260)%nat -> field p s (written r) = field p s (head r).
  Proof.
    intros r p s L H. unfold field, written. rewrite skipn_app. replace (p - length (head r))%nat with 0%nat by lia. rewrite skipn_O, firstn_app. rewrite skipn_length.
    replace (s - (length (head r) - p))%nat with 0%nat by lia. rewrite firstn_O, app_nil_r. reflexivity.
  Qed.
  Lemma coefficients_ok : forall d left i, (i + left <= c)%nat ->
    coefficients f64 x d i left = Returns (map (fun k => coefs_of k (nth k all r0)) (seq i left)).
  Proof.
    intros d left. induction left as [|left IH]; intros i Hi; [reflexivity|]. cbn [coefficients seq map]. change (x_file x) with (file_of all tail). change (x_n_pts x) with n. change (x_raw_spm x) with spm.
    rewrite header_260. destruct (nth_error all i) as [r|] eqn:N; [|apply nth_error_None in N; unfold c in Hi; lia].
    rewrite (chunk n all tail i r F N). assert (Ar : alike n r) by (pose proof F as F'; rewrite Forall_forall in F'; apply F'; eapply nth_error_In, N).
    pose proof (written_length _ _ Ar) as L. destruct (written r) as [|z w] eqn:E; [cbn in L; lia|]. rewrite <- E in *. rewrite L, Nat.ltb_irrefl.
    unfold spm at 1. rewrite spaced_nth by nia. rewrite IH by lia. cbn [pybind]. f_equal. f_equal. rewrite stamp.
    rewrite (nth_error_nth _ _ r0 N). unfold coefs_of, double, uint. rewrite !f_rfif, !f_ddc, !f_p1, !f_p2, !f_p3, !be_number. destruct Ar as (A & _). rewrite !field_head by (auto; lia).
    rewrite Et0, INR_IZR_INZ, <- plus_IZR, round_whole. reflexivity.
  Qed.
  Lemma last_of : forall t s m j, during t0 j t -> (s <= j < s + m)%nat ->
    exists l, rev (filter (fun k => negb (ltb t (k_time k))) (map (fun k => coefs_of k (nth k all r0)) (seq s m))) = coefs_of j (nth j all r0) :: l.
  Proof.
    intros t s m j (D1 & D2) Hj. replace m with ((j - s) + 1 + (s + m - j - 1))%nat by lia. rewrite !seq_app, !map_app, !filter_app. replace (s + (j - s + 1))%nat with (j + 1)%nat by lia. replace (s + (j - s))%nat with j by lia. cbn [seq map filter].
    assert (B : filter (fun k => negb (ltb t (k_time k))) (map (fun k => coefs_of k (nth k all r0)) (seq (j + 1) (s + m - j - 1))) = []).
    { assert (G : forall a b, (j + 1 <= a)%nat -> filter (fun k => negb (ltb t (k_time k))) (map (fun k => coefs_of k (nth k all r0)) (seq a b)) = []).
      { intros a b. revert a. induction b as [|b IH]; intros a Ha; [reflexivity|]. cbn [seq map filter]. unfold coefs_of at 1. cbn [k_time]. rewrite ltb_t; [cbn [negb]; apply IH; lia|].
        apply le_INR in Ha. rewrite plus_INR in Ha. cbn [INR] in Ha. lra. }
      apply G. lia. }
    rewrite B, app_nil_r. unfold coefs_of at 2. cbn [k_time]. rewrite ltb_f by lra. cbn [negb]. rewrite rev_app_distr. cbn [rev app]. eexists. reflexivity.
  Qed.
  Lemma fraction : forall t j, during t0 j t -> t - IZR (trunc t) = t - (t0 + INR j).
  Proof.
    intros t j (D1 & D2). unfold trunc. assert (P : 0 <= t) by (pose proof (pos_INR j); rewrite Et0 in D1; apply IZR_le in T0p; lra).
    rewrite Ztrunc_floor by exact P. rewrite Et0, INR_IZR_INZ, <- plus_IZR. f_equal. f_equal. apply Zfloor_imp. rewrite !plus_IZR. rewrite Et0, INR_IZR_INZ in *. lra.
  Qed.
  Lemma each_forall : forall {A B} (f : A -> py B) (P : A -> B -> Prop) l, (forall a, In a l -> exists b, f a = Returns b /\ P a b) -> exists bs, each f l = Returns bs /\ Forall2 P l bs.
  Proof.
    intros A B f P l. induction l as [|a l IH]; intros H; [exists []; split; [reflexivity|constructor]|].
    destruct (H a (or_introl eq_refl)) as (b & Eb & Pb). destruct (IH (fun y Hy => H y (or_intror Hy))) as (bs & Es & Ps). exists (b :: bs). cbn [each]. rewrite Eb. cbn [pybind]. rewrite Es. split; [reflexivity|constructor; assumption].
  Qed.
  Lemma range_known : forall lo hi i j, nearest_index spm lo = Some i -> nearest_index spm hi = Some j -> (i < n * c)%nat -> (j < n * c)%nat ->
    sfdu_range (x_rate x) (x_raw_spm x) (x_n_pts x) (x_n_sfdu x) lo hi = Returns (i / n, j / n)%nat /\ (i / n < c)%nat /\ (j / n < c)%nat.
  Proof.
    intros lo hi i j Ei Ej Li Lj. assert (Di : (i / n < c)%nat) by (apply Nat.div_lt_upper_bound; lia). assert (Dj : (j / n < c)%nat) by (apply Nat.div_lt_upper_bound; lia). split; [|split; assumption].
    unfold x, instance. cbn [x_rate x_raw_spm x_n_pts x_n_sfdu]. fold all. fold t0 hz c. fold spm. unfold sfdu_range. destruct (rate_known _ Rr) as (K & _). rewrite K, Ei, Ej. rewrite Nat.min_l by lia. reflexivity.
  Qed.
  Lemma second_of : forall t, t0 <= t < t0 + INR c -> exists j, (j < c)%nat /\ during t0 j t.
  Proof.
    intros t (A & B). exists (Z.to_nat (Zfloor (t - t0))). pose proof (Zfloor_lb (t - t0)) as L. pose proof (Zfloor_ub (t - t0)) as U.
    assert (P : (0 <= Zfloor (t - t0))%Z) by (apply Zfloor_lub; lra). assert (E : INR (Z.to_nat (Zfloor (t - t0))) = IZR (Zfloor (t - t0))) by (rewrite INR_IZR_INZ, Z2Nat.id by exact P; reflexivity).
    split; [apply INR_lt; rewrite E; lra|]. unfold during. rewrite E. lra.
  Qed.
  Lemma during_le : forall t u i j, during t0 i t -> during t0 j u -> t <= u -> (i <= j)%nat.
  Proof. intros t u i j (A & B) (C & D) L. assert (K : INR i < INR (j + 1)) by (rewrite plus_INR; cbn [INR]; lra). apply INR_lt in K. lia. Qed.

  Theorem sky_ok : forall ts t, In t ts -> (forall u, In u ts -> t <= u) -> (forall u, In u ts -> t0 <= u < t0 + INR c) ->
    (exists j, during t0 j t /\ t < t0 + INR j + 1 - 1 / (2 * IZR hz)) ->
    exists fs, get_f_sky_pred f64 x ts = Returns fs /\
      Forall2 (fun u f => exists i r, nth_error all i = Some r /\ during t0 i u /\ f = predicted f64 (head r) (u - (t0 + INR i))) ts fs.
  Proof.
    intros ts t It Le Ra (j & Dj & Q).
    assert (Mi : minimum ts = t).
    { destruct ts as [|a l]; [destruct It|]. cbn [minimum]. destruct (lmin_in l a) as (A & B). apply Rle_antisym; [apply B, It|apply Le, A]. }
    assert (Ma : exists u, In u ts /\ maximum ts = u /\ forall y, In y ts -> y <= u).
    { destruct ts as [|a l]; [destruct It|]. cbn [maximum]. destruct (lmax_in l a) as (A & B). eauto. }
    destruct Ma as (u & Iu & Eu & Mu). destruct (nearest_any t) as (i1 & E1 & L1). destruct (nearest_any u) as (i2 & E2 & L2).
    destruct (range_known t u i1 i2 E1 E2 L1 L2) as (Er & C1 & C2).
    destruct (second_of _ (Ra _ It)) as (j' & Lj & Dj'). assert (j' = j) by (apply Nat.le_antisymm; [apply (during_le t t)|apply (during_le t t)]; (assumption || apply Rle_refl)). subst j'.
    destruct (second_of _ (Ra _ Iu)) as (k & Lk & Dk). pose proof (nearest_low _ _ _ Dj E1 Lj) as B1. pose proof (nearest_high _ _ _ Dj Q E1 Lj) as B2. pose proof (nearest_low _ _ _ Dk E2 Lk) as B3.
    assert (S1 : (i1 / n = j)%nat). { apply Nat.le_antisymm; [apply Nat.lt_succ_r, Nat.div_lt_upper_bound; lia|apply Nat.div_le_lower_bound; lia]. }
    assert (S2 : (k <= i2 / n)%nat) by (apply Nat.div_le_lower_bound; lia).
    unfold get_f_sky_pred. destruct ts as [|a l] eqn:Ets; [destruct It|]. rewrite <- Ets in *. cbv zeta. rewrite Mi, Eu, Er. cbn [pybind fst snd]. rewrite S1.
    pose proof (during_le _ _ _ _ Dj Dk (Mu _ It)) as Jk. rewrite coefficients_ok by lia. cbn [pybind]. apply each_forall. intros y Hy.
    destruct (second_of _ (Ra _ Hy)) as (q & Lq & Dq). pose proof (during_le _ _ _ _ Dj Dq (Le _ Hy)) as Q1. pose proof (during_le _ _ _ _ Dq Dk (Mu _ Hy)) as Q2.
    destruct (last_of y j (i2 / n - j + 1) q Dq ltac:(lia)) as (lr & El). unfold sky_freq. rewrite El. eexists. split; [reflexivity|].
    exists q, (nth q all r0). split; [apply nth_error_nth'; exact Lq|]. split; [exact Dq|]. cbn [k_rfif k_ddc k_1 k_2 k_3 coefs_of]. rewrite (fraction _ _ Dq). unfold predicted. ring.
  Qed.

  (** A least time in the last half of a sample of its second. *)
  Theorem sky_late : forall t j, (j + 1 < c)%nat -> t0 + INR j + 1 - 1 / (2 * IZR hz) < t < t0 + INR j + 1 -> get_f_sky_pred f64 x [t] = Raises.
  Proof.
    intros t j Lj (Q1 & Q2). destruct (nearest_any t) as (i1 & E1 & L1). destruct (range_known _ _ i1 i1 E1 E1 L1 L1) as (Er & C1 & _).
    assert (B : ((j + 1) * n <= i1)%nat).
    { assert (N : spm <> []) by (intros C; rewrite C in E1; discriminate). destruct (nearest_spec _ t N) as (i' & E' & Li & M). rewrite E1 in E'. injection E' as <-. unfold spm in *. rewrite spaced_length in *.
      assert (Lk : ((j + 1) * n < n * c)%nat) by nia. specialize (M _ Lk). rewrite (nth_error_nth _ _ _ (spaced_nth t0 hz (n * c) _ Lk)), (nth_error_nth _ _ _ (spaced_nth t0 hz (n * c) i1 Li)), stamp, plus_INR in M. cbn [INR] in M.
      destruct (Nat.le_gt_cases ((j + 1) * n) i1) as [C|C]; [exact C|exfalso]. assert (C' : (i1 <= (j + 1) * n - 1)%nat) by lia. pose proof (time_le t0 hz _ _ Hz C') as T.
      assert (K : time_of t0 hz ((j + 1) * n - 1) = t0 + INR j + 1 - 1 / IZR hz).
      { unfold time_of. rewrite minus_INR by nia. rewrite mult_INR, plus_INR, Hzn. cbn [INR]. field. lra. }
      rewrite K in T. replace (1 / (2 * IZR hz)) with (1 / IZR hz / 2) in Q1 by (field; rewrite Hzn; lra).
      assert (0 < 1 / IZR hz) by (rewrite Hzn; apply Rdiv_lt_0_compat; lra). unfold Rabs in M. destruct (Rcase_abs (_ - t)), (Rcase_abs (_ - t)) in M; lra. }
    assert (S1 : (j + 1 <= i1 / n)%nat) by (apply Nat.div_le_lower_bound; lia).
    unfold get_f_sky_pred. cbv zeta. cbn [minimum maximum lmin lmax fold_left]. rewrite Er. cbn [pybind fst snd]. rewrite Nat.sub_diag, coefficients_ok by lia. cbn [pybind Nat.add seq map each]. unfold sky_freq. cbn [filter]. unfold coefs_of at 1. cbn [k_time].
    rewrite ltb_t; [reflexivity|]. apply le_INR in S1. rewrite plus_INR in S1. cbn [INR] in S1. lra.
  Qed.
End Sky.
Theorem sky_reader : forall f64 dec o rate n r0 rs tail, well_formed rate n r0 rs tail -> raw_rate rate ->
  Z.of_nat n = (1000 * rate)%Z -> forall T0, (0 <= T0)%Z -> f64 (field 80 8 (head r0)) = IZR T0 ->
  forall times t, In t times -> (forall u, In u times -> t <= u) -> (forall u, In u times -> IZR T0 <= u < IZR T0 + INR (length (r0 :: rs))) ->
  (exists j, during (IZR T0) j t /\ t < IZR T0 + INR j + 1 - 1 / (2 * IZR (1000 * rate))) ->
  exists x fs, reader f64 dec o (file_of (r0 :: rs) tail) = Returns x /\ get_f_sky_pred f64 x times = Returns fs /\
    Forall2 (fun u f => exists i r, nth_error (r0 :: rs) i = Some r /\ during (IZR T0) i u /\ f = predicted f64 (head r) (u - (IZR T0 + INR i))) times fs.
Proof.
  intros f64 dec o rate n r0 rs tail W Rr S T0 T0p E times t It Le Ra Q. exists (instance f64 dec o rate n r0 rs tail).
  pose proof (sky_ok f64 dec o rate n r0 rs tail W Rr S T0 T0p E times t It Le) as K. rewrite E in K. rewrite (Z.mul_comm rate 1000) in K. destruct (K Ra Q) as (fs & G & Fo). exists fs. split; [apply reader_ok; assumption|]. split; assumption.
Qed.
