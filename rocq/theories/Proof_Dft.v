(** * Proof_Dft: the convolution theorem for the discrete Fourier transform, and the
    FFT mode in exact arithmetic (C60). *)
From Coq Require Import List ZArith Bool Reals Lia Lra.
From Verif Require Import Base BaseFacts Scalar Model_TauRec Model_Transform Model_Checks Model_Recon
  Spec_Tau Spec_Select Spec_Safety Spec_Real Spec_Fft Proof_Linear Proof_Real Proof_Safety Proof_Fft.
Import ListNotations.
Open Scope Z_scope.

(** ** Sums *)
Lemma cmul_comm (x y : RC) : rmul x y = rmul y x.
Proof. destruct x, y. calg. Qed.
Lemma cmul_assoc (x y z : RC) : rmul (rmul x y) z = rmul x (rmul y z).
Proof. destruct x, y, z. calg. Qed.
Lemma cmul_1_r (x : RC) : rmul x CI = x.
Proof. destruct x. calg. Qed.
Lemma cmul_0_r (x : RC) : rmul x CZ = CZ.
Proof. destruct x. calg. Qed.
Lemma cmul_0_l (x : RC) : rmul CZ x = CZ.
Proof. destruct x. calg. Qed.
Lemma cmul_add (x y z : RC) : rmul (radd x y) z = radd (rmul x z) (rmul y z).
Proof. destruct x, y, z. calg. Qed.
Lemma cadd_comm (x y : RC) : radd x y = radd y x.
Proof. destruct x, y. calg. Qed.
Lemma cscale_mul r (x y : RC) : rscale r (rmul x y) = rmul x (rscale r y).
Proof. destruct x, y. calg. Qed.
Lemma csum_mul_r n f (z : RC) : csum n (fun k => rmul (f k) z) = rmul (csum n f) z.
Proof. rewrite cmul_comm, <- csum_mul. apply csum_ext. intros. apply cmul_comm. Qed.
Lemma csum_add n f g : csum n (fun k => radd (f k) (g k)) = radd (csum n f) (csum n g).
Proof.
  induction n; cbn [csum]; [symmetry; apply cadd_0_r|]. rewrite IHn.
  generalize (csum n f) (csum n g) (f (Z.of_nat n)) (g (Z.of_nat n)). intros [] [] [] []. calg.
Qed.
Lemma csum_swap n m F : csum n (fun i => csum m (fun j => F i j)) = csum m (fun j => csum n (fun i => F i j)).
Proof.
  induction n; cbn [csum]; [symmetry; apply csum_0|]. rewrite IHn, <- csum_add. reflexivity.
Qed.
Lemma csum_scale r n f : csum n (fun k => rscale r (f k)) = rscale r (csum n f).
Proof.
  induction n; cbn [csum]; [calg|]. rewrite IHn. generalize (csum n f) (f (Z.of_nat n)). intros [] []. calg.
Qed.
Lemma csum_delta n p g : csum n (fun j => if j =? p then g j else CZ) = if (0 <=? p) && (p <? Z.of_nat n) then g p else CZ.
Proof.
  induction n; cbn [csum].
  - destruct (Z.leb_spec 0 p), (Z.ltb_spec p (Z.of_nat 0)); cbn [andb]; try reflexivity. lia.
  - rewrite IHn. destruct (Z.eqb_spec (Z.of_nat n) p) as [<-|Ne].
    + rewrite Z.ltb_irrefl, andb_false_r, cadd_0_l.
      destruct (Z.leb_spec 0 (Z.of_nat n)); [|lia]. destruct (Z.ltb_spec (Z.of_nat n) (Z.of_nat (Datatypes.S n))); [|lia]. reflexivity.
    + rewrite cadd_0_r. destruct (Z.leb_spec 0 p), (Z.ltb_spec p (Z.of_nat n)), (Z.ltb_spec p (Z.of_nat (Datatypes.S n))); cbn [andb]; try reflexivity; lia.
Qed.
Lemma csum_split n m f : csum (n + m) f = radd (csum n f) (csum m (fun j => f (Z.of_nat n + j))).
Proof.
  induction m; cbn [csum]; [rewrite Nat.add_0_r, cadd_0_r; reflexivity|].
  replace (n + Datatypes.S m)%nat with (Datatypes.S (n + m)) by lia. cbn [csum]. rewrite IHm, cadd_assoc, Nat2Z.inj_add. reflexivity.
Qed.
(** Only the terms s, ..., s + m - 1 count. *)
Lemma csum_window n f s m : 0 <= s -> 0 <= m -> s + m <= Z.of_nat n ->
  (forall j, 0 <= j < Z.of_nat n -> j < s \/ s + m <= j -> f j = CZ) ->
  csum n f = csum (Z.to_nat m) (fun j => f (s + j)).
Proof.
  intros Hs Hm Hn H0.
  replace n with (Z.to_nat s + (Z.to_nat m + (n - Z.to_nat s - Z.to_nat m)))%nat by lia.
  rewrite !csum_split.
  rewrite (csum_ext (Z.to_nat s) f (fun _ => CZ)) by (intros; apply H0; lia). rewrite csum_0, cadd_0_l.
  rewrite (csum_ext (n - Z.to_nat s - Z.to_nat m) _ (fun _ => CZ)) by (intros; apply H0; lia). rewrite csum_0, cadd_0_r.
  apply csum_ext. intros. rewrite Z2Nat.id by lia. reflexivity.
Qed.

(** ** Roots of unity *)
Lemma cis_mul a b : rmul (cis 1 a) (cis 1 b) = cis 1 (a + b).
Proof.
  unfold cis, cmul, cre, cim. cbn [fst snd smul ssub sadd real_scalar]. rewrite cos_plus, sin_plus. apply f_equal2; req; ring.
Qed.
Lemma cis_0 : cis 1 0 = CI.
Proof. unfold cis. rewrite cos_0, sin_0. apply f_equal2; req; ring. Qed.
Lemma cis_turns k : cis 1 (2 * PI * IZR k) = CI.
Proof.
  unfold cis. 
  assert (A : cos (2 * PI * IZR k) = 1%R /\ sin (2 * PI * IZR k) = 0%R).
  { replace (2 * PI * IZR k)%R with (2 * (PI * IZR k))%R by ring.
    assert (Z0 : sin (PI * IZR k) = 0%R) by (apply sin_eq_0_1; exists k; ring).
    rewrite cos_2a_sin, sin_2a, Z0. split; ring. }
  destruct A as [-> ->]. apply f_equal2; req; ring.
Qed.
Lemma geometric n th : rmul (radd (cis 1 th) (-1, 0)%R) (csum n (fun k => cis 1 (IZR k * th))) = radd (cis 1 (IZR (Z.of_nat n) * th)) (-1, 0)%R.
Proof.
  induction n; cbn [csum].
  - rewrite cmul_0_r. cbn [Z.of_nat]. replace (0 * th)%R with 0%R by ring. rewrite cis_0. calg.
  - rewrite cmul_comm, cmul_add, cmul_comm, IHn.
    replace (IZR (Z.of_nat (Datatypes.S n)) * th)%R with (IZR (Z.of_nat n) * th + th)%R
      by (rewrite Nat2Z.inj_succ, succ_IZR; ring).
    rewrite <- cis_mul. generalize (cis 1 (IZR (Z.of_nat n) * th)) (cis 1 th). intros [] []. calg.
Qed.
Lemma product_zero (z w : RC) : rmul z w = CZ -> z <> CZ -> w = CZ.
Proof.
  intros E N. apply modulus_zero. assert (M : (modulus z * modulus w = 0)%R).
  { rewrite <- modulus_mul, E. unfold modulus. cbn. replace (0 * 0 + 0 * 0)%R with 0%R by ring. apply sqrt_0. }
  destruct (Rmult_integral _ _ M) as [Mz|Mw]; [|exact Mw]. destruct N. apply modulus_zero, Mz.
Qed.
Lemma not_one n d : 0 < n -> - n < d < n -> d <> 0 -> cis 1 (2 * PI * IZR d / IZR n) <> CI.
Proof.
  intros Hn Hd N E. unfold cis in E. injection E as E _.
  assert (P0 : (0 < IZR n)%R) by (apply IZR_lt; lia). pose proof PI_RGT_0 as PP.
  assert (S0 : sin (PI * IZR d / IZR n) = 0%R).
  { replace (2 * PI * IZR d / IZR n)%R with (2 * (PI * IZR d / IZR n))%R in E by (field; lra).
    rewrite cos_2a_sin in E. assert (X : (sin (PI * IZR d / IZR n) * sin (PI * IZR d / IZR n) = 0)%R) by lra.
    apply Rmult_integral in X. tauto. }
  assert (B : (IZR d < IZR n)%R /\ (- IZR n < IZR d)%R) by (split; [apply IZR_lt; lia|rewrite <- opp_IZR; apply IZR_lt; lia]).
  destruct (Z_lt_ge_dec 0 d) as [D|D].
  - assert (0 < IZR d)%R by (apply IZR_lt; lia).
    assert (0 < sin (PI * IZR d / IZR n))%R; [|lra]. apply sin_gt_0.
    + apply Rdiv_lt_0_compat; [apply Rmult_lt_0_compat; lra|lra].
    + apply Rmult_lt_reg_r with (IZR n); [lra|]. replace (PI * IZR d / IZR n * IZR n)%R with (PI * IZR d)%R by (field; lra).
      apply Rmult_lt_compat_l; lra.
  - assert (IZR d < 0)%R by (apply IZR_lt; lia).
    assert (0 < sin (- (PI * IZR d / IZR n)))%R; [|rewrite sin_neg in *; lra]. 
    replace (- (PI * IZR d / IZR n))%R with (PI * (- IZR d) / IZR n)%R by (field; lra).
    apply sin_gt_0.
    + apply Rdiv_lt_0_compat; [apply Rmult_lt_0_compat; lra|lra].
    + apply Rmult_lt_reg_r with (IZR n); [lra|]. replace (PI * - IZR d / IZR n * IZR n)%R with (PI * - IZR d)%R by (field; lra).
      apply Rmult_lt_compat_l; lra.
Qed.
Lemma roots n d : 0 < n -> - n < d < n ->
  csum (Z.to_nat n) (fun k => cis 1 (2 * PI * IZR k * IZR d / IZR n)) = if d =? 0 then (IZR n, 0%R) else CZ.
Proof.
  intros Hn Hd. assert (P0 : (IZR n <> 0)%R) by (apply not_0_IZR; lia).
  destruct (Z.eqb_spec d 0) as [->|N].
  - rewrite (csum_ext _ _ (fun _ => CI)).
    + assert (X : forall m, csum m (fun _ => CI) = (IZR (Z.of_nat m), 0%R)).
      { induction m; cbn [csum]; [reflexivity|]. rewrite IHm, Nat2Z.inj_succ, succ_IZR. calg. }
      rewrite X, Z2Nat.id by lia. reflexivity.
    + intros. rewrite <- cis_0. f_equal. field. exact P0.
  - set (th := (2 * PI * IZR d / IZR n)%R).
    rewrite (csum_ext _ _ (fun k => cis 1 (IZR k * th))) by (intros; f_equal; unfold th; field; exact P0).
    pose proof (geometric (Z.to_nat n) th) as G. rewrite Z2Nat.id in G by lia.
    replace (IZR n * th)%R with (2 * PI * IZR d)%R in G by (unfold th; field; exact P0). rewrite cis_turns in G.
    apply (product_zero (radd (cis 1 th) (-1, 0)%R)).
    + rewrite G. calg.
    + intro Z0. apply (not_one n d Hn Hd N). fold th. revert Z0. destruct (cis 1 th) as [a b].
      unfold cadd, cre, cim. cbn [fst snd sadd real_scalar]. intro Z0. injection Z0 as A B. apply f_equal2; req; lra.
Qed.

(** ** The convolution theorem *)
Lemma convolution n (a b : Z -> RC) m : 0 < n ->
  (forall j l, 0 <= j < n -> 0 <= l < n -> - n < m - l - j < n \/ a j = CZ \/ b l = CZ) ->
  rscale (1 / IZR n)%R (csum (Z.to_nat n) (fun k =>
    rmul (cis 1 (1 * (2 * PI * IZR k * IZR m / IZR n)))
      (rmul (csum (Z.to_nat n) (fun l => rmul (cis 1 (-1 * (2 * PI * IZR l * IZR k / IZR n))) (b l)))
            (csum (Z.to_nat n) (fun j => rmul (cis 1 (-1 * (2 * PI * IZR j * IZR k / IZR n))) (a j))))))
  = csum (Z.to_nat n) (fun l => rmul (b l) (if (0 <=? m - l) && (m - l <? n) then a (m - l) else CZ)).
Proof.
  intros Hn Hr. assert (P0 : (IZR n <> 0)%R) by (apply not_0_IZR; lia).
  rewrite (csum_ext (Z.to_nat n) _ (fun k => csum (Z.to_nat n) (fun l => csum (Z.to_nat n) (fun j =>
    rmul (rmul (b l) (a j)) (cis 1 (2 * PI * IZR k * IZR (m - l - j) / IZR n)))))).
  2:{ intros k Hk. rewrite <- csum_mul_r, <- csum_mul. apply csum_ext. intros l Hl.
      rewrite <- csum_mul, <- csum_mul. apply csum_ext. intros j Hj.
      replace (2 * PI * IZR k * IZR (m - l - j) / IZR n)%R with
        (1 * (2 * PI * IZR k * IZR m / IZR n) + (-1 * (2 * PI * IZR l * IZR k / IZR n) + -1 * (2 * PI * IZR j * IZR k / IZR n)))%R
        by (rewrite !minus_IZR; field; exact P0).
      rewrite <- !cis_mul. generalize (cis 1 (1 * (2 * PI * IZR k * IZR m / IZR n))) (cis 1 (-1 * (2 * PI * IZR l * IZR k / IZR n)))
        (cis 1 (-1 * (2 * PI * IZR j * IZR k / IZR n))) (b l) (a j). intros [] [] [] [] []. calg. }
  rewrite csum_swap, <- csum_scale. apply csum_ext. intros l Hl. rewrite Z2Nat.id in Hl by lia.
  rewrite csum_swap, <- csum_scale.
  pose proof (csum_delta (Z.to_nat n) (m - l) a) as Dl. rewrite Z2Nat.id in Dl by lia. rewrite <- Dl, <- csum_mul. clear Dl.
  apply csum_ext. intros j Hj. rewrite Z2Nat.id in Hj by lia. rewrite csum_mul.
  destruct (Hr j l Hj Hl) as [B|[B|B]].
  - rewrite roots by assumption. destruct (Z.eqb_spec (m - l - j) 0), (Z.eqb_spec j (m - l)); try lia.
    + destruct (b l) as [b1 b2], (a j) as [a1 a2].
      unfold cscale, cmul, cre, cim. cbn [fst snd smul ssub sadd real_scalar]. apply f_equal2; req; field; exact P0.
    + rewrite !cmul_0_r. calg.
  - rewrite B. replace (if j =? m - l then CZ else CZ) with CZ by (destruct (j =? m - l); reflexivity).
    rewrite !cmul_0_r, cmul_0_l. calg.
  - rewrite B, !cmul_0_l. calg.
Qed.

(** ** The FFT mode *)
Lemma entry_nth {A} (l : list A) j x d : entry l j x -> nth (Z.to_nat j) l d = x.
Proof. intros [_ E]. apply nth_error_nth. exact E. Qed.
Lemma by_fourier_entry (L : rlib) ker data n m : fourier_law L -> (exists k, 0 <= k /\ n = 2 ^ k) ->
  zlen ker = n -> zlen data = n -> 0 <= m < n ->
  (forall j l, 0 <= j < n -> 0 <= l < n -> - n < m - l - j < n \/ nth (Z.to_nat j) data CZ = CZ \/ nth (Z.to_nat l) ker CZ = CZ) ->
  entry (by_fourier L ker data) m (csum (Z.to_nat n) (fun l =>
    rmul (nth (Z.to_nat l) ker CZ) (if (0 <=? m - l) && (m - l <? n) then nth (Z.to_nat (m - l)) data CZ else CZ))).
Proof.
  intros [F1 [F2 F3]] Hp Lk Ld Hm Hz. unfold by_fourier.
  set (prod := map (fun p => cmul (fst p) (snd p)) (combine (t_fft L ker) (t_fft L data))).
  assert (Lp : zlen prod = n).
  { unfold prod, zlen. rewrite map_length, combine_length. pose proof (F1 ker) as A. pose proof (F1 data) as B. unfold zlen in *. lia. }
  assert (Hp2 : exists k, 0 <= k /\ zlen prod = 2 ^ k) by (destruct Hp as [k [? ?]]; exists k; split; [assumption|congruence]).
  destruct (F3 prod Hp2 m) as [_ E]; [lia|].
  rewrite <- (convolution n (fun j => nth (Z.to_nat j) data CZ) (fun l => nth (Z.to_nat l) ker CZ) m ltac:(lia) Hz).
  replace (csum (Z.to_nat n) (fun k => rmul (cis 1 (1 * (2 * PI * IZR k * IZR m / IZR n))) _)) with (fourier_sum 1 prod m);
    [rewrite <- Lp; exact E|].
  unfold fourier_sum. rewrite Lp. replace (List.length prod) with (Z.to_nat n) by (unfold zlen in Lp; lia).
  apply csum_ext. intros k Hk. rewrite Z2Nat.id in Hk by lia. f_equal.
  assert (Ek : entry (t_fft L ker) k (fourier_sum (-1) ker k)).
  { apply F3; [destruct Hp as [q [? ?]]; exists q; split; [assumption|congruence]|lia]. }
  assert (Ed : entry (t_fft L data) k (fourier_sum (-1) data k)).
  { apply F3; [destruct Hp as [q [? ?]]; exists q; split; [assumption|congruence]|lia]. }
  apply entry_nth. split; [lia|]. unfold prod. rewrite nth_error_map.
  assert (EC : nth_error (combine (t_fft L ker) (t_fft L data)) (Z.to_nat k) = Some (fourier_sum (-1) ker k, fourier_sum (-1) data k)).
  { destruct Ek as [_ Ek]. destruct Ed as [_ Ed]. revert Ek Ed. generalize (t_fft L ker) (t_fft L data) (Z.to_nat k).
    intros u. induction u as [|x u IH]; intros v q; [destruct q; discriminate|]. destruct v as [|y v]; [destruct q; discriminate|].
    destruct q; cbn; [congruence|]. apply IH. }
  rewrite EC. cbn [option_map fst snd]. unfold fourier_sum. rewrite Lk, Ld.
  replace (List.length ker) with (Z.to_nat n) by (unfold zlen in Lk; lia).
  replace (List.length data) with (Z.to_nat n) by (unfold zlen in Ld; lia). reflexivity.
Qed.
Lemma trunc_above x m : scast (x : real_scalar) = Ok m -> (x < IZR m + 1)%R.
Proof.
  cbn [scast real_scalar]. destruct ((0 <=? Flocq.Core.Raux.Ztrunc x) && (Flocq.Core.Raux.Ztrunc x <? two64)); [|discriminate].
  intro E. injection E as <-. destruct (Rle_or_lt 0 x) as [P|P].
  - rewrite Flocq.Core.Raux.Ztrunc_floor by exact P. pose proof (Flocq.Core.Raux.Zfloor_ub x). lra.
  - rewrite Flocq.Core.Raux.Ztrunc_ceil by lra. pose proof (Flocq.Core.Raux.Zceil_ub x). lra.
Qed.
Section Mode.
  Variable L : rlib.
  Variable t : rtau.
  Hypothesis FL : fourier_law L.
  Variables (f K : Z -> RC) (w : R) (half : Z).
  Let c := start t + n_used t / 2.
  Hypothesis Hn : 0 < n_used t.
  Hypothesis Hhalf : 0 <= half.
  Hypothesis Hcast : @scast real_scalar (w / dx t)%R = Ok half.
  Hypothesis Hdx : (0 < dx t)%R.
  Hypothesis Hev : evenly_spaced t.
  Hypothesis Hf : recorded t f (start t - half) (start t + n_used t + half - 1).
  Hypothesis HK : forall d, - half <= d <= half -> exists z, fresnel_kernel L t (c + d) c = Ok z /\
    K d = if Rle_dec (Rabs (IZR d * dx t)) (w / 2)
          then rscale (t_window L (window t) (IZR d * dx t)%R w * dx t)%R z else CZ.

  Lemma sample_value i v : start t <= i < start t + n_used t ->
    fft_sample_value L t w half i v -> v = sum_around half (fun d => rmul (K d) (f (i - d))).
  Proof.
    intros Hi (k & n & ker & data & Hk & En & Hsize & _ & FA & Ev). fold c in FA.
    destruct FA as [Lk Ld FK FP FZ].
    assert (Hh2 : 0 <= n_used t / 2 < n_used t) by (split; [apply Z.div_pos; lia|apply Z.div_lt; lia]).
    set (M := n_used t + 2 * half) in *. set (m := i - start t + 2 * half + n_used t / 2) in *.
    assert (Hm : 0 <= m < n) by (unfold m, M in *; lia).
    assert (Zero : forall j, M <= j < n -> nth (Z.to_nat j) ker CZ = CZ /\ nth (Z.to_nat j) data CZ = CZ).
    { intros j Hj. destruct (FZ j Hj) as [A B]. split; apply entry_nth; assumption. }
    assert (E : entry (by_fourier L ker data) m (csum (Z.to_nat n) (fun l =>
      rmul (nth (Z.to_nat l) ker CZ) (if (0 <=? m - l) && (m - l <? n) then nth (Z.to_nat (m - l)) data CZ else CZ)))).
    { apply by_fourier_entry; auto; [exists k; auto|]. intros j l Hj Hl.
      destruct (Z_lt_ge_dec j M) as [Bj|Bj]; [|right; left; apply Zero; lia].
      destruct (Z_lt_ge_dec l M) as [Bl|Bl]; [|right; right; apply Zero; lia]. left. lia. }
    assert (V : v = csum (Z.to_nat n) (fun l =>
      rmul (nth (Z.to_nat l) ker CZ) (if (0 <=? m - l) && (m - l <? n) then nth (Z.to_nat (m - l)) data CZ else CZ))).
    { destruct Ev as [_ Ev]. destruct E as [_ E]. congruence. }
    rewrite V. clear V E Ev.
    (* kernel cells *)
    destruct Hev as (rho & r0 & Er & Hrho).
    assert (Cell : forall l, 0 <= l < M ->
      let d := l - (n_used t / 2 + half) in
      (half < d \/ d < - half -> nth (Z.to_nat l) ker CZ = CZ) /\ (- half <= d <= half -> nth (Z.to_nat l) ker CZ = K d)).
    { intros l Hl d. destruct (FK l Hl) as (z & Ez & (rho' & ra & rc & kz & Er' & Ea & Ec & Ek & Ezk)).
      assert (rho' = rho) by congruence. subst rho'. rewrite (entry_nth _ _ _ CZ Ez).
      assert (Hc : start t - half + l = c + d) by (unfold c, d; lia). rewrite Hc in *.
      assert (X : (ra - rc)%S = (IZR d * dx t)%R).
      { rewrite (Hrho _ _ Ea), (Hrho _ _ Ec). cbn [ssub real_scalar]. rewrite plus_IZR. req. ring. }
      rewrite X in Ezk. cbn [sabs sle shalf smul sfrac real_scalar] in Ezk.
      replace (1 / 2 * w)%R with (w / 2)%R in Ezk by lra.
      split.
      - intros Hd. rewrite Ezk. destruct (Rle_dec (Rabs (IZR d * dx t)) (w / 2)) as [Le|]; [|reflexivity].
        exfalso. pose proof (trunc_above _ _ Hcast) as Tr. idtac.
        assert (W : (w < (IZR half + 1) * dx t)%R).
        { apply Rmult_lt_reg_r with (/ dx t)%R; [apply Rinv_0_lt_compat; lra|].
          rewrite Rmult_assoc, Rinv_r by lra. unfold Rdiv in Tr. lra. }
        assert (D : (IZR half + 1 <= Rabs (IZR d))%R).
        { rewrite <- abs_IZR, <- plus_IZR. apply IZR_le. lia. }
        rewrite Rabs_mult, (Rabs_right (dx t)) in Le by lra.
        assert ((IZR half + 1) * dx t <= Rabs (IZR d) * dx t)%R by (apply Rmult_le_compat_r; lra).
        assert (0 <= IZR half)%R by (apply IZR_le; lia).
        assert (0 < (IZR half + 1) * dx t)%R by (apply Rmult_lt_0_compat; lra). lra.
      - intros Hd. destruct (HK d Hd) as (z' & Ez' & EK). rewrite Ezk, EK.
        replace z' with kz by congruence. destruct (Rle_dec (Rabs (IZR d * dx t)) (w / 2)); reflexivity. }
    rewrite (csum_window (Z.to_nat n) _ (n_used t / 2) (2 * half + 1)).
    - unfold sum_around. apply csum_ext. intros j Hj. rewrite Z2Nat.id in Hj by lia.
      rewrite (proj2 (Cell (n_used t / 2 + j) ltac:(unfold M; lia))) by lia.
      replace (n_used t / 2 + j - (n_used t / 2 + half)) with (j - half) by lia. f_equal.
      destruct (Z.leb_spec 0 (m - (n_used t / 2 + j))); [|unfold m in *; lia].
      destruct (Z.ltb_spec (m - (n_used t / 2 + j)) n); [|unfold m in *; lia]. cbn [andb].
      destruct (FP (m - (n_used t / 2 + j))) as (T & z & ET & EZ & ED); [unfold m, M; lia|].
      rewrite (entry_nth _ _ _ CZ ED).
      destruct Hf as (T' & ET' & Hfe). assert (T' = T) by congruence. subst T'.
      assert (Ix : start t - half + (m - (n_used t / 2 + j)) = i - (j - half)) by (unfold m; lia). rewrite Ix in EZ.
      destruct (Hfe (i - (j - half))) as [_ Q]; [lia|]. destruct EZ as [_ EZ]. congruence.
    - lia.
    - lia.
    - unfold M in *. lia.
    - intros l Hl Ho. rewrite Z2Nat.id in Hl by lia.
      destruct (Z_lt_ge_dec l M) as [B|B].
      + rewrite (proj1 (Cell l (conj (proj1 Hl) B))) by lia. apply cmul_0_l.
      + rewrite (proj1 (Zero l ltac:(lia))). apply cmul_0_l.
  Qed.
End Mode.
Lemma fft_exact (L : rlib) (t : rtau) (f K : Z -> RC) (w : R) (half : Z) :
  fourier_law L -> clean t -> complete t -> arr_size t <= 2 ^ 61 -> 0 <= start t -> 0 < n_used t -> no_obstacle L t ->
  let c := start t + n_used t / 2 in
  width t c (w : real_scalar) -> @scast real_scalar (w / dx t)%R = Ok half ->
  0 <= half <= start t -> start t + n_used t + half <= arr_size t ->
  (0 < dx t)%R -> evenly_spaced t ->
  recorded t f (start t - half) (start t + n_used t + half - 1) ->
  (forall d, - half <= d <= half -> exists z, fresnel_kernel L t (c + d) c = Ok z /\
    K d = if Rle_dec (Rabs (IZR d * dx t)) (w / 2)
          then rscale (t_window L (window t) (IZR d * dx t)%R w * dx t)%R z else CZ) ->
  exists t', dc_fft L t = Ok t' /\ clean t' /\
    forall i, start t <= i < start t + n_used t ->
      result_at t' i (sum_around half (fun d => rmul (K d) (f (i - d)))).
Proof.
  intros FL Cl Co Sz Hs Hn NO c Hw Hc Hh He Hdx Hev Hf HK.
  destruct (fft_driver_value L t Cl Co (proj1 FL) (proj1 (proj2 FL)) half w) as (t' & E & P & C); auto.
  { exists t. apply NO. }
  specialize (C NO). exists t'. split; [exact E|]. split; [exact C|]. intros i Hi.
  destruct P as (T & e & T' & ET & HT & Et & HP).
  destruct e as [m|]; [subst t'; discriminate C|]. specialize (HP eq_refl). destruct HP as (_ & HP & _).
  destruct (HP i) as (v & Ev & Q); [lia|].
  apply (sample_value L t FL f K w half) in Q; auto; [|lia].
  subst v. exists T'. split; [subst t'; reflexivity|]. apply aread_entry in Ev. tauto.
Qed.
Lemma fft_exact_invariant : forall (L : rlib) (t : rtau) (f : Z -> RC) (K : Z -> Z -> RC) (w : R) (half : Z),
  fourier_law L -> clean t -> complete t -> arr_size t <= 2 ^ 61 -> 0 <= start t -> 0 < n_used t -> no_obstacle L t ->
  let c := start t + n_used t / 2 in
  width t c (w : real_scalar) -> @scast real_scalar (w / dx t)%R = Ok half ->
  0 <= half <= start t -> start t + n_used t + half <= arr_size t ->
  (0 < dx t)%R -> evenly_spaced t ->
  recorded t f (start t - half) (start t + n_used t + half - 1) ->
  (forall i d, start t <= i < start t + n_used t -> - half <= d <= half ->
    fresnel_kernel L t i (i - d) = fresnel_kernel L t (c + d) c /\
    exists z, fresnel_kernel L t i (i - d) = Ok z /\
      K i d = if Rle_dec (Rabs (IZR d * dx t)) (w / 2)
              then rscale (t_window L (window t) (IZR d * dx t)%R w * dx t)%R z else CZ) ->
  exists t', dc_fft L t = Ok t' /\ clean t' /\
    forall i, start t <= i < start t + n_used t ->
      result_at t' i (sum_around half (fun d => rmul (K i d) (f (i - d)))).
Proof.
  intros L t f K w half A B C D E F G c H I J M N O P Q.
  destruct (fft_exact L t f (K c) w half A B C D E F G H I J M N O P) as (t' & X & Y & Z0).
  - intros d Hd. destruct (Q c d) as (Q1 & z & Q2 & Q3); [|exact Hd|].
    + unfold c. pose proof (Z.div_lt (n_used t) 2). pose proof (Z.div_pos (n_used t) 2). lia.
    + exists z. rewrite Q1 in Q2. auto.
  - exists t'. split; [exact X|]. split; [exact Y|]. intros i Hi.
    replace (sum_around half (fun d => rmul (K i d) (f (i - d)))) with (sum_around half (fun d => rmul (K c d) (f (i - d)))); [apply Z0, Hi|].
    unfold sum_around. apply csum_ext. intros j Hj. f_equal.
    destruct (Q i (j - half)) as (Q1 & z & Q2 & Q3); [exact Hi|lia|].
    destruct (Q c (j - half)) as (R1 & y & R2 & R3); [|lia|].
    + unfold c. pose proof (Z.div_lt (n_used t) 2). pose proof (Z.div_pos (n_used t) 2). lia.
    + rewrite Q3, R3. rewrite Q1 in Q2. rewrite R1 in R2. replace z with y by congruence. reflexivity.
Qed.
