(** * Proof_Real: closed forms of the transforms in exact arithmetic and free-space
    normalisation (C26, C27, C53). *)
From Coq Require Import List ZArith Bool Reals String Lia Lra.
From Verif Require Import Base BaseFacts Scalar Model_TauRec Model_Transform
  Model_Interp Spec_Select Spec_Safety Spec_Real Proof_Linear.
Import ListNotations.
Open Scope Z_scope.

Ltac req := lazymatch goal with |- @eq _ ?a ?b => change (@eq R a b) end.
Lemma cadd_0_r (z : RC) : radd z CZ = z.
Proof. destruct z. calg. Qed.
Lemma cadd_0_l (z : RC) : radd CZ z = z.
Proof. destruct z. calg. Qed.
Lemma cadd_assoc (x y z : RC) : radd (radd x y) z = radd x (radd y z).
Proof. calg. Qed.
Lemma csum_ext n f g : (forall k, 0 <= k < Z.of_nat n -> f k = g k) -> csum n f = csum n g.
Proof. induction n; intros H; cbn [csum]; [reflexivity|]. rewrite IHn by (intros; apply H; lia). rewrite H by lia. reflexivity. Qed.
Lemma csum_mul z n f : csum n (fun k => rmul z (f k)) = rmul z (csum n f).
Proof. induction n; cbn [csum]; [destruct z; calg|]. rewrite IHn. calg. Qed.
Lemma csum_0 n : csum n (fun _ => CZ) = CZ.
Proof. induction n; cbn [csum]; [reflexivity|]. rewrite IHn. calg. Qed.

Lemma for_acc n body g h A B : 0 <= n ->
  (forall k x y, 0 <= k < n -> body k (x, y) = Ok (radd x (g k), radd y (h k))) ->
  for_range 0 n body (A, B) = Ok (radd A (csum (Z.to_nat n) g), radd B (csum (Z.to_nat n) h)).
Proof.
  intros Hn HB.
  destruct (for_range_total (fun k s => s = (radd A (csum (Z.to_nat k) g), radd B (csum (Z.to_nat k) h))) 0 n body (A, B)) as (s & E & Hs).
  - exact Hn.
  - cbn [Z.to_nat csum]. rewrite !cadd_0_r. reflexivity.
  - intros k s Hk ->. rewrite HB by lia. eexists. split; [reflexivity|].
    replace (Z.to_nat (k + 1)) with (Datatypes.S (Z.to_nat k)) by lia. cbn [csum]. rewrite Z2Nat.id, !cadd_assoc by lia. reflexivity.
  - rewrite E, Hs. reflexivity.
Qed.

Lemma entry_aread {A} (l : list A) i x : entry l i x -> aread l i = Ok x.
Proof.
  intros [H1 H2]. apply aread_ok. split; [|exact H2].
  assert (H : nth_error l (Z.to_nat i) <> None) by congruence. apply nth_error_Some in H. unfold zlen. lia.
Qed.
Lemma recorded_read t (f : Z -> RC) lo hi i : recorded t f lo hi -> lo <= i <= hi -> rdT (T_in t) i = Ok (f i).
Proof. intros (T & -> & H) Hi. unfold rdT. cbn [deref bind]. rewrite (entry_aread _ _ _ (H i Hi)). reflexivity. Qed.
Lemma at_sample_rd {S} (t : tau S) g i (x : S) : at_sample t g i x -> rd t g i = Ok x.
Proof. intros (l & E & H). unfold rd. rewrite E. cbn [deref bind]. apply entry_aread; exact H. Qed.
Lemma holds_rdb {S} (x : @buffer S) n X k : holds x n X -> 0 <= k < n -> rdb x k = Ok (X k).
Proof. intros H Hk. unfold rdb. rewrite H by auto. reflexivity. Qed.

(** Modulus. *)
Lemma modulus_mul z w : modulus (rmul z w) = (modulus z * modulus w)%R.
Proof.
  unfold modulus, cmul, cre, cim. cbn [fst snd smul ssub sadd real_scalar]. rewrite <- sqrt_mult.
  - f_equal. ring.
  - apply Rplus_le_le_0_compat; apply Rle_0_sqr.
  - apply Rplus_le_le_0_compat; apply Rle_0_sqr.
Qed.
Lemma modulus_nonneg z : (0 <= modulus z)%R.
Proof. apply sqrt_pos. Qed.
Lemma modulus_zero z : modulus z = 0%R -> z = CZ.
Proof.
  destruct z as [x y]. unfold modulus. cbn. intros H.
  assert (H0 : (x * x + y * y = 0)%R).
  { apply sqrt_eq_0 in H; auto. apply Rplus_le_le_0_compat; apply Rle_0_sqr. }
  assert (x = 0 /\ y = 0)%R as [-> ->]; [|reflexivity].
  assert (A := Rle_0_sqr x). assert (B := Rle_0_sqr y). unfold Rsqr in *. split; apply Rsqr_0_uniq; unfold Rsqr; lra.
Qed.
Lemma modulus_one_i r : modulus (r, r) = (Rabs r * sqrt 2)%R.
Proof.
  unfold modulus. cbn [fst snd]. replace (r * r + r * r)%R with (Rsqr r * 2)%R by (unfold Rsqr; ring).
  rewrite sqrt_mult; [|apply Rle_0_sqr|lra]. rewrite sqrt_Rsqr_abs. reflexivity.
Qed.
Lemma modulus_real r : modulus (r, 0%R) = Rabs r.
Proof. unfold modulus. cbn [fst snd]. replace (r * r + 0 * 0)%R with (Rsqr r) by (unfold Rsqr; ring). apply sqrt_Rsqr_abs. Qed.
(** A value (1+i)/sqrt 2 / |N| * (z N) has the modulus of z. *)
Lemma normalised_one_i z N : N <> CZ ->
  modulus (rmul (one_plus_i (/ sqrt 2 / modulus N)%R) (rmul z N)) = modulus z.
Proof.
  intros HN. rewrite !modulus_mul. unfold one_plus_i. rewrite modulus_one_i.
  assert (P : (0 < modulus N)%R) by (destruct (Rle_lt_or_eq_dec 0 _ (modulus_nonneg N)) as [P|P]; auto; symmetry in P; apply modulus_zero in P; contradiction).
  assert (Q : (0 < sqrt 2)%R) by (apply sqrt_lt_R0; lra).
  rewrite Rabs_right; [field; split; lra|].
  apply Rle_ge. apply Rlt_le. apply Rdiv_lt_0_compat; [apply Rinv_0_lt_compat|]; assumption.
Qed.
Lemma normalised_real z N : N <> CZ -> modulus (rscale (1 / modulus N)%R (rmul z N) : RC) = modulus z.
Proof.
  intros HN. replace (rscale (1 / modulus N)%R (rmul z N) : RC) with (rmul ((1 / modulus N)%R, 0%R) (rmul z N) : RC) by calg.
  rewrite !modulus_mul, modulus_real.
  assert (P : (0 < modulus N)%R) by (destruct (Rle_lt_or_eq_dec 0 _ (modulus_nonneg N)) as [P|P]; auto; symmetry in P; apply modulus_zero in P; contradiction).
  rewrite Rabs_right; [field; lra|]. apply Rle_ge, Rlt_le. apply Rdiv_lt_0_compat; lra.
Qed.

Section Closed.
  Variable L : rlib.
  Hypothesis HT : trig_law L.
  Hypothesis HA : cabs_law L.
  Lemma polar_cis r th : polar L r th = cis r th.
  Proof. unfold polar, cis. destruct (HT th) as [-> ->]. reflexivity. Qed.

  Lemma fresnel_closed (t : rtau) (f : Z -> RC) (F : R) (x : @buffer real_scalar) (w : @buffer real_scalar) (X : Z -> R) (W : Z -> R) (c : Z) (n : Z) :
    0 <= n -> recorded t f (c - n) (c + n) -> at_sample t FKM c F -> holds x n X -> holds w n W -> F <> 0%R ->
    fresnel_transform L t x w c n = Ok (
      let e := fresnel_weight (use_fwd t) F X W in
      let N := radd CI (sum_weights n e e) in
      rmul (one_plus_i (if use_norm t then / sqrt 2 / modulus N else dx t / (2 * F))%R)
           (radd (f c) (sum_pairs f c n e e))).
  Proof.
    intros Hn Hf HF Hx Hw F0. unfold fresnel_transform. rewrite (at_sample_rd _ _ _ _ HF). cbn [bind]. cbv zeta.
    rewrite (recorded_read _ _ _ _ c Hf) by lia. cbn [bind].
    set (e := fresnel_weight (use_fwd t) F X W).
    erewrite (for_acc n _ (fun k => radd (rmul (e k) (f (c - n + k))) (rmul (e k) (f (c + n - k))))
       (fun k => if use_norm t then e k else CZ)); [|exact Hn|].
    - cbn [bind]. unfold sum_pairs, sum_weights, one_plus_i.
      set (A := csum _ (fun k => radd (rmul (e k) (f (c - n + k))) (rmul (e k) (f (c + n - k))))).
      f_equal. rewrite HA.
      destruct (use_norm t).
      + set (N0 := csum (Z.to_nat n) (fun k => e k)).
        assert (EN : csum (Z.to_nat n) (fun k => radd (e k) (e k)) = radd N0 N0).
        { unfold N0. clear. induction (Z.to_nat n) as [|m IH]; cbn [csum]; [calg|]. rewrite IH. calg. }
        rewrite EN. match goal with |- (?s * _, _)%S = rmul (?s', _) _ => assert (ES : s = s') end.
        { cbn [sdiv srsqrttwo real_scalar]. f_equal. f_equal. calg. }
        rewrite ES. match goal with |- context [(/ sqrt 2 / ?m)%R] => generalize (/ sqrt 2 / m)%R end. intros s. calg.
      + match goal with |- (?s * _, _)%S = rmul (?s', _) _ => assert (ES : s = s') end.
        { unfold shalf, s1. cbn [smul sdiv sfrac sofZ real_scalar]. req; field. exact F0. }
        rewrite ES. generalize (dx t / (2 * F))%R. intros s. calg.
    - intros k a b Hk. unfold fresnel_body. rewrite (holds_rdb _ _ _ k Hx), (holds_rdb _ _ _ k Hw) by lia. cbn [bind]. cbv zeta.
      rewrite (recorded_read _ _ _ _ (c - (n - k)) Hf), (recorded_read _ _ _ _ (c + (n - k)) Hf) by lia. cbn [bind].
      rewrite polar_cis. replace (c - (n - k)) with (c - n + k) by lia. replace (c + (n - k)) with (c + n - k) by lia.
      match goal with |- context [cis (W k) ?th] => assert (EE : cis (W k) th = e k) end.
      { unfold e, fresnel_weight. f_equal. cbn. req. destruct (use_fwd t); field; exact F0. }
      rewrite EE. f_equal. apply f_equal2; [calg|]. destruct (use_norm t); [reflexivity|]. symmetry. apply cadd_0_r.
  Qed.

  (** Sum over a full window. *)
  Lemma riemann_closed (t : rtau) (f : Z -> RC) (K : Z -> RC) (w : @buffer real_scalar) (W : Z -> R) (c : Z) (m : Z) :
    0 <= m -> 2 * m + 1 < two64 -> recorded t f (c - m) (c + m) -> holds w (2 * m + 1) W ->
    (forall k, 0 <= k < 2 * m -> fresnel_kernel L t c (c - m + k) = Ok (K k)) ->
    newton_riemann L t w (2 * m + 1) c = Ok (
      let e := fun k => rscale (W k) (K k) in
      rscale (if use_norm t then 1 / modulus (sum_all (2 * m) e) else dx t)%R (sum_window f (c - m) (2 * m) e)).
  Proof.
    intros Hm H64 Hf Hw HK. unfold newton_riemann. cbv zeta.
    replace ((2 * m + 1) / 2) with m by (apply Z.div_unique with 1; lia).
    replace (wrap64 (2 * m + 1 - 1)) with (2 * m) by (unfold wrap64; rewrite Z.mod_small; unfold two64 in *; lia).
    set (e := fun k => rscale (W k) (K k)).
    erewrite (for_acc (2 * m) _ (fun k => rmul (e k) (f (c - m + k))) (fun k => if use_norm t then e k else CZ)); [|lia|].
    - cbn [bind]. fold (sum_window f (c - m) (2 * m) e). f_equal. rewrite HA.
      unfold c0, s0. cbn [sofZ real_scalar]. rewrite !cadd_0_l.
      destruct (use_norm t); reflexivity.
    - intros k a b Hk. unfold riemann_body. rewrite HK by lia. cbn [bind]. rewrite (holds_rdb _ _ _ k Hw) by lia. cbn [bind]. cbv zeta.
      rewrite (recorded_read _ _ _ _ _ Hf) by lia. cbn [bind]. fold (e k). f_equal. apply f_equal2; [reflexivity|].
      destruct (use_norm t); [reflexivity|]. symmetry. apply cadd_0_r.
  Qed.

  Lemma newton_sum_closed (t : rtau) (f : Z -> RC) (psi_at : Z -> res R) (psi : Z -> R) (w : @buffer real_scalar) (W : Z -> R) (off : Z) (n : Z) :
    0 <= n -> recorded t f off (off + n - 1) -> holds w n W ->
    (forall k, 0 <= k < n -> psi_at (off + k) = Ok (psi k)) ->
    for_range 0 n (newton_sum_body L t psi_at w off) (c0, c0) = Ok (
      let e := fun k => cis (W k) (- psi k)%R in (sum_window f off n e, sum_all n e)).
  Proof.
    intros Hn Hf Hw Hp. cbv zeta. set (e := fun k => cis (W k) (- psi k)%R).
    erewrite (for_acc n _ (fun k => rmul (e k) (f (off + k))) e); [|exact Hn|].
    - unfold c0, s0. cbn [sofZ real_scalar]. rewrite !cadd_0_l. reflexivity.
    - intros k a b Hk. unfold newton_sum_body. rewrite Hp by lia. cbn [bind]. rewrite (holds_rdb _ _ _ k Hw) by lia. cbn [bind]. cbv zeta.
      rewrite (recorded_read _ _ _ _ _ Hf) by lia. cbn [bind]. rewrite polar_cis. reflexivity.
  Qed.
  Lemma elliptical_closed (t : rtau) (f : Z -> RC) (psi : Z -> R) (w : @buffer real_scalar) (W : Z -> R) (c : Z) (m : Z) :
    0 <= m -> recorded t f (c - m) (c + m) -> holds w (2 * m + 1) W ->
    (forall k, 0 <= k < 2 * m + 1 -> elliptic_psi L t c (c - m + k) = Ok (psi k)) ->
    elliptical_newton L t w (2 * m + 1) c = Ok (
      let e := fun k => cis (W k) (- psi k)%R in
      rmul (one_plus_i (/ sqrt 2 / modulus (sum_all (2 * m + 1) e))%R) (sum_window f (c - m) (2 * m + 1) e)).
  Proof.
    intros Hm Hf Hw Hp. unfold elliptical_newton. cbv zeta.
    replace ((2 * m + 1 - 1) / 2) with m by (apply Z.div_unique with 0; lia).
    rewrite (newton_sum_closed t f _ psi w W (c - m) (2 * m + 1)); [|lia|replace (c - m + (2 * m + 1) - 1) with (c + m) by lia; exact Hf|exact Hw|exact Hp].
    cbv zeta. cbn [bind]. f_equal. rewrite HA. unfold one_plus_i.
    match goal with |- context [modulus ?N] => generalize (modulus N) end. intros N.
    assert (E : (@smul real_scalar shalf (@sdiv real_scalar ssqrttwo N) = / sqrt 2 / N)%R).
    { unfold shalf. cbn [smul sdiv sfrac ssqrttwo real_scalar].
      assert (Q : (sqrt 2 <> 0)%R) by (apply Rgt_not_eq; apply sqrt_lt_R0; lra).
      assert (Q2 : (sqrt 2 * sqrt 2 = 2)%R) by (apply sqrt_sqrt; lra).
      unfold Rdiv. rewrite Rmult_1_l, <- Rmult_assoc. f_equal. rewrite <- Q2 at 1. rewrite Rinv_mult.
      rewrite Rmult_assoc, Rinv_l by assumption. ring. }
    rewrite E. reflexivity.
  Qed.
  Lemma perturbed_closed (t : rtau) (f : Z -> RC) (psi : Z -> R) (w : @buffer real_scalar) (W : Z -> R) (c : Z) (m : Z) :
    0 <= m -> recorded t f (c - m) (c + m) -> holds w (2 * m + 1) W ->
    (forall k, 0 <= k < 2 * m + 1 -> perturbed_psi L t c (c - m + k) = Ok (psi k)) ->
    perturbed_newton L t w (2 * m + 1) c = Ok (
      let e := fun k => cis (W k) (- psi k)%R in
      rmul (one_plus_i (/ sqrt 2 / modulus (sum_all (2 * m + 1) e))%R) (sum_window f (c - m) (2 * m + 1) e)).
  Proof.
    intros Hm Hf Hw Hp. unfold perturbed_newton. cbv zeta.
    replace ((2 * m + 1 - 1) / 2) with m by (apply Z.div_unique with 0; lia).
    rewrite (newton_sum_closed t f _ psi w W (c - m) (2 * m + 1)); [|lia|replace (c - m + (2 * m + 1) - 1) with (c + m) by lia; exact Hf|exact Hw|exact Hp].
    cbv zeta. cbn [bind]. f_equal. rewrite HA. reflexivity.
  Qed.

  (** Interpolated modes. *)
  Lemma interp_sum_closed (tb : list (list R)) (h : Z) (t : rtau) (f : Z -> RC) (lo : list R) (hi : list R) (x : @buffer real_scalar) (w : @buffer real_scalar) (X : Z -> R) (W : Z -> R) (c : Z) (n : Z) (sh : Z) :
    0 <= n -> recorded t f (c - n) (c + n) -> holds x n X -> holds w n W ->
    node_phases L t h c sh = Ok (lo, hi) ->
    interp_sum L tb h t x w n c sh = Ok (
      let cs := @interp_coeffs real_scalar tb lo hi in
      let u := fun k => (X k / (IZR (2 * h) * dx t * IZR sh))%R in
      let el := fun k => cis (W k) (- fst (@interp_eval real_scalar cs (u k)))%R in
      let er := fun k => cis (W k) (- snd (@interp_eval real_scalar cs (u k)))%R in
      (radd (f c) (sum_pairs f c n el er), radd CI (sum_weights n el er))).
  Proof.
    intros Hn Hf Hx Hw Hp. unfold interp_sum. rewrite (recorded_read _ _ _ _ c Hf) by lia. cbn [bind]. rewrite Hp. cbn [bind fst snd].
    cbv zeta. set (cs := @interp_coeffs real_scalar tb lo hi).
    set (u := fun k => (X k / (IZR (2 * h) * dx t * IZR sh))%R).
    set (el := fun k => cis (W k) (- fst (@interp_eval real_scalar cs (u k)))%R).
    set (er := fun k => cis (W k) (- snd (@interp_eval real_scalar cs (u k)))%R).
    erewrite (for_acc n _ (fun k => radd (rmul (el k) (f (c - n + k))) (rmul (er k) (f (c + n - k)))) (fun k => radd (el k) (er k))); [|exact Hn|].
    - reflexivity.
    - intros k a b Hk. unfold interp_body. rewrite (holds_rdb _ _ _ k Hx) by lia. cbn [bind].
      assert (EU : (@smul real_scalar (X k) (s1 / (sofZ (2 * h) * dx t * sofZ sh))%S = u k)).
      { unfold u, s1. cbn [smul sdiv sofZ real_scalar]. req. unfold Rdiv. ring. }
      rewrite EU. destruct (@interp_eval real_scalar cs (u k)) as [pl pr] eqn:Ei. rewrite (holds_rdb _ _ _ k Hw) by lia. cbn [bind]. cbv zeta.
      rewrite (recorded_read _ _ _ _ (c - n + k) Hf), (recorded_read _ _ _ _ (c + n - k) Hf) by lia. cbn [bind].
      rewrite !polar_cis. unfold el, er. rewrite Ei. cbn [fst snd]. rewrite !cadd_assoc. reflexivity.
  Qed.

  (** Legendre modes. *)
  Lemma legendre_sum_closed (t : rtau) (f : Z -> RC) (ph : R -> R -> res (R * R)) (pl : Z -> R) (pr : Z -> R) (D : R) (kc : R) (x : @buffer real_scalar) (w : @buffer real_scalar) (X : Z -> R) (W : Z -> R) (c : Z) (n : Z) :
    0 <= n -> recorded t f (c - n) (c + n) -> holds x n X -> holds w n W ->
    at_sample t DKM c D -> at_sample t KV c kc ->
    (forall k, 0 <= k < n -> ph (kc * D)%R (X k / D)%R = Ok (pl k, pr k)) ->
    legendre_sum L t ph x w n c = Ok (
      let el := fun k => cis (W k) (- pl k)%R in
      let er := fun k => cis (W k) (- pr k)%R in
      (radd (f c) (sum_pairs f c n el er), radd CI (sum_weights n el er))).
  Proof.
    intros Hn Hf Hx Hw HD Hk Hp. unfold legendre_sum. rewrite (at_sample_rd _ _ _ _ HD), (at_sample_rd _ _ _ _ Hk). cbn [bind]. cbv zeta.
    set (el := fun k => cis (W k) (- pl k)%R). set (er := fun k => cis (W k) (- pr k)%R).
    erewrite (for_acc n _ (fun k => radd (rmul (el k) (f (c - n + k))) (rmul (er k) (f (c + n - k)))) (fun k => radd (el k) (er k))); [|exact Hn|].
    - cbn [bind]. rewrite (recorded_read _ _ _ _ c Hf) by lia. cbn [bind]. unfold sum_pairs, sum_weights, c0, s0. cbn [sofZ real_scalar].
      rewrite !cadd_0_l. f_equal. apply f_equal2; calg.
    - intros k a b Hk'. unfold legendre_body. rewrite (holds_rdb _ _ _ k Hx) by lia. cbn [bind].
      assert (EU : (@smul real_scalar (X k) (@sdiv real_scalar s1 D) = X k / D)%R) by (unfold s1; cbn [smul sdiv sofZ real_scalar]; req; unfold Rdiv; ring).
      rewrite EU. cbn [smul sdiv real_scalar] in *. rewrite Hp by lia. cbn [bind]. rewrite (holds_rdb _ _ _ k Hw) by lia. cbn [bind].
      rewrite (recorded_read _ _ _ _ (c - (n - k)) Hf), (recorded_read _ _ _ _ (c + (n - k)) Hf) by lia. cbn [bind].
      replace (c - (n - k)) with (c - n + k) by lia. replace (c + (n - k)) with (c + n - k) by lia.
      rewrite !polar_cis. rewrite !cadd_assoc. reflexivity.
  Qed.
End Closed.
