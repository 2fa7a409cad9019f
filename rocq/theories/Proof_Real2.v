(** * Proof_Real2: closed forms of the Filon quadratures and free-space
    normalisation (C26, C27, C53). *)
From Coq Require Import List ZArith Bool Reals String Lia Lra.
From Verif Require Import Base BaseFacts Scalar Model_TauRec Model_Transform
  Model_Interp Spec_Select Spec_Safety Spec_Real Proof_Linear Proof_Real.
Import ListNotations.
Open Scope Z_scope.

Section Filon.
  Variable L : rlib.
  Hypothesis HA : cabs_law L.
  Variables (t : rtau) (f : Z -> RC) (w : @buffer real_scalar) (W wt psi : Z -> R) (c m : Z).
  Hypothesis Hm : 0 <= m.
  Hypothesis H64 : 2 * m + 1 < two64.
  Hypothesis Hf : recorded t f (c - m) (c + m).
  Hypothesis Hw : holds w (2 * m + 1) W.
  (** Weighted sample k of the window. *)
  Let a (k : Z) : RC := rscale (wt k * W k)%R (f (c - m + k)).

  Lemma half_width : (2 * m + 1) / 2 = m.
  Proof. symmetry. apply Z.div_unique with 1; lia. Qed.
  Lemma wrap_width : wrap64 (2 * m + 1 - 1) = 2 * m.
  Proof. unfold wrap64. rewrite Z.mod_small; unfold two64 in *; lia. Qed.

  Section Weights.
    Hypothesis Hp : weights_at L t c (c - m) (2 * m + 1) wt psi.
    Lemma first_closed : filon_first L t w c (c - m) = Ok ((wt 0 * W 0)%R, psi 0, a 0).
    Proof.
      assert (P0 := Hp 0 ltac:(lia)). rewrite Z.add_0_r in P0. unfold filon_first. rewrite P0. cbn [bind].
      rewrite (holds_rdb _ _ _ 0 Hw) by lia. cbn [bind]. cbv zeta.
      rewrite (recorded_read _ _ _ _ _ Hf) by lia. cbn [bind]. unfold a. rewrite Z.add_0_r. reflexivity.
    Qed.
    Let I1 (k : Z) : RC := t_filon01 L (midpoint (a k) (a (k + 1))) (psi k) (psi (k + 1)) (dx t).
    Let J1 (k : Z) : RC := t_rfilon01 L ((wt k * W k + wt (k + 1) * W (k + 1)) / 2)%R (psi k) (psi (k + 1)) (dx t).
    Lemma filon01_closed : newton_filon01 L t w (2 * m + 1) c = Ok (
      if use_norm t then rscale (1 / modulus (csum (Z.to_nat (2 * m)) J1))%R (csum (Z.to_nat (2 * m)) I1)
      else csum (Z.to_nat (2 * m)) I1).
    Proof.
      unfold newton_filon01. cbv zeta. rewrite half_width, wrap_width, first_closed. cbn [bind].
      destruct (for_range_total (fun k (s : RC * RC * real_scalar * real_scalar * RC) =>
          s = (csum (Z.to_nat k) I1, if use_norm t then csum (Z.to_nat k) J1 else CZ, (wt k * W k)%R : real_scalar, psi k : real_scalar, a k)) 0 (2 * m)
          (filon01_body L t w c (c - m)) (c0, c0, (wt 0 * W 0)%R : real_scalar, psi 0 : real_scalar, a 0)) as (s & E & Hs).
      - lia.
      - cbn [Z.to_nat csum]. destruct (use_norm t); reflexivity.
      - intros k s Hk ->. unfold filon01_body. 
        assert (P := Hp (k + 1) ltac:(lia)). replace (c - m + (k + 1)) with (c - m + k + 1) in P by lia. rewrite P. cbn [bind].
        rewrite (holds_rdb _ _ _ (k + 1) Hw) by lia. cbn [bind]. cbv zeta.
        rewrite (recorded_read _ _ _ _ _ Hf) by lia. cbn [bind]. eexists. split; [reflexivity|].
        replace (Z.to_nat (k + 1)) with (Datatypes.S (Z.to_nat k)) by lia. cbn [csum]. rewrite Z2Nat.id by lia.
        replace (c - m + k + 1) with (c - m + (k + 1)) by lia. fold (a (k + 1)).
        match goal with |- context [t_rfilon01 L ?v (psi k) (psi (k + 1)) (dx t)] =>
          assert (EJ : t_rfilon01 L v (psi k) (psi (k + 1)) (dx t) = J1 k) end.
        { unfold J1. f_equal. unfold shalf. cbn [smul sadd sfrac real_scalar]. req. field. }
        rewrite EJ. destruct (use_norm t); reflexivity.
      - rewrite E, Hs. cbn [bind]. rewrite HA. destruct (use_norm t); reflexivity.
    Qed.
    Let I2 (k : Z) : RC := t_filon11 L (a k) (a (k + 1)) (psi k) (psi (k + 1)) (dx t).
    Let J2 (k : Z) : RC := t_rfilon11 L (wt k * W k)%R (wt (k + 1) * W (k + 1))%R (psi k) (psi (k + 1)) (dx t).
    Lemma filon11_closed : newton_filon11 L t w (2 * m + 1) c = Ok (
      if use_norm t then rscale (1 / modulus (csum (Z.to_nat (2 * m)) J2))%R (csum (Z.to_nat (2 * m)) I2)
      else csum (Z.to_nat (2 * m)) I2).
    Proof.
      unfold newton_filon11. cbv zeta. rewrite half_width, wrap_width, first_closed. cbn [bind].
      destruct (for_range_total (fun k (s : RC * RC * real_scalar * real_scalar * RC) =>
          s = (csum (Z.to_nat k) I2, if use_norm t then csum (Z.to_nat k) J2 else CZ, (wt k * W k)%R : real_scalar, psi k : real_scalar, a k)) 0 (2 * m)
          (filon11_body L t w c (c - m)) (c0, c0, (wt 0 * W 0)%R : real_scalar, psi 0 : real_scalar, a 0)) as (s & E & Hs).
      - lia.
      - cbn [Z.to_nat csum]. destruct (use_norm t); reflexivity.
      - intros k s Hk ->. unfold filon11_body. 
        assert (P := Hp (k + 1) ltac:(lia)). replace (c - m + (k + 1)) with (c - m + k + 1) in P by lia. rewrite P. cbn [bind].
        rewrite (holds_rdb _ _ _ (k + 1) Hw) by lia. cbn [bind]. cbv zeta.
        rewrite (recorded_read _ _ _ _ _ Hf) by lia. cbn [bind]. eexists. split; [reflexivity|].
        replace (Z.to_nat (k + 1)) with (Datatypes.S (Z.to_nat k)) by lia. cbn [csum]. rewrite Z2Nat.id by lia.
        replace (c - m + k + 1) with (c - m + (k + 1)) by lia. fold (a (k + 1)).
        destruct (use_norm t); reflexivity.
      - rewrite E, Hs. cbn [bind]. rewrite HA. destruct (use_norm t); reflexivity.
    Qed.
    Let I3 (k : Z) : RC := t_filon02 L (midpoint (a (2 * k)) (a (2 * k + 1))) (midpoint (a (2 * k + 1)) (a (2 * k + 2)))
                             (psi (2 * k)) (psi (2 * k + 1)) (psi (2 * k + 2)) (dx t).
    Lemma filon02_closed : 1 <= m -> newton_filon02 L t w (2 * m + 1) c = Ok (csum (Z.to_nat m) I3).
    Proof.
      intros H1. unfold newton_filon02. cbv zeta. rewrite half_width, first_closed. cbn [bind].
      replace (pair_count (2 * m + 1)) with m.
      2: { unfold pair_count, wrap64. rewrite Z.mod_small by (unfold two64 in *; lia). apply Z.div_unique with 0; lia. }
      destruct (for_range_total (fun k (s : RC * real_scalar * RC) =>
          s = (csum (Z.to_nat k) I3, psi (2 * k) : real_scalar, a (2 * k))) 0 m
          (filon02_body L t w c (c - m)) (c0, psi 0 : real_scalar, a 0)) as (s & E & Hs).
      - lia.
      - reflexivity.
      - intros k s Hk ->. unfold filon02_body. cbv zeta.
        assert (P := Hp (2 * k + 1) ltac:(lia)). replace (c - m + (2 * k + 1)) with (c - m + 2 * k + 1) in P by lia. rewrite P. cbn [bind].
        rewrite (holds_rdb _ _ _ (2 * k + 1) Hw) by lia. cbn [bind].
        rewrite (recorded_read _ _ _ _ _ Hf) by lia. cbn [bind].
        assert (P2 := Hp (2 * k + 2) ltac:(lia)). replace (c - m + (2 * k + 2)) with (c - m + 2 * k + 2) in P2 by lia. rewrite P2. cbn [bind].
        rewrite (holds_rdb _ _ _ (2 * k + 2) Hw) by lia. cbn [bind].
        rewrite (recorded_read _ _ _ _ _ Hf) by lia. cbn [bind]. eexists. split; [reflexivity|].
        replace (Z.to_nat (k + 1)) with (Datatypes.S (Z.to_nat k)) by lia. cbn [csum]. rewrite Z2Nat.id by lia.
        replace (c - m + 2 * k + 1) with (c - m + (2 * k + 1)) by lia. replace (c - m + 2 * k + 2) with (c - m + (2 * k + 2)) by lia.
        replace (2 * (k + 1)) with (2 * k + 2) by lia. reflexivity.
      - rewrite E, Hs. reflexivity.
    Qed.
  End Weights.
  (** Piecewise quadratic phase: the azimuth found at one sample is the first guess
      at the next. *)
  Lemma filon12_closed (g : Z -> R) : 1 <= m -> at_sample t PHI (c - m) (g 0) ->
    (forall k, 0 <= k < 2 * m + 1 -> fast_phase_and_weight L t c (c - m + k) (g k) = Ok (g (k + 1), wt k, psi k)) ->
    newton_filon12 L t w (2 * m + 1) c = Ok (csum (Z.to_nat m) (fun k =>
      t_filon12 L (a (2 * k)) (a (2 * k + 1)) (a (2 * k + 2)) (psi (2 * k)) (psi (2 * k + 1)) (psi (2 * k + 2)) (dx t))).
  Proof.
    intros H1 Hg Hp. unfold newton_filon12. cbv zeta. rewrite half_width.
    rewrite (at_sample_rd _ _ _ _ Hg). cbn [bind].
    assert (P0 := Hp 0 ltac:(lia)). rewrite Z.add_0_r in P0. rewrite P0. cbn [bind].
    rewrite (holds_rdb _ _ _ 0 Hw) by lia. cbn [bind]. rewrite (recorded_read _ _ _ _ _ Hf) by lia. cbn [bind].
    replace (pair_count (2 * m + 1)) with m.
    2: { unfold pair_count, wrap64. rewrite Z.mod_small by (unfold two64 in *; lia). apply Z.div_unique with 0; lia. }
    set (I := fun k => t_filon12 L (a (2 * k)) (a (2 * k + 1)) (a (2 * k + 2)) (psi (2 * k)) (psi (2 * k + 1)) (psi (2 * k + 2)) (dx t)).
    match goal with |- bind (for_range 0 m ?b ?s0) _ = _ =>
      destruct (for_range_total (fun k (s : RC * real_scalar * real_scalar * RC) =>
        s = (csum (Z.to_nat k) I, g (2 * k + 1) : real_scalar, psi (2 * k) : real_scalar, a (2 * k))) 0 m b s0) as (s & E & Hs) end.
    - lia.
    - unfold a. rewrite Z.add_0_r. reflexivity.
    - intros k s Hk ->. unfold filon12_body. cbv zeta.
      assert (P := Hp (2 * k + 1) ltac:(lia)). replace (c - m + (2 * k + 1)) with (c - m + 2 * k + 1) in P by lia. rewrite P. cbn [bind].
      rewrite (holds_rdb _ _ _ (2 * k + 1) Hw) by lia. cbn [bind].
      rewrite (recorded_read _ _ _ _ _ Hf) by lia. cbn [bind].
      assert (P2 := Hp (2 * k + 2) ltac:(lia)). replace (c - m + (2 * k + 2)) with (c - m + 2 * k + 2) in P2 by lia.
      replace (2 * k + 1 + 1) with (2 * k + 2) by lia. rewrite P2. cbn [bind].
      rewrite (holds_rdb _ _ _ (2 * k + 2) Hw) by lia. cbn [bind].
      rewrite (recorded_read _ _ _ _ _ Hf) by lia. cbn [bind]. eexists. split; [reflexivity|].
      replace (Z.to_nat (k + 1)) with (Datatypes.S (Z.to_nat k)) by lia. cbn [csum]. rewrite Z2Nat.id by lia.
      replace (c - m + 2 * k + 1) with (c - m + (2 * k + 1)) by lia. replace (c - m + 2 * k + 2) with (c - m + (2 * k + 2)) by lia.
      replace (2 * (k + 1)) with (2 * k + 2) by lia. reflexivity.
    - rewrite E, Hs. reflexivity.
  Qed.
End Filon.

(** Degree 4 interpolation followed by linear quadrature. *)
Section Newton4.
  Variable L : rlib.
  Variables (t : rtau) (f : Z -> RC) (x w : @buffer real_scalar) (X W : Z -> R) (c n : Z).
  Hypothesis Hn : 1 <= n.
  Hypothesis Hf : recorded t f (c - n) (c + n).
  Hypothesis Hx : holds x n X.
  Hypothesis Hw : holds w n W.
  Variables (ws ps : Z -> R).
  Hypothesis Hs : forall k, 0 <= k < 5 -> phase_and_weight L t c (c - 2 * (n / 2) + k * (n / 2)) = Ok (ws k, ps k).
  Let pc := @deg4_interp real_scalar (ps 0) (ps 1) (ps 2) (ps 3) (ps 4).
  Let wc := @deg4_interp real_scalar (ws 0) (ws 1) (ws 2) (ws 3) (ws 4).
  Let u (k : Z) : R := (X k / (4 * dx t * IZR (n / 2)))%R.
  Let pl (k : Z) : R := fst (@deg4_eval real_scalar pc (u k)).
  Let pr (k : Z) : R := snd (@deg4_eval real_scalar pc (u k)).
  Let l (k : Z) : RC := rscale (fst (@deg4_eval real_scalar wc (u k)) * W k)%R (f (c - n + k)).
  Let r (k : Z) : RC := rscale (snd (@deg4_eval real_scalar wc (u k)) * W k)%R (f (c + n - k)).
  Lemma point4_closed k : 0 <= k < n ->
    newton4_point t pc wc x w (s1 / (sofZ 4 * dx t * sofZ (n / 2)))%S (c - n) (c + n) k = Ok (pl k : real_scalar, pr k : real_scalar, l k, r k).
  Proof.
    intros Hk. unfold newton4_point. rewrite (holds_rdb _ _ _ k Hx) by lia. cbn [bind]. cbv zeta.
    assert (EU : @smul real_scalar (X k) (s1 / (sofZ 4 * dx t * sofZ (n / 2)))%S = u k).
    { unfold u, s1. cbn [smul sdiv sofZ real_scalar]. req. unfold Rdiv. ring. }
    rewrite EU. unfold l, r, pl, pr. destruct (deg4_eval pc (u k)) as [a b], (deg4_eval wc (u k)) as [a' b']. cbn [fst snd].
    rewrite (holds_rdb _ _ _ k Hw) by lia. cbn [bind].
    rewrite (recorded_read _ _ _ _ (c - n + k) Hf), (recorded_read _ _ _ _ (c + n - k) Hf) by lia. reflexivity.
  Qed.
  Lemma newton4_closed : newton4 L t x w n c = Ok (
    radd (csum (Z.to_nat (n - 1)) (fun k =>
            radd (t_filon11 L (l k) (l (k + 1)) (pl k) (pl (k + 1)) (dx t))
                 (t_filon11 L (r (k + 1)) (r k) (pr (k + 1)) (pr k) (dx t))))
         (t_filon12 L (l (n - 1)) (rscale (ws 2) (f c)) (r (n - 1)) (pl (n - 1)) (ps 2) (pr (n - 1)) (dx t))).
  Proof.
    unfold newton4. cbv zeta. unfold newton4_samples.
    assert (ES : tabulate 5 (fun k => phase_and_weight L t c (c - 2 * (n / 2) + k * (n / 2)))
       = Ok [(ws 0, ps 0); (ws 1, ps 1); (ws 2, ps 2); (ws 3, ps 3); (ws 4, ps 4)]).
    { change (tabulate 5 ?h) with (tab_from 5 0 h). cbn [tab_from Z.add Pos.add Pos.succ].
      rewrite !Hs by lia. reflexivity. }
    rewrite ES. cbn [bind]. rewrite (recorded_read _ _ _ _ c Hf) by lia. cbn [bind].
    fold pc wc. rewrite point4_closed by lia. cbn [bind].
    set (I := fun k => radd (t_filon11 L (l k) (l (k + 1)) (pl k) (pl (k + 1)) (dx t))
                 (t_filon11 L (r (k + 1)) (r k) (pr (k + 1)) (pr k) (dx t))).
    match goal with |- bind (for_range 1 _ ?b ?s0) _ = _ =>
      destruct (for_range_total (fun k (s : RC * (real_scalar * real_scalar * RC * RC)) =>
        s = (csum (Z.to_nat (k - 1)) I, (pl (k - 1) : real_scalar, pr (k - 1) : real_scalar, l (k - 1), r (k - 1)))) 1 (n - 1) b s0) as (s & E & Es) end.
    - lia.
    - reflexivity.
    - intros k s Hk ->. unfold newton4_body. rewrite point4_closed by lia. cbn [bind]. eexists. split; [reflexivity|].
      replace (Z.to_nat (k + 1 - 1)) with (Datatypes.S (Z.to_nat (k - 1))) by lia. cbn [csum]. rewrite Z2Nat.id by lia.
      replace (k + 1 - 1) with k by lia. f_equal. rewrite cadd_assoc. apply f_equal2; [reflexivity|]. unfold I. replace (k - 1 + 1) with k by lia. reflexivity.
    - rewrite E, Es. cbn [bind]. replace (1 + (n - 1) - 1) with (n - 1) by lia. reflexivity.
  Qed.
End Newton4.
