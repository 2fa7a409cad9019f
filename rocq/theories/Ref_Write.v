(** * Ref_Write: printing, numpy and [atof] that satisfy what is assumed of them, and
    an instance with two samples. *)
From Coq Require Import List ZArith Lia Bool Ascii String Reals Lra.
From Flocq Require Import Core.
From Verif Require Import Base BaseFacts Scalar Spec_Select Model_Heap Model_Csv Spec_Csv Ref_Csv
  Model_Write Spec_Write Proof_Write Proof_Write2.
Import ListNotations.
Open Scope list_scope.
Open Scope R_scope.

(** ** Printing *)
Definition exp_of (x : R) : Z * Z :=
  let k := (mag r10 x - 1)%Z in
  let n := ZnearestE (Rabs x * ten_to (6 - k)) in
  if (n =? 10 ^ 7)%Z then (10 ^ 6, k + 1)%Z else (n, k).
Definition ref_printer : printer real_scalar := {|
  pr_neg := fun x : real_scalar => if Rlt_dec x 0 then true else false;
  pr_fixed := fun x : real_scalar => ZnearestE (Rabs x * ten_to 6);
  pr_exp := fun x : real_scalar => if Req_EM_T x 0 then (0, 0)%Z else exp_of x |}.

Lemma ten_inv a : ten_to a * ten_to (- a) = 1.
Proof. rewrite <- ten_add. replace (a + - a)%Z with 0%Z by lia. reflexivity. Qed.
Lemma near_scaled y z a : Rabs (IZR z - y * ten_to a) <= / 2 -> Rabs (IZR z * ten_to (- a) - y) <= / 2 * ten_to (- a).
Proof.
  intro H. pose proof (ten_pos (- a)) as T.
  replace (IZR z * ten_to (- a) - y) with ((IZR z - y * ten_to a) * ten_to (- a)).
  - rewrite Rabs_mult, (Rabs_pos_eq (ten_to (- a))) by lra. apply Rmult_le_compat_r; lra.
  - rewrite Rmult_minus_distr_r, Rmult_assoc, ten_inv. ring.
Qed.
Lemma nearest_half y : Rabs (IZR (ZnearestE y) - y) <= / 2.
Proof. rewrite Rabs_minus_sym. apply Znearest_half. Qed.
Lemma exp_of_ok x : x <> 0 -> let '(n, k) := exp_of x in
  (10 ^ 6 <= n < 10 ^ 7)%Z /\ Rabs (IZR n * ten_to (k - 6) - Rabs x) <= / 2 * ten_to (k - 6).
Proof.
  intro NZ. unfold exp_of. pose proof (bpow_mag_le r10 x NZ) as G1. pose proof (bpow_mag_gt r10 x) as G2.
  set (g := mag_val r10 x (mag r10 x)) in *. assert (G : bpow r10 (g - 1) <= Rabs x < bpow r10 g) by (split; assumption). clear G1 G2.
  set (k := (g - 1)%Z) in *. rewrite <- !ten_bpow in G.
  set (n := ZnearestE (Rabs x * ten_to (6 - k))).
  assert (H : Rabs (IZR n - Rabs x * ten_to (6 - k)) <= / 2) by apply nearest_half.
  assert (B : 1000000 <= Rabs x * ten_to (6 - k) < 10000000).
  { pose proof (ten_pos (6 - k)) as T. destruct G as [G1 G2]. split.
    - replace 1000000 with (ten_to k * ten_to (6 - k)); [apply Rmult_le_compat_r; lra|].
      rewrite <- ten_add. replace (k + (6 - k))%Z with 6%Z by lia. rewrite ten_IZR by lia. reflexivity.
    - replace 10000000 with (ten_to g * ten_to (6 - k)); [apply Rmult_lt_compat_r; lra|].
      rewrite <- ten_add. replace (g + (6 - k))%Z with 7%Z by (unfold k; lia). rewrite ten_IZR by lia. reflexivity. }
  pose proof (Rabs_le_inv _ _ H) as H2.
  assert (N1 : (10 ^ 6 <= n)%Z).
  { apply Z.lt_succ_r. apply lt_IZR. rewrite succ_IZR. change (IZR (10 ^ 6)) with 1000000. lra. }
  assert (N2 : (n <= 10 ^ 7)%Z).
  { apply Z.lt_succ_r. apply lt_IZR. rewrite succ_IZR. change (IZR (10 ^ 7)) with 10000000. lra. }
  pose proof (near_scaled (Rabs x) n (6 - k) H) as E.
  replace (- (6 - k))%Z with (k - 6)%Z in E by lia.
  destruct (Z.eqb_spec n (10 ^ 7)) as [EQ|NE].
  - split; [lia|]. rewrite EQ in E.
    replace (k + 1 - 6)%Z with (1 + (k - 6))%Z by lia. rewrite ten_add, (ten_IZR 1) by lia.
    change (IZR (10 ^ 7)) with 10000000 in E. change (IZR (10 ^ 6)) with 1000000. change (IZR (10 ^ 1)) with 10.
    replace (1000000 * (10 * ten_to (k - 6))) with (10000000 * ten_to (k - 6)) by ring.
    pose proof (ten_pos (k - 6)). lra.
  - split; [lia|]. exact E.
Qed.
Lemma ref_print_laws : print_laws ref_printer.
Proof.
  split.
  - intro x. cbn. destruct (Rlt_dec x 0); split; intro H; congruence || lra.
  - intro x. cbn [ref_printer pr_fixed]. split.
    + apply le_IZR. pose proof (nearest_half (Rabs x * ten_to 6)) as H. apply Rabs_le_inv in H.
      assert (0 <= Rabs x * ten_to 6) by (apply Rmult_le_pos; [apply Rabs_pos|left; apply ten_pos]).
      assert (X : (0 < ZnearestE (Rabs x * ten_to 6) + 1)%Z) by (apply lt_IZR; rewrite plus_IZR; lra).
      apply IZR_le. lia.
    + apply (near_scaled (Rabs x) _ 6). apply nearest_half.
  - cbn. destruct (Req_EM_T 0 0); [reflexivity|congruence].
  - intros x NZ. cbn [ref_printer pr_exp]. destruct (Req_EM_T x 0); [congruence|]. apply exp_of_ok, NZ.
Qed.

(** ** numpy *)
Definition angle_of (y x : R) : R :=
  let a := acos (x / R_sqrt.sqrt (x * x + y * y)) in if Rle_dec 0 y then a else - a.
Definition ref_np : nplib real_scalar := {|
  np_degrees := fun x : real_scalar => x * 180 / PI;
  np_radians := fun x : real_scalar => x * PI / 180;
  np_sin := fun x : real_scalar => sin x;
  np_log := fun x : real_scalar => ln x;
  np_arctan2 := angle_of;
  np_abs := fun z : cplx real_scalar => R_sqrt.sqrt (fst z * fst z + snd z * snd z) |}.
Lemma angle_of_ok y x : (x, y) <> (0, 0) ->
  - PI < angle_of y x <= PI /\
  x = R_sqrt.sqrt (x * x + y * y) * cos (angle_of y x) /\
  y = R_sqrt.sqrt (x * x + y * y) * sin (angle_of y x).
Proof.
  intro NZ. pose proof (norm_pos x y NZ) as NP. pose proof PI_RGT_0 as PP.
  assert (SP : 0 < R_sqrt.sqrt (x * x + y * y)) by (apply sqrt_lt_R0, NP).
  assert (SS : R_sqrt.sqrt (x * x + y * y) * R_sqrt.sqrt (x * x + y * y) = x * x + y * y) by (apply sqrt_sqrt; lra).
  unfold angle_of. set (r := R_sqrt.sqrt (x * x + y * y)) in *. set (u := x / r).
  assert (XU : x = r * u) by (unfold u; field; lra).
  assert (U2 : u * u = 1 - y / r * (y / r)).
  { assert (E : r * r * (u * u) = r * r * (1 - y / r * (y / r))).
    { replace (r * r * (u * u)) with ((r * u) * (r * u)) by ring. rewrite <- XU.
      replace (r * r * (1 - y / r * (y / r))) with (r * r - y * y) by (field; lra). lra. }
    apply Rmult_eq_reg_l in E; [exact E|]. apply Rgt_not_eq, Rmult_lt_0_compat; exact SP. }
  assert (V : 0 <= y / r * (y / r)) by apply Rle_0_sqr.
  assert (UB : -1 <= u <= 1).
  { split; [apply Rnot_lt_le; intro Q; assert (1 < u * u) by nra; lra|apply Rnot_lt_le; intro Q; assert (1 < u * u) by nra; lra]. }
  pose proof (acos_bound u) as AB.
  assert (SA : sin (acos u) = Rabs (y / r)).
  { rewrite sin_acos by exact UB. replace (1 - u²) with ((y / r)²) by (unfold Rsqr; lra). apply sqrt_Rsqr_abs. }
  destruct (Rle_dec 0 y) as [Y|Y].
  - split; [lra|]. rewrite cos_acos, SA by exact UB. split; [exact XU|].
    rewrite Rabs_pos_eq; [field; lra|]. apply Rle_mult_inv_pos; lra.
  - assert (Y2 : y < 0) by lra.
    assert (NE : acos u <> PI).
    { intro Q. assert (C : cos (acos u) = u) by (apply cos_acos, UB). rewrite Q, cos_PI in C.
      rewrite <- C in U2. assert (Z : y / r = 0) by (apply Rsqr_0_uniq; unfold Rsqr; lra).
      apply Rmult_integral in Z as [Z|Z]; [lra|]. pose proof (Rinv_0_lt_compat r SP). lra. }
    split; [lra|]. rewrite cos_neg, sin_neg, cos_acos, SA by exact UB. split; [exact XU|].
    rewrite Rabs_left; [field; lra|]. apply Rmult_lt_reg_r with r; [exact SP|].
    unfold Rdiv. rewrite Rmult_assoc, Rinv_l by lra. lra.
Qed.
Lemma ref_np_laws : np_laws ref_np.
Proof.
  split; try reflexivity.
  intros y x NZ. apply angle_of_ok, NZ.
Qed.

(** ** Reading *)
Definition ref_reader : csvlib real_scalar := {|
  l_atof := fun s => match numeral s with Some (m, e) => (IZR m * ten_to e : car real_scalar) | None => 0 end;
  l_line_count := l_line_count (ref_csv real_scalar (fun _ => true));
  l_column_count := l_column_count (ref_csv real_scalar (fun _ => true));
  l_interp := l_interp (ref_csv real_scalar (fun _ => true));
  l_sind := l_sind (ref_csv real_scalar (fun _ => true));
  l_exp := l_exp (ref_csv real_scalar (fun _ => true));
  l_alloc := fun _ => true |}.
Lemma skip_newline s : skip_blanks (s ++ ["010"%char]) = skip_blanks s ++ ["010"%char].
Proof. induction s as [|c s IH]; [reflexivity|]. cbn. destruct (Ascii.eqb c " "); [exact IH|reflexivity]. Qed.
Lemma sign_newline s : read_sign (s ++ ["010"%char]) = (fst (read_sign s), snd (read_sign s) ++ ["010"%char]).
Proof. destruct s as [|c s]; [reflexivity|]. cbn. destruct (Ascii.eqb c "-"), (Ascii.eqb c "+"); reflexivity. Qed.
Lemma digits_newline2 s : forall m k, read_digits m k (s ++ ["010"%char]) =
  (fst (fst (read_digits m k s)), snd (fst (read_digits m k s)), snd (read_digits m k s) ++ ["010"%char]).
Proof.
  induction s as [|c s IH]; intros m k; [reflexivity|]. cbn [app read_digits].
  destruct (digit_value c); [apply IH|reflexivity].
Qed.
Lemma numeral_newline s : numeral (s ++ ["010"%char]) = numeral s.
Proof.
  unfold numeral. rewrite skip_newline, sign_newline.
  destruct (read_sign (skip_blanks s)) as [neg s1]. cbn [fst snd].
  rewrite digits_newline2. destruct (read_digits 0 0 s1) as [[m k] s2]. cbn [fst snd].
  destruct s2 as [|c r]; [reflexivity|]. cbn [app].
  destruct (Ascii.eqb c "." && (0 <? k)%Z); [|reflexivity].
  rewrite digits_newline2. destruct (read_digits m 0 r) as [[m1 k1] s3]. cbn [fst snd].
  destruct s3 as [|d r3]; [reflexivity|]. cbn [app].
  destruct (Ascii.eqb d "E"); [|reflexivity].
  rewrite sign_newline. destruct (read_sign r3) as [en s4]. cbn [fst snd].
  rewrite digits_newline2. destruct (read_digits 0 0 s4) as [[e j] s5]. reflexivity.
Qed.
Lemma ref_reader_laws : csv_laws ref_reader.
Proof.
  destruct (ref_csv_laws real_scalar (fun _ => true)) as [_ B C].
  split; [|exact B|exact C].
  intros f _. cbn [ref_reader l_atof]. rewrite numeral_newline. reflexivity.
Qed.
Lemma ref_atof : atof_law ref_reader.
Proof. intros s m e H. cbn [ref_reader l_atof]. rewrite H. reflexivity. Qed.
Lemma ref_allocs k : allocs_ok ref_reader k.
Proof. split; reflexivity. Qed.

(** ** An instance *)
Definition ex_inst (two_way : bool) : instance real_scalar := fun a : string =>
  if String.eqb a "ul_rho_km_vals" then (if two_way then Some (Reals (S := real_scalar) [1; 2]) else None)
  else if String.eqb a "tau_threshold_vals" then Some PyNone
  else if String.eqb a "T_out" then Some (Complexes (S := real_scalar) [(0, -1); (exp (-1), 0)])
  else if String.eqb a "p_norm_vals" then Some (Reals (S := real_scalar) [1; exp (-1)])
  else if String.eqb a "B_rad_vals" then Some (Reals (S := real_scalar) [PI / 2; PI / 2])
  else if String.eqb a "B_deg_vals" then Some (Reals (S := real_scalar) [90; 90])
  else Some (Reals (S := real_scalar) [1; 2]).
Lemma ten_m300 : ten_to (-300) <= / 1000.
Proof. eapply Rle_trans; [apply (ten_le (-300) (-3)); lia|]. rewrite ten_bpow. cbn. lra. Qed.
Lemma ordinary_mid q : / 1000 <= q <= 1000 -> ordinary q.
Proof.
  intro H. right. rewrite Rabs_pos_eq by lra. pose proof ten_m300.
  assert (1000 <= ten_to 30) by (rewrite ten_IZR by lia; apply IZR_le; lia). lra.
Qed.
Lemma e1 : / 3 <= exp (-1) <= 1.
Proof.
  change (-1) with (- (1)). rewrite exp_Ropp. pose proof exp_le_3. pose proof (exp_pos 1).
  assert (G : 1 < exp 1) by (pose proof (exp_increasing 0 1 ltac:(lra)) as G; rewrite exp_0 in G; exact G).
  split; [apply Rinv_le_contravar; lra|]. pose proof (Rinv_le_contravar 1 (exp 1) ltac:(lra) ltac:(lra)) as I.
  rewrite Rinv_1 in I. exact I.
Qed.
Lemma deg_mid x : 1 <= x <= 2 -> / 1000 <= x * 180 / PI <= 1000.
Proof.
  intro H. pose proof PI_4. pose proof PI2_3_2. 
  assert (P3 : 3 < PI) by lra. split.
  - apply Rmult_le_reg_r with PI; [lra|]. unfold Rdiv. rewrite (Rmult_assoc (x * 180)), Rinv_l by lra. lra.
  - apply Rmult_le_reg_r with PI; [lra|]. unfold Rdiv. rewrite (Rmult_assoc (x * 180)), Rinv_l by lra. lra.
Qed.
Lemma ex_has two a i l x : ex_inst two a = Some (Reals l) -> nth_error l (Z.to_nat i) = Some x -> (0 <= i)%Z ->
  has (ex_inst two) a i x.
Proof. intros E N B. exists l. split; [exact E|split; [exact B|exact N]]. Qed.
Ltac two i := assert (TWO : i = 0%Z \/ i = 1%Z) by lia; destruct TWO as [-> | ->]; clear.
Ltac mid := apply ordinary_mid; lra.
Ltac here := eapply ex_has; [reflexivity|reflexivity|lia].
Lemma ex_sampled two s : sampled (ex_inst two) s 2.
Proof.
  pose proof PI_RGT_0 as PP. pose proof e1 as E1. pose proof PI_4. pose proof PI2_3_2.
  split; [exists [1; 2]; split; reflexivity|]. split; [intros _; exists [PI / 2; PI / 2], [1; exp (-1)]; repeat split|].
  assert (SIN : sin (PI / 2) = 1) by apply sin_PI2.
  intros c i Ic Bi. destruct s; cbn [table_of columns app In] in Ic.
  - decompose [or] Ic; try contradiction; subst c; cbn [column_is geo_column];
      (assert (TWO : i = 0%Z \/ i = 1%Z) by lia; destruct TWO as [-> | ->];
       eexists; (split; [here|mid])).
  - decompose [or] Ic; try contradiction; subst c; cbn [column_is cal_column];
      (assert (TWO : i = 0%Z \/ i = 1%Z) by lia; destruct TWO as [-> | ->];
       eexists; (split; [here|mid])).
  - assert (DEG : forall a, ex_inst two a = Some (Reals (S := real_scalar) [1; 2]) -> exists q, has_degrees (ex_inst two) a i q /\ ordinary q).
    { intros a EA. assert (TWO : i = 0%Z \/ i = 1%Z) by lia; destruct TWO as [-> | ->]; eexists;
        (split; [eexists; split; [eapply ex_has; [exact EA|reflexivity|lia]|reflexivity]|apply ordinary_mid, deg_mid; lra]). }
    decompose [or] Ic; try contradiction; subst c; cbn [column_is dlp_column]; try (apply DEG; reflexivity);
      (assert (TWO : i = 0%Z \/ i = 1%Z) by lia; destruct TWO as [-> | ->]);
      try (eexists; split; [here|mid]).
    + exists 0. split; [|left; reflexivity]. exists 1, (PI / 2). split; [here|]. split; [here|].
      split; [lra|]. split; [rewrite Rabs_pos_eq; lra|]. rewrite ln_1. ring.
    + exists 1. split; [|mid]. exists (exp (-1)), (PI / 2). split; [here|]. split; [here|].
      split; [lra|]. split; [rewrite Rabs_pos_eq; lra|]. rewrite ln_exp, SIN, Rabs_R1. ring.
    + exists 90. split; [|mid]. exists (PI / 2). split; [here|]. field. lra.
    + exists 90. split; [|mid]. exists (PI / 2). split; [here|]. field. lra.
  - assert (T0 : has_complex (ex_inst two) "T_out" 0 0 (-1)).
    { exists [(0, -1); (exp (-1), 0)]. split; [reflexivity|]. split; [lia|reflexivity]. }
    assert (T1 : has_complex (ex_inst two) "T_out" 1 (exp (-1)) 0).
    { exists [(0, -1); (exp (-1), 0)]. split; [reflexivity|]. split; [lia|reflexivity]. }
    assert (Z0 : (0, -1) <> (0, 0)) by (intros [= X]; lra).
    assert (Z1 : (exp (-1), 0) <> (0, 0)) by (intros [= X]; lra).
    decompose [or] Ic; try contradiction; subst c; cbn [column_is tau_column];
      (assert (TWO : i = 0%Z \/ i = 1%Z) by lia; destruct TWO as [-> | ->]);
      try (eexists; split; [here|mid]).
    + exists 1. split; [|mid]. exists 0, (-1). split; [exact T0|ring].
    + exists (exp (-1) * exp (-1)). split; [|apply ordinary_mid; nra].
      exists (exp (-1)), 0. split; [exact T1|ring].
    + exists 0. split; [|left; reflexivity]. exists 0, (-1), 90. split; [exact T0|]. split; [here|]. split; [exact Z0|].
      replace (0 * 0 + -1 * -1) with 1 by ring. rewrite ln_1. ring.
    + exists 2. split; [|mid]. exists (exp (-1)), 0, 90. split; [exact T1|]. split; [here|]. split; [exact Z1|].
      replace (exp (-1) * exp (-1) + 0 * 0) with (exp (-1 + -1)) by (rewrite exp_plus; ring).
      rewrite ln_exp. replace (90 * PI / 180) with (PI / 2) by field. rewrite SIN, Rabs_R1. ring.
    + exists 90. split; [|mid]. exists 0, (-1). split; [exact T0|]. split; [exact Z0|]. split; [lra|].
      replace (90 * PI / 180) with (PI / 2) by field. rewrite SIN, cos_PI2.
      replace (0 * 0 + -1 * -1) with 1 by ring. rewrite sqrt_1. split; ring.
    + exists 0. split; [|left; reflexivity]. exists (exp (-1)), 0. split; [exact T1|]. split; [exact Z1|]. split; [lra|].
      replace (0 * PI / 180) with 0 by field. rewrite sin_0, cos_0.
      replace (exp (-1) * exp (-1) + 0 * 0) with (exp (-1) * exp (-1)) by ring.
      rewrite sqrt_square by lra. split; ring.
    + exists 0. split; [left; split; reflexivity|left; reflexivity].
    + exists 0. split; [left; split; reflexivity|left; reflexivity].
Qed.
Lemma ex_uplink : uplink_sampled (ex_inst true) 2.
Proof.
  intros a i Ia Bi. cbn [In] in Ia. decompose [or] Ia; try contradiction; subst a;
    (assert (TWO : i = 0%Z \/ i = 1%Z) by lia; destruct TWO as [-> | ->]; eexists; (split; [here|mid])).
Qed.
