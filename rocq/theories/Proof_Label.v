(** * Proof_Label: where the columns of a written file are. *)
From Coq Require Import List ZArith Lia Bool Ascii String Reals Lra.
From Flocq Require Import Core.
From Verif Require Import Base BaseFacts Scalar Spec_Select Model_Csv Spec_Csv Model_Write Spec_Write
  Proof_Write Proof_Write2 Model_Label Spec_Label.
Import ListNotations.
Open Scope list_scope.

(** ** Lists *)
Lemma slice_inner {A} (l row : list A) a R off w :
  firstn R (skipn a l) = row -> (off + w <= R)%nat ->
  firstn w (skipn (a + off) l) = firstn w (skipn off row).
Proof.
  intros <- H. rewrite skipn_firstn_comm, firstn_firstn, Nat.min_l by lia.
  f_equal. clear. revert l. induction a as [|a IH]; intro l; [reflexivity|].
  destruct l; [cbn; destruct off; reflexivity|]. cbn. apply IH.
Qed.
Lemma skip_front {A} (a b : list A) k : skipn (List.length a + k) (a ++ b) = skipn k b.
Proof. induction a as [|x a IH]; [reflexivity|exact IH]. Qed.
Lemma first_front {A} (a b : list A) : firstn (List.length a) (a ++ b) = a.
Proof. induction a as [|x a IH]; [destruct b; reflexivity|]. cbn. rewrite IH. reflexivity. Qed.

(** Where column [j] starts, the first byte being 0. *)
Definition offset (ws : list nat) (j : nat) : nat := fold_right (fun w a => w + 1 + a)%nat 0%nat (firstn j ws).
Definition row_bytes (ws : list nat) : nat := (offset ws (List.length ws) + 1)%nat.

Section Layout.
  Context {S : scalar}.
  Variable P : printer S.
  Notation show := (show P).
  Notation widths fs := (map conv_width fs).

  (** A row with its columns in their places. *)
  Lemma render_layout fs : forall vs t, render P fs vs = Some t ->
    (forall j f v, nth_error fs j = Some f -> nth_error vs j = Some v -> List.length (show f v) = conv_width f) ->
    List.length t = row_bytes (widths fs) /\
    forall j f v, nth_error fs j = Some f -> nth_error vs j = Some v ->
      firstn (conv_width f) (skipn (offset (widths fs) j) t) = show f v /\
      (offset (widths fs) j + conv_width f + 1 <= List.length t)%nat /\
      (Datatypes.S j = List.length fs ->
         (offset (widths fs) j + conv_width f + 2 = List.length t)%nat /\
         skipn (offset (widths fs) j + conv_width f) t = ["013"%char; "010"%char]) /\
      (Datatypes.S j <> List.length fs ->
         firstn 1 (skipn (offset (widths fs) j + conv_width f) t) = [","%char]).
  Proof.
    induction fs as [|f fr IH]; intros vs t E W; [destruct vs; discriminate|].
    destruct vs as [|v vr]; [destruct fr; discriminate|].
    pose proof (W 0%nat f v eq_refl eq_refl) as W0.
    destruct fr as [|f2 fr].
    - destruct vr as [|v2 vr]; [|discriminate]. injection E as <-.
      split; [unfold row_bytes, offset; cbn; rewrite app_length, W0; cbn; lia|].
      intros j g u Eg Eu. destruct j as [|j]; [|destruct j; discriminate].
      injection Eg as <-. injection Eu as <-. cbn [map offset firstn fold_right skipn plus].
      rewrite <- W0. split; [apply first_front|]. rewrite app_length. split; [cbn; lia|].
      split; [|intro H; cbn in H; lia]. intros _. split; [cbn; lia|].
      rewrite <- (Nat.add_0_r (List.length (show f v))) at 1. apply skip_front.
    - remember (f2 :: fr) as fs2 eqn:EF. 
      assert (E2 : exists t2, render P fs2 vr = Some t2 /\ t = show f v ++ ","%char :: t2).
      { rewrite EF in E |- *. cbn [render] in E |- *. destruct (render P (f2 :: fr) vr) as [t2|] eqn:ER.
        - exists t2. cbn [render] in ER. rewrite ER in E. injection E as <-. auto.
        - cbn [render] in ER. rewrite ER in E. discriminate. }
      clear E. destruct E2 as (t2 & E2 & ->).
      destruct (IH vr t2 E2) as [L H]; [intros j g u A B; apply (W (Datatypes.S j) g u A B)|].
      split.
      { rewrite app_length. cbn [List.length]. rewrite L, W0. unfold row_bytes, offset. cbn [map List.length firstn fold_right]. lia. }
      assert (OFF : forall j, offset (widths (f :: fs2)) (Datatypes.S j) = (List.length (show f v) + Datatypes.S (offset (widths fs2) j))%nat).
      { intro j. rewrite W0. unfold offset. cbn [map firstn fold_right]. lia. }
      intros j g u Eg Eu. destruct j as [|j].
      + injection Eg as <-. injection Eu as <-. change (offset (widths (f :: fs2)) 0) with 0%nat. cbn [skipn plus].
        rewrite <- W0. split; [apply first_front|]. rewrite app_length. cbn [List.length]. split; [lia|].
        split; [intro X; rewrite EF in X; cbn in X; lia|]. intros _.
        rewrite <- (Nat.add_0_r (List.length (show f v))) at 1. rewrite skip_front. reflexivity.
      + cbn [nth_error] in Eg, Eu. destruct (H j g u Eg Eu) as (H1 & H2 & H3 & H4).
        rewrite OFF. replace (List.length (show f v) + Datatypes.S (offset (widths fs2) j) + conv_width g)%nat
          with (List.length (show f v) + Datatypes.S (offset (widths fs2) j + conv_width g))%nat by lia.
        rewrite !skip_front. cbn [skipn]. split; [exact H1|]. rewrite app_length. cbn [List.length].
        split; [lia|]. split.
        * intro X. destruct H3 as [H3 H3']; [lia|]. split; [lia|exact H3'].
        * intro X. apply H4. cbn [List.length] in X. lia.
  Qed.

  (** The length of a row in general. *)
  Lemma render_length fs : forall vs t, render P fs vs = Some t ->
    (forall j f v, nth_error fs j = Some f -> nth_error vs j = Some v -> (conv_width f <= List.length (show f v))%nat) ->
    (row_bytes (widths fs) <= List.length t)%nat /\
    ((exists j f v, nth_error fs j = Some f /\ nth_error vs j = Some v /\ (conv_width f < List.length (show f v))%nat) ->
     (row_bytes (widths fs) < List.length t)%nat).
  Proof.
    induction fs as [|f fr IH]; intros vs t E W; [destruct vs; discriminate|].
    destruct vs as [|v vr]; [destruct fr; discriminate|].
    pose proof (W 0%nat f v eq_refl eq_refl) as W0.
    destruct fr as [|f2 fr].
    - destruct vr as [|v2 vr]; [|discriminate]. injection E as <-.
      unfold row_bytes, offset. cbn. rewrite app_length. cbn [List.length]. split; [lia|].
      intros (j & g & u & Eg & Eu & Lt). destruct j as [|j]; [|destruct j; discriminate].
      injection Eg as <-. injection Eu as <-. lia.
    - remember (f2 :: fr) as fs2 eqn:EF.
      assert (E2 : exists t2, render P fs2 vr = Some t2 /\ t = show f v ++ ","%char :: t2).
      { rewrite EF in E |- *. cbn [render] in E |- *. destruct (render P (f2 :: fr) vr) as [t2|] eqn:ER.
        - exists t2. cbn [render] in ER. rewrite ER in E. injection E as <-. auto.
        - cbn [render] in ER. rewrite ER in E. discriminate. }
      clear E. destruct E2 as (t2 & E2 & ->).
      destruct (IH vr t2 E2) as [L H]; [intros j g u A B; apply (W (Datatypes.S j) g u A B)|].
      rewrite app_length. cbn [List.length].
      assert (RB : row_bytes (widths (f :: fs2)) = (conv_width f + 1 + row_bytes (widths fs2))%nat)
        by (unfold row_bytes, offset; cbn [map List.length firstn fold_right]; lia).
      rewrite RB. split; [lia|].
      intros (j & g & u & Eg & Eu & Lt). destruct j as [|j].
      + injection Eg as <-. injection Eu as <-. lia.
      + cbn [nth_error] in Eg, Eu. assert (row_bytes (widths fs2) < List.length t2)%nat by (apply H; eauto 10). lia.
  Qed.

  (** The rows of a file are one after the other. *)
  Lemma file_layout fs values R n : forall t, write_rows P fs values n = Some t ->
    (forall i vs row, (i < n)%nat -> all (values i) = Some vs -> render P fs vs = Some row -> List.length row = R) ->
    List.length t = (n * R)%nat /\
    forall i, (i < n)%nat -> exists vs row, all (values i) = Some vs /\ render P fs vs = Some row /\
      firstn R (skipn (i * R) t) = row.
  Proof.
    induction n as [|n IH]; intros t E H.
    - injection E as <-. split; [reflexivity|]. intros i Hi. lia.
    - cbn [write_rows] in E. destruct (write_rows P fs values n) as [t1|] eqn:E1; [|discriminate].
      destruct (all (values n)) as [vs|] eqn:EV; [|discriminate].
      destruct (render P fs vs) as [row|] eqn:ER; [|discriminate]. injection E as <-.
      destruct (IH t1 eq_refl) as [L F]; [intros i us r Hi; apply H; lia|].
      pose proof (H n vs row ltac:(lia) EV ER) as LR.
      split; [rewrite app_length, L, LR; lia|].
      intros i Hi. destruct (Nat.eq_dec i n) as [->|NE].
      + exists vs, row. split; [exact EV|]. split; [exact ER|].
        rewrite <- L. rewrite <- (Nat.add_0_r (List.length t1)) at 1. rewrite skip_front. cbn [skipn].
        rewrite <- LR. apply firstn_all.
      + destruct (F i ltac:(lia)) as (us & r & A & B & C). exists us, r. split; [exact A|]. split; [exact B|].
        assert (M : (i * R + R <= n * R)%nat) by (replace (i * R + R)%nat with ((i + 1) * R)%nat by lia; apply Nat.mul_le_mono_r; lia).
        rewrite skipn_app. replace (i * R - List.length t1)%nat with 0%nat by lia. cbn [skipn].
        rewrite firstn_app, skipn_length. replace (R - (List.length t1 - i * R))%nat with 0%nat by lia.
        rewrite firstn_O, app_nil_r. exact C.
  Qed.
  Lemma file_length fs values R n : forall t, write_rows P fs values n = Some t ->
    (forall i vs row, (i < n)%nat -> all (values i) = Some vs -> render P fs vs = Some row -> (R <= List.length row)%nat) ->
    (n * R <= List.length t)%nat /\
    ((exists i vs row, (i < n)%nat /\ all (values i) = Some vs /\ render P fs vs = Some row /\ (R < List.length row)%nat) ->
     (n * R < List.length t)%nat).
  Proof.
    induction n as [|n IH]; intros t E H.
    - injection E as <-. split; [cbn; lia|]. intros (i & _ & _ & Hi & _). lia.
    - cbn [write_rows] in E. destruct (write_rows P fs values n) as [t1|] eqn:E1; [|discriminate].
      destruct (all (values n)) as [vs|] eqn:EV; [|discriminate].
      destruct (render P fs vs) as [row|] eqn:ER; [|discriminate]. injection E as <-.
      destruct (IH t1 eq_refl) as [L F]; [intros i us r Hi; apply H; lia|].
      pose proof (H n vs row ltac:(lia) EV ER) as LR. rewrite app_length.
      split; [lia|]. intros (i & us & r & Hi & A & B & C).
      destruct (Nat.eq_dec i n) as [->|NE].
      + assert (us = vs) by congruence. subst us. assert (r = row) by congruence. subst r. lia.
      + assert (n * R < List.length t1)%nat by (apply F; exists i, us, r; repeat split; try assumption; lia). lia.
  Qed.
End Layout.

(** ** How long a printed number is *)
Lemma decimal_long n K : (0 <= n)%Z -> (10 ^ Z.of_nat K <= n)%Z -> (K < List.length (decimal n))%nat.
Proof.
  intros H L. pose proof (decimal_enough n H) as B. unfold decimal. rewrite last_length.
  set (c := digit_count (Z.to_nat (Z.log2 n)) n) in *. destruct (Nat.lt_ge_cases K c) as [Lt|Ge]; [exact Lt|].
  exfalso. assert (10 ^ Z.of_nat c <= 10 ^ Z.of_nat K)%Z by (apply Z.pow_le_mono_r; lia). lia.
Qed.
Local Open Scope R_scope.
Section Length.
  Variable P : printer real_scalar.
  Hypothesis HP : print_laws P.

  Lemma show_wide f q : (conv_width f <= List.length (show P f q))%nat.
  Proof. destruct f; cbn [show conv_width]; unfold fixed_text, exp_text; rewrite padded_length; apply Nat.le_max_l. Qed.
  Lemma fixed_le q e : (0 <= e)%Z -> Rabs q <= ten_to e - ten_to (-6) -> (pr_fixed P q < 10 ^ (e + 6))%Z.
  Proof.
    intros He H. destruct (law_fixed P HP q) as [A B]. apply Rabs_le_inv in B. rewrite ten_m6 in *.
    apply lt_IZR. rewrite Z.pow_add_r, mult_IZR, <- ten_IZR by lia. change (IZR (10 ^ 6)) with 1000000. lra.
  Qed.
  Lemma fixed_ge q e : (0 <= e)%Z -> ten_to e <= Rabs q -> (10 ^ (e + 6) <= pr_fixed P q)%Z.
  Proof.
    intros He H. destruct (law_fixed P HP q) as [A B]. apply Rabs_le_inv in B. rewrite ten_m6 in *.
    apply Z.lt_succ_r. apply lt_IZR. rewrite succ_IZR.
    rewrite Z.pow_add_r, mult_IZR, <- ten_IZR by lia. change (IZR (10 ^ 6)) with 1000000. lra.
  Qed.
  Lemma neg_sign (q : R) : (q < 0 /\ pr_neg P q = true) \/ (0 <= q /\ pr_neg P q = false).
  Proof.
    destruct (pr_neg P q) eqn:E.
    - left. split; [apply (law_neg P HP), E|reflexivity].
    - right. split; [|reflexivity]. apply Rnot_lt_le. intro X. apply (law_neg P HP) in X. congruence.
  Qed.
  Lemma digits_le q e : (1 <= e)%Z -> Rabs q <= ten_to e - ten_to (-6) ->
    (List.length (decimal (pr_fixed P q / 10 ^ 6)) <= Z.to_nat e)%nat.
  Proof.
    intros He H. pose proof (fixed_le q e ltac:(lia) H) as G. destruct (law_fixed P HP q) as [A _].
    apply decimal_length; [|lia]. rewrite Z2Nat.id by lia. split; [apply Z.div_pos; lia|].
    apply Z.div_lt_upper_bound; [lia|]. rewrite <- Z.pow_add_r by lia. replace (6 + e)%Z with (e + 6)%Z by lia. exact G.
  Qed.
  Lemma digits_ge q e : (0 <= e)%Z -> ten_to e <= Rabs q ->
    (Z.to_nat e < List.length (decimal (pr_fixed P q / 10 ^ 6)))%nat.
  Proof.
    intros He H. pose proof (fixed_ge q e ltac:(lia) H) as G. destruct (law_fixed P HP q) as [A _].
    apply decimal_long; [apply Z.div_pos; lia|]. rewrite Z2Nat.id by lia.
    apply Z.div_le_lower_bound; [lia|]. rewrite <- Z.pow_add_r by lia. replace (6 + e)%Z with (e + 6)%Z by lia. exact G.
  Qed.
  Lemma fixed_fits w q : (9 <= w)%nat -> fits (Z.of_nat w) q -> List.length (show P (F w) q) = w.
  Proof.
    intros Hw [H1 H2]. cbn [show]. unfold fixed_text. rewrite padded_length, !app_length. cbn [List.length].
    rewrite last_length. destruct (neg_sign q) as [[Hq ->]|[Hq ->]]; cbn [sign_text List.length].
    - pose proof (digits_le q (Z.of_nat w - 8) ltac:(lia)) as D. rewrite Rabs_left in D by exact Hq. specialize (D ltac:(lra)). lia.
    - pose proof (digits_le q (Z.of_nat w - 7) ltac:(lia)) as D. rewrite Rabs_pos_eq in D by exact Hq. specialize (D ltac:(lra)). lia.
  Qed.
  Lemma fixed_too_wide w q : (9 <= w)%nat -> too_wide (Z.of_nat w) q -> (w < List.length (show P (F w) q))%nat.
  Proof.
    intros Hw H. cbn [show]. unfold fixed_text. rewrite padded_length, !app_length. cbn [List.length].
    rewrite last_length. pose proof (ten_pos (Z.of_nat w - 8)). pose proof (ten_pos (Z.of_nat w - 7)).
    destruct H as [H|H]; destruct (neg_sign q) as [[Hq ->]|[Hq ->]]; try lra; cbn [sign_text List.length].
    - pose proof (digits_ge q (Z.of_nat w - 8) ltac:(lia)) as D. rewrite Rabs_left in D by exact Hq. specialize (D ltac:(lra)). lia.
    - pose proof (digits_ge q (Z.of_nat w - 7) ltac:(lia)) as D. rewrite Rabs_pos_eq in D by exact Hq. specialize (D ltac:(lra)). lia.
  Qed.
  Lemma exp_fits q : ordinary q -> List.length (show P (E 14) q) = 14%nat.
  Proof.
    intro O. destruct (exp_range P HP q O) as (B & K & _). cbn [show]. revert B K.
    generalize (fst (pr_exp P q)) (snd (pr_exp P q)) (pr_neg P q). intros n k neg B K.
    unfold exp_text. rewrite padded_length, !app_length. cbn [List.length].
    rewrite !app_length. cbn [List.length]. rewrite app_length, last_length. pose proof (sign_length neg).
    assert (List.length (decimal (n / 10 ^ 6)) <= 1)%nat.
    { apply decimal_length; [|lia]. split; [apply Z.div_pos; lia|]. apply Z.div_lt_upper_bound; [lia|].
      change (10 ^ 6 * 10 ^ Z.of_nat 1)%Z with (10 ^ 7)%Z. lia. }
    assert (H1 : (List.length ((if (Z.abs k <? 10)%Z then ["0"%char] else []) ++ decimal (Z.abs k)) <= 3)%nat).
    { rewrite app_length. destruct (Z.ltb_spec (Z.abs k) 10).
      - cbn [List.length]. pose proof (decimal_length (Z.abs k) 1 ltac:(change (10 ^ Z.of_nat 1)%Z with 10%Z; lia) ltac:(lia)). lia.
      - cbn [List.length]. pose proof (decimal_length (Z.abs k) 3 ltac:(change (10 ^ Z.of_nat 3)%Z with 1000%Z; lia) ltac:(lia)). lia. }
    rewrite app_length in H1. clear K B. revert H1. generalize (List.length (decimal (Z.abs k))).
    generalize (List.length (if (Z.abs k <? 10)%Z then ["0"%char] else [])). intros a b H1. lia.
  Qed.
End Length.
