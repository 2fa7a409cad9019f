(** * Proof_Write: printing and reading numerals; the text of a file. *)
From Coq Require Import List ZArith Lia Bool Ascii String Reals Lra.
From Verif Require Import Base BaseFacts Scalar Spec_Select Model_Csv Spec_Csv Model_Write Spec_Write.
Import ListNotations.
Open Scope list_scope.
Open Scope Z_scope.

Lemma digit_cases (Q : Z -> Prop) : Q 0 -> Q 1 -> Q 2 -> Q 3 -> Q 4 -> Q 5 -> Q 6 -> Q 7 -> Q 8 -> Q 9 ->
  forall d, 0 <= d <= 9 -> Q d.
Proof.
  intros A0 A1 A2 A3 A4 A5 A6 A7 A8 A9 d Hd.
  assert (C : d = 0 \/ d = 1 \/ d = 2 \/ d = 3 \/ d = 4 \/ d = 5 \/ d = 6 \/ d = 7 \/ d = 8 \/ d = 9) by lia.
  decompose [or] C; subst; assumption.
Qed.
Lemma digit_value_digit : forall d, 0 <= d <= 9 -> digit_value (digit d) = Some d.
Proof. apply digit_cases; reflexivity. Qed.
Definition special (c : ascii) : Prop :=
  c = ","%char \/ c = "010"%char \/ c = "000"%char \/ c = " "%char \/ c = "-"%char \/ c = "+"%char.
Lemma digit_not_special : forall d, 0 <= d <= 9 -> ~ special (digit d).
Proof.
  apply digit_cases; intro H; unfold special in H; decompose [or] H; discriminate.
Qed.
Lemma mod10 n : 0 <= n mod 10 <= 9.
Proof. pose proof (Z.mod_pos_bound n 10). lia. Qed.

Lemma read_last k : forall n m c r,
  read_digits m c (last_digits k n ++ r) =
  read_digits (m * 10 ^ Z.of_nat k + n mod 10 ^ Z.of_nat k) (c + Z.of_nat k) r.
Proof.
  induction k as [|k IH]; intros n m c r.
  - cbn [last_digits app]. change (10 ^ Z.of_nat 0) with 1. rewrite Z.mod_1_r. f_equal; cbn; lia.
  - cbn [last_digits]. rewrite <- app_assoc, IH. cbn [app read_digits].
    rewrite digit_value_digit by apply mod10.
    f_equal; [|lia].
    rewrite Nat2Z.inj_succ, Z.pow_succ_r by lia.
    rewrite (Z.rem_mul_r n 10 (10 ^ Z.of_nat k)) by lia. ring.
Qed.
Lemma last_length k : forall n, List.length (last_digits k n) = k.
Proof. induction k as [|k IH]; intro n; [reflexivity|]. cbn [last_digits]. rewrite app_length, IH. cbn. lia. Qed.
Lemma last_chars k : forall n c, In c (last_digits k n) -> exists d, 0 <= d <= 9 /\ c = digit d.
Proof.
  induction k as [|k IH]; intros n c H; [destruct H|]. cbn [last_digits] in H.
  apply in_app_or in H as [H|[<-|[]]]; [eauto|]. eexists. split; [apply (mod10 n)|reflexivity].
Qed.
Lemma last_head k : forall n, exists d t, 0 <= d <= 9 /\ last_digits (Datatypes.S k) n = digit d :: t.
Proof.
  induction k as [|k IH]; intro n.
  - exists (n mod 10), []. split; [apply mod10|reflexivity].
  - destruct (IH (n / 10)) as (d & t & B & E).
    exists d, (t ++ [digit (n mod 10)]). split; [exact B|].
    change (last_digits (Datatypes.S (Datatypes.S k)) n) with (last_digits (Datatypes.S k) (n / 10) ++ [digit (n mod 10)]).
    rewrite E. reflexivity.
Qed.

Lemma count_pos f n : (1 <= digit_count f n)%nat.
Proof. destruct f; cbn; [lia|]. destruct (n <? 10); lia. Qed.
Lemma count_enough f : forall n, 0 <= n < 10 ^ Z.of_nat (Datatypes.S f) -> n < 10 ^ Z.of_nat (digit_count f n).
Proof.
  induction f as [|f IH]; intros n B; [exact (proj2 B)|].
  cbn [digit_count]. destruct (Z.ltb_spec n 10); [change (10 ^ Z.of_nat 1) with 10; lia|].
  rewrite (Nat2Z.inj_succ (Datatypes.S f)), Z.pow_succ_r in B by lia.
  rewrite (Nat2Z.inj_succ (digit_count f (n / 10))), Z.pow_succ_r by lia.
  assert (C : n / 10 < 10 ^ Z.of_nat (digit_count f (n / 10))).
  { apply IH. split; [apply Z.div_pos; lia|]. apply Z.div_lt_upper_bound; lia. }
  pose proof (Z.div_mod n 10 ltac:(lia)). pose proof (mod10 n). lia.
Qed.
Lemma count_bound f : forall n K, 0 <= n < 10 ^ Z.of_nat K -> (1 <= K)%nat -> (digit_count f n <= K)%nat.
Proof.
  induction f as [|f IH]; intros n K B HK; [exact HK|].
  cbn [digit_count]. destruct (Z.ltb_spec n 10); [exact HK|].
  destruct K as [|K]; [lia|]. destruct K as [|K]; [change (10 ^ Z.of_nat 1) with 10 in B; lia|].
  apply le_n_S. apply IH; [|lia].
  rewrite (Nat2Z.inj_succ (Datatypes.S K)), Z.pow_succ_r in B by lia.
  split; [apply Z.div_pos; lia|]. apply Z.div_lt_upper_bound; lia.
Qed.
Lemma decimal_enough n : 0 <= n -> n < 10 ^ Z.of_nat (digit_count (Z.to_nat (Z.log2 n)) n).
Proof.
  intro H. apply count_enough. split; [exact H|].
  pose proof (Z.log2_nonneg n). rewrite Nat2Z.inj_succ, Z2Nat.id by lia.
  destruct (Z.eq_dec n 0) as [->|]; [cbn; lia|].
  eapply Z.lt_le_trans; [apply Z.log2_spec; lia|]. apply Z.pow_le_mono_l. lia.
Qed.
Lemma read_decimal n r : 0 <= n -> exists c, 0 < c /\
  forall m k, read_digits m k (decimal n ++ r) = read_digits (m * 10 ^ c + n) (k + c) r.
Proof.
  intro H. exists (Z.of_nat (digit_count (Z.to_nat (Z.log2 n)) n)).
  split; [pose proof (count_pos (Z.to_nat (Z.log2 n)) n); lia|].
  intros m k. unfold decimal. rewrite read_last. f_equal.
  rewrite Z.mod_small; [reflexivity|]. split; [exact H|apply decimal_enough, H].
Qed.
Lemma decimal_head n : exists d t, 0 <= d <= 9 /\ decimal n = digit d :: t.
Proof.
  unfold decimal. pose proof (count_pos (Z.to_nat (Z.log2 n)) n) as H.
  destruct (digit_count _ n) as [|k]; [lia|]. apply last_head.
Qed.
Lemma decimal_chars n c : In c (decimal n) -> exists d, 0 <= d <= 9 /\ c = digit d.
Proof. apply last_chars. Qed.
Lemma decimal_length n K : 0 <= n < 10 ^ Z.of_nat K -> (1 <= K)%nat -> (List.length (decimal n) <= K)%nat.
Proof. intros B H. unfold decimal. rewrite last_length. apply count_bound; assumption. Qed.

Lemma skip_padded w s : skip_blanks (padded w s) = skip_blanks s.
Proof. unfold padded. induction (w - List.length s)%nat as [|k IH]; [reflexivity|exact IH]. Qed.
Lemma skip_padded_app w s r : skip_blanks (padded w s ++ r) = skip_blanks (s ++ r).
Proof.
  unfold padded. rewrite <- app_assoc.
  induction (w - List.length s)%nat as [|k IH]; [reflexivity|exact IH].
Qed.
Lemma ascii_neq a b : a <> b -> Ascii.eqb a b = false.
Proof. intro H. apply Ascii.eqb_neq. exact H. Qed.

(** What follows a printed number: nothing, or the carriage return. *)
Definition tail (r : text) : Prop := r = [] \/ r = ["013"%char].

Lemma start_digits (neg : bool) n s : exists d t,
  0 <= d <= 9 /\ decimal n ++ s = digit d :: t /\
  read_sign (skip_blanks (sign_text neg ++ decimal n ++ s)) = (neg, decimal n ++ s).
Proof.
  destruct (decimal_head n) as (d & t & B & E). exists d, (t ++ s). split; [exact B|].
  rewrite E. split; [reflexivity|].
  pose proof (digit_not_special d B) as X. unfold special in X.
  destruct neg; cbn [sign_text app].
  - cbn [skip_blanks]. rewrite (ascii_neq "-"%char " "%char) by discriminate. reflexivity.
  - cbn [skip_blanks]. rewrite (ascii_neq (digit d) " "%char) by (intros E2; rewrite E2 in X; tauto).
    unfold read_sign. rewrite (ascii_neq (digit d) "-"%char), (ascii_neq (digit d) "+"%char) by (intros E2; rewrite E2 in X; tauto).
    reflexivity.
Qed.
Lemma millionths n : n / 10 ^ 6 * 10 ^ Z.of_nat 6 + n mod 10 ^ Z.of_nat 6 = n.
Proof. change (Z.of_nat 6) with 6. pose proof (Z.div_mod n (10 ^ 6) ltac:(lia)). lia. Qed.

Definition signed (neg : bool) (n : Z) : Z := if neg then - n else n.
Lemma numeral_fixed w neg n r : 0 <= n -> tail r ->
  numeral (fixed_text w neg n ++ r) = Some (signed neg n, -6).
Proof.
  intros Hn Hr. unfold numeral, fixed_text. rewrite skip_padded_app. rewrite <- !app_assoc. cbn [app].
  destruct (start_digits neg (n / 10 ^ 6) ("."%char :: last_digits 6 n ++ r)) as (d & t & _ & _ & ->).
  destruct (read_decimal (n / 10 ^ 6) ("."%char :: last_digits 6 n ++ r)) as (c & Hc & R); [apply Z.div_pos; lia|].
  rewrite R. cbn [read_digits]. change (digit_value ".") with (@None Z). cbv iota beta zeta.
  rewrite Ascii.eqb_refl. rewrite (proj2 (Z.ltb_lt 0 (0 + c))) by lia. cbn [andb].
  rewrite read_last. rewrite Z.mul_0_l, Z.add_0_l, millionths.
  destruct Hr as [->| ->]; cbn [read_digits].
  - reflexivity.
  - change (digit_value "013") with (@None Z). reflexivity.
Qed.
Lemma numeral_exp w neg n k r : 0 <= n -> tail r ->
  numeral (exp_text w neg n k ++ r) = Some (signed neg n, k - 6).
Proof.
  intros Hn Hr. unfold numeral, exp_text. rewrite skip_padded_app. rewrite <- !app_assoc. cbn [app].
  rewrite <- !app_assoc. cbn [app]. rewrite <- !app_assoc.
  set (X := ((if Z.abs k <? 10 then ["0"%char] else []) ++ decimal (Z.abs k) ++ r)).
  set (sg := if k <? 0 then "-"%char else "+"%char).
  destruct (start_digits neg (n / 10 ^ 6) ("."%char :: last_digits 6 n ++ "E"%char :: sg :: X)) as (d & t & _ & _ & ->).
  destruct (read_decimal (n / 10 ^ 6) ("."%char :: last_digits 6 n ++ "E"%char :: sg :: X)) as (c & Hc & R); [apply Z.div_pos; lia|].
  rewrite R. cbn [read_digits]. change (digit_value ".") with (@None Z). cbv iota beta zeta.
  rewrite Ascii.eqb_refl. rewrite (proj2 (Z.ltb_lt 0 (0 + c))) by lia. cbn [andb].
  rewrite read_last. rewrite Z.mul_0_l, Z.add_0_l, millionths.
  cbn [read_digits]. change (digit_value "E") with (@None Z). cbv iota beta zeta.
  rewrite Ascii.eqb_refl.
  assert (E : read_sign (sg :: X) = (k <? 0, X)) by (unfold sg; destruct (k <? 0); reflexivity).
  rewrite E.
  assert (D : exists j, read_digits 0 0 X = (Z.abs k, j, r)).
  { destruct (read_decimal (Z.abs k) r) as (c2 & _ & R2); [lia|].
    assert (F : forall j, exists j2, read_digits (Z.abs k) j r = (Z.abs k, j2, r)).
    { intro j. destruct Hr as [->| ->]; cbn [read_digits]; [eauto|].
      change (digit_value "013") with (@None Z). eauto. }
    unfold X. destruct (Z.abs k <? 10).
    - cbn [app read_digits]. change (digit_value "0") with (Some 0). cbv iota beta zeta.
      rewrite R2. change ((10 * 0 + 0) * 10 ^ c2 + Z.abs k) with (0 + Z.abs k). rewrite Z.add_0_l. apply F.
    - cbn [app]. rewrite R2, Z.mul_0_l, Z.add_0_l. apply F. }
  destruct D as [j ->]. change (Z.of_nat 6) with 6. unfold signed. f_equal. f_equal.
  destruct (Z.ltb_spec k 0); rewrite ?Z.abs_neq, ?Z.abs_eq by lia; lia.
Qed.

(** Characters and lengths. *)
Lemma padded_chars w s c : In c (padded w s) -> c = " "%char \/ In c s.
Proof.
  unfold padded. intro H. apply in_app_or in H as [H|H]; [left; apply repeat_spec in H; exact H|auto].
Qed.
Definition separator (c : ascii) : Prop := c = ","%char \/ c = "010"%char \/ c = "000"%char.
Lemma sign_sep neg c : In c (sign_text neg) -> ~ separator c.
Proof. destruct neg; intros H; cbn in H; [destruct H as [<-|[]]|destruct H]. intro X. unfold separator in X. decompose [or] X; discriminate. Qed.
Lemma decimal_sep n c : In c (decimal n) -> ~ separator c.
Proof. intros H X. apply decimal_chars in H as (d & B & ->). apply (digit_not_special d B). unfold separator, special in *. tauto. Qed.
Lemma last_sep k n c : In c (last_digits k n) -> ~ separator c.
Proof. intros H X. apply last_chars in H as (d & B & ->). apply (digit_not_special d B). unfold separator, special in *. tauto. Qed.
Ltac nosep := let X := fresh in intro X; unfold separator in X; decompose [or] X; discriminate.
Lemma fixed_chars w neg n c : In c (fixed_text w neg n) -> ~ separator c.
Proof.
  intro H. apply padded_chars in H as [->|H]; [nosep|].
  apply in_app_or in H as [H|H]; [eapply sign_sep, H|].
  apply in_app_or in H as [H|[<-|H]]; [eapply decimal_sep, H|nosep|eapply last_sep, H].
Qed.
Lemma exp_chars w neg n k c : In c (exp_text w neg n k) -> ~ separator c.
Proof.
  intro H. apply padded_chars in H as [->|H]; [nosep|].
  apply in_app_or in H as [H|H]; [eapply sign_sep, H|].
  apply in_app_or in H as [H|[<-|H]]; [eapply decimal_sep, H|nosep|].
  apply in_app_or in H as [H|[<-|[<-|H]]]; [eapply last_sep, H|nosep|destruct (k <? 0); nosep|].
  apply in_app_or in H as [H|H]; [|eapply decimal_sep, H].
  destruct (Z.abs k <? 10); [destruct H as [<-|[]]; nosep|destruct H].
Qed.
Lemma padded_length w s : List.length (padded w s) = Nat.max w (List.length s).
Proof. unfold padded. rewrite app_length, repeat_length. lia. Qed.
Lemma sign_length neg : (List.length (sign_text neg) <= 1)%nat.
Proof. destruct neg; cbn; lia. Qed.
Lemma fixed_length w neg n : (w <= 20)%nat -> 0 <= n < 10 ^ 37 -> (List.length (fixed_text w neg n) <= 39)%nat.
Proof.
  intros Hw B. unfold fixed_text. rewrite padded_length, !app_length. cbn [List.length].
  rewrite last_length. pose proof (sign_length neg).
  assert (List.length (decimal (n / 10 ^ 6)) <= 31)%nat.
  { apply decimal_length; [|lia]. split; [apply Z.div_pos; lia|]. apply Z.div_lt_upper_bound; [lia|].
    change (10 ^ 6 * 10 ^ Z.of_nat 31) with (10 ^ 37). lia. }
  lia.
Qed.
Lemma exp_length7 w neg n k : (w <= 20)%nat -> 0 <= n < 10 ^ 7 -> Z.abs k < 1000 ->
  (List.length (exp_text w neg n k) <= 39)%nat.
Proof.
  intros Hw B Hk. unfold exp_text. rewrite padded_length, !app_length. cbn [List.length].
  rewrite !app_length. cbn [List.length]. rewrite app_length, last_length. pose proof (sign_length neg).
  assert (List.length (decimal (n / 10 ^ 6)) <= 1)%nat.
  { apply decimal_length; [|lia]. split; [apply Z.div_pos; lia|]. apply Z.div_lt_upper_bound; [lia|].
    change (10 ^ 6 * 10 ^ Z.of_nat 1) with (10 ^ 7). lia. }
  assert (H1 : (List.length ((if (Z.abs k <? 10)%Z then ["0"%char] else []) ++ decimal (Z.abs k)) <= 3)%nat).
  { rewrite app_length. destruct (Z.ltb_spec (Z.abs k) 10).
    - cbn [List.length]. pose proof (decimal_length (Z.abs k) 1 ltac:(change (10 ^ Z.of_nat 1) with 10; lia) ltac:(lia)). lia.
    - cbn [List.length]. pose proof (decimal_length (Z.abs k) 3 ltac:(change (10 ^ Z.of_nat 3) with 1000; lia) ltac:(lia)). lia. }
  rewrite app_length in H1. clear Hk B. revert H1. generalize (List.length (decimal (Z.abs k))).
  generalize (List.length (if (Z.abs k <? 10)%Z then ["0"%char] else [])). intros a b H1. lia.
Qed.

(** ** The rows of the file *)
Section Rows.
  Context {S : scalar}.
  Variable P : printer S.
  Notation show := (show P).

  Lemma render_row fs : forall vs, List.length fs = List.length vs -> fs <> [] ->
    exists gs, render P fs vs = Some (row_text gs) /\ List.length gs = List.length fs /\
      forall j f v, nth_error fs j = Some f -> nth_error vs j = Some v ->
        exists r, tail r /\ nth_error gs j = Some (show f v ++ r).
  Proof.
    induction fs as [|f fr IH]; intros vs EL NE; [congruence|]. clear NE.
    destruct vs as [|v vr]; [discriminate|]. injection EL as EL.
    destruct fr as [|f2 fr].
    - destruct vr as [|]; [|discriminate]. exists [show f v ++ ["013"%char]].
      split; [cbn; rewrite <- app_assoc; reflexivity|]. split; [reflexivity|].
      intros j f0 v0 A B. destruct j as [|j]; [|destruct j; discriminate].
      injection A as <-. injection B as <-. exists ["013"%char]. split; [right; reflexivity|reflexivity].
    - destruct (IH vr EL ltac:(discriminate)) as (gs & E & LG & H).
      destruct vr as [|v2 vr]; [discriminate|].
      exists (show f v :: gs). split.
      + change (render P (f :: f2 :: fr) (v :: v2 :: vr)) with
          (match render P (f2 :: fr) (v2 :: vr) with Some t => Some (show f v ++ ","%char :: t) | None => None end).
        rewrite E. destruct gs as [|g gs]; [discriminate|]. reflexivity.
      + split; [cbn; rewrite LG; reflexivity|].
        intros j f0 v0 A B. destruct j as [|j].
        * injection A as <-. injection B as <-. exists []. split; [left; reflexivity|]. rewrite app_nil_r. reflexivity.
        * apply (H j f0 v0 A B).
  Qed.
  Lemma render_mismatch fs : forall vs, List.length fs <> List.length vs -> render P fs vs = None.
  Proof.
    induction fs as [|f fr IH]; intros vs NE; [reflexivity|].
    destruct vs as [|v vr]; [destruct fr; reflexivity|].
    assert (NE2 : List.length fr <> List.length vr) by (cbn in NE; lia).
    destruct fr as [|f2 fr].
    - destruct vr as [|v2 vr]; [cbn in NE2; lia|reflexivity].
    - change (render P (f :: f2 :: fr) (v :: vr)) with
        (match render P (f2 :: fr) vr with Some t => Some (show f v ++ ","%char :: t) | None => None end).
      rewrite (IH vr NE2). reflexivity.
  Qed.

  (** Cell [j] of row [i] is the number printed. *)
  Definition cells (fs : list conversion) (values : nat -> list (option S)) (rows : list (list text)) : Prop :=
    forall i gs, nth_error rows i = Some gs ->
      List.length gs = List.length fs /\
      forall j f v, nth_error fs j = Some f -> nth_error (values i) j = Some (Some v) ->
        exists r, tail r /\ nth_error gs j = Some (show f v ++ r).

  Lemma all_some {A} (l : list (option A)) : (forall j x, nth_error l j = Some x -> exists a, x = Some a) ->
    exists vs, all l = Some vs /\ l = map Some vs.
  Proof.
    induction l as [|x l IH]; intro H; [exists []; auto|].
    destruct (H 0%nat x eq_refl) as [a ->].
    destruct IH as (vs & E & M); [intros j y; apply (H (Datatypes.S j))|].
    exists (a :: vs). cbn. rewrite E, M at 1. split; [reflexivity|]. cbn. rewrite <- M. reflexivity.
  Qed.
  Lemma write_rows_table fs values n : fs <> [] ->
    (forall i, (i < n)%nat -> List.length (values i) = List.length fs /\
       forall j x, nth_error (values i) j = Some x -> exists a, x = Some a) ->
    exists rows, write_rows P fs values n = Some (table_text rows) /\ List.length rows = n /\ cells fs values rows.
  Proof.
    intros NE. induction n as [|n IH]; intro H.
    - exists []. split; [reflexivity|]. split; [reflexivity|]. intros i gs E. destruct i; discriminate.
    - destruct IH as (rows & E & LR & C); [intros i Hi; apply H; lia|].
      destruct (H n ltac:(lia)) as [LV V].
      destruct (all_some (values n) V) as (vs & EA & M).
      destruct (render_row fs vs) as (gs & ER & LG & G); [|exact NE|].
      { rewrite <- LV, M, map_length. reflexivity. }
      exists (rows ++ [gs]). split.
      + cbn [write_rows]. rewrite E, EA, ER. unfold table_text. rewrite flat_map_app. cbn [flat_map].
        rewrite app_nil_r. reflexivity.
      + split; [rewrite app_length, LR; cbn; lia|].
        intros i g Hi. destruct (Nat.lt_ge_cases i n) as [Lt|Ge].
        * rewrite nth_error_app1 in Hi by lia. apply (C i g Hi).
        * rewrite nth_error_app2 in Hi by lia. rewrite LR in Hi.
          destruct (i - n)%nat as [|k] eqn:D; [|destruct k; discriminate].
          injection Hi as <-. assert (i = n) by lia. subst i.
          split; [exact LG|]. intros j f v A B. apply (G j f v A).
          rewrite M in B. rewrite nth_error_map in B. destruct (nth_error vs j); [|discriminate].
          cbn in B. injection B as ->. reflexivity.
  Qed.
  Lemma write_rows_mismatch fs values n : (0 < n)%nat ->
    (forall vs, all (values 0%nat) = Some vs -> List.length fs <> List.length vs) ->
    write_rows P fs values n = None.
  Proof.
    intros Hn M. induction n as [|n IH]; [lia|]. cbn [write_rows].
    destruct n as [|n].
    - cbn [write_rows]. destruct (all (values 0%nat)) as [vs|] eqn:E; [|reflexivity].
      rewrite (render_mismatch fs vs (M vs eq_refl)). reflexivity.
    - rewrite IH by lia. reflexivity.
  Qed.
End Rows.
