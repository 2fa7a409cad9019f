(** * Ref_Csv: a reference implementation of the library functions that the CSV
    readers call.  It shows that the laws assumed in Spec_Csv.v can be met and is
    used in the examples. *)
From Coq Require Import List ZArith Lia Bool Ascii.
From Verif Require Import Base BaseFacts Scalar Spec_Select Model_Heap Model_Csv Model_CsvData
  Spec_Csv Proof_CsvText.
Import ListNotations.
Open Scope list_scope.
Open Scope Z_scope.

Fixpoint count_char (a : ascii) (s : text) : Z :=
  match s with
  | [] => 0
  | c :: r => (if Ascii.eqb c a then 1 else 0) + count_char a r
  end.
Fixpoint first_line (s : text) : text :=
  match s with
  | [] => []
  | c :: r => if Ascii.eqb c "010"%char then [] else c :: first_line r
  end.
(** The decimal digits at the start of a field, after an optional minus sign. *)
Fixpoint digits (acc : Z) (s : text) : Z :=
  match s with
  | [] => acc
  | c :: r => let n := Z.of_nat (nat_of_ascii c) - 48 in
              if (0 <=? n) && (n <=? 9) then digits (acc * 10 + n) r else acc
  end.
Definition number (s : text) : Z :=
  match s with
  | c :: r => if Ascii.eqb c "-"%char then - digits 0 r else digits 0 s
  | [] => 0
  end.
(** Interpolation by the sample at or before the position. *)
Fixpoint step_at {S : scalar} (xs ys : list S) (last p : S) : S :=
  match xs, ys with
  | x :: xr, y :: yr => if sle x p then step_at xr yr y p else last
  | _, _ => last
  end.
Definition ref_csv (S : scalar) (alloc : site -> bool) : csvlib S := {|
  l_atof := fun f => sofZ (number f);
  l_line_count := count_char "010"%char;
  l_column_count := fun s => count_char ","%char (first_line s) + 1;
  l_interp := fun xs ys ps => map (step_at xs ys (match ys with y :: _ => y | [] => s0 end)) ps;
  l_sind := fun x => x;
  l_exp := fun x => (s1 + x)%S;
  l_alloc := alloc
|}.

Lemma count_app a s r : count_char a (s ++ r) = count_char a s + count_char a r.
Proof. induction s as [|c s IH]; cbn; [reflexivity|rewrite IH; lia]. Qed.
Lemma count_none a s : (forall c, In c s -> c <> a) -> count_char a s = 0.
Proof.
  induction s as [|c s IH]; cbn; intro H; [reflexivity|].
  destruct (Ascii.eqb_spec c a) as [->|]; [exfalso; apply (H a); auto|].
  rewrite IH; [reflexivity|]. intros d I; apply H; auto.
Qed.
Lemma plain_count f a : plain f -> a = ","%char \/ a = "010"%char -> count_char a f = 0.
Proof. intros [_ P] A. apply count_none. intros c I. destruct (P c I) as [P1 [P2 _]]. destruct A; subst; assumption. Qed.
Lemma row_newlines fs : Forall plain fs -> count_char "010"%char (row_text fs) = 1.
Proof.
  induction 1 as [|f r P F IH]; [reflexivity|].
  destruct r as [|g r]; [cbn [row_text]; rewrite count_app, (plain_count f) by tauto; reflexivity|].
  change (row_text (f :: g :: r)) with (f ++ ","%char :: row_text (g :: r)).
  rewrite count_app, (plain_count f) by tauto.
  change (count_char "010" (","%char :: row_text (g :: r))) with (0 + count_char "010" (row_text (g :: r))).
  rewrite IH. reflexivity.
Qed.
Lemma first_line_app s r : (forall c, In c s -> c <> "010"%char) ->
  first_line (s ++ r) = s ++ first_line r.
Proof.
  induction s as [|c s IH]; cbn; intro H; [reflexivity|].
  destruct (Ascii.eqb_spec c "010"%char) as [->|]; [exfalso; apply (H "010"%char); auto|].
  rewrite IH; [reflexivity|]. intros d I; apply H; auto.
Qed.
Lemma row_commas fs r : Forall plain fs -> fs <> [] ->
  count_char ","%char (first_line (row_text fs ++ r)) + 1 = zlen fs.
Proof.
  intros F; induction F as [|f t P F IH]; intro N; [congruence|].
  assert (Pn : forall c, In c f -> c <> "010"%char) by (intros c I; apply (proj2 P c I)).
  destruct t as [|g t].
  - cbn [row_text]. rewrite <- app_assoc, first_line_app by exact Pn.
    cbn [app first_line]. rewrite Ascii.eqb_refl, app_nil_r, plain_count by tauto. reflexivity.
  - change (row_text (f :: g :: t)) with (f ++ ","%char :: row_text (g :: t)).
    rewrite <- app_assoc, first_line_app by exact Pn.
    rewrite count_app, plain_count by tauto.
    change (first_line ((","%char :: row_text (g :: t)) ++ r)) with (","%char :: first_line (row_text (g :: t) ++ r)).
    change (count_char "," (","%char :: first_line (row_text (g :: t) ++ r)))
      with (1 + count_char "," (first_line (row_text (g :: t) ++ r))).
    specialize (IH ltac:(discriminate)). rewrite (zlen_cons f), <- IH. lia.
Qed.
Lemma digits_newline s : forall acc, digits acc (s ++ ["010"%char]) = digits acc s.
Proof.
  induction s as [|c s IH]; intro acc; [reflexivity|]. cbn [digits app].
  destruct ((0 <=? Z.of_nat (nat_of_ascii c) - 48) && (Z.of_nat (nat_of_ascii c) - 48 <=? 9)); [apply IH|reflexivity].
Qed.

Lemma ref_csv_laws S alloc : csv_laws (ref_csv S alloc).
Proof.
  split.
  - intros f [N _]. cbn. f_equal. destruct f as [|c r]; [congruence|]. cbn [number app].
    destruct (Ascii.eqb c "-"); [f_equal; apply digits_newline|].
    exact (digits_newline (c :: r) 0).
  - intros k rows W. cbn. induction W as [|fs r [_ [P _]] W IH]; [reflexivity|].
    unfold table_text; cbn [flat_map]. rewrite count_app, row_newlines by exact P.
    unfold table_text in IH. rewrite IH, zlen_cons. lia.
  - intros k fs rows K [E [P _]] W. cbn. unfold table_text; cbn [flat_map].
    rewrite row_commas; [unfold zlen; rewrite E; reflexivity|exact P|].
    intros ->; cbn in E; lia.
Qed.
