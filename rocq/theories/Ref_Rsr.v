(** * Ref_Rsr: files for the examples of C73. *)
From Coq Require Import String List ZArith Bool Reals Lra Lia.
From Verif Require Import Base Model_Time Model_Chord Model_Free Model_Frame Model_Resample Model_Dlp Model_Rsr Spec_Rsr.
From Verif Require Import Proof_Dlp Proof_Rsr Proof_Rsr2.
Import ListNotations.
Local Open Scope Z_scope.

Fixpoint zeros (n : nat) : list Z := match n with O => [] | S n => 0 :: zeros n end.
(** Two bytes of the length, the bits, the rate, the two years, two bytes of the length of the
    data, and the last byte of the first coefficient of the frequency. *)
Definition ex_head (len : Z * Z) (bits rate : Z) (year1 year2 : Z * Z) (data : Z * Z) (p1 : Z) : list Z :=
  zeros 12 ++ zeros 6 ++ [fst len; snd len] ++ zeros 40 ++ [fst year1; snd year1; 0; 100] ++ zeros 4 ++ [bits; 0; 0; rate; 0; 5; 0; 8; fst year2; snd year2; 0; 100]
  ++ zeros 7 ++ [9] ++ zeros 88 ++ zeros 7 ++ [p1] ++ zeros 7 ++ [2] ++ zeros 7 ++ [3] ++ zeros 58 ++ [fst data; snd data].
Definition ex_f64 (b : list Z) : R := IZR (number b).
Fixpoint thin (q : nat) (skip : nat) (l : list (R * R)) : list (R * R) :=
  match l with [] => [] | a :: l' => match skip with O => a :: thin q (q - 1) l' | S s => thin q s l' end end.
Definition ex_dec (q : nat) (l : list (R * R)) : list (R * R) := thin q 0 l.
Definition plain : options := {| to25 := false; to10 := false; to5 := false; to1_50 := false; to8 := false; to4 := false; to2 := false; to1_16 := false; bias := true |}.
Definition fourth : options := {| to25 := true; to10 := false; to5 := false; to1_50 := false; to8 := false; to4 := true; to2 := true; to1_16 := true; bias := false |}.
Lemma thin_length : forall q, (0 < q)%nat -> forall l s, (s < q)%nat -> length (thin q s l) = ((length l + (q - 1 - s)) / q)%nat.
Proof.
  intros q Q l. induction l as [|a l IH]; intros s H; cbn [thin length]; [symmetry; apply Nat.div_small; lia|]. destruct s as [|s].
  - cbn [length]. rewrite IH by lia. replace (S (length l) + (q - 1 - 0))%nat with (length l + 1 * q)%nat by lia. rewrite Nat.div_add by lia. replace (q - 1 - (q - 1))%nat with 0%nat by lia. rewrite Nat.add_0_r. lia.
  - rewrite IH by lia. f_equal. lia.
Qed.
Lemma ex_dec_ok : one_of_each ex_dec.
Proof. intros q x Q. unfold ex_dec. rewrite thin_length by lia. f_equal. lia. Qed.

(** Two records of two samples and a part of a third, with year [y]. *)
Definition two (rate : Z) (y : Z * Z) (i : Z) : record := {| head := ex_head (0, 248) 16 rate y (7, 220) (0, 8) 1; samples := [(i, 7); (-3, -32767)] |}.
Lemma two_ok : forall rate y i tail, short i -> (length tail < 268)%nat -> rate = 1 \/ rate = 16 \/ rate = 50 -> well_formed rate 2 (two rate y i) [two rate y 5] tail.
Proof.
  intros rate y i tail H T Rr. assert (K : forall j, short j -> alike 2 (two rate y j)).
  { intros j J. split; [reflexivity|]. split; [reflexivity|]. unfold short in *. cbn. constructor; [cbn; lia|]. constructor; [cbn; lia|constructor]. }
  split; [lia|]. split; [constructor; [apply K, H|constructor; [apply K; unfold short; lia|constructor]]|]. split; [|exact T].
  destruct Rr as [-> |[-> | ->]]; repeat split; reflexivity.
Qed.
(** Records of one second: the first coefficients of the frequency are 1 and 4. *)
Definition long (p1 : Z) : record := {| head := ex_head (16, 144) 16 1 (7, 220) (7, 220) (15, 160) p1; samples := repeat (1, 2) 1000 |}.
Lemma long_ok : well_formed 1 1000 (long 1) [long 4] [].
Proof.
  assert (K : forall p, alike 1000 (long p)).
  { intros p. split; [reflexivity|]. split; [apply repeat_length|]. apply Forall_forall. intros s Hs. apply repeat_spec in Hs. subst s. unfold short. cbn. lia. }
  split; [lia|]. split; [constructor; [apply K|constructor; [apply K|constructor]]|]. split; [repeat split; reflexivity|cbn; lia].
Qed.

(** ** Samples of eight bits. *)
Theorem bits_ok : forall f64 dec o file, number (field 68 1 (firstn 260 file)) = 8 -> Z.of_nat (length file) = 260 + number (field 258 2 (firstn 260 file)) -> reader f64 dec o file = Raises.
Proof.
  intros f64 dec o file B L. unfold reader, uint. rewrite header_260. destruct (length file <? 260)%nat eqn:C; [reflexivity|]. apply Nat.ltb_ge in C. cbv zeta.
  rewrite !f_bits, !f_data, !be_number, B. change (8 =? 0) with false. cbv iota. set (D := number (field 258 2 (firstn 260 file))) in *.
  destruct (_ =? 0); [reflexivity|]. set (p := Z.to_nat (D * 8 / (2 * 8))). set (ns := Z.to_nat (_ / _)). destruct (spaced _ _ _) as [|t l] eqn:E; [reflexivity|].
  assert (P : (0 < p)%nat). { apply (f_equal (@length R)) in E. rewrite spaced_length in E. cbn in E. nia. }
  unfold sfdu_range. destruct (_ || _)%bool; [|reflexivity]. destruct (nearest_index _ _); [|reflexivity]. destruct (nearest_index _ _); [|reflexivity]. cbn [pybind fst snd].
  rewrite Nat.add_1_r. cbn [blocks]. rewrite Nat.mul_0_l, skipn_O. rewrite firstn_all2 by (unfold p in *; Z.div_mod_to_equations; lia). destruct file as [|z file]; [cbn in C; lia|].
  replace (length (z :: file) <? 260 + 4 * p)%nat with true; [reflexivity|]. symmetry. apply Nat.ltb_lt. unfold p in *. Z.div_mod_to_equations. lia.
Qed.
