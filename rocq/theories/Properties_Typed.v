(** * Properties_Typed: C79, the gaps that the user types. *)
From Coq Require Import String Ascii List ZArith Bool Reals Lia.
From Verif Require Import Base Model_Time Model_Typed Spec_Typed Proof_Typed.
Import ListNotations.

(** A list of gaps with two characters between them is read as it is written.  (Python's float
    raises for the empty text.) *)
Theorem c79_typed : forall fl previous g gs x xs, plain_gap g -> Forall (fun sh => plain_gap (snd sh) /\ length (fst sh) = 2%nat /\ ~ In "["%char (fst sh)) gs ->
  fl [] = None -> reads fl g x -> Forall2 (fun sh y => reads fl (snd sh) y) gs xs -> new_gaps fl previous (typed g gs) = Returns (x :: xs).
Proof. exact typed_ok. Qed.
Print Assumptions c79_typed.
(** With one character between them all gaps but the last lose the last character of their upper
    limit, without an error as long as the rest is a number. *)
Theorem c79_close : forall fl previous g gs x xs, plain_gap g -> snd g <> [] -> Forall (fun sh => plain_gap (snd sh) /\ snd (snd sh) <> [] /\ length (fst sh) = 1%nat /\ ~ In "["%char (fst sh)) gs ->
  gs <> [] -> reads fl (shortened g) x ->
  (exists ys y, xs = ys ++ [y] /\ Forall2 (fun sh z => reads fl (shortened (snd sh)) z) (removelast gs) ys /\ reads fl (snd (last gs ([], ([], [])))) y) ->
  new_gaps fl previous (typed g gs) = Returns (x :: xs).
Proof. exact close_ok. Qed.
Print Assumptions c79_close.
(** The claim that a list of gaps is read as it is written, or refused, is false. *)
Theorem c79_close_refuted : forall fl previous,
  (forall s x, In (s, x) [("10", 10); ("20", 20); ("2", 2); ("30", 30); ("40", 40)]%string%R -> fl (list_ascii_of_string s) = Some x) ->
  new_gaps fl previous (list_ascii_of_string "[[10,20],[30,40]]") = Returns [(10, 2); (30, 40)]%R.
Proof. exact close_refuted. Qed.
Print Assumptions c79_close_refuted.
Theorem c79_refused : forall fl previous s, (forall a b, s <> a ++ "["%char :: "["%char :: b) -> (forall a b, s <> a ++ "]"%char :: "]"%char :: b) -> new_gaps fl previous s = Returns previous.
Proof. exact refused_ok. Qed.
Print Assumptions c79_refused.
(** Two gaps as Python prints them. *)
Example c79_example : forall fl previous, fl [] = None ->
  (forall s x, In (s, x) [("10", 10); (" 20", 20); ("30", 30); (" 40", 40)]%string%R -> fl (list_ascii_of_string s) = Some x) ->
  new_gaps fl previous (list_ascii_of_string "[[10, 20], [30, 40]]") = Returns [(10, 20); (30, 40)]%R.
Proof. exact example_ok. Qed.
