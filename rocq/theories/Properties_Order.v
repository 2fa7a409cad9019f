(** * Properties_Order: C81, the order of the polynomial for the frequency offsets. *)
From Coq Require Import List ZArith Bool Reals Lra Lia.
From Verif Require Import Base Model_Time Model_Order Spec_Order Proof_Order.
Import ListNotations.
Open Scope R_scope.

Theorem c81_order : forall fit data, least_squares fit data -> data <> [] -> NoDup (map fst data) ->
  exists k, calc_poly_order fit data = Returns k /\ (1 <= k <= 9)%nat /\ (k = 1 \/ k + 2 <= length data)%nat /\
    (forall j, (1 <= j < k)%nat -> significant data j) /\ (k = 9%nat \/ ~ significant data k).
Proof. exact order_ok. Qed.
Print Assumptions c81_order.
(** Data on a polynomial of order [d] are fitted with no higher order. *)
Theorem c81_exact : forall fit data c d, least_squares fit data -> data <> [] -> NoDup (map fst data) -> (1 <= d)%nat -> length c = S d -> (forall p, In p data -> value c (fst p) = snd p) ->
  exists k, calc_poly_order fit data = Returns k /\ (k <= d)%nat.
Proof. exact exact_ok. Qed.
Print Assumptions c81_exact.
(** The claim that an order which fits the data exactly is found if there is one is false: of a
    cubic the second order brings nothing, and the search ends with a line. *)
Theorem c81_cubic_refuted : forall fit, least_squares fit cubic -> calc_poly_order fit cubic = Returns 1%nat /\ least cubic 3 0 /\ forall s, least cubic 1 s -> 0 < s.
Proof. exact cubic_refuted. Qed.
Print Assumptions c81_cubic_refuted.
(** The hypotheses are met by the fits of a parabola, whose order is found. *)
Example c81_example : least_squares square_fit square /\ square <> [] /\ NoDup (map fst square) /\ calc_poly_order square_fit square = Returns 2%nat.
Proof. split; [exact square_fits|]. split; [discriminate|]. split; [exact square_distinct|exact square_order]. Qed.
