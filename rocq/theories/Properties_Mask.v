(** * Properties_Mask: C77, the frequency offsets that are fitted. *)
From Coq Require Import String List ZArith Bool Reals Lra Lia.
From Verif Require Import Base Model_Time Model_Chord Model_Mask Spec_Mask Proof_Chord Proof_Mask.
Import ListNotations.
Open Scope R_scope.

(** In particular the search for the next kept samples never removes one. *)
Theorem c77_clip : forall f diff stdev df, length diff = length f ->
  exists mask, sigma_clip f diff stdev df = Returns mask /\ selects mask (length f) (steady f diff stdev df).
Proof. exact clip_ok. Qed.
Print Assumptions c77_clip.
Theorem c77_neighbours : forall m, thinned m (neighbor_check m).
Proof. exact neighbours_ok. Qed.
Print Assumptions c77_neighbours.
Theorem c77_mask : forall med df f rho mask, create_mask med df f rho = Returns mask ->
  exists dist stdev c t, length dist = length f /\
    (forall i x y, nth_error f i = Some (Some x) -> med f = Some y -> nth_error dist i = Some (Some (Rabs (x - y)))) /\
    (forall v, med (map (option_map (fun d => d * d)) dist) = Some v -> stdev = Rmin 15 (5 * sqrt v)) /\
    selects c (length f) (steady f dist stdev df) /\ thinned c t /\
    (((5 <= trues t)%nat /\ mask = t) \/
     ((trues t < 5)%nat /\ exists c', thinned c' mask /\
        selects c' (length f) (fun i => exists x r, nth_error f i = Some (Some x) /\ nth_error rho i = Some r /\ -150 <= x <= 150 /\ (r <= 92000 \/ 118000 <= r)))).
Proof. exact mask_ok. Qed.
Print Assumptions c77_mask.
Theorem c77_total : forall med df f rho, length rho = length f -> exists mask, create_mask med df f rho = Returns mask.
Proof. exact mask_total. Qed.
Print Assumptions c77_total.
(** Nine offsets, one of them not a number and one outside the band: the ones next to the
    outlier go as well, the one next to the other stays. *)
Definition ex_off : list (option R) := [Some 1; Some 1; Some 1; Some 200; Some 1; None; Some 1; Some 1; Some 1].
Example c77_example : exists mask, sigma_clip ex_off ex_off 300 10 = Returns mask /\ mask = [true; true; false; false; false; false; true; true; true].
Proof.
  destruct (c77_clip ex_off ex_off 300 10 eq_refl) as (mask & E & L & S). exists mask. split; [exact E|].
  assert (A : forall i x, nth_error ex_off i = Some (Some x) -> -150 <= x <= 150 -> ((2 <= i)%nat -> (i + 3 <= 9)%nat -> forall k y, k = (i - 1)%nat \/ k = (i + 1)%nat -> nth_error ex_off k = Some (Some y) -> Rabs (x - y) <= 10) -> nth i mask false = true).
  { intros i x N B C. apply S. split; [apply nth_error_Some; rewrite N; discriminate|]. exists x. split; [exact N|]. split; [exact B|]. split; [|exact C]. intros d D. rewrite N in D. injection D as <-. lra. }
  assert (F : forall i, (~ exists x, nth_error ex_off i = Some (Some x) /\ -150 <= x <= 150 /\ ((2 <= i)%nat -> (i + 3 <= 9)%nat -> forall k y, k = (i - 1)%nat \/ k = (i + 1)%nat -> nth_error ex_off k = Some (Some y) -> Rabs (x - y) <= 10)) -> nth i mask false = false).
  { intros i N. destruct (nth i mask false) eqn:M; [|reflexivity]. apply S in M. destruct M as (_ & x & H1 & H2 & _ & H3). exfalso. apply N. exists x. auto. }
  assert (R199 : Rabs (1 - 200) <= 10 -> False) by (intros H; rewrite Rabs_left in H by lra; lra).
  assert (M0 := A 0%nat 1 eq_refl ltac:(lra) ltac:(intros; lia)). assert (M1 := A 1%nat 1 eq_refl ltac:(lra) ltac:(intros; lia)).
  assert (M2 := F 2%nat ltac:(intros (x & H1 & _ & H3); injection H1 as <-; apply R199; apply (H3 ltac:(lia) ltac:(lia) 3%nat 200 (or_intror eq_refl) eq_refl))).
  assert (M3 := F 3%nat ltac:(intros (x & H1 & H2 & _); injection H1 as <-; lra)).
  assert (M4 := F 4%nat ltac:(intros (x & H1 & _ & H3); injection H1 as <-; apply R199; apply (H3 ltac:(lia) ltac:(lia) 3%nat 200 (or_introl eq_refl) eq_refl))).
  assert (M5 := F 5%nat ltac:(intros (x & H1 & _); discriminate)).
  assert (M6 : nth 6 mask false = true) by (apply (A 6%nat 1 eq_refl); [lra|]; intros _ _ k y [-> | ->] K; [discriminate K|injection K as <-; rewrite Rminus_diag_eq by reflexivity; rewrite Rabs_R0; lra]).
  assert (M7 := A 7%nat 1 eq_refl ltac:(lra) ltac:(intros; lia)). assert (M8 := A 8%nat 1 eq_refl ltac:(lra) ltac:(intros; lia)).
  clear - L M0 M1 M2 M3 M4 M5 M6 M7 M8. do 9 (destruct mask as [|? mask]; [discriminate L|]). destruct mask; [|discriminate L]. cbn in *. subst. reflexivity.
Qed.
