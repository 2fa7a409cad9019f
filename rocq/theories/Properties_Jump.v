(** * Properties_Jump: C82, the discontinuities of the frequency offsets. *)
From Coq Require Import List ZArith Bool Reals Lra Lia Sorted.
From Verif Require Import Base Model_Time Model_Jump Spec_Jump Proof_Jump.
Import ListNotations.
Open Scope R_scope.

Theorem c82_disconts : forall x f rho df n, (2 <= n)%nat ->
  exists l, get_disconts (sampled x n) (sampled f n) (sampled rho n) df = 0%Z :: map Z.of_nat l ++ [(-1)%Z] /\ StronglySorted lt l /\ forall d, In d l <-> sharp x f n d /\ genuine x f rho df n d.
Proof. exact disconts_ok. Qed.
Print Assumptions c82_disconts.
(** Of two sharp bends that are close to each other neither is kept. *)
Theorem c82_pair : forall x f rho df n d e, (2 <= n)%nat -> sharp x f n d -> sharp x f n e -> (d < e < d + 10)%nat ->
  ~ In (Z.of_nat d) (get_disconts (sampled x n) (sampled f n) (sampled rho n) df) /\ ~ In (Z.of_nat e) (get_disconts (sampled x n) (sampled f n) (sampled rho n) df).
Proof. exact pair_ok. Qed.
Print Assumptions c82_pair.
(** The claim that a jump is found is false: a step from any value to any other between evenly
    spaced samples is never found, wherever and however high it is. *)
Theorem c82_step_refuted : forall m a b rho df n, (2 <= m)%nat -> (m + 2 <= n)%nat -> get_disconts (sampled clock n) (sampled (step m a b) n) (sampled rho n) df = [0%Z; (-1)%Z].
Proof. exact step_refuted. Qed.
Print Assumptions c82_step_refuted.
(** A kink in the middle of 25 samples is sharp and is found. *)
Example c82_example : sharp clock kink 25 12 /\ get_disconts (sampled clock 25) (sampled kink 25) (sampled (fun _ => 80000) 25) (1 / 10) = [0%Z; 12%Z; (-1)%Z].
Proof. split; [apply kink_sharp; reflexivity|exact kink_found]. Qed.
(** Both ends of a ramp of three samples are sharp. *)
Example c82_pair_example : sharp clock ramp 25 10 /\ sharp clock ramp 25 13.
Proof. exact ramp_sharp. Qed.
