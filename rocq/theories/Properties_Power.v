(** * Properties_Power: C78, the free space that calibrates the power. *)
From Coq Require Import String List ZArith Bool Reals Lra Lia Sorted Permutation.
From Verif Require Import Base Model_Time Model_Chord Spec_Mask Model_Power Spec_Power Proof_Power Proof_Power2.
Import ListNotations.
Open Scope R_scope.

(** The gaps that remain, the samples selected and the order of the fit; the second case is that
    the unit is not a number. *)
Theorem c78_mask : forall order gaps spm pc, length pc = length spm -> (forall p, In (Some p) pc -> 0 < p) -> forall mask gaps' order', create_mask order gaps spm pc = Returns (mask, gaps', order') ->
  (order' = if le_dec (length gaps') 5 then 1%Z else order) /\
  ((exists u, largest (between gaps) spm pc u /\ kept (stays spm pc u) gaps gaps' /\ selects mask (length spm) (free gaps' spm pc u)) \/
   ((forall i s p, sample spm pc i s (Some p) -> ~ between gaps s) /\ gaps' = gaps /\ selects mask (length spm) (fun _ => False))).
Proof. exact mask_ok. Qed.
Print Assumptions c78_mask.
Theorem c78_raises : forall order gaps spm pc, length pc = length spm -> (forall p, In (Some p) pc -> 0 < p) ->
  (create_mask order gaps spm pc = Raises <-> forall i s p, sample spm pc i s p -> ~ between gaps s) /\ create_mask order gaps spm pc <> Exits.
Proof. exact raises_ok. Qed.
Print Assumptions c78_raises.
Theorem c78_range : forall order gaps spm pc, length pc = length spm -> (forall p, In (Some p) pc -> 0 < p) -> forall mask gaps' order', create_mask order gaps spm pc = Returns (mask, gaps', order') ->
  forall i, nth i mask false = true -> exists s p u, sample spm pc i s (Some p) /\ largest (between gaps) spm pc u /\ (exists g, In g gaps /\ fst g <= s <= snd g) /\ 4 / 10 * u < p < 135 / 100 * u.
Proof. exact range_ok. Qed.
Print Assumptions c78_range.
Theorem c78_asks : forall order gaps spm pc, length pc = length spm -> (forall p, In (Some p) pc -> 0 < p) -> forall asks mask used geo, normalise order gaps spm pc = Returns (asks, mask, used, geo) ->
  (gaps = [] /\ asks = true /\ geo = gaps \/ exists m o, create_mask order gaps spm pc = Returns (m, geo, o) /\ (asks = true <-> forall i, nth i m false = false) /\ (asks = false -> mask = m /\ used = geo)) /\
  (asks = true -> selects mask (length spm) (fun _ => True) /\ exists a b, nth_error spm 1 = Some a /\ nth_error spm (length spm - 2) = Some b /\ used = [(a, b)]).
Proof. exact normalise_ok. Qed.
Print Assumptions c78_asks.
(** The claim that a calibration leaves the geometry as it was, so that it can be repeated, is
    false: of the two gaps of the witness the first calibration removes one from the geometry, and
    the same calibration with the same signal then finds no free space and asks the user. *)
Theorem c78_again_refuted : exists order gaps spm pc mask used geo mask2 used2 geo2,
  length pc = length spm /\ (forall p, In (Some p) pc -> 0 < p) /\
  normalise order gaps spm pc = Returns (false, mask, used, geo) /\ geo <> gaps /\
  normalise order geo spm pc = Returns (true, mask2, used2, geo2).
Proof. exact again_refuted. Qed.
Print Assumptions c78_again_refuted.
Example c78_example : length ex_pc = length ex_spm /\ (forall p, In (Some p) ex_pc -> 0 < p) /\
  exists mask, create_mask 3 ex_gaps ex_spm ex_pc = Returns (mask, [(0, 4)], 1%Z) /\ nth 0 mask false = true /\ nth 3 mask false = false.
Proof. exact example_ok. Qed.
