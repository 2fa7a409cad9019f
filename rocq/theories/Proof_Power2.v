(** * Proof_Power2: the theorems of C78 and a calibration that cannot be repeated. *)
From Coq Require Import String List ZArith Bool Reals Lra Lia Sorted Permutation.
From Verif Require Import Base Model_Time Model_Chord Model_Frame Model_Mask Spec_Mask Proof_Chord Model_Power Spec_Power Proof_Power.
Import ListNotations.
Open Scope R_scope.

Lemma mask_ok : forall order gaps spm pc, length pc = length spm -> (forall p, In (Some p) pc -> 0 < p) -> forall mask gaps' order', create_mask order gaps spm pc = Returns (mask, gaps', order') -> whole order gaps spm pc mask gaps' order'.
Proof. intros order gaps spm pc L P mask gaps' order' E. assert (H := power_mask order gaps spm pc L P). rewrite E in H. apply H. Qed.
Lemma raises_ok : forall order gaps spm pc, length pc = length spm -> (forall p, In (Some p) pc -> 0 < p) ->
  (create_mask order gaps spm pc = Raises <-> forall i s p, sample spm pc i s p -> ~ between gaps s) /\ create_mask order gaps spm pc <> Exits.
Proof.
  intros order gaps spm pc L P. assert (H := power_mask order gaps spm pc L P). destruct (create_mask order gaps spm pc) as [[[m g] o]| |]; [|split; [tauto|discriminate]|destruct H].
  split; [|discriminate]. split; [discriminate|]. intros N. destruct H as (_ & i & s & p & S & B). exfalso. exact (N i s p S B).
Qed.
Lemma kept_in : forall {A} (P : A -> Prop) l l' a, kept P l l' -> In a l' -> In a l /\ P a.
Proof. intros A P l l' a K. induction K; intros I; [destruct I|destruct I as [-> | I]; [split; [left; reflexivity|assumption]|apply IHK in I; split; [right|]; tauto]|apply IHK in I; split; [right|]; tauto]. Qed.
Lemma range_ok : forall order gaps spm pc, length pc = length spm -> (forall p, In (Some p) pc -> 0 < p) -> forall mask gaps' order', create_mask order gaps spm pc = Returns (mask, gaps', order') ->
  forall i, nth i mask false = true -> exists s p u, sample spm pc i s (Some p) /\ largest (between gaps) spm pc u /\ (exists g, In g gaps /\ fst g <= s <= snd g) /\ 4 / 10 * u < p < 135 / 100 * u.
Proof.
  intros order gaps spm pc L P mask gaps' order' E i H. destruct (mask_ok _ _ _ _ L P _ _ _ E) as [_ [(u & U & K & S)|(_ & _ & S)]]; apply S in H; [|tauto].
  destruct H as (_ & s & p & g & m & A & I & W & M & D). apply (kept_in _ _ _ _ K) in I. destruct I as [I St]. specialize (St m M).
  assert (U0 : 0 < u) by (destruct U as [(j & t & [_ T] & _) _]; apply nth_error_In in T; apply P, T).
  exists s, p, u. split; [exact A|]. split; [exact U|]. split; [exists g; auto|]. assert (Q : p = p / u * u) by (field; lra). rewrite Q. split; apply Rmult_lt_compat_r; lra.
Qed.

(** ** A calibration that cannot be repeated *)
Definition ex_spm : list R := [0; 1; 2; 3; 4; 5; 6; 7].
Definition ex_pc : list (option R) := [Some 1; Some 1; Some 1; Some 3; Some 1; Some 1; Some (1 / 10); Some (1 / 10)].
Definition ex_gaps : list (R * R) := [(0, 4); (6, 7)].
Lemma ex_pos : forall p, In (Some p) ex_pc -> 0 < p.
Proof. intros p H. cbn [In ex_pc] in H. repeat (destruct H as [H|H]; [injection H as <-; lra|]). destruct H. Qed.
Lemma ex_powers : forall u, powers_in (0, 4) ex_spm ex_pc u = [1 / u; 1 / u; 1 / u; 3 / u; 1 / u] /\ powers_in (6, 7) ex_spm ex_pc u = [1 / 10 / u; 1 / 10 / u].
Proof.
  intros u. unfold powers_in, ex_spm, ex_pc. cbn [combine flat_map fst snd]. split.
  - repeat (match goal with |- context [Rle_dec ?a ?b] => destruct (Rle_dec a b); [|try (exfalso; lra)]; try (exfalso; lra) end); reflexivity.
  - repeat (match goal with |- context [Rle_dec ?a ?b] => destruct (Rle_dec a b); [|try (exfalso; lra)]; try (exfalso; lra) end); reflexivity.
Qed.
Lemma ex_median1 : forall u, 0 < u -> median (powers_in (0, 4) ex_spm ex_pc u) (1 / u).
Proof.
  intros u U. rewrite (proj1 (ex_powers u)). exists [1 / u; 1 / u; 1 / u; 1 / u; 3 / u]. assert (0 < / u) by (apply Rinv_0_lt_compat, U).
  split; [do 3 constructor; apply perm_swap|]. split; [repeat constructor; unfold Rdiv; lra|]. split; [discriminate|]. cbn. field. lra.
Qed.
Lemma ex_median2 : forall u, 0 < u -> median (powers_in (6, 7) ex_spm ex_pc u) (1 / 10 / u).
Proof. intros u U. rewrite (proj2 (ex_powers u)). exists [1 / 10 / u; 1 / 10 / u]. split; [reflexivity|]. split; [repeat constructor; lra|]. split; [discriminate|]. cbn. field. lra. Qed.
Lemma between2 : forall s, between ex_gaps s <-> 4 <= s <= 6.
Proof.
  intros s. unfold between, ex_gaps. cbn [length Nat.sub nth_error]. split.
  - intros [(g & E & _)|[(_ & g & h & A & B & H)|(H & _)]]; [discriminate| |lia]. injection A as <-. injection B as <-. cbn [fst snd] in H. lra.
  - intros H. right. left. split; [auto|]. exists (0, 4), (6, 7). cbn [fst snd]. repeat split. right. lra.
Qed.
Lemma between1 : forall s, between [(0, 4)] s <-> 0 < s <= 4.
Proof.
  intros s. unfold between. split.
  - intros [(g & E & H)|[([H|H] & _)|(H & _)]]; [injection E as <-; exact H|discriminate|discriminate|cbn [length] in H; lia].
  - intros H. left. exists (0, 4). auto.
Qed.
Lemma unit2 : forall u, largest (between ex_gaps) ex_spm ex_pc u -> u = 1.
Proof.
  intros u [(i & s & S & B) M]. assert (1 <= u) by (apply (M 4%nat 4 1); [split; reflexivity|apply between2; lra]). apply between2 in B. destruct S as [SA SB]. destruct i as [|[|[|[|[|[|[|[|i]]]]]]]]; cbn [nth_error ex_spm ex_pc] in SA, SB; [..|destruct i; discriminate]; injection SA as <-; injection SB as <-; lra.
Qed.
Lemma unit1 : forall u, largest (between [(0, 4)]) ex_spm ex_pc u -> u = 3.
Proof.
  intros u [(i & s & S & B) M]. assert (3 <= u) by (apply (M 3%nat 3 3); [split; reflexivity|apply between1; lra]). apply between1 in B. destruct S as [SA SB]. destruct i as [|[|[|[|[|[|[|[|i]]]]]]]]; cbn [nth_error ex_spm ex_pc] in SA, SB; [..|destruct i; discriminate]; injection SA as <-; injection SB as <-; lra.
Qed.
Lemma first_mask : exists mask, create_mask 3 ex_gaps ex_spm ex_pc = Returns (mask, [(0, 4)], 1%Z) /\ nth 0 mask false = true /\ nth 3 mask false = false.
Proof.
  assert (H := power_mask 3 ex_gaps ex_spm ex_pc eq_refl ex_pos). destruct (create_mask 3 ex_gaps ex_spm ex_pc) as [[[mask g] o]| |].
  - destruct H as [[O [(u & U & K & S)|(N & _)]] _].
    + apply unit2 in U. subst u. assert (St : stays ex_spm ex_pc 1 (0, 4)) by (intros m M; rewrite (median_unique _ _ _ M (ex_median1 1 ltac:(lra))); lra).
      assert (Ns : ~ stays ex_spm ex_pc 1 (6, 7)) by (intros Q; specialize (Q _ (ex_median2 1 ltac:(lra))); lra).
      assert (g = [(0, 4)]) as ->.
      { inversion K as [|a l l' Pa K1 Ea Eb|a l l' Pa K1 Ea Eb]; subst; [|contradiction]. inversion K1 as [|b m m' Pb K2 Ec Ed|b m m' Pb K2 Ec Ed]; subst; [contradiction|]. inversion K2. reflexivity. }
      exists mask. cbn [length] in O. destruct (le_dec 1 5) as [_|N]; [subst o|lia]. split; [reflexivity|]. split.
      * apply S. split; [cbn; lia|]. exists 0, 1, (0, 4), (1 / 1). split; [split; reflexivity|]. split; [left; reflexivity|]. split; [cbn [fst snd]; lra|]. split; [apply ex_median1; lra|lra].
      * destruct (nth 3 mask false) eqn:E; [|reflexivity]. apply S in E. destruct E as (_ & s & p & g & m & [_ B] & [<- | []] & _ & M & D). injection B as <-. rewrite (median_unique _ _ _ M (ex_median1 1 ltac:(lra))) in D. lra.
    + exfalso. apply (N 5%nat 5 1); [split; reflexivity|apply between2; lra].
  - exfalso. apply (H 5%nat 5 (Some 1)); [split; reflexivity|apply between2; lra].
  - destruct H.
Qed.
Lemma second_mask : exists mask, create_mask 3 [(0, 4)] ex_spm ex_pc = Returns (mask, [], 1%Z) /\ forall i, nth i mask false = false.
Proof.
  assert (H := power_mask 3 [(0, 4)] ex_spm ex_pc eq_refl ex_pos). destruct (create_mask 3 [(0, 4)] ex_spm ex_pc) as [[[mask g] o]| |].
  - destruct H as [[O [(u & U & K & S)|(N & _)]] _].
    + apply unit1 in U. subst u. assert (Ns : ~ stays ex_spm ex_pc 3 (0, 4)) by (intros Q; specialize (Q _ (ex_median1 3 ltac:(lra))); lra).
      assert (g = []) as ->. { inversion K as [|a l l' Pa K1 Ea Eb|a l l' Pa K1 Ea Eb]; subst; [contradiction|]. inversion K1. reflexivity. }
      exists mask. cbn [length] in O. destruct (le_dec 0 5) as [_|N]; [subst o|lia]. split; [reflexivity|]. intros i. destruct (nth i mask false) eqn:E; [|reflexivity]. apply S in E. destruct E as (_ & s & p & g & m & _ & [] & _).
    + exfalso. apply (N 3%nat 3 3); [split; reflexivity|apply between1; lra].
  - exfalso. apply (H 3%nat 3 (Some 3)); [split; reflexivity|apply between1; lra].
  - destruct H.
Qed.
Lemma again_refuted : exists order gaps spm pc mask used geo mask2 used2 geo2,
  length pc = length spm /\ (forall p, In (Some p) pc -> 0 < p) /\
  normalise order gaps spm pc = Returns (false, mask, used, geo) /\ geo <> gaps /\
  normalise order geo spm pc = Returns (true, mask2, used2, geo2).
Proof.
  destruct first_mask as (m1 & E1 & T & _). destruct second_mask as (m2 & E2 & F).
  exists 3%Z, ex_gaps, ex_spm, ex_pc, m1, [(0, 4)], [(0, 4)], (map (fun _ => true) ex_spm), [(1, 6)], [].
  split; [reflexivity|]. split; [exact ex_pos|]. split; [|split; [discriminate|]].
  - unfold normalise, ex_gaps at 1. fold ex_gaps. rewrite E1. cbn [pybind]. destruct (forallb negb m1) eqn:A; [|reflexivity]. exfalso. rewrite forallb_forall in A.
    destruct m1 as [|b m1]; [discriminate|]. cbn [nth] in T. subst b. specialize (A true (or_introl eq_refl)). discriminate.
  - unfold normalise. rewrite E2. cbn [pybind]. replace (forallb negb m2) with true; [reflexivity|]. symmetry. apply forallb_forall. intros b I. apply In_nth with (d := false) in I. destruct I as (i & _ & <-). rewrite F. reflexivity.
Qed.
Lemma example_ok : length ex_pc = length ex_spm /\ (forall p, In (Some p) ex_pc -> 0 < p) /\
  exists mask, create_mask 3 ex_gaps ex_spm ex_pc = Returns (mask, [(0, 4)], 1%Z) /\ nth 0 mask false = true /\ nth 3 mask false = false.
Proof. split; [reflexivity|]. split; [exact ex_pos|exact first_mask]. Qed.
