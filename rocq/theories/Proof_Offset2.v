(** * Proof_Offset2: tones and windows. *)
From Coq Require Import String List ZArith Bool Reals Lra Lia Sorting.Sorted.
From Flocq Require Import Core.
From Verif Require Import Base Model_Time Model_Chord Model_Frame Model_Sky Model_Offset Spec_Sky Spec_Offset Proof_Chord Proof_Sky2 Proof_Offset.
Import ListNotations.
Open Scope R_scope.

Lemma spectrum_ext : forall n t t' z z' f, (forall k, (k < n)%nat -> t k = t' k) -> (forall k, (k < n)%nat -> z k = z' k) -> spectrum n t z f = spectrum n t' z' f.
Proof. intros n t t' z z' f T Z. unfold spectrum. f_equal. f_equal; (f_equal; apply total_ext; intros k Hk; rewrite T, Z by exact Hk; reflexivity). Qed.
Lemma nth_map_seq : forall {A} (g : nat -> A) n k d, (k < n)%nat -> nth k (map g (seq 0 n)) d = g k.
Proof. intros A g n k d H. rewrite (nth_indep _ d (g 0%nat)) by (rewrite map_length, seq_length; exact H). rewrite map_nth, seq_nth by exact H. reflexivity. Qed.
Theorem tone_peak : forall dt t0 n A f0 theta m j, (4 <= n)%nat -> 0 < dt -> dt < 5 / 2 -> A <> 0 ->
  let time := map (fun k => t0 + dt * INR k) (seq 0 n) in let IQ := map (fun t => signal A (2 * PI * f0 * t + theta)) time in
  let Q := spectrum n INR (fun k => nth k IQ (0, 0)) in
  bin n m -> (forall m', bin n m' -> m' <> m -> Q (IZR m' / INR n) < Q (IZR m / INR n)) -> (j <= 400)%nat -> f0 = IZR m / (INR n * dt) - 2 / 10 + INR j / 1000 ->
  find_peak_freq dt time IQ = Returns f0.
Proof.
  intros dt t0 n A f0 theta m j N D0 D1 HA time IQ Q B M J F.
  assert (Lt : length time = n) by (unfold time; rewrite map_length, seq_length; reflexivity). assert (Li : length IQ = n) by (unfold IQ; rewrite map_length; exact Lt).
  pose proof (peak_ok dt time IQ ltac:(lia) ltac:(lia)) as P. cbv zeta in P. rewrite Li in P. destruct P as (m1 & j1 & B1 & Q1 & J1 & E & G).
  assert (Em : m1 = m). { destruct (Z.eq_dec m1 m) as [|Ne]; [assumption|]. specialize (M m1 B1 Ne). specialize (Q1 m B). unfold Q in M. lra. } subst m1.
  rewrite E. f_equal. specialize (G j J). rewrite <- F in G. set (g := IZR m / (INR n * dt) - 2 / 10 + INR j1 / 1000) in *.
  assert (S : forall f, spectrum n (fun k => nth k time 0) (fun k => nth k IQ (0, 0)) f = spectrum n (fun k => t0 + dt * INR k) (fun k => signal A (2 * PI * f0 * (t0 + dt * INR k) + theta)) f).
  { intros f. apply spectrum_ext; intros k Hk; [unfold time; apply (nth_map_seq (fun k => t0 + dt * INR k)), Hk|]. unfold IQ, time. rewrite map_map. apply (nth_map_seq (fun k => signal A (2 * PI * f0 * (t0 + dt * INR k) + theta))), Hk. }
  rewrite !S in G. destruct (Req_dec g f0) as [|Ne]; [assumption|exfalso].
  pose proof (strongest n A (fun k => t0 + dt * INR k) (fun k => 2 * PI * f0 * (t0 + dt * INR k) + theta) f0 theta g dt N HA) as K.
  assert (spectrum n (fun k => t0 + dt * INR k) (fun k => signal A (2 * PI * f0 * (t0 + dt * INR k) + theta)) g < spectrum n (fun k => t0 + dt * INR k) (fun k => signal A (2 * PI * f0 * (t0 + dt * INR k) + theta)) f0); [|lra].
  apply K; [intros; ring|intros k; cbn [INR]; ring|]. intros i I.
  assert (Gd : f0 - g = (INR j - INR j1) / 1000) by (rewrite F; unfold g; field; split; [lra|apply not_0_INR; lia]).
  apply le_INR in J, J1. replace (INR 400) with 400 in * by (rewrite INR_IZR_INZ; reflexivity). pose proof (pos_INR j). pose proof (pos_INR j1).
  assert (Bi : -1 < IZR i < 1) by (rewrite <- I, Gd; split; nra).
  assert (i = 0)%Z by (destruct Bi as (b1 & b2); apply lt_IZR in b1, b2; lia). subst i. apply Ne. apply Rmult_integral in I. destruct I; lra.
Qed.
Theorem tone_bin : forall dt t0 n A theta m, (4 <= n)%nat -> 0 < dt -> dt < 5 / 2 -> A <> 0 -> bin n m ->
  let f0 := IZR m / (INR n * dt) in
  let time := map (fun k => t0 + dt * INR k) (seq 0 n) in let IQ := map (fun t => signal A (2 * PI * f0 * t + theta)) time in
  find_peak_freq dt time IQ = Returns f0.
Proof.
  intros dt t0 n A theta m N D0 D1 HA B f0 time IQ. assert (Nn : INR n <> 0) by (apply not_0_INR; lia).
  apply (tone_peak dt t0 n A f0 theta m 200 N D0 D1 HA B); [|lia|unfold f0; replace (INR 200) with 200 by (rewrite INR_IZR_INZ; reflexivity); lra].
  intros m' B' Ne. fold time IQ.
  assert (S : forall f, spectrum n INR (fun k => nth k IQ (0, 0)) f = spectrum n INR (fun k => signal A (2 * PI * f0 * (t0 + dt * INR k) + theta)) f).
  { intros f. apply spectrum_ext; intros k Hk; [reflexivity|]. unfold IQ, time. rewrite map_map. apply (nth_map_seq (fun k => signal A (2 * PI * f0 * (t0 + dt * INR k) + theta))), Hk. }
  rewrite !S. apply (strongest n A INR (fun k => 2 * PI * f0 * (t0 + dt * INR k) + theta) (IZR m / INR n) (2 * PI * f0 * t0 + theta) (IZR m' / INR n) 1 N HA).
  - intros k _. unfold f0. field. split; [lra|exact Nn].
  - intros k. cbn [INR]. ring.
  - intros i I. unfold bin in B, B'. assert (E : IZR (m - m') = IZR (i * Z.of_nat n)) by (rewrite minus_IZR, mult_IZR, <- INR_IZR_INZ, <- I; field; exact Nn). apply eq_IZR in E. assert (i = 0)%Z by nia. subst i. lia.
Qed.

(** ** Windows. *)
Lemma samples_filter : forall w mid l, filter (fun d => in_window w mid (fst d)) l = samples_in w mid l.
Proof.
  intros w mid l. induction l as [|d l IH]; [reflexivity|]. cbn [filter samples_in]. unfold in_window at 1. rewrite IH. destruct (ltb (fst d) (mid - w)) eqn:E1; [apply ltb_true in E1|apply ltb_false in E1]; (destruct (ltb (fst d) (mid + w)) eqn:E2; [apply ltb_true in E2|apply ltb_false in E2]);
    cbn [negb andb]; destruct (Rle_dec (mid - w) (fst d)); try lra; try (destruct (Rlt_dec (fst d) (mid + w)); try lra); reflexivity.
Qed.
Lemma in_arange : forall a b s x, 0 < s -> In x (arange a b s) <-> exists k : nat, x = a + s * INR k /\ x < b.
Proof.
  intros a b s x S0. unfold arange. rewrite in_map_iff.
  assert (K : forall k : nat, (k < Z.to_nat (Zceil ((b - a) / s)))%nat <-> a + s * INR k < b).
  { intros k. assert (E : a + s * INR k < b <-> INR k < (b - a) / s).
    { split; intros H; [apply (Rmult_lt_reg_r s); [exact S0|]; unfold Rdiv; rewrite Rmult_assoc, Rinv_l by lra; lra|]. apply (Rmult_lt_compat_r s) in H; [|exact S0]. unfold Rdiv in H. rewrite Rmult_assoc, Rinv_l in H by lra. lra. }
    rewrite E, INR_IZR_INZ. split; intros H.
    - apply Rnot_le_lt. intros C. pose proof (Zceil_glb (Z.of_nat k) _ C). lia.
    - pose proof (Zceil_ub ((b - a) / s)) as U. assert (Z.of_nat k < Zceil ((b - a) / s))%Z by (apply lt_IZR; lra). lia. }
  split.
  - intros (k & <- & I). exists k. split; [reflexivity|]. apply K. apply in_seq in I. lia.
  - intros (k & E & L). exists k. split; [symmetry; exact E|]. apply in_seq. split; [lia|]. apply K. rewrite <- E. exact L.
Qed.
Lemma arange_sorted : forall a b s, 0 < s -> StronglySorted Rlt (arange a b s).
Proof.
  intros a b s S0. unfold arange. generalize 0%nat as i. induction (Z.to_nat (Zceil ((b - a) / s))) as [|n IH]; intros i; [constructor|]. cbn [seq map]. constructor; [apply IH|].
  apply Forall_forall. intros y Hy. apply in_map_iff in Hy. destruct Hy as (k & <- & Hk). apply in_seq in Hk. assert (INR i < INR k) by (apply lt_INR; lia). nra.
Qed.
Lemma sorted_filter : forall (p : R -> bool) l, StronglySorted Rlt l -> StronglySorted Rlt (filter p l).
Proof. intros p l H. induction H as [|a l H IH F]; [constructor|]. cbn [filter]. destruct (p a); [|exact IH]. constructor; [exact IH|]. rewrite Forall_forall in *. intros x I. apply filter_In in I. apply F, I. Qed.
Lemma filter_map_fst : forall {A B} (g : A -> B) (p : B -> bool) l, map fst (filter (fun w => p (snd w)) (map (fun a => (a, g a)) l)) = filter (fun a => p (g a)) l.
Proof. intros A B g p l. induction l as [|a l IH]; [reflexivity|]. cbn [map filter snd]. destruct (p (g a)); cbn [map fst]; rewrite IH; reflexivity. Qed.
Theorem windows_ok : forall spm IQ lo hi w out, find_offset_freqs spm IQ lo hi w = Returns out ->
  let W := fun s => samples_in w s (combine spm IQ) in
  (forall s, In s (map fst out) <-> exists k : nat, s = lo + 10 * INR k /\ s < hi + 10 /\ (2 < length (W s))%nat) /\ StronglySorted Rlt (map fst out) /\
  exists t0 t1 l, spm = t0 :: t1 :: l /\ forall s f, In (s, f) out -> find_peak_freq (t1 - t0) (map fst (W s)) (map snd (W s)) = Returns f.
Proof.
  intros spm IQ lo hi w out E W. destruct spm as [|t0 [|t1 l]]; try discriminate E. unfold find_offset_freqs in E. cbv zeta in E. apply each_inv in E.
  set (D := combine (t0 :: t1 :: l) IQ) in *. set (ws := map _ (arange lo (hi + 10) 10)) in E. set (fs := filter _ ws) in E.
  assert (Fst : map fst out = map fst fs).
  { clear - E. induction E as [|x y q q' H E IH]; [reflexivity|]. cbn [map]. f_equal; [|exact IH]. destruct (find_peak_freq _ _ _) as [f| |]; try discriminate. cbn [pybind] in H. injection H as <-. reflexivity. }
  assert (Fl : map fst fs = filter (fun s => (2 <? length (W s))%nat) (arange lo (hi + 10) 10)).
  { unfold fs, ws. rewrite (filter_map_fst (fun mid => filter (fun d => in_window w mid (fst d)) D) (fun x => (2 <? length x)%nat)). apply filter_ext. intros s. unfold W. rewrite samples_filter. reflexivity. }
  rewrite Fst, Fl. split; [|split; [apply sorted_filter, arange_sorted; lra|]].
  - intros s. rewrite filter_In, in_arange by lra. split; [intros ((k & A & B) & C); apply Nat.ltb_lt in C; exists k; auto|intros (k & A & B & C); split; [exists k; auto|apply Nat.ltb_lt, C]].
  - exists t0, t1, l. split; [reflexivity|]. intros s f I.
    assert (K : exists x, In x fs /\ pybind (find_peak_freq (t1 - t0) (map fst (snd x)) (map snd (snd x))) (fun f => Returns (fst x, f)) = Returns (s, f)).
    { clear - E I. induction E as [|x y l1 l2 H E IH]; [destruct I|]. destruct I as [->|I]; [exists x; split; [left; reflexivity|exact H]|]. destruct (IH I) as (z & Z1 & Z2). exists z. split; [right; exact Z1|exact Z2]. }
    destruct K as (x & Ix & Ex). unfold fs in Ix. apply filter_In in Ix. destruct Ix as (Ix & _). unfold ws in Ix. apply in_map_iff in Ix. destruct Ix as (mid & <- & _). cbn [fst snd] in Ex. rewrite samples_filter in Ex.
    destruct (find_peak_freq (t1 - t0) (map fst (samples_in w mid D)) (map snd (samples_in w mid D))) as [f'| |] eqn:Ef; try discriminate Ex. cbn [pybind] in Ex. injection Ex as -> ->. exact Ef.
Qed.
Lemma each_total : forall {A B} (f : A -> py B) l, (forall a, In a l -> exists b, f a = Returns b) -> exists bs, each f l = Returns bs.
Proof. intros A B f l H. induction l as [|a l IH]; [exists []; reflexivity|]. destruct (H a (or_introl eq_refl)) as (b & E). destruct (IH (fun x I => H x (or_intror I))) as (bs & Es). exists (b :: bs). cbn [each]. rewrite E. cbn [pybind]. rewrite Es. reflexivity. Qed.
Theorem windows_total : forall spm IQ lo hi w, (2 <= length spm)%nat -> exists out, find_offset_freqs spm IQ lo hi w = Returns out.
Proof.
  intros spm IQ lo hi w L. destruct spm as [|t0 [|t1 l]]; cbn in L; try lia. unfold find_offset_freqs. cbv zeta. apply each_total. intros x I. apply filter_In in I. destruct I as (_ & I). apply Nat.ltb_lt in I.
  destruct (peak_ok (t1 - t0) (map fst (snd x)) (map snd (snd x))) as (m & j & _ & _ & _ & E & _); [rewrite !map_length; reflexivity|rewrite map_length; lia|]. cbv zeta in E. rewrite E. eexists. reflexivity.
Qed.
(** A window after the upper limit of the times. *)
Theorem beyond : exists spm IQ lo hi w out s, find_offset_freqs spm IQ lo hi w = Returns out /\ In s (map fst out) /\ hi < s /\ (forall t, In t spm -> hi < t).
Proof.
  exists [8; 9; 10; 11; 12], (repeat (1, 0) 5), 0, 1, 2. destruct (windows_total [8; 9; 10; 11; 12] (repeat (1, 0) 5) 0 1 2) as (out & E); [cbn; lia|]. exists out, 10. split; [exact E|]. split; [|split; [lra|intros t I; cbn in I; intuition (subst; lra)]].
  apply (proj1 (windows_ok _ _ _ _ _ _ E)). exists 1%nat. split; [cbn [INR]; ring|]. split; [lra|]. cbn [combine repeat samples_in fst].
  repeat match goal with |- context [Rle_dec ?a ?b] => destruct (Rle_dec a b); try lra | |- context [Rlt_dec ?a ?b] => destruct (Rlt_dec a b); try lra end; cbn; lia.
Qed.
