(** * Proof_Mask: which offsets are kept. *)
From Coq Require Import String List ZArith Bool Reals Lra Lia.
From Verif Require Import Base Model_Time Model_Chord Model_Frame Model_Mask Spec_Mask Proof_Chord.
Import ListNotations.
Open Scope R_scope.

Lemma clear_nth : forall m i k, nth k (clear i m) false = if (k =? i)%nat then false else nth k m false.
Proof. induction m as [|b m IH]; intros i k; [destruct k, i; cbn; try reflexivity; destruct (_ =? _)%nat; reflexivity|]. destruct i, k; try reflexivity. cbn [clear nth Nat.eqb]. apply IH. Qed.
Lemma clear_length : forall m i, length (clear i m) = length m.
Proof. induction m as [|b m IH]; intros [|i]; cbn; try reflexivity. rewrite IH. reflexivity. Qed.

(** ** Isolated samples. *)
Definition clearing (step : list bool -> nat -> list bool) : Prop := forall m i,
  step m i = m \/ (step m i = clear i m /\ nth (i - 1) m false = false /\ nth (i + 1) m false = false).
Lemma up_clearing : clearing up_step.
Proof. intros m i. unfold up_step, alone2. destruct (nth i m false), (nth (i - 2) m false), (nth (i - 1) m false), (nth (i + 1) m false), (nth (i + 2) m false); cbn; auto. Qed.
Lemma down_is : forall m i, (1 <= i)%nat -> down_step m i = if nth i m false && (negb (nth (i - 1) m false) && negb (nth (i + 1) m false)) then clear i (if alone2 m i then clear i m else m) else m.
Proof.
  intros m i P. unfold down_step. destruct (nth i m false); [|reflexivity]. cbn [andb]. cbv zeta. destruct (alone2 m i) eqn:A; [|reflexivity].
  rewrite !clear_nth. replace (i - 1 =? i)%nat with false by (symmetry; apply Nat.eqb_neq; lia). replace (i + 1 =? i)%nat with false by (symmetry; apply Nat.eqb_neq; lia).
  unfold alone2 in A. destruct (nth (i - 2) m false), (nth (i - 1) m false), (nth (i + 1) m false), (nth (i + 2) m false); try discriminate A. reflexivity.
Qed.
Lemma clear_twice : forall m i, clear i (clear i m) = clear i m.
Proof. induction m as [|b m IH]; intros [|i]; cbn; try reflexivity. rewrite IH. reflexivity. Qed.
Lemma down_clearing : forall m i, (1 <= i)%nat -> down_step m i = m \/ (down_step m i = clear i m /\ nth (i - 1) m false = false /\ nth (i + 1) m false = false).
Proof.
  intros m i P. rewrite down_is by exact P. destruct (nth i m false), (nth (i - 1) m false), (nth (i + 1) m false); cbn [andb negb]; auto. right. split; [destruct (alone2 m i); [apply clear_twice|reflexivity]|auto].
Qed.
Lemma run : forall step is m, (forall m i, In i is -> step m i = m \/ (step m i = clear i m /\ nth (i - 1) m false = false /\ nth (i + 1) m false = false)) ->
  let r := fold_left step is m in
  length r = length m /\ (forall k, nth k r false = true -> nth k m false = true) /\ (forall k, ~ In k is -> nth k r false = nth k m false) /\
  (forall k, nth k m false = true -> nth (S k) m false = true -> nth k r false = true /\ nth (S k) r false = true).
Proof.
  intros step is. induction is as [|i is IH]; intros m H r; [subst r; cbn; repeat split; auto|]. subst r. cbn [fold_left].
  destruct (IH (step m i) (fun m j I => H m j (or_intror I))) as (L & S1 & S2 & S3). cbv zeta in *. destruct (H m i (or_introl eq_refl)) as [E|(E & N1 & N2)].
  - rewrite E in *. repeat split; auto; [intros k N; apply S2; intros I; apply N; right; exact I|intros; apply S3; assumption|intros; apply S3; assumption].
  - rewrite E in *. rewrite clear_length in L. split; [exact L|]. split; [intros k K; apply S1 in K; rewrite clear_nth in K; destruct (k =? i)%nat; [discriminate|exact K]|].
    split; [intros k N; rewrite S2 by (intros I; apply N; right; exact I); rewrite clear_nth; destruct (Nat.eqb_spec k i) as [->|]; [exfalso; apply N; left; reflexivity|reflexivity]|].
    intros k A B. apply S3; rewrite clear_nth.
    + destruct (Nat.eqb_spec k i) as [->|]; [exfalso; replace (i + 1)%nat with (S i) in N2 by lia; congruence|exact A].
    + destruct (Nat.eqb_spec (S k) i) as [<-|]; [exfalso; replace (S k - 1)%nat with k in N1 by lia; congruence|exact B].
Qed.
Lemma down_kills : forall is m k, (forall i, In i is -> (1 <= i)%nat) -> In k is -> nth (k - 1) m false = false -> nth (k + 1) m false = false -> nth k (fold_left down_step is m) false = false.
Proof.
  induction is as [|i is IH]; intros m k P I A B; [destruct I|]. cbn [fold_left].
  assert (Pi : (1 <= i)%nat) by (apply P; left; reflexivity). assert (Ps : forall j, In j is -> (1 <= j)%nat) by (intros j J; apply P; right; exact J).
  pose proof (run down_step [i] m ltac:(intros m' j [<-|[]]; apply down_clearing, Pi)) as R1. cbv zeta in R1. cbn [fold_left] in R1. destruct R1 as (_ & S1 & _ & _).
  assert (F : forall j, nth j m false = false -> nth j (down_step m i) false = false) by (intros j N; destruct (nth j (down_step m i) false) eqn:E; [apply S1 in E; congruence|reflexivity]).
  destruct (Nat.eq_dec i k) as [->|Ne].
  - pose proof (run down_step is (down_step m k) ltac:(intros m' j J; apply down_clearing, Ps, J)) as R2. cbv zeta in R2. destruct R2 as (_ & S2 & _ & _).
    destruct (nth k (fold_left down_step is (down_step m k)) false) eqn:E; [|reflexivity]. apply S2 in E. exfalso. rewrite down_is in E by exact Pi. rewrite A, B in E. cbn [negb andb] in E. destruct (nth k m false) eqn:Em; cbn [andb] in E; [rewrite clear_nth, Nat.eqb_refl in E; discriminate|congruence].
  - destruct I as [->|I]; [contradiction|]. apply IH; auto.
Qed.
Theorem neighbours_ok : forall m, thinned m (neighbor_check m).
Proof.
  intros m. unfold neighbor_check. cbv zeta. set (n := length m). set (u := fold_left up_step (seq 2 (n - 4)) m).
  pose proof (run up_step (seq 2 (n - 4)) m ltac:(intros m' j _; apply up_clearing)) as U. cbv zeta in U. fold u in U. destruct U as (Lu & U1 & U2 & U3).
  assert (Pd : forall i, In i (rev (seq 3 (n - 5))) -> (3 <= i /\ i + 3 <= n)%nat) by (intros i I; apply in_rev, in_seq in I; lia).
  pose proof (run down_step (rev (seq 3 (n - 5))) u ltac:(intros m' j J; apply down_clearing; apply Pd in J; lia)) as D. cbv zeta in D. set (r := fold_left down_step (rev (seq 3 (n - 5))) u) in *. destruct D as (Ld & D1 & D2 & D3).
  split; [unfold n in *; lia|]. intros i. unfold alive. cbv zeta. fold n.
  assert (Sub : nth i m false = false -> nth i r false = false) by (intros N; destruct (nth i r false) eqn:E; [apply D1, U1 in E; congruence|reflexivity]).
  destruct ((3 <=? i) && (i + 3 <=? n))%nat eqn:C.
  - apply andb_true_iff in C. destruct C as (C1 & C2). apply Nat.leb_le in C1, C2.
    destruct (nth i m false) eqn:Mi; [cbn [andb]|apply Sub; reflexivity].
    destruct (nth (i - 1) m false) eqn:Ma; cbn [orb].
    + replace i with (S (i - 1)) in Mi by lia. destruct (U3 _ Ma Mi) as (V1 & V2). destruct (D3 _ V1 V2) as (_ & W). replace (S (i - 1)) with i in W by lia. exact W.
    + destruct (nth (i + 1) m false) eqn:Mb.
      * replace (i + 1)%nat with (S i) in Mb by lia. destruct (U3 _ Mi Mb) as (V1 & V2). apply (D3 _ V1 V2).
      * apply down_kills; [intros j J; apply Pd in J; lia|rewrite <- in_rev; apply in_seq; lia|..].
        -- destruct (nth (i - 1) u false) eqn:E; [apply U1 in E; congruence|reflexivity].
        -- destruct (nth (i + 1) u false) eqn:E; [apply U1 in E; congruence|reflexivity].
  - assert (Nd : ~ In i (rev (seq 3 (n - 5)))) by (intros I; apply Pd in I; rewrite (proj2 (Nat.leb_le 3 i)) in C by lia; rewrite (proj2 (Nat.leb_le (i + 3) n)) in C by lia; discriminate).
    rewrite D2 by exact Nd. destruct ((i =? 2) && (5 <=? n))%nat eqn:C2.
    + apply andb_true_iff in C2. destruct C2 as (I2 & N5). apply Nat.eqb_eq in I2. apply Nat.leb_le in N5. subst i.
      unfold u. replace (n - 4)%nat with (S (n - 5)) by lia. cbn [seq fold_left].
      pose proof (run up_step (seq 3 (n - 5)) (up_step m 2) ltac:(intros m' j _; apply up_clearing)) as U'. cbv zeta in U'. destruct U' as (_ & _ & U2' & _).
      rewrite U2' by (rewrite in_seq; lia). unfold up_step, alone2. cbn [Nat.sub Nat.add].
      destruct (nth 2 m false) eqn:M2; cbn [andb]; [|exact M2]. destruct (nth 0 m false), (nth 1 m false), (nth 3 m false), (nth 4 m false); cbn [negb andb orb]; try exact M2. rewrite clear_nth. reflexivity.
    + rewrite andb_true_r. apply U2. rewrite in_seq. intros I.
      assert (Q1 : (i = 2)%nat). { destruct (Nat.eq_dec i 2); [assumption|]. rewrite (proj2 (Nat.leb_le 3 i)) in C by lia. rewrite (proj2 (Nat.leb_le (i + 3) n)) in C by lia. discriminate. }
      subst i. rewrite (proj2 (Nat.leb_le 5 n)) in C2 by lia. discriminate.
Qed.

(** ** Clipping. *)
Definition steadyb (f diff : list (option R)) (stdev df : R) (i : nat) : bool :=
  match nth_error f i with
  | Some (Some x) => negb (ltb x (-150) || ltb 150 x) && negb (match nth_error diff i with Some (Some y) => ltb stdev y | _ => false end)
      && (if ((1 <? i) && (i + 2 <? length f))%nat then negb (apart df (Some x) (nth (i - 1) f None) || apart df (Some x) (nth (i + 1) f None)) else true)
  | _ => false
  end.
Lemma apart_false : forall df x a, apart df (Some x) a = false <-> forall y, a = Some y -> Rabs (x - y) <= df.
Proof. intros df x [y|]; cbn [apart]; [rewrite ltb_false; split; [intros H z E; injection E as <-; lra|intros H; specialize (H y eq_refl); lra]|split; [intros _ y E; discriminate|reflexivity]]. Qed.
Lemma nth_some : forall {A} (l : list A) k d, (k < length l)%nat -> nth_error l k = Some (nth k l d).
Proof. intros A l k d H. apply nth_error_nth'. exact H. Qed.
Lemma steadyb_ok : forall f diff stdev df i, (i < length f)%nat -> (steadyb f diff stdev df i = true <-> steady f diff stdev df i).
Proof.
  intros f diff stdev df i Hi. unfold steadyb, steady. rewrite (nth_some f i None Hi). destruct (nth i f None) as [x|]; [|split; [discriminate|intros (x & E & _); discriminate]].
  rewrite !andb_true_iff, !negb_true_iff, orb_false_iff, !ltb_false.
  assert (K : (if ((1 <? i) && (i + 2 <? length f))%nat then negb (apart df (Some x) (nth (i - 1) f None) || apart df (Some x) (nth (i + 1) f None)) else true) = true <->
    ((2 <= i)%nat -> (i + 3 <= length f)%nat -> forall k y, k = (i - 1)%nat \/ k = (i + 1)%nat -> nth_error f k = Some (Some y) -> Rabs (x - y) <= df)).
  { destruct ((1 <? i) && (i + 2 <? length f))%nat eqn:C.
    - apply andb_true_iff in C. destruct C as (C1 & C2). apply Nat.ltb_lt in C1, C2. rewrite negb_true_iff, orb_false_iff, !apart_false. split.
      + intros (A & B) _ _ k y [-> | ->] E; apply nth_error_nth with (d := None) in E; [apply A|apply B]; exact E.
      + intros H. specialize (H ltac:(lia) ltac:(lia)). split; intros y E; [apply (H (i - 1)%nat y (or_introl eq_refl))|apply (H (i + 1)%nat y (or_intror eq_refl))]; rewrite (nth_some f _ None) by lia; rewrite E; reflexivity.
    - split; [|reflexivity]. intros _ A B. rewrite (proj2 (Nat.ltb_lt 1 i)) in C by lia. rewrite (proj2 (Nat.ltb_lt (i + 2) (length f))) in C by lia. discriminate. }
  rewrite K. split.
  - intros ((A & B) & C). exists x. split; [reflexivity|]. split; [lra|]. split; [|exact C]. intros d E. rewrite E in B. apply ltb_false in B. lra.
  - intros (x' & E & A & B & C). injection E as <-. split; [|exact C]. split; [lra|]. destruct (nth_error diff i) as [[d|]|]; try reflexivity. apply ltb_false. specialize (B d eq_refl). lra.
Qed.
Definition upto (f diff : list (option R)) (stdev df : R) (i : nat) : list bool := map (steadyb f diff stdev df) (seq 0 i) ++ repeat true (length f - i).
Lemma upto_length : forall f diff stdev df i, (i <= length f)%nat -> length (upto f diff stdev df i) = length f.
Proof. intros. unfold upto. rewrite app_length, map_length, seq_length, repeat_length. lia. Qed.
Lemma upto_ahead : forall f diff stdev df i k, (i <= k)%nat -> (k < length f)%nat -> nth_error (upto f diff stdev df i) k = Some true.
Proof. intros. unfold upto. rewrite nth_error_app2 by (rewrite map_length, seq_length; lia). rewrite map_length, seq_length. apply nth_error_repeat. lia. Qed.
Lemma clear_app : forall l m, clear (length l) (l ++ true :: m) = l ++ false :: m.
Proof. induction l as [|a l IH]; intros m; [reflexivity|]. cbn. rewrite IH. reflexivity. Qed.
Lemma upto_step : forall f diff stdev df i, (i < length f)%nat -> upto f diff stdev df (S i) = if steadyb f diff stdev df i then upto f diff stdev df i else clear i (upto f diff stdev df i).
Proof.
  intros f diff stdev df i Hi. unfold upto. rewrite seq_S, map_app. cbn [map Nat.add]. replace (length f - i)%nat with (S (length f - S i)) by lia. cbn [repeat]. rewrite <- app_assoc. cbn [app].
  destruct (steadyb f diff stdev df i); [reflexivity|]. rewrite <- clear_app, map_length, seq_length. reflexivity.
Qed.
Lemma look_one : forall n mask base fuel, nth_error mask (base + 1) = Some true -> look fuel mask n base 1 = Returns 1%nat.
Proof. intros n mask base [|fuel] E; [reflexivity|]. cbn [look]. rewrite E. destruct (_ <? _)%nat; reflexivity. Qed.
Lemma step_ok : forall f diff stdev df i, length diff = length f -> (i < length f)%nat -> clip_step f diff stdev df i (upto f diff stdev df i) = Returns (upto f diff stdev df (S i)).
Proof.
  intros f diff stdev df i Ld Hi. rewrite upto_step by exact Hi. unfold clip_step, steadyb, at_. cbv zeta. rewrite (nth_some f i None Hi), (nth_some diff i None) by lia.
  destruct (nth i f None) as [x|]; [|reflexivity]. destruct (ltb x (-150) || ltb 150 x); cbn [negb andb]; [reflexivity|].
  destruct (match nth i diff None with Some y => ltb stdev y | None => false end); cbn [negb andb]; [reflexivity|].
  destruct ((1 <? i) && (i + 2 <? length f))%nat eqn:C; [|reflexivity]. apply andb_true_iff in C. destruct C as (C1 & C2). apply Nat.ltb_lt in C1, C2.
  rewrite (nth_some f (i - 1) None) by lia. rewrite (nth_some f (i + 1) None) by lia.
  destruct (apart df (Some x) (nth (i - 1) f None)); cbn [orb negb]; [reflexivity|]. destruct (apart df (Some x) (nth (i + 1) f None)) eqn:A2; cbn [negb]; [reflexivity|].
  rewrite look_one by (apply upto_ahead; lia). cbn [pybind]. rewrite look_one by (apply upto_ahead; lia). cbn [pybind].
  rewrite (nth_some f (i + 1) None) by lia. rewrite (nth_some f (i + 1 + 1) None) by lia. rewrite A2. cbn [andb]. rewrite andb_false_r. reflexivity.
Qed.
Theorem clip_ok : forall f diff stdev df, length diff = length f -> exists mask, sigma_clip f diff stdev df = Returns mask /\ selects mask (length f) (steady f diff stdev df).
Proof.
  intros f diff stdev df Ld. exists (upto f diff stdev df (length f)). split.
  - unfold sigma_clip. assert (K : forall j i, (i + j = length f)%nat -> clip_from f diff stdev df (seq i j) (upto f diff stdev df i) = Returns (upto f diff stdev df (length f))).
    { induction j as [|j IH]; intros i E; cbn [seq clip_from]; [replace i with (length f) by lia; reflexivity|]. rewrite step_ok by lia. cbn [pybind]. apply IH. lia. }
    rewrite <- (K (length f) 0%nat) by lia. unfold upto. cbn [seq map app]. rewrite Nat.sub_0_r. reflexivity.
  - split; [apply upto_length; lia|]. intros i. unfold upto. rewrite Nat.sub_diag. cbn [repeat]. rewrite app_nil_r. destruct (le_lt_dec (length f) i) as [Ge|Lt].
    + rewrite nth_overflow by (rewrite map_length, seq_length; exact Ge). split; [discriminate|lia].
    + rewrite (nth_indep _ false (steadyb f diff stdev df 0)) by (rewrite map_length, seq_length; exact Lt). rewrite map_nth, seq_nth by exact Lt. cbn [Nat.add]. rewrite steadyb_ok by exact Lt. tauto.
Qed.
Lemma trues_filter : forall m, length (filter (fun b => b) m) = trues m.
Proof. induction m as [|[|] m IH]; [reflexivity|..]; unfold trues in *; cbn; rewrite ?IH; reflexivity. Qed.
Theorem mask_ok : forall med df f rho mask, create_mask med df f rho = Returns mask ->
  exists dist stdev c t, length dist = length f /\
    (forall i x y, nth_error f i = Some (Some x) -> med f = Some y -> nth_error dist i = Some (Some (Rabs (x - y)))) /\
    (forall v, med (map (option_map (fun d => d * d)) dist) = Some v -> stdev = Rmin 15 (5 * sqrt v)) /\
    selects c (length f) (steady f dist stdev df) /\ thinned c t /\
    (((5 <= trues t)%nat /\ mask = t) \/
     ((trues t < 5)%nat /\ exists c', thinned c' mask /\
        selects c' (length f) (fun i => exists x r, nth_error f i = Some (Some x) /\ nth_error rho i = Some r /\ -150 <= x <= 150 /\ (r <= 92000 \/ 118000 <= r)))).
Proof.
  intros med df f rho mask E. unfold create_mask in E. cbv zeta in E. set (dist := map _ f) in E. set (stdev := if ltb 15 _ then _ else _) in E.
  assert (Ld : length dist = length f) by (unfold dist; rewrite map_length; reflexivity). destruct (clip_ok f dist stdev df Ld) as (c & Ec & Sc). rewrite Ec in E. cbn [pybind] in E.
  exists dist, stdev, c, (neighbor_check c). split; [exact Ld|]. split.
  { intros i x y A B. unfold dist. rewrite nth_error_map, A. cbn [option_map]. rewrite B. reflexivity. }
  split; [intros v V; change (map (option_map (fun d => d * d)) dist) with (map (fun d => match d with Some a => Some (a * a) | None => None end) dist) in V; unfold stdev; rewrite V; destruct (ltb 15 (5 * sqrt v)) eqn:L; [apply ltb_true in L; rewrite Rmin_left by lra; reflexivity|apply ltb_false in L; rewrite Rmin_right by lra; reflexivity]|]. split; [exact Sc|]. split; [apply neighbours_ok|].
  rewrite trues_filter in E. destruct (trues (neighbor_check c) <? 5)%nat eqn:T; [apply Nat.ltb_lt in T|apply Nat.ltb_ge in T; left; injection E as <-; auto].
  right. split; [exact T|]. destruct (length rho =? length f)%nat eqn:Lr; [|discriminate]. apply Nat.eqb_eq in Lr. injection E as <-. eexists. split; [apply neighbours_ok|].
  set (P := fun fr : option R * R => _). split; [rewrite map_length, combine_length; lia|]. intros i. destruct (le_lt_dec (length f) i) as [Ge|Lt].
  - rewrite nth_overflow by (rewrite map_length, combine_length; lia). split; [discriminate|lia].
  - assert (En : nth i (map P (combine f rho)) false = P (nth i f None, nth i rho 0)).
    { rewrite (nth_indep _ false (P (None, 0))) by (rewrite map_length, combine_length; lia). rewrite map_nth, combine_nth by (symmetry; exact Lr). reflexivity. }
    rewrite En. unfold P. cbn [fst snd]. rewrite (nth_some f i None Lt), (nth_some rho i 0) by lia. destruct (nth i f None) as [x|]; [|split; [discriminate|intros (_ & x & r & A & _); discriminate]].
    rewrite andb_true_iff, !negb_true_iff, orb_false_iff, andb_false_iff, !ltb_false. split.
    + intros ((A & B) & C). split; [exact Lt|]. exists x, (nth i rho 0). repeat split; try lra. 
    + intros (_ & x' & r & A & B & C & D). injection A as <-. injection B as <-. split; [split; lra|]. destruct D; [left|right]; lra.
Qed.
Theorem mask_total : forall med df f rho, length rho = length f -> exists mask, create_mask med df f rho = Returns mask.
Proof.
  intros med df f rho Lr. unfold create_mask. cbv zeta. set (dist := map _ f). assert (Ld : length dist = length f) by (unfold dist; rewrite map_length; reflexivity).
  set (stdev := if ltb 15 _ then _ else _). destruct (clip_ok f dist stdev df Ld) as (c & Ec & _). rewrite Ec. cbn [pybind]. rewrite Lr, Nat.eqb_refl. destruct (_ <? 5)%nat; eexists; reflexivity.
Qed.
