(** * Proof_Label3: when a label exists, and what it tells. *)
From Coq Require Import List ZArith Lia Bool Ascii String Reals Lra.
From Flocq Require Import Core.
From Verif Require Import Base BaseFacts Scalar Spec_Select Model_Csv Spec_Csv Model_Write Spec_Write
  Proof_Write Proof_Write2 Proof_Write3 Model_Label Spec_Label Proof_Label Proof_Label2.
Import ListNotations.
Open Scope list_scope.
Open Scope R_scope.

(** ** Times of day *)
Lemma int_real (x : R) : 0 <= x < 18446744073709551616 -> exists z, int (S := real_scalar) x = Some z /\
  (0 <= z)%Z /\ IZR z <= x < IZR z + 1.
Proof.
  intro B. exists (Zfloor x). unfold int. cbn [real_scalar scast].
  rewrite Ztrunc_floor by apply B. pose proof (Zfloor_lb x) as L. pose proof (Zfloor_ub x) as U.
  assert (0 <= Zfloor x)%Z by (apply Zfloor_lub, B).
  assert (Zfloor x < two64)%Z by (apply lt_IZR; change (IZR two64) with 18446744073709551616; lra).
  destruct (Z.leb_spec 0 (Zfloor x)); [|lia]. destruct (Z.ltb_spec (Zfloor x) two64); [|lia].
  split; [reflexivity|]. split; [assumption|]. lra.
Qed.
Lemma read_zeros j : forall k r, read_digits 0 k (repeat "0"%char j ++ r) = read_digits 0 (k + Z.of_nat j) r.
Proof.
  induction j as [|j IH]; intros k r; [cbn [repeat app]; f_equal; lia|].
  cbn [repeat app read_digits]. change (digit_value "0") with (Some 0%Z). cbv iota beta.
  change (10 * 0 + 0)%Z with 0%Z. rewrite IH. f_equal. lia.
Qed.
Lemma read_two n r : (0 <= n)%Z -> exists k, (2 <= k)%Z /\ ((n < 60)%Z -> k = 2%Z) /\
  read_digits 0 0 (zfill2 n ++ ":"%char :: r) = (n, k, ":"%char :: r).
Proof.
  intro H. unfold zfill2. exists (Z.of_nat (2 - List.length (decimal n)) + Z.of_nat (List.length (decimal n)))%Z.
  split; [lia|]. split.
  { intro L. pose proof (decimal_length n 2 ltac:(cbn; lia) ltac:(lia)). lia. }
  rewrite <- app_assoc, read_zeros. unfold decimal. rewrite last_length, read_last.
  rewrite Z.mod_small by (split; [exact H|apply decimal_enough, H]). reflexivity.
Qed.
Lemma read_two_end n : (0 <= n < 60)%Z -> read_digits 0 0 (zfill2 n) = (n, 2%Z, []).
Proof.
  intro H. unfold zfill2.
  pose proof (decimal_length n 2 ltac:(cbn; lia) ltac:(lia)) as L.
  rewrite read_zeros. rewrite <- (app_nil_r (decimal n)) at 2. unfold decimal in *. rewrite last_length in *.
  rewrite read_last.
  rewrite Z.mod_small by (split; [lia|apply decimal_enough; lia]). cbn [read_digits].
  f_equal. f_equal. lia.
Qed.
Lemma shows (t : R) : 0 <= t < 18446744073709551616 -> exists txt, get_ISOD_str (S := real_scalar) t = Some txt /\ shows_time txt t.
Proof.
  intro B. unfold get_ISOD_str. cbn [real_scalar sdiv sofZ ssub smul].
  destruct (int_real (t / 60 / 60)) as (h & Eh & Ph & Bh); [lra|]. unfold mod1. rewrite Eh.
  cbn [real_scalar sdiv sofZ ssub smul].
  destruct (int_real ((t / 60 / 60 - IZR h) * 60)) as (m & Em & Pm & Bm); [lra|]. rewrite Em.
  destruct (int_real (((t / 60 / 60 - IZR h) * 60 - IZR m) * 60)) as (s & Es & Ps & Bs); [lra|]. rewrite Es.
  assert (Lm : (m < 60)%Z) by (apply lt_IZR; lra). assert (Ls : (s < 60)%Z) by (apply lt_IZR; lra).
  eexists. split; [reflexivity|]. exists h, m, s. split; [|split; [lia|]].
  - unfold clock. destruct (read_two h (zfill2 m ++ ":"%char :: zfill2 s) Ph) as (kh & Kh & _ & ->).
    destruct (read_two m (zfill2 s) Pm) as (km & _ & Km & ->). rewrite (Km Lm). rewrite read_two_end by lia.
    destruct (Z.leb_spec 2 kh); [|lia]. reflexivity.
  - rewrite !plus_IZR, !mult_IZR. lra.
Qed.

(** ** Extremes *)
Lemma fold_min : forall (r : list R) (x : R),
  let m := fold_left (fun m y : R => if slt (s := real_scalar) y m then y else m) r x in
  (m = x \/ In m r) /\ m <= x /\ forall y, In y r -> m <= y.
Proof.
  induction r as [|y r IH]; intros x; cbn [fold_left]; [split; [left; reflexivity|split; [lra|contradiction]]|].
  cbv zeta in *. destruct (IH (if slt (s := real_scalar) y x then y else x)) as (A & B & C).
  cbn [real_scalar slt] in *. destruct (Rlt_dec y x) as [L|L].
  - split; [destruct A as [A|A]; [right; left; congruence|right; right; exact A]|]. split; [lra|].
    intros z [<-|Z]; [lra|apply C, Z].
  - split; [destruct A as [A|A]; [left; exact A|right; right; exact A]|]. split; [lra|].
    intros z [<-|Z]; [lra|apply C, Z].
Qed.
Lemma fold_max : forall (r : list R) (x : R),
  let m := fold_left (fun m y : R => if sgt (S := real_scalar) y m then y else m) r x in
  (m = x \/ In m r) /\ x <= m /\ forall y, In y r -> y <= m.
Proof.
  unfold sgt. induction r as [|y r IH]; intros x; cbn [fold_left]; [split; [left; reflexivity|split; [lra|contradiction]]|].
  cbv zeta in *. destruct (IH (if slt (s := real_scalar) x y then y else x)) as (A & B & C).
  cbn [real_scalar slt] in *. destruct (Rlt_dec x y) as [L|L].
  - split; [destruct A as [A|A]; [right; left; congruence|right; right; exact A]|]. split; [lra|].
    intros z [<-|Z]; [lra|apply C, Z].
  - split; [destruct A as [A|A]; [left; exact A|right; right; exact A]|]. split; [lra|].
    intros z [<-|Z]; [lra|apply C, Z].
Qed.
Lemma pymin_in (l : list R) v : pymin (S := real_scalar) l = Some v -> In v l /\ forall y, In y l -> v <= y.
Proof.
  destruct l as [|x r]; [discriminate|]. intros [= <-]. destruct (fold_min r x) as (A & B & C).
  split; [destruct A as [A|A]; [left; symmetry; exact A|right; exact A]|]. intros y [<-|Y]; [exact B|apply C, Y].
Qed.
Lemma pymax_in (l : list R) v : pymax (S := real_scalar) l = Some v -> In v l /\ forall y, In y l -> y <= v.
Proof.
  destruct l as [|x r]; [discriminate|]. intros [= <-]. destruct (fold_max r x) as (A & B & C).
  split; [destruct A as [A|A]; [left; symmetry; exact A|right; exact A]|]. intros y [<-|Y]; [exact B|apply C, Y].
Qed.
(** A list holds the samples of a quantity. *)
Definition samples (Q : Z -> R -> Prop) (l : list R) : Prop := forall i q, Q i q <-> entry l i q.
Lemma entry_in (l : list R) q : In q l <-> exists i, (0 <= i < zlen l)%Z /\ entry l i q.
Proof.
  split.
  - intro H. apply In_nth_error in H as [k E]. exists (Z.of_nat k). unfold entry, zlen. rewrite Nat2Z.id.
    assert (k < List.length l)%nat by (apply nth_error_Some; congruence). split; [lia|]. split; [lia|exact E].
  - intros (i & _ & _ & E). eapply nth_error_In, E.
Qed.
Lemma min_least Q l n v : samples Q l -> zlen l = n -> pymin (S := real_scalar) l = Some v -> least Q n v.
Proof.
  intros S <- E. apply pymin_in in E as [A B]. split.
  - apply entry_in in A as (i & Bi & E). exists i. split; [exact Bi|]. apply S, E.
  - intros i q Bi H. apply B, entry_in. exists i. split; [exact Bi|]. apply S, H.
Qed.
Lemma max_largest Q l n v : samples Q l -> zlen l = n -> pymax (S := real_scalar) l = Some v -> largest Q n v.
Proof.
  intros S <- E. apply pymax_in in E as [A B]. split.
  - apply entry_in in A as (i & Bi & E). exists i. split; [exact Bi|]. apply S, E.
  - intros i q Bi H. apply B, entry_in. exists i. split; [exact Bi|]. apply S, H.
Qed.
Lemma pymin_some (l : list R) : (0 < zlen l)%Z -> exists v, pymin (S := real_scalar) l = Some v.
Proof. destruct l; [cbn; lia|]. intros _. eexists. reflexivity. Qed.
Lemma pymax_some (l : list R) : (0 < zlen l)%Z -> exists v, pymax (S := real_scalar) l = Some v.
Proof. destruct l; [cbn; lia|]. intros _. eexists. reflexivity. Qed.

(** ** Steps *)
Lemma entry_at (l : list R) i : (0 <= i < zlen l)%Z -> exists q, entry l i q.
Proof.
  unfold zlen, entry. intro H. destruct (nth_error l (Z.to_nat i)) as [q|] eqn:E; [exists q; split; [lia|reflexivity]|].
  apply nth_error_None in E. lia.
Qed.
Lemma entry_range (l : list R) i q : entry l i q -> (0 <= i < zlen l)%Z.
Proof. unfold zlen. intros [H E]. assert (Z.to_nat i < List.length l)%nat by (apply nth_error_Some; congruence). lia. Qed.
Lemma entry_same (l : list R) i p q : entry l i p -> entry l i q -> p = q.
Proof. intros [_ A] [_ B]. congruence. Qed.
Lemma from_end_entry (l : list R) k q : (1 <= k)%nat -> from_end (S := real_scalar) l k = Some q <-> entry l (zlen l - Z.of_nat k) q.
Proof.
  intro K. unfold from_end, entry, zlen. change (car real_scalar) with R. destruct (Nat.leb_spec k (List.length l)).
  - replace (Z.to_nat _) with (List.length l - k)%nat by lia. split; [intro E; split; [lia|exact E]|intros [_ E]; exact E].
  - split; [discriminate|lia].
Qed.
Lemma interval (l : list R) : (exists d, get_sampling_interval (S := real_scalar) l = Some d) <->
  exists a b y z, entry l 0 a /\ entry l 1 b /\ entry l (zlen l - 2) y /\ entry l (zlen l - 1) z /\
    Rabs ((b - a) - (z - y)) < / 1000.
Proof.
  unfold get_sampling_interval. change (car real_scalar) with R. split.
  - intros (d & H).
    destruct (nth_error l 1) as [b|] eqn:Eb; [|discriminate]. destruct (nth_error l 0) as [a|] eqn:Ea; [|discriminate].
    destruct (from_end (S := real_scalar) l 1) as [z|] eqn:Ez; [|discriminate].
    destruct (from_end (S := real_scalar) l 2) as [y|] eqn:Ey; [|discriminate].
    exists a, b, y, z. apply from_end_entry in Ez, Ey; try lia.
    split; [split; [lia|exact Ea]|]. split; [split; [lia|exact Eb]|]. split; [exact Ey|]. split; [exact Ez|].
    unfold sgt in H. cbn [real_scalar slt ssub sadd sfrac] in H.
    destruct (Rlt_dec (z - y - 1 / 1000) (b - a)) as [A|A]; [|discriminate].
    destruct (Rlt_dec (b - a) (z - y + 1 / 1000)) as [B|B]; [|discriminate].
    apply Rabs_def1; lra.
  - intros (a & b & y & z & [_ Ea] & [_ Eb] & Ey & Ez & H).
    change (Z.to_nat 0) with 0%nat in Ea. change (Z.to_nat 1) with 1%nat in Eb.
    apply (from_end_entry l 2) in Ey; [|lia]. apply (from_end_entry l 1) in Ez; [|lia].
    exists (b - a). change (car real_scalar) with R in *. rewrite Ea, Eb, Ey, Ez.
    unfold sgt. cbn [real_scalar slt ssub sadd sfrac]. apply Rabs_def2 in H.
    destruct (Rlt_dec (z - y - 1 / 1000) (b - a)) as [A|A]; [|exfalso; lra].
    destruct (Rlt_dec (b - a) (z - y + 1 / 1000)) as [B|B]; [reflexivity|exfalso; lra].
Qed.
Lemma interval_is (l : list R) d : get_sampling_interval (S := real_scalar) l = Some d ->
  exists a b, entry l 0 a /\ entry l 1 b /\ d = b - a.
Proof.
  unfold get_sampling_interval. change (car real_scalar) with R. intro H.
  destruct (nth_error l 1) as [b|] eqn:Eb; [|discriminate]. destruct (nth_error l 0) as [a|] eqn:Ea; [|discriminate].
  destruct (from_end (S := real_scalar) l 1) as [z|] eqn:Ez; [|discriminate].
  destruct (from_end (S := real_scalar) l 2) as [y|] eqn:Ey; [|discriminate].
  destruct (_ && _); [|discriminate]. injection H as <-. exists a, b.
  split; [split; [lia|exact Ea]|]. split; [split; [lia|exact Eb]|]. reflexivity.
Qed.

(** ** The label *)
Section Tells.
  Variable N : nplib real_scalar.
  Hypothesis HN : np_laws N.
  Variable I : instance real_scalar.

  Lemma has_samples a l : reals I a = Some l -> samples (has I a) l.
  Proof.
    unfold reals. destruct (I a) as [[]|] eqn:E; try discriminate. intros [= ->]. intros i q. split.
    - intros (l2 & E2 & H). rewrite E in E2. injection E2 as <-. exact H.
    - intro H. exists l. split; [exact E|exact H].
  Qed.
  Lemma has_reals a i x : has I a i x -> exists l, reals I a = Some l.
  Proof. intros (l & E & _). exists l. unfold reals. rewrite E. reflexivity. Qed.
  Lemma reals_length a l n : rectangular I n -> reals I a = Some l -> zlen l = n.
  Proof. intro R. unfold reals. destruct (I a) as [[]|] eqn:E; try discriminate. intros [= ->]. apply (R _ _ E). Qed.
  Lemma degrees_samples a l : reals I a = Some l -> exists d, degrees_of N I a = Some d /\ zlen d = zlen l /\
    samples (has_degrees I a) d.
  Proof.
    intro E. unfold degrees_of. rewrite E. cbn [bind]. eexists. split; [reflexivity|].
    split; [unfold zlen; rewrite map_length; reflexivity|]. intros i q. split.
    - intros (x & H & ->). apply (has_samples a l E) in H as [A B]. split; [exact A|].
      rewrite nth_error_map. change (car real_scalar) with R in *. rewrite B. cbn. rewrite (law_degrees N HN). reflexivity.
    - intros [A B]. rewrite nth_error_map in B. change (car real_scalar) with R in *.
      destruct (nth_error l (Z.to_nat i)) as [x|] eqn:Ex; [|discriminate]. cbn in B. injection B as <-.
      exists x. split; [apply (has_samples a l E); split; assumption|]. rewrite (law_degrees N HN). reflexivity.
  Qed.
  Lemma times_found a start stop l n : reals I a = Some l -> zlen l = n -> (0 < n)%Z -> times_ok I ->
    In a ["t_oet_spm_vals"; "t_ret_spm_vals"; "t_set_spm_vals"]%string ->
    exists ta tz x z, first_last I start stop a = Some [(start, ta); (stop, tz)] /\
      has I a 0 x /\ shows_time ta x /\ has I a (n - 1) z /\ shows_time tz z.
  Proof.
    intros E L P T IN. change (car real_scalar) with R in *. pose proof (has_samples a l E) as SA.
    destruct (entry_at l 0 ltac:(lia)) as [x X]. destruct (entry_at l (n - 1) ltac:(lia)) as [z Z].
    destruct (shows x) as (ta & Ea & Sa); [apply (T a 0%Z x IN), SA, X|].
    destruct (shows z) as (tz & Ez & Sz); [apply (T a (n - 1)%Z z IN), SA, Z|].
    exists ta, tz, x, z. split; [|repeat split; try assumption; apply SA; assumption].
    unfold first_last. rewrite E. cbn [bind].
    pose proof X as [_ X2]. change (Z.to_nat 0) with 0%nat in X2. change (car real_scalar) with R. rewrite X2. cbn [bind].
    assert (FE : from_end (S := real_scalar) l 1 = Some z) by (apply from_end_entry; [lia|]; rewrite L; exact Z).
    rewrite FE. cbn [bind]. change (car real_scalar) with R in *. rewrite Ea, Ez. reflexivity.
  Qed.
  Lemma min_max_found Q l n o lo hi : o = Some l -> samples Q l -> zlen l = n -> (0 < n)%Z ->
    exists a b, min_max (S := real_scalar) lo hi o = Some [(lo, a); (hi, b)] /\ least Q n a /\ largest Q n b.
  Proof.
    intros -> SA L P. change (car real_scalar) with R in *. destruct (pymin_some l) as [a Ea]; [lia|]. destruct (pymax_some l) as [b Eb]; [lia|].
    exists a, b. unfold min_max. cbn [bind]. rewrite Ea. cbn [bind]. rewrite Eb.
    split; [reflexivity|]. split; [eapply min_least; eassumption|eapply max_largest; eassumption].
  Qed.

  Definition parts (s : series) (n : Z) (times : list (string * text)) (ext : list (string * R)) : Prop :=
    map fst times = (["START_TIME"; "STOP_TIME"]%string ++
      match s with
      | Geo | Cal => []
      | Dlp | Tau => ["RING_EVENT_START_TIME"; "RING_EVENT_STOP_TIME";
                      "SPACECRAFT_EVENT_START_TIME"; "SPACECRAFT_EVENT_STOP_TIME"]%string
      end) /\
    (forall key txt, In (key, txt) times ->
      exists a first t, moment key = Some (a, first) /\
        has I a (if first : bool then 0 else n - 1)%Z t /\ shows_time txt t) /\
    map fst ext =
      match s with
      | Geo | Cal => []
      | Dlp | Tau => ["MINIMUM_RING_RADIUS"; "MAXIMUM_RING_RADIUS";
                      "MINIMUM_RING_LONGITUDE"; "MAXIMUM_RING_LONGITUDE";
                      "MINIMUM_OBSERVED_RING_AZIMUTH"; "MAXIMUM_OBSERVED_RING_AZIMUTH";
                      "MINIMUM_OBSERVED_RING_ELEVATION"; "MAXIMUM_OBSERVED_RING_ELEVATION"]%string
      end /\
    forall key v, In (key, v) ext ->
      exists name lowest, extreme key = Some (name, lowest) /\
        if lowest : bool then least (named I s name) n v else largest (named I s name) n v.

  Ltac mom := match goal with H : (_, _) = (_, _) |- _ => injection H as <- <- end;
    eexists; eexists; eexists; split; [reflexivity|]; split; eassumption.
  Ltac ext := match goal with H : (_, _) = (_, _) |- _ => injection H as <- <- end;
    eexists; eexists; split; [reflexivity|]; assumption.

  Lemma parts_found s n : sampled I s n -> rectangular I n -> times_ok I -> (0 < n)%Z ->
    exists times ext arr, label_times I s = Some times /\ label_extremes N I s = Some ext /\
      reals I (sampling_parameter s) = Some arr /\ parts s n times ext.
  Proof.
    intros SM RC T P. pose proof SM as (_ & _ & SC).
    assert (AT : forall c a, In c (columns (table_of s)) ->
      (forall q, column_is I s c 0 q -> exists x, has I a 0 x) -> exists l, reals I a = Some l /\ zlen l = n).
    { intros c a Hc H. destruct (SC c 0%Z Hc ltac:(lia)) as (q & Q & _). destruct (H q Q) as [x X].
      destruct (has_reals a _ _ X) as [l L]. exists l. split; [exact L|]. eapply reals_length; eassumption. }
    assert (A1 : exists l, reals I "t_oet_spm_vals" = Some l /\ zlen l = n).
    { apply (AT cTOET); [destruct s; cbn; tauto|]. destruct s; cbn; eauto. }
    destruct A1 as (l1 & E1 & L1).
    destruct (times_found "t_oet_spm_vals" "START_TIME" "STOP_TIME" l1 n E1 L1 P T) as (ta & tz & x1 & z1 & F1 & G1 & G2 & G3 & G4); [cbn; tauto|].
    destruct (match s with Geo | Cal => true | _ => false end) eqn:K.
    { unfold label_times. rewrite F1. cbn [bind].
      exists [("START_TIME"%string, ta); ("STOP_TIME"%string, tz)], [], l1.
      destruct s; try discriminate; (split; [reflexivity|]; split; [reflexivity|]; split; [exact E1|];
        split; [reflexivity|]; split; [|split; [reflexivity|contradiction]];
        intros key txt [H|[H|[]]]; [mom|mom]). }
    assert (A2 : exists l, reals I "t_ret_spm_vals" = Some l /\ zlen l = n).
    { apply (AT cTRET); [destruct s; try discriminate; cbn; tauto|]. destruct s; try discriminate; cbn; eauto. }
    assert (A3 : exists l, reals I "t_set_spm_vals" = Some l /\ zlen l = n).
    { apply (AT cTSET); [destruct s; try discriminate; cbn; tauto|]. destruct s; try discriminate; cbn; eauto. }
    assert (A4 : exists l, reals I "rho_km_vals" = Some l /\ zlen l = n).
    { apply (AT cRHO); [destruct s; try discriminate; cbn; tauto|]. destruct s; try discriminate; cbn; eauto. }
    destruct A2 as (l2 & E2 & L2). destruct A3 as (l3 & E3 & L3). destruct A4 as (l4 & E4 & L4).
    destruct (times_found "t_ret_spm_vals" "RING_EVENT_START_TIME" "RING_EVENT_STOP_TIME" l2 n E2 L2 P T)
      as (tb & ty & x2 & z2 & F2 & G5 & G6 & G7 & G8); [cbn; tauto|].
    destruct (times_found "t_set_spm_vals" "SPACECRAFT_EVENT_START_TIME" "SPACECRAFT_EVENT_STOP_TIME" l3 n E3 L3 P T)
      as (tc & tw & x3 & z3 & F3 & G9 & G10 & G11 & G12); [cbn; tauto|].
    set (attr := fun c => match s, c with
      | Dlp, cPHIRL => degrees_of N I "phi_rl_rad_vals" | Dlp, cPHIORA => degrees_of N I "phi_rad_vals"
      | Dlp, _ => degrees_of N I "B_rad_vals"
      | _, cPHIRL => reals I "phi_rl_deg_vals" | _, cPHIORA => reals I "phi_deg_vals"
      | _, _ => reals I "B_deg_vals" end).
    assert (AD : forall c, In c [cPHIRL; cPHIORA; cB] -> exists l, attr c = Some l /\ zlen l = n /\ samples (column_is I s c) l).
    { intros c Hc. destruct s; try discriminate.
      - assert (AA : exists a, attr c = degrees_of N I a /\ column_is I Dlp c = has_degrees I a).
        { destruct Hc as [<-|[<-|[<-|[]]]]; (eexists; split; [reflexivity|reflexivity]). }
        destruct AA as (a & Ea & Ca). destruct (AT c a) as (l & E & L).
        { destruct Hc as [<-|[<-|[<-|[]]]]; cbn; tauto. }
        { rewrite Ca. intros q (x & X & _). eauto. }
        destruct (degrees_samples a l E) as (d & Ed & Ld & Sd). exists d. rewrite Ea, Ca.
        split; [exact Ed|]. split; [congruence|exact Sd].
      - assert (AA : exists a, attr c = reals I a /\ column_is I Tau c = has I a).
        { destruct Hc as [<-|[<-|[<-|[]]]]; (eexists; split; [reflexivity|reflexivity]). }
        destruct AA as (a & Ea & Ca). destruct (AT c a) as (l & E & L).
        { destruct Hc as [<-|[<-|[<-|[]]]]; cbn; tauto. }
        { rewrite Ca. eauto. }
        exists l. rewrite Ea, Ca. split; [exact E|]. split; [exact L|apply has_samples, E]. }
    destruct (AD cPHIRL) as (d1 & D1 & LD1 & S1); [cbn; tauto|].
    destruct (AD cPHIORA) as (d2 & D2 & LD2 & S2); [cbn; tauto|].
    destruct (AD cB) as (d3 & D3 & LD3 & S3); [cbn; tauto|]. clear AD AT.
    pose proof (has_samples _ _ E4) as S0.
    destruct (min_max_found _ _ n _ "MINIMUM_RING_RADIUS" "MAXIMUM_RING_RADIUS" E4 S0 L4 P) as (a0 & b0 & M0 & V1 & V2).
    destruct (min_max_found _ _ n _ "MINIMUM_RING_LONGITUDE" "MAXIMUM_RING_LONGITUDE" D1 S1 LD1 P) as (a1 & b1 & M1 & V3 & V4).
    destruct (min_max_found _ _ n _ "MINIMUM_OBSERVED_RING_AZIMUTH" "MAXIMUM_OBSERVED_RING_AZIMUTH" D2 S2 LD2 P) as (a2 & b2 & M2 & V5 & V6).
    destruct (min_max_found _ _ n _ "MINIMUM_OBSERVED_RING_ELEVATION" "MAXIMUM_OBSERVED_RING_ELEVATION" D3 S3 LD3 P) as (a3 & b3 & M3 & V7 & V8).
    eexists. eexists. exists l4.
    split; [unfold label_times; rewrite F1; cbn [bind]; rewrite F2; cbn [bind]; rewrite F3; cbn [bind]; destruct s; try discriminate; reflexivity|].
    split.
    { unfold label_extremes. destruct s; try discriminate; unfold attr in M1, M2, M3; rewrite M0;
      cbn [bind]; rewrite M1; cbn [bind]; rewrite M2; cbn [bind]; rewrite M3; reflexivity. }
    split; [destruct s; try discriminate; exact E4|].
    split; [destruct s; try discriminate; reflexivity|]. split.
    { intros key txt [H|[H|[H|[H|[H|[H|[]]]]]]]; mom. }
    split; [destruct s; try discriminate; reflexivity|].
    intros key v H. destruct s; try discriminate; (destruct H as [H|[H|[H|[H|[H|[H|[H|[H|[]]]]]]]]]; ext).
  Qed.

  Lemma sampling_samples s arr : reals I (sampling_parameter s) = Some arr -> samples (named I s (sampling s)) arr.
  Proof. intro E. pose proof (has_samples _ _ E) as H. destruct s; exact H. Qed.

  Theorem label_exists s n : sampled I s n -> rectangular I n -> times_ok I ->
    ((exists l, series_info N I s = Some l) <-> even_steps I s n).
  Proof.
    intros SM RC T. split.
    - intros (l & E). destruct (info_layout N I s l E) as (arr & EA & _ & _ & _ & _ & _ & _ & _ & _ & _ & _ & _ & EI).
      pose proof (reals_length _ _ n RC EA) as LA. pose proof (sampling_samples s arr EA) as SS.
      assert (EX : exists d, get_sampling_interval (S := real_scalar) arr = Some d) by eauto.
      apply interval in EX as (a & b & y & z & H1 & H2 & H3 & H4 & H5).
      change (car real_scalar) with R in *. rewrite LA in H3, H4.
      exists a, b, y, z. do 4 (split; [apply SS; assumption|]). assumption.
    - intros (a & b & y & z & H1 & H2 & H3 & H4 & H5).
      assert (P : (0 < n)%Z).
      { assert (EX : exists l, reals I (sampling_parameter s) = Some l) by (destruct s; eapply has_reals; exact H1).
        destruct EX as [arr EA]. apply (sampling_samples s arr EA) in H1. apply entry_range in H1.
        pose proof (reals_length _ _ n RC EA) as LA. change (car real_scalar) with R in *. lia. }
      destruct (parts_found s n SM RC T P) as (times & ext & arr & ET & EE & EA & _).
      pose proof (reals_length _ _ n RC EA) as LA. pose proof (sampling_samples s arr EA) as SS.
      assert (EX : exists d, get_sampling_interval (S := real_scalar) arr = Some d).
      { apply interval. change (car real_scalar) with R in *. rewrite LA. exists a, b, y, z. do 4 (split; [apply SS; assumption|]). assumption. }
      destruct EX as [d ED].
      destruct (pymin_some arr) as [lo EL]; [change (car real_scalar) with R in *; lia|].
      destruct (pymax_some arr) as [hi EH]; [change (car real_scalar) with R in *; lia|].
      unfold series_info. fold (two_way I s).
      destruct (label_layout s (two_way I s)) as (rb & bl & sl & obs & X1 & X2 & _). unfold lformats, lnames in *.
      rewrite X1. cbn [bind]. rewrite EA. cbn [bind]. rewrite ET. cbn [bind]. rewrite EE. cbn [bind].
      rewrite EL. cbn [bind]. rewrite EH. cbn [bind]. rewrite ED. cbn [bind]. rewrite X2. eexists. reflexivity.
  Qed.
  Theorem label_tells s n l : sampled I s n -> rectangular I n -> times_ok I ->
    series_info N I s = Some l -> tells I s n l.
  Proof.
    intros SM RC T E.
    destruct (info_layout N I s l E) as (arr & EA & FR & _ & _ & _ & _ & _ & _ & ET & EX & EL & EH & ED).
    pose proof (reals_length _ _ n RC EA) as LA. pose proof (sampling_samples s arr EA) as SS.
    destruct (interval_is arr _ ED) as (a & b & Ha & Hb & Hd).
    assert (P : (0 < n)%Z) by (apply entry_range in Ha; change (car real_scalar) with R in *; lia).
    destruct (parts_found s n SM RC T P) as (times & ext & arr2 & ET2 & EE2 & _ & P1 & P2 & P3 & P4).
    rewrite ET in ET2. injection ET2 as <-. rewrite EX in EE2. injection EE2 as <-.
    split; try assumption.
    - congruence.
    - eapply min_least; eassumption.
    - eapply max_largest; eassumption.
    - exists a, b. split; [apply SS, Ha|]. split; [apply SS, Hb|]. exact Hd.
  Qed.
End Tells.
