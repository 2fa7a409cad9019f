(** * Proof_Time2: proofs of C67, ephemeris time to seconds past midnight. *)
From Coq Require Import List ZArith Bool Reals Lra Lia Arith.
From Verif Require Import Base Model_Time Spec_Time Proof_Time.
Import ListNotations.
Open Scope R_scope.

Lemma breaks_in : forall l i k, In k (breaks i l) <-> (i <= k)%nat /\ (S (k - i) < length l)%nat /\ nth (S (k - i)) l 0 < nth (k - i) l 0.
Proof.
  induction l as [|x l IH]; intros i k; [cbn; lia|].
  destruct l as [|y l]; [cbn; lia|]. change (breaks i (x :: y :: l)) with
    (if Rlt_dec (y - x) 0 then i :: breaks (S i) (y :: l) else breaks (S i) (y :: l)).
  assert (E : In k (breaks (S i) (y :: l)) <-> (S i <= k)%nat /\ (S (k - i) < length (x :: y :: l))%nat /\
    nth (S (k - i)) (x :: y :: l) 0 < nth (k - i) (x :: y :: l) 0).
  { rewrite IH. split; intros (A & B & C).
    - split; [exact A|]. replace (k - i)%nat with (S (k - S i)) by lia. split; [cbn [length] in *; lia|exact C].
    - split; [exact A|]. replace (k - i)%nat with (S (k - S i)) in B, C by lia. split; [cbn [length] in *; lia|exact C]. }
  destruct (Rlt_dec (y - x) 0) as [L|L].
  - cbn [In]. rewrite E. split.
    + intros [<-|(A & B & C)]; [|split; [lia|split; assumption]]. rewrite Nat.sub_diag. cbn. split; [lia|]. split; [lia|lra].
    + intros (A & B & C). destruct (Nat.eq_dec i k) as [->|K]; [left; reflexivity|right]. split; [lia|]. split; assumption.
  - rewrite E. split.
    + intros (A & B & C). split; [lia|split; assumption].
    + intros (A & B & C). destruct (Nat.eq_dec i k) as [->|K].
      * rewrite Nat.sub_diag in C. cbn in C. lra.
      * split; [lia|]. split; assumption.
Qed.
Lemma breaks_nodup : forall l i, NoDup (breaks i l).
Proof.
  induction l as [|x l IH]; intro i; [constructor|]. destruct l as [|y l]; [constructor|].
  change (breaks i (x :: y :: l)) with (if Rlt_dec (y - x) 0 then i :: breaks (S i) (y :: l) else breaks (S i) (y :: l)).
  destruct (Rlt_dec (y - x) 0); [|apply IH]. constructor; [|apply IH]. rewrite breaks_in. lia.
Qed.
Lemma add_from_length : forall l n v, length (add_from n v l) = length l.
Proof. induction l as [|x l IH]; intros [|n] v; cbn; try reflexivity; rewrite IH; reflexivity. Qed.
Lemma add_from_nth : forall l n v j, (j < length l)%nat ->
  nth j (add_from n v l) 0 = nth j l 0 + (if (n <=? j)%nat then v else 0).
Proof.
  induction l as [|x l IH]; intros n v j H; [cbn in H; lia|]. destruct n as [|n].
  - cbn [add_from]. destruct j as [|j]; [cbn; lra|]. cbn [nth]. rewrite IH by (cbn in H; lia). reflexivity.
  - cbn [add_from]. destruct j as [|j]; [cbn; lra|]. cbn [nth]. rewrite IH by (cbn in H; lia). reflexivity.
Qed.
(** The sum of the values at the breaks before [j]. *)
Definition before (raw : list R) (bs : list nat) (j : nat) : R :=
  fold_right (fun ind s => (if (S ind <=? j)%nat then nth ind raw 0 else 0) + s) 0 bs.
Lemma fold_length : forall raw bs c, length (fold_left (fun cont ind => add_from (S ind) (nth ind raw 0) cont) bs c) = length c.
Proof. induction bs as [|b bs IH]; intro c; [reflexivity|]. cbn. rewrite IH. apply add_from_length. Qed.
Lemma fold_nth : forall raw bs c j, (j < length c)%nat ->
  nth j (fold_left (fun cont ind => add_from (S ind) (nth ind raw 0) cont) bs c) 0 = nth j c 0 + before raw bs j.
Proof.
  induction bs as [|b bs IH]; intros c j H; [cbn; lra|]. cbn [fold_left]. rewrite IH by (rewrite add_from_length; exact H).
  rewrite add_from_nth by exact H. unfold before. cbn [fold_right]. lra.
Qed.
Lemma before_step : forall raw bs j, NoDup bs ->
  before raw bs (S j) = before raw bs j + (if in_dec Nat.eq_dec j bs then nth j raw 0 else 0).
Proof.
  intros raw bs j. induction bs as [|b bs IH]; intro N; [cbn; lra|]. inversion N as [|? ? Nb N']; subst.
  specialize (IH N'). unfold before in *. cbn [fold_right].
  change (S b <=? S j)%nat with (b <=? j)%nat.
  destruct (in_dec Nat.eq_dec j (b :: bs)) as [I|I].
  - destruct (Nat.eq_dec b j) as [->|K].
    + destruct (in_dec Nat.eq_dec j bs) as [I'|I']; [contradiction|].
      destruct (Nat.leb_spec j j); [|lia]. destruct (Nat.leb_spec (S j) j); [lia|]. lra.
    + destruct I as [I|I]; [contradiction|]. destruct (in_dec Nat.eq_dec j bs) as [I'|I']; [|contradiction].
      destruct (Nat.leb_spec b j), (Nat.leb_spec (S b) j); try lia; lra.
  - destruct (in_dec Nat.eq_dec j bs) as [I'|I']; [exfalso; apply I; right; exact I'|].
    assert (K : b <> j) by (intros ->; apply I; left; reflexivity).
    destruct (Nat.leb_spec b j), (Nat.leb_spec (S b) j); try lia; lra.
Qed.
Lemma continued_length : forall raw, length (continued raw) = length raw.
Proof. intro raw. apply fold_length. Qed.
Lemma continued_first : forall raw, nth 0 (continued raw) 0 = nth 0 raw 0.
Proof.
  intros [|x raw]; [reflexivity|]. unfold continued. rewrite fold_nth by (cbn; lia).
  assert (E : forall bs, before (x :: raw) bs 0 = 0) by (induction bs as [|b bs IH]; [reflexivity|change (0 + before (x :: raw) bs 0 = 0); rewrite IH; lra]).
  rewrite E. apply Rplus_0_r.
Qed.
(** From one element to the next: the difference of the raw values, and at a break the raw
    value of the next element. *)
Lemma continued_step : forall raw j, (S j < length raw)%nat ->
  nth (S j) (continued raw) 0 - nth j (continued raw) 0 =
  if Rlt_dec (nth (S j) raw 0) (nth j raw 0) then nth (S j) raw 0 else nth (S j) raw 0 - nth j raw 0.
Proof.
  intros raw j H. unfold continued. rewrite !fold_nth by lia. rewrite before_step by apply breaks_nodup.
  destruct (in_dec Nat.eq_dec j (breaks 0 raw)) as [I|I].
  - apply breaks_in in I. rewrite Nat.sub_0_r in I. destruct (Rlt_dec (nth (S j) raw 0) (nth j raw 0)); [lra|tauto].
  - destruct (Rlt_dec (nth (S j) raw 0) (nth j raw 0)) as [L|L]; [|lra].
    exfalso. apply I. apply breaks_in. rewrite Nat.sub_0_r. split; [lia|]. split; assumption.
Qed.

(** ** With a clock. *)
Section Clock.
  Variable E : R -> utc.
  Variable epoch : R.
  Hypothesis C : reads E epoch.
  Let raw (ets : list R) := map (fun et => spm_of (E et)) ets.
  Lemma raw_nth : forall ets j, (j < length ets)%nat -> nth j (raw ets) 0 = spm_of (E (nth j ets 0)).
  Proof.
    intros ets j H. unfold raw. rewrite nth_indep with (d' := spm_of (E 0)) by (rewrite map_length; exact H).
    apply (map_nth (fun et => spm_of (E et))).
  Qed.
  Lemma raw_value : forall et, spm_of (E et) = et + epoch - 86400 * IZR (day_of (E et)).
  Proof. intro et. destruct (C et) as (_ & H). rewrite instant_split in H. lra. Qed.
  Lemma order_step : forall ets j, in_order ets -> (S j < length ets)%nat -> nth j ets 0 <= nth (S j) ets 0 < nth j ets 0 + 86400.
  Proof.
    induction ets as [|x ets IH]; intros j O H; [cbn in H; lia|]. destruct ets as [|y ets]; [cbn in H; lia|].
    destruct O as (O1 & O2). destruct j as [|j]; [cbn; lra|]. cbn [nth] in *. apply (IH j); [exact O2|cbn in *; lia].
  Qed.
  (** Of two times less than a day apart the later is on the same day or on the next. *)
  Lemma next_day : forall a b, a <= b < a + 86400 ->
    (day_of (E b) = day_of (E a) /\ spm_of (E a) <= spm_of (E b)) \/
    (day_of (E b) = (day_of (E a) + 1)%Z /\ spm_of (E b) < spm_of (E a)).
  Proof.
    intros a b H. pose proof (spm_bounds _ (proj1 (C a))) as A. pose proof (spm_bounds _ (proj1 (C b))) as B.
    rewrite raw_value in A, B. rewrite !raw_value.
    assert (L1 : IZR (day_of (E a)) < IZR (day_of (E b) + 1)) by (rewrite plus_IZR; lra).
    assert (L2 : IZR (day_of (E b)) < IZR (day_of (E a) + 2)) by (rewrite plus_IZR; lra).
    apply lt_IZR in L1, L2. assert (D : (day_of (E b) = day_of (E a) \/ day_of (E b) = day_of (E a) + 1)%Z) by lia.
    destruct D as [D|D]; rewrite D; [left; split; [reflexivity|lra]|right; split; [reflexivity|rewrite plus_IZR; lra]].
  Qed.
  Lemma midnight_step : forall ets j, in_order ets -> (S j < length ets)%nat ->
    let a := nth j ets 0 in let b := nth (S j) ets 0 in
    (day_of (E b) = day_of (E a) -> nth (S j) (continued (raw ets)) 0 - nth j (continued (raw ets)) 0 = b - a) /\
    (day_of (E b) <> day_of (E a) ->
      nth (S j) (continued (raw ets)) 0 - nth j (continued (raw ets)) 0 = (b - a) - (86400 - spm_of (E a))).
  Proof.
    intros ets j O H a b. rewrite continued_step by (unfold raw; rewrite map_length; exact H).
    rewrite !raw_nth by lia. fold a b. pose proof (next_day a b (order_step ets j O H)) as [(D & L)|(D & L)].
    - split; [intros _|congruence]. destruct (Rlt_dec (spm_of (E b)) (spm_of (E a))); [lra|]. rewrite !raw_value, D. lra.
    - split; [lia|intros _]. destruct (Rlt_dec (spm_of (E b)) (spm_of (E a))); [|lra].
      rewrite (raw_value b), (raw_value a), D, plus_IZR. lra.
  Qed.
  Lemma day_monotone : forall ets j, in_order ets -> (j < length ets)%nat ->
    (day_of (E (nth 0 ets 0%R)) <= day_of (E (nth j ets 0%R)))%Z.
  Proof.
    intros ets j O H. induction j as [|j IH]; [lia|]. specialize (IH ltac:(lia)).
    pose proof (next_day _ _ (order_step ets j O H)) as [(D & _)|(D & _)]; lia.
  Qed.
  (** All the elements on one day: counted from its midnight.  Otherwise too small. *)
  Lemma counted : forall ets j, in_order ets -> (j < length ets)%nat ->
    let zero := 86400 * IZR (day_of (E (nth 0 ets 0))) in
    (day_of (E (nth j ets 0)) = day_of (E (nth 0 ets 0)) -> nth j (continued (raw ets)) 0 = nth j ets 0 + epoch - zero) /\
    (day_of (E (nth j ets 0)) <> day_of (E (nth 0 ets 0)) -> nth j (continued (raw ets)) 0 < nth j ets 0 + epoch - zero).
  Proof.
    intros ets j O H zero. induction j as [|j IH].
    - split; [intros _|congruence]. rewrite continued_first, raw_nth by exact H. rewrite raw_value. reflexivity.
    - destruct (IH ltac:(lia)) as (I1 & I2). clear IH. destruct (midnight_step ets j O H) as (M1 & M2).
      pose proof (day_monotone ets j O ltac:(lia)) as Dm.
      pose proof (next_day _ _ (order_step ets j O H)) as [(D & L)|(D & L)].
      + specialize (M1 D). rewrite D. split; intro K; [specialize (I1 K)|specialize (I2 K)]; lra.
      + assert (N : day_of (E (nth (S j) ets 0)) <> day_of (E (nth j ets 0))) by lia. specialize (M2 N).
        pose proof (spm_bounds _ (proj1 (C (nth j ets 0)))) as B.
        split; [lia|intros _]. destruct (Z.eq_dec (day_of (E (nth j ets 0))) (day_of (E (nth 0 ets 0)))) as [K|K];
          [specialize (I1 K)|specialize (I2 K)]; lra.
  Qed.
  Lemma nth_ext_R : forall l l' : list R, length l = length l' -> (forall j, (j < length l)%nat -> nth j l 0 = nth j l' 0) -> l = l'.
  Proof. intros l l' L H. apply nth_ext with (d := 0) (d' := 0); assumption. Qed.
  Lemma one_day : forall ets, in_order ets -> (forall et, In et ets -> day_of (E et) = day_of (E (nth 0 ets 0))) ->
    continued (raw ets) = map (fun et => et + epoch - 86400 * IZR (day_of (E (nth 0 ets 0)))) ets.
  Proof.
    intros ets O D. apply nth_ext_R; [rewrite continued_length; unfold raw; rewrite !map_length; reflexivity|].
    rewrite continued_length. unfold raw. rewrite map_length. intros j H.
    rewrite nth_indep with (l := map _ ets) (d' := (fun et => et + epoch - 86400 * IZR (day_of (E (nth 0 ets 0)))) 0) by (rewrite map_length; exact H).
    rewrite (map_nth (fun et => et + epoch - 86400 * IZR (day_of (E (nth 0 ets 0))))). fold (raw ets).
    apply (proj1 (counted ets j O H)). apply D. apply nth_In. exact H.
  Qed.
  Lemma same_day : forall ets ref, in_order ets -> (forall et, In et ets -> day_of (E et) = day_of (E (nth 0 ets 0))) ->
    (ref = None \/ (exists d, ref = Some d /\ (1 <= d <= u_doy (E (nth 0 ets 0%R)))%Z)) ->
    et_to_spm E ets ref = Returns (map (fun et => et + epoch - midnight (u_year (E (nth 0 ets 0)))
      (match ref with None => u_doy (E (nth 0 ets 0)) | Some d => d end)) ets).
  Proof.
    intros [|et0 ets] ref O D R; [reflexivity|]. unfold et_to_spm. fold (raw (et0 :: ets)). rewrite (one_day _ O D).
    cbn [nth] in *. set (u := E et0) in *. destruct R as [->|(d & -> & Hd)]; [reflexivity|].
    destruct (Z.eqb_spec d 0); [lia|]. destruct (Z.ltb_spec (u_doy u - d) 0); [lia|]. f_equal. rewrite map_map. apply map_ext.
    intro et. unfold midnight, day_of. rewrite !minus_IZR, !plus_IZR. lra.
  Qed.
  Lemma too_small : forall ets out j, in_order ets -> et_to_spm E ets None = Returns out -> (j < length ets)%nat ->
    day_of (E (nth j ets 0)) <> day_of (E (nth 0 ets 0)) ->
    nth j out 0 < nth j ets 0 + epoch - midnight (u_year (E (nth 0 ets 0))) (u_doy (E (nth 0 ets 0))).
  Proof.
    intros [|et0 ets] out j O H L D; [cbn in L; lia|]. unfold et_to_spm in H. injection H as <-.
    fold (raw (et0 :: ets)). pose proof (proj2 (counted _ j O L) D) as K. cbn [nth] in *. exact K.
  Qed.
  Lemma steps : forall ets out j, in_order ets -> et_to_spm E ets None = Returns out -> (S j < length ets)%nat ->
    let a := nth j ets 0 in let b := nth (S j) ets 0 in
    (day_of (E b) = day_of (E a) -> nth (S j) out 0 - nth j out 0 = b - a) /\
    (day_of (E b) <> day_of (E a) -> nth (S j) out 0 - nth j out 0 = (b - a) - (86400 - spm_of (E a))).
  Proof.
    intros [|et0 ets] out j O H L; [cbn in L; lia|]. unfold et_to_spm in H. injection H as <-.
    exact (midnight_step _ j O L).
  Qed.
  Lemma reference_after : forall ets d, (ets <> [])%list -> (d <> 0)%Z -> (u_doy (E (nth 0 ets 0%R)) < d)%Z ->
    et_to_spm E ets (Some d) = Raises.
  Proof.
    intros [|et0 ets] d N Z H; [congruence|]. unfold et_to_spm. destruct (Z.eqb_spec d 0); [contradiction|].
    cbn [nth] in H. destruct (Z.ltb_spec (u_doy (E et0) - d) 0); [reflexivity|lia].
  Qed.
End Clock.

(** ** There and back. *)
Lemma in_order_map : forall (f : R -> R) c l, (forall x, In x l -> f x = x + c) -> in_order l -> in_order (map f l).
Proof.
  intros f c. induction l as [|x l IH]; intros F O; [exact I|]. destruct l as [|y l]; [exact I|].
  destruct O as (O1 & O2). split; [|apply IH; [intros z Hz; apply F; right; exact Hz|exact O2]].
  rewrite (F x), (F y); [lra| |]; cbn; tauto.
Qed.
Lemma round_trip : forall E W epoch year doy k spms,
  reads E epoch -> sets W epoch ->
  (1 <= doy)%Z -> (0 <= k)%Z -> (doy + k <= year_days year)%Z -> year <> 0%Z -> ((year mod 100 = 0)%Z -> (year mod 400 = 0)%Z) ->
  in_order spms -> (forall s, In s spms -> 86400 * IZR k <= s < 86400 * IZR (k + 1)) ->
  exists ets, spm_to_et W spms doy year true = Returns ets /\ et_to_spm E ets (Some doy) = Returns spms.
Proof.
  intros E W epoch year doy k spms C Wl D K B Y Ce O S. unfold spm_to_et.
  destruct (Z.eqb_spec doy 0); [lia|]. destruct (Z.eqb_spec year 0); [contradiction|]. cbn [negb].
  eexists. split; [reflexivity|]. set (W' := fun s => W (date_of year doy s)).
  assert (V : forall s, In s spms -> W' s = s + (midnight year doy - epoch) /\
     u_year (E (W' s)) = year /\ u_doy (E (W' s)) = (doy + k)%Z).
  { intros s Hs. specialize (S s Hs). assert (K0 : 0 <= IZR k) by (apply IZR_le; exact K).
    destruct (date_exact year doy s) as (Pd & Id).
    - lra.
    - lia.
    - exact Ce.
    - assert (s / 86400 < IZR (k + 1)) by lra. assert (IZR (doy - 1) + IZR (k + 1) <= IZR (year_days year + 365)); [|lra].
      rewrite <- plus_IZR. apply IZR_le. lia.
    - assert (Ew : W' s = s + (midnight year doy - epoch)) by (unfold W'; rewrite (Wl _ Pd), Id; lra).
      split; [exact Ew|]. destruct (C (W' s)) as (Pe & Ie).
      rewrite instant_split in Ie. rewrite Ew in Ie. pose proof (spm_bounds _ Pe) as Be. rewrite <- Ew in Ie.
      assert (Dd : day_of (E (W' s)) = (days_before year + (doy + k) - 1)%Z).
      { unfold midnight in *. rewrite plus_IZR in S.
        assert (L1 : IZR (day_of (E (W' s))) < IZR (days_before year + doy - 1 + k + 1)) by (rewrite plus_IZR, plus_IZR; lra).
        assert (L2 : IZR (days_before year + doy - 1 + k) < IZR (day_of (E (W' s)) + 1)) by (rewrite (plus_IZR (day_of _)), plus_IZR; lra).
        apply lt_IZR in L1, L2. lia. }
      unfold day_of in Dd. apply date_unique; [apply Pe|lia|lia]. }
  fold W'. destruct spms as [|s0 spms]; [reflexivity|].
  assert (V0 := V s0 (or_introl eq_refl)). destruct V0 as (_ & Vy & Vd).
  rewrite (same_day E epoch C).
  - f_equal. rewrite map_map. rewrite <- (map_id (s0 :: spms)) at 2. apply map_ext_in. intros s Hs.
    destruct (V s Hs) as (Vs & _). cbn [map nth]. rewrite Vy, Vs. lra.
  - apply in_order_map with (c := midnight year doy - epoch); [intros x Hx; apply (V x Hx)|exact O].
  - intros et He. apply in_map_iff in He. destruct He as (s & <- & Hs). destruct (V s Hs) as (_ & Sy & Sd).
    cbn [map nth]. unfold day_of. rewrite Sy, Sd, Vy, Vd. reflexivity.
  - right. exists doy. split; [reflexivity|]. cbn [map nth]. rewrite Vd. lia.
Qed.
Lemma to_time : forall W epoch spms doy year,
  sets W epoch -> (1 <= doy <= year_days year)%Z -> year <> 0%Z -> ((year mod 100 = 0)%Z -> (year mod 400 = 0)%Z) ->
  (forall s, In s spms -> 0 <= s /\ IZR (doy - 1) + s / 86400 < IZR (year_days year + 365)) ->
  spm_to_et W spms doy year true = Returns (map (fun s => midnight year doy + s - epoch) spms).
Proof.
  intros W epoch spms doy year Wl D Y C S. unfold spm_to_et. destruct (Z.eqb_spec doy 0); [lia|].
  destruct (Z.eqb_spec year 0); [contradiction|]. cbn [negb]. f_equal. apply map_ext_in. intros s Hs.
  destruct (S s Hs) as (S1 & S2). destruct (date_exact year doy s S1 D C S2) as (P & I). rewrite (Wl _ P), I. reflexivity.
Qed.
