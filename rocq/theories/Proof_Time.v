(** * Proof_Time: proofs of C67. *)
From Coq Require Import List ZArith Bool Reals Lra Lia Znumtheory.
From Flocq Require Import Core.
From Verif Require Import Base Model_Time Spec_Time.
Import ListNotations.
Open Scope R_scope.

(** ** The calendar. *)
Lemma div_step : forall y k, (0 < k)%Z -> (y / k - (y - 1) / k = if y mod k =? 0 then 1 else 0)%Z.
Proof.
  intros y k K. destruct (Z.eqb_spec (y mod k) 0) as [E|E].
  - assert (H : (y = k * (y / k))%Z) by (pose proof (Z.div_mod y k); lia).
    assert (Q : ((y - 1) / k = y / k - 1)%Z); [|lia].
    symmetry. apply Z.div_unique with (r := (k - 1)%Z); lia.
  - assert (Q : ((y - 1) / k = y / k)%Z); [|lia]. symmetry.
    apply Z.div_unique with (r := (y mod k - 1)%Z); pose proof (Z.div_mod y k); pose proof (Z.mod_pos_bound y k); lia.
Qed.
Lemma next_year : forall y, (days_before (y + 1) = days_before y + year_days y)%Z.
Proof.
  intro y. unfold days_before, year_days, leap. replace (y + 1 - 1)%Z with y by lia.
  pose proof (div_step y 4 ltac:(lia)) as A. pose proof (div_step y 100 ltac:(lia)) as B. pose proof (div_step y 400 ltac:(lia)) as C.
  assert (I : (y mod 100 = 0 -> y mod 4 = 0)%Z).
  { intro H. apply Z.mod_divide in H; [|lia]. apply Z.mod_divide; [lia|]. destruct H as (q & ->). exists (q * 25)%Z. lia. }
  assert (J : (y mod 400 = 0 -> y mod 100 = 0)%Z).
  { intro H. apply Z.mod_divide in H; [|lia]. apply Z.mod_divide; [lia|]. destruct H as (q & ->). exists (q * 4)%Z. lia. }
  destruct (Z.eqb_spec (y mod 4) 0), (Z.eqb_spec (y mod 100) 0), (Z.eqb_spec (y mod 400) 0); cbn [andb orb negb]; lia.
Qed.
Lemma year_days_pos : forall y, (365 <= year_days y <= 366)%Z.
Proof. intro y. unfold year_days. destruct (leap y); lia. Qed.
Lemma days_before_mono : forall a b, (a <= b)%Z -> (days_before a <= days_before b)%Z.
Proof.
  intros a b H. replace b with (a + Z.of_nat (Z.to_nat (b - a)))%Z by lia. clear H.
  induction (Z.to_nat (b - a)) as [|n IH]; [rewrite Z.add_0_r; lia|].
  replace (a + Z.of_nat (S n))%Z with (a + Z.of_nat n + 1)%Z by lia. rewrite next_year.
  pose proof (year_days_pos (a + Z.of_nat n)). lia.
Qed.
Lemma date_unique : forall y d y' d',
  (1 <= d <= year_days y)%Z -> (1 <= d' <= year_days y')%Z ->
  (days_before y + d = days_before y' + d')%Z -> y = y' /\ d = d'.
Proof.
  assert (K : forall y d y' d', (1 <= d <= year_days y)%Z -> (1 <= d' <= year_days y')%Z ->
    (days_before y + d = days_before y' + d')%Z -> ~ (y < y')%Z).
  { intros y d y' d' H H' E L. assert (M : (days_before (y + 1) <= days_before y')%Z) by (apply days_before_mono; lia).
    rewrite next_year in M. lia. }
  intros y d y' d' H H' E. pose proof (K _ _ _ _ H H' E). pose proof (K _ _ _ _ H' H (eq_sym E)).
  assert (y = y') by lia. subst y'. split; [reflexivity|lia].
Qed.
Lemma spm_bounds : forall u, proper u -> 0 <= spm_of u < 86400.
Proof.
  intros u (_ & H & M & S). unfold spm_of.
  assert (IZR 0 <= IZR (u_hour u) <= IZR 23) by (split; apply IZR_le; lia).
  assert (IZR 0 <= IZR (u_min u) <= IZR 59) by (split; apply IZR_le; lia). lra.
Qed.
Lemma instant_split : forall u, instant u = 86400 * IZR (day_of u) + spm_of u.
Proof. intro u. unfold instant, spm_of. lra. Qed.
Lemma same_instant : forall u v, proper u -> proper v -> instant u = instant v ->
  spm_of u = spm_of v /\ u_year u = u_year v /\ u_doy u = u_doy v.
Proof.
  intros u v Pu Pv E. rewrite !instant_split in E. pose proof (spm_bounds u Pu) as Bu. pose proof (spm_bounds v Pv) as Bv.
  assert (D : day_of u = day_of v).
  { assert (IZR (day_of u) < IZR (day_of v) + 1) by lra. assert (IZR (day_of v) < IZR (day_of u) + 1) by lra.
    rewrite <- plus_IZR in H, H0. apply lt_IZR in H, H0. lia. }
  rewrite D in E. split; [lra|]. unfold day_of in D. apply date_unique; [apply Pu|apply Pv|lia].
Qed.

(** ** spm_to_et. *)
Lemma trunc_div : forall a b, (0 <= a)%Z -> (0 < b)%Z -> Ztrunc (IZR a / IZR b) = (a / b)%Z.
Proof.
  intros a b A B. rewrite Ztrunc_floor.
  - apply Zfloor_div. lia.
  - apply Rmult_le_pos; [apply IZR_le; exact A|]. left. apply Rinv_0_lt_compat. apply IZR_lt. exact B.
Qed.
Lemma date_exact : forall year doy spm,
  0 <= spm -> (1 <= doy <= year_days year)%Z -> ((year mod 100 = 0)%Z -> (year mod 400 = 0)%Z) ->
  IZR (doy - 1) + spm / 86400 < IZR (year_days year + 365) ->
  proper (date_of year doy spm) /\ instant (date_of year doy spm) = midnight year doy + spm.
Proof.
  intros year doy spm P D C B.
  assert (Y : (if (year mod 4 =? 0)%Z then 366 else 365)%Z = year_days year).
  { unfold year_days, leap. destruct (Z.eqb_spec (year mod 4) 0); [|reflexivity]. cbn [andb].
    destruct (Z.eqb_spec (year mod 100) 0) as [E|E]; [|reflexivity]. rewrite (C E). reflexivity. }
  unfold date_of. rewrite Y. set (n := year_days year) in *. pose proof (year_days_pos year) as NP. fold n in NP.
  set (H := Ztrunc (spm / 3600)).
  assert (HB : (0 <= H)%Z /\ IZR H <= spm / 3600 < IZR H + 1).
  { unfold H. assert (0 <= spm / 3600) by lra. rewrite Ztrunc_floor by assumption. split.
    - apply Zfloor_lub. exact H0.
    - split; [apply Zfloor_lb|apply Zfloor_ub]. }
  destruct HB as (H0 & H1 & H2).
  set (Rm := Ztrunc (spm - IZR H * 3600)).
  assert (RB : (0 <= Rm < 3600)%Z /\ IZR Rm <= spm - IZR H * 3600 < IZR Rm + 1).
  { unfold Rm. assert (0 <= spm - IZR H * 3600) by lra. rewrite Ztrunc_floor by assumption.
    assert (L := Zfloor_lb (spm - IZR H * 3600)). assert (U := Zfloor_ub (spm - IZR H * 3600)). split; [|split; assumption]. split.
    - apply Zfloor_lub. exact H3.
    - apply lt_IZR. lra. }
  destruct RB as (R0 & R1 & R2).
  rewrite (trunc_div Rm 60) by lia.
  set (M := (Rm / 60)%Z). assert (MB : (60 * M <= Rm < 60 * M + 60)%Z /\ (0 <= M < 60)%Z).
  { unfold M. pose proof (Z.div_mod Rm 60). pose proof (Z.mod_pos_bound Rm 60).
    assert (0 <= Rm / 60)%Z by (apply Z.div_pos; lia). assert (Rm / 60 < 60)%Z by (apply Z.div_lt_upper_bound; lia). lia. }
  destruct MB as (M1 & M2).
  assert (X : IZR doy + IZR H / 24 - 1 = IZR (24 * (doy - 1) + H) / IZR 24).
  { rewrite plus_IZR, mult_IZR, minus_IZR. field. }
  rewrite X. set (A := (24 * (doy - 1) + H)%Z) in *.
  assert (AP : (0 <= A)%Z) by (unfold A; lia).
  assert (Q1 : Zfloor (IZR A / IZR 24 / IZR n) = (A / (24 * n))%Z).
  { rewrite <- (Zfloor_div A (24 * n)) by lia. f_equal. rewrite mult_IZR. field. apply not_0_IZR; lia. }
  unfold pymod. rewrite Q1.
  assert (Aup : (A < 24 * (n + 365))%Z).
  { apply lt_IZR. unfold A. rewrite plus_IZR, mult_IZR. rewrite (mult_IZR 24 (n + 365)). lra. }
  set (q := (A / (24 * n))%Z) in *.
  assert (QB : (24 * n * q <= A < 24 * n * q + 24 * n)%Z /\ (0 <= q <= 1)%Z).
  { unfold q. pose proof (Z.div_mod A (24 * n)). pose proof (Z.mod_pos_bound A (24 * n)).
    assert (0 <= A / (24 * n))%Z by (apply Z.div_pos; lia). assert (A / (24 * n) < 2)%Z by (apply Z.div_lt_upper_bound; lia). lia. }
  destruct QB as (Q2 & Q3).
  assert (DV : Ztrunc (1 + (IZR A / IZR 24 - IZR n * IZR q)) = (1 + (A / 24 - n * q))%Z).
  { assert (E : 1 + (IZR A / IZR 24 - IZR n * IZR q) = IZR (A + 24 * (1 - n * q)) / IZR 24).
    { rewrite plus_IZR, mult_IZR, minus_IZR, mult_IZR. field. }
    rewrite E. rewrite trunc_div; [|nia|lia]. rewrite Z.mul_comm, Z.div_add by lia. lia. }
  rewrite DV.
  assert (A24 : (A / 24 = doy - 1 + H / 24)%Z).
  { unfold A. rewrite Z.add_comm, Z.mul_comm, Z.div_add by lia. lia. }
  assert (HM : (H = 24 * (H / 24) + H mod 24)%Z) by (apply Z.div_mod; lia).
  assert (HMB := Z.mod_pos_bound H 24 ltac:(lia)).
  assert (ADM : (A = 24 * (A / 24) + A mod 24)%Z) by (apply Z.div_mod; lia).
  assert (AMB := Z.mod_pos_bound A 24 ltac:(lia)).
  assert (MR1 : IZR (60 * M) <= IZR Rm) by (apply IZR_le; lia).
  assert (MR2 : IZR Rm <= IZR (60 * M + 59)) by (apply IZR_le; lia).
  rewrite mult_IZR in MR1. rewrite plus_IZR, mult_IZR in MR2.
  assert (DB : (1 <= 1 + (A / 24 - n * q) <= year_days (year + q))%Z).
  { assert (q = 0 \/ q = 1)%Z as [E|E] by lia; rewrite E in *.
    - rewrite Z.add_0_r. fold n. lia.
    - pose proof (year_days_pos (year + 1)). lia. }
  split.
  - unfold proper. cbn [u_doy u_year u_hour u_min u_sec]. repeat split; try lia; try lra; try apply DB.
  - unfold instant, midnight, day_of. cbn [u_doy u_year u_hour u_min u_sec].
    assert (DD : (days_before (year + q) + (1 + (A / 24 - n * q)) - 1 = days_before year + doy - 1 + H / 24)%Z).
    { assert (q = 0 \/ q = 1)%Z as [E|E] by lia; rewrite E in *.
      - rewrite Z.add_0_r. lia.
      - rewrite next_year. fold n. lia. }
    rewrite DD, plus_IZR.
    assert (HR : IZR H = 24 * IZR (H / 24) + IZR (H mod 24)) by (rewrite HM at 1; rewrite plus_IZR, mult_IZR; reflexivity).
    lra.
Qed.
