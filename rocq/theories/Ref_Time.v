(** * Ref_Time: a clock that satisfies the laws of C67, and wrong results. *)
From Coq Require Import List ZArith Bool Reals Lra Lia.
From Flocq Require Import Core.
From Verif Require Import Base Model_Time Spec_Time Proof_Time Proof_Time2.
Import ListNotations.
Open Scope R_scope.

(** The year of a day, counted from the first day of year 1. *)
Definition year_of (n : Z) : Z :=
  let y := (n * 400 / 146097 + 1)%Z in
  if (n <? days_before y)%Z then (y - 1)%Z else if (n <? days_before (y + 1))%Z then y else (y + 1)%Z.
Lemma year_of_spec : forall n, (days_before (year_of n) <= n < days_before (year_of n + 1))%Z.
Proof.
  intro n. unfold year_of. set (m := (n * 400 / 146097)%Z).
  assert (M : (146097 * m <= n * 400 < 146097 * m + 146097)%Z).
  { unfold m. pose proof (Z.div_mod (n * 400) 146097). pose proof (Z.mod_pos_bound (n * 400) 146097). lia. }
  assert (D : forall k, (4 * (k / 4) <= k < 4 * (k / 4) + 4 /\ 100 * (k / 100) <= k < 100 * (k / 100) + 100 /\
     400 * (k / 400) <= k < 400 * (k / 400) + 400)%Z).
  { intro k. pose proof (Z.div_mod k 4). pose proof (Z.mod_pos_bound k 4). pose proof (Z.div_mod k 100).
    pose proof (Z.mod_pos_bound k 100). pose proof (Z.div_mod k 400). pose proof (Z.mod_pos_bound k 400). lia. }
  assert (B : forall k, (146097 * k - 400 * 3 <= 400 * days_before (k + 1) <= 146097 * k + 400 * 3)%Z).
  { intro k. unfold days_before. replace (k + 1 - 1)%Z with k by lia. specialize (D k). lia. }
  pose proof (B (m - 1)%Z) as B1. pose proof (B (m + 1)%Z) as B2. replace (m - 1 + 1)%Z with (m + 1 - 1)%Z in B1 by lia.
  destruct (Z.ltb_spec n (days_before (m + 1))).
  - replace (m + 1 - 1 + 1)%Z with (m + 1)%Z by lia. lia.
  - destruct (Z.ltb_spec n (days_before (m + 1 + 1))); [lia|]. split; [lia|].
    rewrite (next_year (m + 1 + 1)). pose proof (year_days_pos (m + 1 + 1)). lia.
Qed.
(** The clock with the offset 0. *)
Definition ex_clock (t : R) : utc :=
  let n := Zfloor (t / 86400) in
  let s := t - 86400 * IZR n in
  let h := Zfloor (s / 3600) in
  let m := Zfloor ((s - 3600 * IZR h) / 60) in
  {| u_year := year_of n; u_doy := (n - days_before (year_of n) + 1)%Z; u_hour := h; u_min := m;
     u_sec := s - 3600 * IZR h - 60 * IZR m |}.
Lemma ex_reads : reads ex_clock 0.
Proof.
  intro t. unfold ex_clock. set (n := Zfloor (t / 86400)). set (s := t - 86400 * IZR n).
  assert (Bs : 0 <= s < 86400).
  { unfold s, n. pose proof (Zfloor_lb (t / 86400)). pose proof (Zfloor_ub (t / 86400)). lra. }
  set (h := Zfloor (s / 3600)). assert (Bh := Zfloor_lb (s / 3600)). assert (Uh := Zfloor_ub (s / 3600)). fold h in Bh, Uh.
  set (m := Zfloor ((s - 3600 * IZR h) / 60)). assert (Bm := Zfloor_lb ((s - 3600 * IZR h) / 60)).
  assert (Um := Zfloor_ub ((s - 3600 * IZR h) / 60)). fold m in Bm, Um.
  pose proof (year_of_spec n) as Y. rewrite next_year in Y.
  assert (H0 : (-1 < h)%Z) by (apply lt_IZR; lra). assert (H1 : (h < 24)%Z) by (apply lt_IZR; lra).
  assert (M0 : (-1 < m)%Z) by (apply lt_IZR; lra). assert (M1 : (m < 60)%Z) by (apply lt_IZR; lra).
  split.
  - unfold proper. cbn. split; [lia|]. split; [lia|]. split; [lia|lra].
  - unfold instant, day_of. cbn.
    replace (days_before (year_of n) + (n - days_before (year_of n) + 1) - 1)%Z with n by lia. unfold s. lra.
Qed.
Definition ex_set (u : utc) : R := instant u - 0.
Lemma ex_sets : sets ex_set 0.
Proof. intros u _. reflexivity. Qed.

(** The seconds past midnight of the example clock. *)
Lemma ex_day : forall n s, 0 <= s < 86400 -> day_of (ex_clock (86400 * IZR n + s)) = n /\ spm_of (ex_clock (86400 * IZR n + s)) = s.
Proof.
  intros n s H. destruct (ex_reads (86400 * IZR n + s)) as (P & I). rewrite instant_split in I. pose proof (spm_bounds _ P) as B.
  assert (D : day_of (ex_clock (86400 * IZR n + s)) = n).
  { assert (IZR (day_of (ex_clock (86400 * IZR n + s))) < IZR (n + 1)) by (rewrite plus_IZR; lra).
    assert (IZR n < IZR (day_of (ex_clock (86400 * IZR n + s)) + 1)) by (rewrite plus_IZR; lra).
    apply lt_IZR in H0, H1. lia. }
  split; [exact D|]. rewrite D in I. lra.
Qed.
(** Two samples one second apart, the second at midnight, have the same number. *)
Lemma twice : exists ets, in_order ets /\ ets = [86399; 86400] /\ et_to_spm ex_clock ets None = Returns [86399; 86399].
Proof.
  exists [86399; 86400]. split; [cbn; lra|]. split; [reflexivity|].
  assert (A := ex_day 0 86399 ltac:(lra)). assert (B := ex_day 1 0 ltac:(lra)).
  replace (86400 * IZR 0 + 86399) with 86399 in A by lra. replace (86400 * IZR 1 + 0) with 86400 in B by lra.
  unfold et_to_spm. cbn [map]. rewrite (proj2 A), (proj2 B). unfold continued. cbn [breaks].
  destruct (Rlt_dec (0 - 86399) 0); [|lra]. cbn. do 2 f_equal. f_equal. lra.
Qed.
(** The day after the last of December 2004, with the reference day 366. *)
Lemma new_year : exists ets, ets = [86400 * IZR (days_before 2005)] /\ u_year (ex_clock (nth 0 ets 0)) = 2005%Z /\
  et_to_spm ex_clock ets (Some 366%Z) = Raises.
Proof.
  exists [86400 * IZR (days_before 2005)]. split; [reflexivity|].
  destruct (ex_reads (86400 * IZR (days_before 2005))) as (P & I).
  assert (D := ex_day (days_before 2005) 0 ltac:(lra)). rewrite Rplus_0_r in D. destruct D as (D & _).
  unfold day_of in D. destruct P as (P & _).
  destruct (date_unique (u_year (ex_clock (86400 * IZR (days_before 2005)))) (u_doy (ex_clock (86400 * IZR (days_before 2005)))) 2005 1) as (Y & Dd).
  - exact P.
  - cbn. lia.
  - lia.
  - split; [exact Y|]. apply reference_after; [discriminate|lia|]. cbn [nth]. rewrite Dd. lia.
Qed.
(** The first day after the last of December 2100: day 366 of a year of 365 days. *)
Lemma century : u_year (date_of 2100 365 86400) = 2100%Z /\ u_doy (date_of 2100 365 86400) = 366%Z /\ year_days 2100 = 365%Z.
Proof.
  unfold date_of. cbn [u_year u_doy].
  assert (H : Ztrunc (86400 / 3600) = 24%Z) by (replace (86400 / 3600) with (IZR 24) by lra; apply Ztrunc_IZR).
  rewrite H. change (2100 mod 4 =? 0)%Z with true. cbv iota.
  assert (E : IZR 365 + IZR 24 / 24 - 1 = 365) by lra. rewrite E.
  assert (F : Zfloor (365 / IZR 366) = 0%Z) by (apply Zfloor_imp; split; cbn; lra).
  unfold pymod. rewrite F. split; [reflexivity|]. split; [|reflexivity].
  replace (1 + (365 - IZR 366 * IZR 0)) with (IZR 366) by lra. apply Ztrunc_IZR.
Qed.
(** One second before midnight: minus one second. *)
Lemma negative : u_sec (date_of 2005 10 (-1)) = -1.
Proof.
  unfold date_of. cbn [u_sec].
  assert (H : Ztrunc (-1 / 3600) = 0%Z) by (rewrite Ztrunc_ceil by lra; apply Zceil_imp; split; cbn; lra).
  rewrite H. assert (G : Ztrunc (-1 - IZR 0 * 3600) = (-1)%Z) by (replace (-1 - IZR 0 * 3600) with (IZR (-1)) by (cbn; lra); apply Ztrunc_IZR).
  rewrite G. assert (K : Ztrunc (IZR (-1) / 60) = 0%Z) by (rewrite Ztrunc_ceil by (cbn; lra); apply Zceil_imp; split; cbn; lra).
  rewrite K. lra.
Qed.
