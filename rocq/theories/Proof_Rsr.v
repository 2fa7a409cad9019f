(** * Proof_Rsr: what the reader of raw data files returns. *)
From Coq Require Import String List ZArith Bool Reals Lra Lia Sorting.Sorted.
From Flocq Require Import Core.
From Verif Require Import Base Model_Time Model_Chord Model_Free Model_Frame Model_Resample Model_Dlp Model_Rsr Spec_Rsr.
From Verif Require Import Proof_Chord Proof_Free Proof_Dlp Proof_Dlp2.
Import ListNotations.

Lemma be_number_gen : forall b a, fold_left (fun a x => (a * 256 + x)%Z) b a = (a * 256 ^ Z.of_nat (length b) + number b)%Z.
Proof.
  induction b as [|x b IH]; intros a; cbn [fold_left number length]; [change (256 ^ Z.of_nat 0)%Z with 1%Z; lia|].
  rewrite IH, Nat2Z.inj_succ, Z.pow_succ_r by lia. ring.
Qed.
Lemma be_number : forall b, be b = number b.
Proof. intros b. unfold be. rewrite be_number_gen. ring. Qed.

Lemma f_length : forall b, bytes_of_field "sfdu_length" b = field 12 8 b. Proof. reflexivity. Qed.
Lemma f_bits : forall b, bytes_of_field "sh_bits_per_sample" b = field 68 1 b. Proof. reflexivity. Qed.
Lemma f_rate : forall b, bytes_of_field "sh_sample_rate" b = field 70 2 b. Proof. reflexivity. Qed.
Lemma f_data : forall b, bytes_of_field "Data_length" b = field 258 2 b. Proof. reflexivity. Qed.
Lemma f_sec : forall b, bytes_of_field "sh_sfdu_seconds" b = field 80 8 b. Proof. reflexivity. Qed.
Lemma f_year : forall b, bytes_of_field "sh_year" b = field 60 2 b. Proof. reflexivity. Qed.
Lemma f_doy : forall b, bytes_of_field "sh_doy" b = field 62 2 b. Proof. reflexivity. Qed.
Lemma f_year2 : forall b, bytes_of_field "sh_sfdu_year" b = field 76 2 b. Proof. reflexivity. Qed.
Lemma f_doy2 : forall b, bytes_of_field "sh_sfdu_doy" b = field 78 2 b. Proof. reflexivity. Qed.
Lemma f_dss : forall b, bytes_of_field "sh_dss_id" b = field 43 1 b. Proof. reflexivity. Qed.
Lemma f_ddc : forall b, bytes_of_field "sh_ddc_lo" b = field 72 2 b. Proof. reflexivity. Qed.
Lemma f_rfif : forall b, bytes_of_field "sh_rfif_lo" b = field 74 2 b. Proof. reflexivity. Qed.
Lemma f_p1 : forall b, bytes_of_field "sh_schan_freq_poly_coef_1" b = field 176 8 b. Proof. reflexivity. Qed.
Lemma f_p2 : forall b, bytes_of_field "sh_schan_freq_poly_coef_2" b = field 184 8 b. Proof. reflexivity. Qed.
Lemma f_p3 : forall b, bytes_of_field "sh_schan_freq_poly_coef_3" b = field 192 8 b. Proof. reflexivity. Qed.
Lemma header_260 : header_size = 260%nat. Proof. reflexivity. Qed.

(** ** Words. *)
Lemma word_back : forall v, ((v mod 65536 / 256) * 256 + v mod 256 = v mod 65536)%Z.
Proof. intros v. pose proof (Z.div_mod v 65536). pose proof (Z.div_mod v 256). pose proof (Z.mod_pos_bound v 65536). pose proof (Z.mod_pos_bound v 256). Z.div_mod_to_equations. lia. Qed.
Lemma pairs_words : forall l, pairs_of (flat_map (fun s => word (snd s) ++ word (fst s)) l) = map (fun s => (snd s mod 65536, fst s mod 65536)%Z) l.
Proof.
  induction l as [|s l IH]; [reflexivity|]. cbn [flat_map]. unfold word at 1 2. cbn [app]. cbn [pairs_of]. rewrite IH, !word_back. reflexivity.
Qed.
Lemma words_length : forall l : list (Z * Z), length (flat_map (fun s => word (snd s) ++ word (fst s)) l) = (4 * length l)%nat.
Proof. induction l as [|s l IH]; [reflexivity|]. cbn [flat_map]. rewrite !app_length, IH. cbn. lia. Qed.
Lemma written_length : forall n r, alike n r -> length (written r) = (260 + 4 * n)%nat.
Proof. intros n r (A & B & _). unfold written. rewrite app_length, A, words_length, B. reflexivity. Qed.
Lemma value_ok : forall b v, short v -> (b = true -> v <> (-32768)%Z) -> IZR (value b (v mod 65536)) = reading b v.
Proof.
  intros b v (A & B) N'. assert (E : (v mod 65536 = if 0 <=? v then v else v + 65536)%Z) by (destruct (0 <=? v)%Z eqn:C; [apply Z.leb_le in C; apply Z.mod_small; lia|apply Z.leb_gt in C; rewrite <- (Z.mod_add v 1) by lia; apply Z.mod_small; lia]).
  unfold value, reading. rewrite E. change (2 ^ 15)%Z with 32768%Z. change (2 ^ 16)%Z with 65536%Z. destruct b.
  - pose proof (N' eq_refl) as N. rewrite <- mult_IZR, <- plus_IZR. f_equal. destruct (0 <=? v)%Z eqn:C; [apply Z.leb_le in C|apply Z.leb_gt in C]; destruct (_ <? _)%Z eqn:D; [apply Z.ltb_lt in D|apply Z.ltb_ge in D|apply Z.ltb_lt in D|apply Z.ltb_ge in D]; lia.
  - f_equal. destruct (0 <=? v)%Z eqn:C; [apply Z.leb_le in C|apply Z.leb_gt in C]; destruct (_ <=? _)%Z eqn:D; [apply Z.leb_le in D|apply Z.leb_gt in D|apply Z.leb_le in D|apply Z.leb_gt in D]; lia.
Qed.

(** ** Blocks of the file. *)
Lemma chunk : forall n rs tail i r, Forall (alike n) rs -> nth_error rs i = Some r ->
  firstn (260 + 4 * n) (skipn (i * (260 + 4 * n)) (file_of rs tail)) = written r.
Proof.
  intros n rs tail. induction rs as [|a rs IH]; intros i r F N; [destruct i; discriminate|]. inversion F as [|? ? Fa Fr]; subst.
  pose proof (written_length _ _ Fa) as L. unfold file_of. cbn [map concat]. rewrite <- app_assoc. destruct i as [|i].
  - cbn [nth_error] in N. injection N as <-. cbn [Nat.mul skipn]. rewrite firstn_app, L, Nat.sub_diag, firstn_O, app_nil_r. apply firstn_all2. lia.
  - cbn [nth_error] in N. replace (S i * (260 + 4 * n))%nat with (260 + 4 * n + i * (260 + 4 * n))%nat by lia.
    rewrite skipn_app, L. rewrite skipn_all2 by lia. cbn [app]. replace (260 + 4 * n + i * (260 + 4 * n) - (260 + 4 * n))%nat with (i * (260 + 4 * n))%nat by lia. apply (IH _ _ Fr N).
Qed.
Lemma blocks_ok : forall n rs tail left i, (0 < n)%nat -> Forall (alike n) rs -> (i + left <= length rs)%nat ->
  blocks (file_of rs tail) (260 + 4 * n) n i left = Returns (flat_map (fun r => map (fun s => (snd s mod 65536, fst s mod 65536)%Z) (samples r)) (firstn left (skipn i rs))).
Proof.
  intros n rs tail left. induction left as [|left IH]; intros i Pn F Li; [reflexivity|]. cbn [blocks].
  destruct (nth_error rs i) as [r|] eqn:N; [|apply nth_error_None in N; lia].
  pose proof (chunk n rs tail i r F N) as C. rewrite C.
  assert (Ar : alike n r) by (rewrite Forall_forall in F; apply F; eapply nth_error_In, N).
  pose proof (written_length _ _ Ar) as L. destruct (written r) as [|z w] eqn:E; [cbn in L; lia|]. rewrite <- E in *.
  rewrite L. rewrite Nat.ltb_irrefl. rewrite IH by (auto; lia). cbn [pybind]. f_equal.
  assert (Sk : skipn i rs = r :: skipn (S i) rs).
  { clear - N. revert i N. induction rs as [|a rs IH]; intros i N; [destruct i; discriminate|]. destruct i; [injection N as ->; reflexivity|]. cbn in *. apply IH, N. }
  rewrite Sk. cbn [firstn flat_map]. f_equal. rewrite header_260. destruct Ar as (A1 & A2 & A3). unfold written. rewrite skipn_app, A1, Nat.sub_diag, skipn_O. rewrite skipn_all2 by lia. cbn [app]. apply pairs_words.
Qed.

(** ** The nearest of equally spaced times. *)
Local Open Scope R_scope.
Lemma spaced_length : forall t0 hz n, length (spaced t0 hz n) = n.
Proof. intros. unfold spaced. rewrite map_length, seq_length. reflexivity. Qed.
Lemma spaced_nth : forall t0 hz n k, (k < n)%nat -> nth_error (spaced t0 hz n) k = Some (time_of t0 hz k).
Proof.
  intros t0 hz n k L. unfold spaced. rewrite nth_error_map. rewrite (nth_error_nth' _ 0%nat) by (rewrite seq_length; lia). rewrite seq_nth by lia. cbn [option_map Nat.add].
  f_equal. unfold time_of. lra.
Qed.
Lemma time_lt : forall t0 hz i j, (0 < hz)%Z -> (i < j)%nat -> time_of t0 hz i < time_of t0 hz j.
Proof.
  intros t0 hz i j H L. unfold time_of. apply IZR_lt in H. apply lt_INR in L. apply Rplus_lt_compat_l. unfold Rdiv. apply Rmult_lt_compat_r; [apply Rinv_0_lt_compat, H|exact L].
Qed.
Lemma time_le : forall t0 hz i j, (0 < hz)%Z -> (i <= j)%nat -> time_of t0 hz i <= time_of t0 hz j.
Proof. intros t0 hz i j H L. apply Nat.le_lteq in L. destruct L as [L| ->]; [left; apply time_lt; assumption|lra]. Qed.
Lemma near_exact : forall t0 hz n k, (0 < hz)%Z -> (k < n)%nat -> nearest_index (spaced t0 hz n) (time_of t0 hz k) = Some k.
Proof.
  intros t0 hz n k H L. assert (N : spaced t0 hz n <> []) by (intros E; apply (f_equal (@length R)) in E; rewrite spaced_length in E; cbn in E; lia).
  destruct (nearest_spec _ (time_of t0 hz k) N) as (i & E & Li & M). rewrite E. f_equal. rewrite spaced_length in *. specialize (M k L).
  rewrite (nth_error_nth _ _ _ (spaced_nth t0 hz n k L)), (nth_error_nth _ _ _ (spaced_nth t0 hz n i Li)) in M. rewrite (Rminus_diag_eq (time_of t0 hz k) (time_of t0 hz k) eq_refl), Rabs_R0 in M.
  destruct (Nat.lt_trichotomy i k) as [C|[C|C]]; [|exact C|]; pose proof (time_lt t0 hz _ _ H C); unfold Rabs in M; destruct (Rcase_abs _); lra.
Qed.
Lemma spaced_sorted : forall t0 hz n a, (0 < hz)%Z -> StronglySorted Rlt (map (fun k => t0 + 1 / IZR hz * INR k) (seq a n)).
Proof.
  intros t0 hz n. induction n as [|n IH]; intros a H; [constructor|]. cbn [seq map]. constructor; [apply IH, H|]. apply Forall_forall. intros y Hy. apply in_map_iff in Hy. destruct Hy as (k & <- & Hk). apply in_seq in Hk.
  pose proof (time_lt t0 hz a k H ltac:(lia)) as T. unfold time_of in T. lra.
Qed.
Lemma spaced_min : forall t0 hz n, (0 < hz)%Z -> (0 < n)%nat -> minimum (spaced t0 hz n) = time_of t0 hz 0.
Proof.
  intros t0 hz n H L. pose proof (spaced_sorted t0 hz n 0 H) as So. pose proof (spaced_nth t0 hz n 0 L) as E. unfold spaced in *. destruct (map _ (seq 0 n)) as [|x l] eqn:F; [discriminate|]. cbn [nth_error] in E. injection E as <-. apply min_sorted, So.
Qed.
Lemma spaced_max : forall t0 hz n, (0 < hz)%Z -> maximum (spaced t0 hz (S n)) = time_of t0 hz n.
Proof.
  intros t0 hz n H. pose proof (spaced_sorted t0 hz (S n) 0 H) as So. unfold spaced. rewrite seq_S in *. rewrite map_app in *. cbn [map Nat.add] in *. rewrite max_sorted by exact So. unfold time_of. lra.
Qed.

(** ** The instance. *)
Definition raw_IQ (corrected : bool) (rs : list record) : list (R * R) :=
  map (fun w => (IZR (value corrected (snd w)), IZR (value corrected (fst w)))) (flat_map (fun r => map (fun s => (snd s mod 65536, fst s mod 65536)%Z) (samples r)) rs).
Definition instance (f64 : list Z -> R) (dec : nat -> list (R * R) -> list (R * R)) (o : options) (rate : Z) (n : nat) (r0 : record) (rs : list record) (tail : list Z) : rsr :=
  let h := head r0 in
  let raw := raw_IQ (bias o) (r0 :: rs) in
  let t0 := f64 (field 80 8 h) in
  let spm := spaced t0 (rate * 1000) (n * length (r0 :: rs)) in
  let out := match plan o rate with None => raw | Some (qs, _) => fold_left (fun x q => dec q x) qs raw end in
  {| x_file := file_of (r0 :: rs) tail; x_raw_spm := spm; x_n_pts := n; x_n_sfdu := length (r0 :: rs); x_rate := rate;
     x_spm := match plan o rate with None => spm | Some (_, hz) => spaced t0 hz (length out) end; x_IQ := out;
     x_year := if (number (field 60 2 h) =? 0)%Z then number (field 76 2 h) else number (field 60 2 h);
     x_doy := if (number (field 62 2 h) =? 0)%Z then number (field 78 2 h) else number (field 62 2 h);
     x_track := if (2011 <? number (field 60 2 h))%Z then 2 else 1; x_dss := number (field 43 1 h) |}.
Lemma file_length : forall n rs tail, Forall (alike n) rs -> length (file_of rs tail) = (length rs * (260 + 4 * n) + length tail)%nat.
Proof.
  intros n rs tail F. unfold file_of. rewrite app_length. f_equal. induction F as [|r rs A F IH]; [reflexivity|]. cbn [map concat length]. rewrite app_length, IH, (written_length _ _ A). lia.
Qed.
Lemma first_head : forall n r0 rs tail, alike n r0 -> firstn 260 (file_of (r0 :: rs) tail) = head r0.
Proof.
  intros n r0 rs tail (A & _). unfold file_of. cbn [map concat]. unfold written at 1. rewrite <- !app_assoc. rewrite firstn_app, A, Nat.sub_diag, firstn_O, app_nil_r. apply firstn_all2. lia.
Qed.
Definition raw_rate (rate : Z) : Prop := rate = 1%Z \/ rate = 16%Z \/ rate = 50%Z.
Lemma rate_known : forall rate, raw_rate rate -> ((rate =? 1) || (rate =? 16) || (rate =? 50))%Z%bool = true /\ (0 < rate * 1000)%Z /\ (rate =? 0)%Z = false.
Proof. intros rate [-> |[-> | ->]]; repeat split; lia. Qed.
Theorem reader_ok : forall f64 dec o rate n r0 rs tail, well_formed rate n r0 rs tail -> raw_rate rate ->
  reader f64 dec o (file_of (r0 :: rs) tail) = Returns (instance f64 dec o rate n r0 rs tail).
Proof.
  intros f64 dec o rate n r0 rs tail (Pn & F & (A1 & A2 & A3 & A4) & Lt) Rr. destruct (rate_known _ Rr) as (Rk & Rp & Rz).
  assert (F0 : alike n r0) by (inversion F; assumption).
  pose proof (file_length n (r0 :: rs) tail F) as Lf. pose proof (first_head n r0 rs tail F0) as Fh.
  set (c := length (r0 :: rs)) in *. assert (Pc : (0 < c)%nat) by (unfold c; cbn; lia).
  unfold reader, double, uint. rewrite header_260. replace (length (file_of (r0 :: rs) tail) <? 260)%nat with false by (symmetry; apply Nat.ltb_ge; nia).
  rewrite Fh. cbv zeta. rewrite !f_length, !f_bits, !f_rate, !f_data, !f_sec, !f_year, !f_doy, !f_year2, !f_doy2, !f_dss, !be_number, A1, A2, A3, A4, Rz. change (16 =? 0)%Z with false. cbv iota.
  assert (En : Z.to_nat (4 * Z.of_nat n * 8 / (2 * 16)) = n) by (replace (4 * Z.of_nat n * 8)%Z with (Z.of_nat n * (2 * 16))%Z by ring; rewrite Z.div_mul by lia; apply Nat2Z.id).
  assert (Ec : Z.to_nat (Z.of_nat (length (file_of (r0 :: rs) tail)) / (240 + 4 * Z.of_nat n + 20)) = c).
  { rewrite Lf. replace (Z.of_nat (c * (260 + 4 * n) + length tail)) with (Z.of_nat (length tail) + Z.of_nat c * (240 + 4 * Z.of_nat n + 20))%Z by lia.
    rewrite Z.div_add by lia. rewrite Z.div_small by lia. lia. }
  rewrite En, Ec. set (t0 := f64 (field 80 8 (head r0))). set (spm := spaced t0 (rate * 1000) (n * c)).
  assert (Pm : (0 < n * c)%nat) by nia.
  destruct spm as [|x l] eqn:Es; [apply (f_equal (@length R)) in Es; unfold spm in Es; rewrite spaced_length in Es; cbn in Es; lia|]. rewrite <- Es.
  assert (Ex : x = t0).
  { pose proof (spaced_nth t0 (rate * 1000) (n * c) 0 Pm) as E. fold spm in E. rewrite Es in E. cbn [nth_error] in E. injection E as ->. unfold time_of. cbn. lra. }
  assert (Er : sfdu_range rate spm n c (minimum spm) (maximum spm) = Returns (0%nat, (c - 1)%nat)).
  { unfold sfdu_range. rewrite Rk. unfold spm. rewrite (spaced_min _ _ _ Rp Pm). rewrite near_exact by assumption.
    replace (n * c)%nat with (S (n * c - 1)) at 2 by lia. rewrite (spaced_max _ _ _ Rp). rewrite near_exact by (auto; lia). f_equal. f_equal.
    - apply Nat.div_0_l. lia.
    - replace (n * c - 1)%nat with ((c - 1) * n + (n - 1))%nat by nia. rewrite Nat.div_add_l by lia. rewrite Nat.div_small by lia. lia. }
  rewrite Er. cbn [pybind fst snd]. rewrite (blocks_ok n (r0 :: rs) tail) by (auto; fold c; lia). cbn [skipn]. rewrite firstn_all2 by (fold c; lia). cbn [pybind].
  unfold instance, raw_IQ. fold c t0 spm. rewrite Ex. clear Es Er. destruct (plan o rate) as [(qs & hz)|]; cbv zeta; reflexivity.
Qed.
Definition all_samples (rs : list record) : list (Z * Z) := flat_map samples rs.
Lemma raw_map : forall b rs, raw_IQ b rs = map (fun s => (IZR (value b (fst s mod 65536)), IZR (value b (snd s mod 65536)))) (all_samples rs).
Proof.
  intros b rs. unfold raw_IQ, all_samples. induction rs as [|r rs IH]; [reflexivity|]. cbn [flat_map]. rewrite !map_app, IH, map_map. reflexivity.
Qed.
Lemma all_short : forall n rs, Forall (alike n) rs -> Forall (fun s => short (fst s) /\ short (snd s)) (all_samples rs).
Proof. intros n rs F. induction F as [|r rs (_ & _ & A) F IH]; [constructor|]. unfold all_samples. cbn [flat_map]. apply Forall_app. split; assumption. Qed.
Lemma all_length : forall n rs, Forall (alike n) rs -> length (all_samples rs) = (n * length rs)%nat.
Proof. intros n rs F. induction F as [|r rs (_ & A & _) F IH]; [cbn; lia|]. unfold all_samples in *. cbn [flat_map length]. rewrite app_length, A, IH. lia. Qed.
Lemma raw_ok : forall b n rs, Forall (alike n) rs -> (b = true -> Forall (fun s => fst s <> (-32768)%Z /\ snd s <> (-32768)%Z) (all_samples rs)) ->
  raw_IQ b rs = map (readings b) (all_samples rs).
Proof.
  intros b n rs F E. rewrite raw_map. apply map_ext_in. intros s Hs. pose proof (all_short _ _ F) as Sh. rewrite Forall_forall in Sh. destruct (Sh _ Hs) as (S1 & S2).
  unfold readings. rewrite !value_ok; auto; intros Hb; specialize (E Hb); rewrite Forall_forall in E; apply (E _ Hs).
Qed.
Lemma raw_length : forall b n rs, Forall (alike n) rs -> length (raw_IQ b rs) = (n * length rs)%nat.
Proof. intros b n rs F. rewrite raw_map, map_length. apply all_length, F. Qed.

(** ** Decimation. *)
Lemma plan_ok : forall o rate, raw_rate rate ->
  match plan o rate with
  | None => one_in o rate = 1%nat
  | Some (qs, hz) => fold_left Nat.mul qs 1%nat = one_in o rate /\ (1 < one_in o rate)%nat /\ (hz * Z.of_nat (one_in o rate) = rate * 1000)%Z /\ (0 < hz)%Z /\ Forall (fun q => (0 < q)%nat) qs
  end.
Proof.
  intros o rate [-> |[-> | ->]]; unfold plan, one_in; cbn [Z.eqb Pos.eqb]; rewrite ?andb_false_r, ?andb_true_r;
    repeat match goal with |- context [if ?c then _ else _] => destruct c end; try reflexivity; (repeat split; try reflexivity; try lia; repeat constructor).
Qed.
Lemma ceil_ceil : forall a p q, (0 < p)%nat -> (0 < q)%nat -> (((a + p - 1) / p + q - 1) / q = (a + p * q - 1) / (p * q))%nat.
Proof.
  intros a p q P Q. destruct a as [|a].
  - rewrite !Nat.add_0_l. rewrite (Nat.div_small (p - 1)) by lia. rewrite Nat.add_0_l. rewrite !Nat.div_small by nia. reflexivity.
  - replace (S a + p - 1)%nat with (a + 1 * p)%nat by lia. rewrite Nat.div_add by lia. replace (a / p + 1 + q - 1)%nat with (a / p + 1 * q)%nat by lia. rewrite Nat.div_add by lia.
    replace (S a + p * q - 1)%nat with (a + 1 * (p * q))%nat by lia. rewrite Nat.div_add by nia. rewrite Nat.div_div by lia. reflexivity.
Qed.
Lemma fold_length : forall dec qs m x, one_of_each dec -> Forall (fun q => (0 < q)%nat) qs -> (0 < m)%nat ->
  forall N, length x = ((N + m - 1) / m)%nat -> length (fold_left (fun x q => dec q x) qs x) = ((N + fold_left Nat.mul qs m - 1) / fold_left Nat.mul qs m)%nat.
Proof.
  intros dec qs. induction qs as [|q qs IH]; intros m x D F M N L; [exact L|]. inversion F as [|? ? Fq Fr]; subst. cbn [fold_left]. apply IH; auto; [nia|]. rewrite D, L by exact Fq. apply ceil_ceil; assumption.
Qed.
Theorem decimated_ok : forall f64 dec o rate n r0 rs tail, well_formed rate n r0 rs tail -> raw_rate rate -> one_of_each dec ->
  (bias o = true -> Forall (fun s => fst s <> (-32768)%Z /\ snd s <> (-32768)%Z) (all_samples (r0 :: rs))) ->
  exists x qs, reader f64 dec o (file_of (r0 :: rs) tail) = Returns x /\ fold_left Nat.mul qs 1%nat = one_in o rate /\
    x_IQ x = fold_left (fun y q => dec q y) qs (map (readings (bias o)) (all_samples (r0 :: rs))) /\
    length (x_IQ x) = ((length (all_samples (r0 :: rs)) + one_in o rate - 1) / one_in o rate)%nat /\ length (x_spm x) = length (x_IQ x) /\
    (forall k, (k < length (x_IQ x))%nat -> nth_error (x_spm x) k = Some (time_of (f64 (field 80 8 (head r0))) (1000 * rate) (one_in o rate * k))) /\ x_rate x = rate.
Proof.
  intros f64 dec o rate n r0 rs tail W Rr D E. pose proof W as (Pn & F & _ & _). pose proof (plan_ok o rate Rr) as P.
  exists (instance f64 dec o rate n r0 rs tail). pose proof (reader_ok f64 dec o rate n r0 rs tail W Rr) as Ro. unfold instance in *. cbn [x_IQ x_spm x_rate]. rewrite (raw_ok _ _ _ F E) in *. rewrite (all_length _ _ F).
  set (raw := map (readings (bias o)) (all_samples (r0 :: rs))) in *. assert (Lr : length raw = (n * length (r0 :: rs))%nat) by (unfold raw; rewrite map_length; apply all_length, F).
  destruct (plan o rate) as [(qs & hz)|].
  - exists qs. destruct P as (P1 & P2 & P3 & P4 & P5). split; [exact Ro|]. split; [exact P1|]. split; [reflexivity|]. split.
    { pose proof (fold_length dec qs 1 raw D P5 Nat.lt_0_1 (length raw)) as L. rewrite P1, Lr in L. apply L. rewrite Nat.div_1_r. lia. }
    split; [apply spaced_length|]. split; [|reflexivity]. intros k Hk. rewrite spaced_nth by exact Hk. f_equal. unfold time_of. rewrite mult_INR, (INR_IZR_INZ (one_in o rate)). f_equal.
    rewrite (Z.mul_comm 1000 rate), <- P3, mult_IZR. apply IZR_lt in P4. assert (0 < IZR (Z.of_nat (one_in o rate))) by (apply IZR_lt; lia). field. lra.
  - exists []. split; [exact Ro|]. rewrite P. split; [reflexivity|]. split; [reflexivity|]. split; [rewrite Nat.div_1_r, Lr; lia|]. rewrite Lr. split; [apply spaced_length|]. split; [|reflexivity].
    intros k Hk. rewrite spaced_nth by exact Hk. rewrite Nat.mul_1_l, (Z.mul_comm 1000). reflexivity.
Qed.
Theorem signal_ok : forall f64 dec o rate n r0 rs tail, well_formed rate n r0 rs tail -> raw_rate rate -> one_in o rate = 1%nat ->
  (bias o = true -> Forall (fun s => fst s <> (-32768)%Z /\ snd s <> (-32768)%Z) (all_samples (r0 :: rs))) ->
  exists x, reader f64 dec o (file_of (r0 :: rs) tail) = Returns x /\
    x_IQ x = map (readings (bias o)) (all_samples (r0 :: rs)) /\ length (x_spm x) = length (x_IQ x) /\
    (forall k, (k < length (x_IQ x))%nat -> nth_error (x_spm x) k = Some (time_of (f64 (field 80 8 (head r0))) (1000 * rate) k)).
Proof.
  intros f64 dec o rate n r0 rs tail W Rr O1 E. pose proof W as (Pn & F & _ & _). pose proof (plan_ok o rate Rr) as P.
  exists (instance f64 dec o rate n r0 rs tail). pose proof (reader_ok f64 dec o rate n r0 rs tail W Rr) as Ro. unfold instance in *. cbn [x_IQ x_spm x_rate]. rewrite (raw_ok _ _ _ F E) in *.
  destruct (plan o rate) as [(qs & hz)|]; [destruct P as (_ & P & _); lia|]. split; [exact Ro|]. split; [reflexivity|]. rewrite map_length, (all_length _ _ F). split; [apply spaced_length|].
  intros k Hk. rewrite spaced_nth by exact Hk. rewrite (Z.mul_comm 1000). reflexivity.
Qed.
Theorem edge_ok : forall f64 dec o rate n r0 rs tail k s, well_formed rate n r0 rs tail -> raw_rate rate -> one_in o rate = 1%nat -> bias o = true ->
  nth_error (all_samples (r0 :: rs)) k = Some s ->
  exists x z, reader f64 dec o (file_of (r0 :: rs) tail) = Returns x /\ nth_error (x_IQ x) k = Some z /\
    (fst s = (-32768)%Z -> fst z = 65537) /\ (snd s = (-32768)%Z -> snd z = 65537).
Proof.
  intros f64 dec o rate n r0 rs tail k s W Rr O1 B N. pose proof (plan_ok o rate Rr) as P.
  exists (instance f64 dec o rate n r0 rs tail), (IZR (value true (fst s mod 65536)), IZR (value true (snd s mod 65536))).
  split; [apply reader_ok; assumption|]. unfold instance. cbn [x_IQ]. rewrite B, raw_map. destruct (plan o rate) as [(qs & hz)|]; [destruct P as (_ & P & _); lia|].
  rewrite nth_error_map, N. cbn [option_map fst snd]. split; [reflexivity|]. split; intros ->; reflexivity.
Qed.
Theorem header_ok : forall f64 dec o rate n r0 rs tail, well_formed rate n r0 rs tail -> raw_rate rate ->
  let h := head r0 in
  exists x, reader f64 dec o (file_of (r0 :: rs) tail) = Returns x /\
    x_year x = (if (number (field 60 2 h) =? 0)%Z then number (field 76 2 h) else number (field 60 2 h)) /\
    x_doy x = (if (number (field 62 2 h) =? 0)%Z then number (field 78 2 h) else number (field 62 2 h)) /\
    x_dss x = number (field 43 1 h) /\ x_track x = (if (2011 <? number (field 60 2 h))%Z then 2 else 1)%Z.
Proof.
  intros f64 dec o rate n r0 rs tail W Rr h. exists (instance f64 dec o rate n r0 rs tail). split; [apply reader_ok; assumption|]. repeat split.
Qed.
Theorem rate_ok : forall f64 dec o file, ~ raw_rate (number (field 70 2 (firstn 260 file))) -> reader f64 dec o file = Raises.
Proof.
  intros f64 dec o file N. unfold reader, uint. rewrite header_260. destruct (_ <? _)%nat; [reflexivity|]. cbv zeta. rewrite f_rate, !be_number. set (rate := number (field 70 2 (firstn 260 file))) in *.
  destruct (number _ =? 0)%Z; [reflexivity|]. destruct (rate =? 0)%Z; [reflexivity|].
  assert (K : ((rate =? 1) || (rate =? 16) || (rate =? 50))%Z%bool = false).
  { unfold raw_rate in N. destruct (rate =? 1)%Z eqn:A; [apply Z.eqb_eq in A; tauto|]. destruct (rate =? 16)%Z eqn:B; [apply Z.eqb_eq in B; tauto|]. destruct (rate =? 50)%Z eqn:C; [apply Z.eqb_eq in C; tauto|]. reflexivity. }
  destruct (spaced _ _ _); [reflexivity|]. unfold sfdu_range. rewrite K. reflexivity.
Qed.
