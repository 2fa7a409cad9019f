(** * Proof_Fft: the padding size and the memory accesses of the FFT mode. *)
From Coq Require Import List ZArith Bool String Lia.
From Verif Require Import Base BaseFacts Scalar Model_TauRec Model_Checks Model_Select
  Model_Transform Model_Interp Model_Recon Spec_Tau Spec_Select Proof_Checks Spec_Safety Spec_Fft Proof_Safety Proof_Drivers Proof_SafeDbl.
Import ListNotations.
Open Scope Z_scope.

Lemma pow2_loop_ok fuel : forall j n, 0 <= j -> j + Z.of_nat fuel = 64 -> n <= 2 ^ 63 ->
  (j = 0 \/ 2 ^ (j - 1) < n) -> j <= 63 ->
  exists k, @next_pow_2_loop fuel (2 ^ j) n = Ok (2 ^ k) /\ 0 <= k <= 63 /\ n <= 2 ^ k /\ (k = 0 \/ 2 ^ (k - 1) < n).
Proof.
  induction fuel as [|fuel IH]; intros j n Hj Hf Hn Hp Hj63; [lia|].
  cbn [next_pow_2_loop]. destruct (Z.ltb_spec (2 ^ j) n) as [Hlt|Hge].
  - assert (j < 63). { destruct (Z.eq_dec j 63) as [->|]; lia. }
    assert (E : wrap64 (2 * 2 ^ j) = 2 ^ (j + 1)).
    { rewrite Z.pow_add_r by lia. rewrite wrap64_id; [lia|].
      assert (2 ^ j <= 2 ^ 62) by (apply Z.pow_le_mono_r; lia). pose proof (Z.pow_pos_nonneg 2 j). unfold two64. lia. }
    rewrite E. apply IH; [lia|lia|lia| |lia]. right; replace (j + 1 - 1) with j by lia; auto.
  - exists j. auto 10 with zarith.
Qed.
Lemma next_pow_2_ok n : n <= 2 ^ 63 ->
  exists k, next_pow_2 n = Ok (2 ^ k) /\ 0 <= k <= 63 /\ n <= 2 ^ k /\ forall j, 0 <= j -> n <= 2 ^ j -> k <= j.
Proof.
  intros Hn. destruct (pow2_loop_ok 64 0 n) as (k & E & Hk & H1 & H2); try lia; auto.
  exists k. split; auto. split; auto. split; auto. intros j Hj Hj2.
  destruct H2 as [->|H2]; [lia|]. destruct (Z_le_gt_dec k j); auto.
  assert (2 ^ j <= 2 ^ (k - 1)) by (apply Z.pow_le_mono_r; lia). lia.
Qed.
Lemma pow2_loop_div fuel : forall j n, 0 <= j -> j + Z.of_nat fuel = 64 -> 2 ^ 63 < n ->
  @next_pow_2_loop fuel (wrap64 (2 ^ j)) n = UB Diverges.
Proof.
  induction fuel as [|fuel IH]; intros j n Hj Hf Hn; cbn [next_pow_2_loop].
  - assert (j = 64) by lia. subst j. change (wrap64 (2 ^ 64)) with 0.
    destruct (Z.ltb_spec 0 n); [auto|]. pose proof (Z.pow_pos_nonneg 2 63). lia.
  - assert (2 ^ j <= 2 ^ 63) by (apply Z.pow_le_mono_r; lia). pose proof (Z.pow_pos_nonneg 2 j).
    rewrite (wrap64_id (2 ^ j)) by (unfold two64; lia).
    destruct (Z.ltb_spec (2 ^ j) n); [|lia].
    replace (2 * 2 ^ j) with (2 ^ (j + 1)) by (rewrite Z.pow_add_r by lia; lia). apply IH; lia.
Qed.
Lemma next_pow_2_diverges n : 2 ^ 63 < n -> next_pow_2 n = UB Diverges.
Proof. intros H. unfold next_pow_2. apply (pow2_loop_div 64 0); lia. Qed.

Section Fft.
  Context {S : scalar} (L : tmpl S) (t : tau S).
  Hypothesis Hcl : clean t.
  Hypothesis HC : complete t.
  Hypothesis Hfft : forall l, zlen (t_fft L l) = zlen l.
  Hypothesis Hifft : forall l, zlen (t_ifft L l) = zlen l.
  Lemma fft_sample_safe c st w th n : 0 <= c < arr_size t -> 0 <= st + n < arr_size t ->
    exists v, fft_sample L t c st w th n = Ok v.
  Proof.
    intros Hc Hn. unfold fft_sample. assert (Hb : arr_size t < two64) by apply HC.
    rewrite wrap64_id by lia. cbv zeta.
    destruct (rd_safe t HC RHO (st + n)) as [a Ea]; [simpl; tauto|auto|]. rewrite Ea. cbn [bind].
    destruct (rd_safe t HC RHO c) as [b Eb]; [simpl; tauto|auto|]. rewrite Eb. cbn [bind].
    destruct (kernel_safe L t HC (st + n) c) as [k Ek]; auto.
    destruct (rdT_safe t HC (st + n)) as [T ET]; auto.
    destruct (sle (sabs (a - b)%S) th); rewrite ?Ek; cbn [bind]; rewrite ET; cbn [bind]; eauto.
  Qed.
  Lemma failed_written_gen Q m k : profile_written t Q (set_err t (Some m)) k.
  Proof.
    destruct HC as (_ & _ & (T & ET & HT) & _). exists T, (Some m), T. split; auto. split; auto. split; [|discriminate].
    rewrite set_Tout_same by auto. reflexivity.
  Qed.
  Lemma aread_ent {A} (l : list A) i x : aread l i = Ok x -> entry l i x.
  Proof using Type. intro E. apply aread_entry in E. tauto. Qed.
  Lemma rd_entry f i x : rd t f i = Ok x -> exists l, arr t f = Some l /\ entry l i x.
  Proof using Type.
    unfold rd. intro E. destruct (arr t f) as [l|] eqn:Ea; [|discriminate]. exists l. split; [reflexivity|].
    apply aread_ent. exact E.
  Qed.
  Lemma fft_sample_cell c st w th n v : th = (shalf * w)%S -> 0 <= c < arr_size t -> 0 <= st + n < arr_size t ->
    fft_sample L t c st w th n = Ok v ->
    central_kernel L t c w (st + n) (fst v) /\
    exists T z, T_in t = Some T /\ entry T (st + n) (Some z) /\ snd v = z.
  Proof using HC.
    intros -> Hc Hn. unfold fft_sample. assert (Hb : arr_size t < two64) by apply HC.
    rewrite wrap64_id by lia. cbv zeta.
    destruct (rd_safe t HC RHO (st + n)) as [a Ea]; [simpl; tauto|auto|]. rewrite Ea. cbn [bind].
    destruct (rd_safe t HC RHO c) as [b Eb]; [simpl; tauto|auto|]. rewrite Eb. cbn [bind].
    destruct (kernel_safe L t HC (st + n) c) as [k Ek]; auto.
    destruct (rdT_safe t HC (st + n)) as [T ET]; auto.
    destruct (rd_entry _ _ _ Ea) as [ra [Ra Ra']]. destruct (rd_entry _ _ _ Eb) as [rb [Rb Rb']].
    assert (rb = ra) by congruence. subst rb.
    intro E.
    assert (X : v = (if sle (sabs (a - b)%S) (shalf * w)%S
                     then cscale (t_window L (window t) (a - b)%S w * dx t)%S k else c0, T)).
    { destruct (sle (sabs (a - b)%S) (shalf * w)%S); rewrite ?Ek in E; cbn [bind] in E; rewrite ET in E; cbn [bind] in E;
        injection E as <-; reflexivity. }
    subst v. cbn [fst snd]. split.
    - exists ra, a, b, k. auto 10.
    - unfold rdT in ET. destruct (T_in t) as [Tl|] eqn:ETin; [|discriminate]. cbn [deref bind] in ET.
      destruct (aread Tl (st + n)) as [[z|]|u] eqn:Er; try discriminate.
      cbn in ET. injection ET as <-. exists Tl, z. split; [reflexivity|]. split; [apply aread_ent; exact Er|reflexivity].
  Qed.
  Lemma entry_pad {A} (l : list A) z n j : zlen l <= j < n -> entry (l ++ repeat z (Z.to_nat (n - zlen l)))%list j z.
  Proof using Type.
    intros H. split; [unfold zlen in H; lia|]. unfold zlen in *. rewrite nth_error_app2 by lia. apply nth_error_repeat. lia.
  Qed.
  Lemma entry_app1 {A} (l m : list A) j x : entry l j x -> entry (l ++ m)%list j x.
  Proof using Type.
    intros [H E]. split; [exact H|]. rewrite nth_error_app1; [exact E|]. apply nth_error_Some. congruence.
  Qed.
  Lemma entry_map' {A B} (f : A -> B) l j x : entry l j x -> entry (map f l) j (f x).
  Proof using Type. intros [H E]. split; [exact H|]. rewrite nth_error_map, E. reflexivity. Qed.
  Lemma fft_driver_value half w :
    arr_size t <= 2 ^ 61 -> 0 <= start t -> 0 < n_used t ->
    (exists t2, check_data_range t = Ok t2) ->
    width t (start t + n_used t / 2) w -> scast (w / dx t)%S = Ok half ->
    0 <= half <= start t -> start t + n_used t + half <= arr_size t ->
    exists t', dc_fft L t = Ok t' /\ profile_written t (fft_sample_value L t w half) t' (n_used t) /\
      (no_obstacle L t -> clean t').
  Proof using Hcl HC Hfft Hifft.
    intros Hsz Hs Hn [t2 E2] Hw Eh Hh He. unfold dc_fft.
    rewrite check_core_complete by auto. cbn [bind]. rewrite E2. cbn [bind].
    destruct (check_data_range_ok t t2 E2) as [->|[m ->]].
    2: { rewrite (guarded_err _ m) by reflexivity. eexists. split; [reflexivity|]. split; [apply failed_written_gen|].
         intros [_ NO]. rewrite E2 in NO. injection NO as NO. unfold clean. rewrite NO. exact Hcl. }
    rewrite guarded_clean by auto. cbv zeta. apply width_rd in Hw. rewrite Hw. cbn [bind]. rwc Eh. cbn [bind].
    assert (P61 : 2 ^ 61 = 2305843009213693952) by reflexivity.
    assert (Hhalf : 0 <= n_used t / 2 <= n_used t) by (split; [apply Z.div_pos; lia|apply Z.div_le_upper_bound; lia]).
    rewrite (wrap64_id (2 * half + 1)) by (unfold two64; lia).
    replace (n_used t + (2 * half + 1) - 1) with (n_used t + half * 2) by lia.
    rewrite (wrap64_id (n_used t + half * 2)) by (unfold two64; lia).
    rewrite (wrap64_id (2 * (n_used t + half * 2) - 1)) by (unfold two64; lia).
    rewrite Z.div_add by lia.
    destruct (next_pow_2_ok (2 * (n_used t + half * 2) - 1)) as (k & Ek & Hk & Hk1 & Hk2); [lia|]. rewrite Ek. cbn [bind].
    set (ds := n_used t + half * 2) in *.
    destruct (negb _) eqn:Al.
    { eexists. split; [reflexivity|]. split; [apply failed_written_gen|]. intros [A _]. rewrite !A in Al. discriminate. }
    assert (Hlt : n_used t / 2 < n_used t) by (apply Z.div_lt; lia).
    rewrite (wrap64_id (start t + n_used t / 2 - (n_used t / 2 + half))) by (unfold two64; lia).
    replace (start t + n_used t / 2 - (n_used t / 2 + half)) with (start t - half) by lia.
    destruct (tabulate_total ds (fft_sample L t (start t + n_used t / 2) (start t - half) w (shalf * w)%S)) as (kt & Et).
    { unfold ds; lia. }
    { intros i Hi. apply fft_sample_safe; unfold ds in Hi; lia. }
    destruct (tabulate_ok ds _ kt ltac:(unfold ds; lia) Et) as [Lt Hkt].
    rwc Et. cbn [bind].
    set (pad := repeat c0 (Z.to_nat (2 ^ k - ds))).
    set (ker := (map fst kt ++ pad)%list). set (data := (map snd kt ++ pad)%list).
    assert (La : forall (g : _ -> cplx S), zlen (map g kt ++ pad)%list = 2 ^ k).
    { intros g. rewrite zlen_app. unfold pad, zlen. rewrite map_length, repeat_length. unfold zlen in Lt. unfold ds in *. lia. }
    assert (FA : fft_arrays L t (start t + n_used t / 2) w (start t - half) ds (2 ^ k) ker data).
    { assert (Cell : forall j, 0 <= j < ds -> exists v, entry kt j v /\ central_kernel L t (start t + n_used t / 2) w (start t - half + j) (fst v) /\
         exists T z, T_in t = Some T /\ entry T (start t - half + j) (Some z) /\ snd v = z).
      { intros j Hj. destruct (aread_in kt j) as [v Ev]; [lia|]. exists v. split; [apply aread_ent; exact Ev|].
        rewrite Hkt in Ev by exact Hj. apply (fft_sample_cell _ _ w (shalf * w)%S); auto; unfold ds in Hj; lia. }
      split.
      - apply La. - apply La.
      - intros j Hj. destruct (Cell j Hj) as [v [Ev [C _]]]. exists (fst v). split; [|exact C].
        apply entry_app1, entry_map', Ev.
      - intros j Hj. destruct (Cell j Hj) as [v [Ev [_ (T & z & A & B & C)]]]. exists T, z. split; [exact A|]. split; [exact B|].
        rewrite <- C. apply entry_app1, entry_map', Ev.
      - intros j Hj. unfold ker, data, pad.
        split; [pose proof (@entry_pad (cplx S) (map fst kt) c0 (2 ^ k) j) as P|pose proof (@entry_pad (cplx S) (map snd kt) c0 (2 ^ k) j) as P];
          unfold zlen in P; rewrite map_length in P; unfold zlen in Lt; rewrite Lt in P; apply P; lia. }
    fold (by_fourier L ker data).
    assert (Lpr : zlen (by_fourier L ker data) = 2 ^ k).
    { unfold by_fourier. rewrite Hifft. unfold zlen. rewrite map_length, combine_length.
      pose proof (La fst) as A1. pose proof (La snd) as A2. fold ker in A1. fold data in A2. rewrite <- Hfft in A1, A2. unfold zlen in A1, A2. lia. }
    destruct (proj1 (proj2 (proj2 HC))) as (T & ET & HT). rewrite ET. cbn [deref bind].
    set (Q := fft_sample_value L t w half).
    destruct (for_range_total (fun n T1 => progress t Q T n T1) 0 (n_used t)
      (fun n T => do v <- aread (by_fourier L ker data) ((half + n + (n_used t / 2 + half)) mod 2 ^ k);
                  awrite T (start t + n) (Some v)) T) as (T' & E & HP); try lia.
    - apply progress_0; auto.
    - intros i T1 Hi HP. pose proof (Z.pow_pos_nonneg 2 k).
      rewrite Z.mod_small by (unfold ds in Hk1; lia).
      destruct (aread_in (by_fourier L ker data) (half + i + (n_used t / 2 + half))) as [v Ev].
      { rewrite Lpr. unfold ds in Hk1. lia. }
      rewrite Ev. cbn [bind]. destruct (awrite_in T1 (start t + i) (Some v)) as [T2 ET2].
      { destruct HP as (HP & _). rewrite HP. lia. }
      exists T2. split; auto. eapply progress_step; eauto; [lia|].
      exists k, (2 ^ k), ker, data. replace (n_used t + 2 * half) with ds by (unfold ds; lia).
      split; [lia|]. split; [reflexivity|]. split; [exact Hk1|]. split; [exact Hk2|]. split; [exact FA|].
      apply aread_ent. replace (start t + i - start t + 2 * half + n_used t / 2) with (half + i + (n_used t / 2 + half)) by lia. exact Ev.
    - rewrite Z.add_0_l in HP. rwc E. cbn [bind]. eexists. split; [reflexivity|]. split; [|intros _; exact Hcl].
      exists T, None, T'. split; auto. split; [apply HP|]. auto.
  Qed.
End Fft.
