(** * Proof_Safety: no undefined behaviour in the transforms and drivers. *)
From Coq Require Import List ZArith Bool String Lia.
From Verif Require Import Base BaseFacts Scalar Model_TauRec Model_Checks Model_Select
  Model_Transform Model_Interp Model_Recon Spec_Select Spec_Safety.
Import ListNotations.
Open Scope Z_scope.

Lemma aread_entry {A} (l : list A) i a : aread l i = Ok a <-> entry l i a /\ i < zlen l.
Proof.
  rewrite aread_ok. unfold entry. tauto.
Qed.
Lemma entry_lt {A} (l : list A) i a : entry l i a -> 0 <= i < zlen l.
Proof.
  intros [H1 H2]. split; auto. assert (H : (Z.to_nat i < List.length l)%nat) by (apply nth_error_Some; congruence).
  unfold zlen. lia.
Qed.
Lemma entry_read {A} (l : list A) i a : entry l i a <-> aread l i = Ok a.
Proof.
  rewrite aread_entry. split; [intros H; split; auto; apply entry_lt in H; lia|tauto].
Qed.

Section Safe.
  Context {S : scalar} (L : tmpl S) (t : tau S).
  Hypothesis HC : complete t.
  Local Notation buffer := (@buffer S).
  Lemma rd_safe f i : In f core_fields -> 0 <= i < arr_size t -> exists v, rd t f i = Ok v.
  Proof.
    intros Hf Hi. destruct (proj1 HC f Hf) as [l [E Hl]]. unfold rd. rewrite E. cbn [deref bind].
    apply aread_in. lia.
  Qed.
  Lemma rdT_safe i : 0 <= i < arr_size t -> exists v, rdT (T_in t) i = Ok v.
  Proof.
    intros Hi. destruct (proj1 (proj2 HC)) as [T [E [Hl Hw]]]. unfold rdT. rewrite E. cbn [deref bind].
    destruct (aread_in T i) as [c Hc]; [lia|]. rewrite Hc. cbn [bind].
    apply aread_In in Hc. specialize (Hw _ Hc). destruct c; [|congruence]. eexists; reflexivity.
  Qed.
  Lemma rdb_safe (b : buffer) n i : written b n -> 0 <= i < n -> exists v, rdb b i = Ok v.
  Proof.
    intros [_ Hw] Hi. destruct (Hw i Hi) as [x Hx]. unfold rdb. apply entry_read in Hx. rewrite Hx.
    eexists; reflexivity.
  Qed.
  Ltac corein := solve [simpl; tauto].
  Ltac safe1 :=
    lazymatch goal with
    | |- exists _, bind (rd t ?f ?i) _ = _ =>
        let v := fresh "v" in let E := fresh "E" in
        destruct (rd_safe f i) as [v E]; [corein|lia|rewrite E; clear E; cbn [bind]]
    | |- exists _, bind (rdT (T_in t) ?i) _ = _ =>
        let v := fresh "v" in let E := fresh "E" in
        destruct (rdT_safe i) as [v E]; [lia|rewrite E; clear E; cbn [bind]]
    | H : written ?b ?n |- exists _, bind (rdb ?b ?i) _ = _ =>
        let v := fresh "v" in let E := fresh "E" in
        destruct (rdb_safe b n i H) as [v E]; [lia|rewrite E; clear E; cbn [bind]]
    | |- exists _, Ok _ = Ok _ => eexists; reflexivity
    end.

  Lemma geo_safe v0 v1 p : 0 <= v0 < arr_size t -> 0 <= v1 < arr_size t ->
    exists g, geo_at t v0 v1 p = Ok g.
  Proof. intros. unfold geo_at. repeat safe1. Qed.
  Lemma kernel_safe c o : 0 <= c < arr_size t -> 0 <= o < arr_size t ->
    exists k, fresnel_kernel L t c o = Ok k.
  Proof.
    intros. unfold fresnel_kernel. destruct (use_fwd t); safe1.
    - destruct (geo_safe c o v) as [g E]; auto. rewrite E; cbn [bind]. repeat safe1.
    - destruct (geo_safe o c v) as [g E]; auto. rewrite E; cbn [bind]. repeat safe1.
  Qed.
  Lemma pw_safe c o : 0 <= c < arr_size t -> 0 <= o < arr_size t ->
    exists wt psi, phase_and_weight L t c o = Ok (wt, psi).
  Proof.
    intros. cut (exists r, phase_and_weight L t c o = Ok r); [intros [[a b] E]; eauto|].
    unfold phase_and_weight. destruct (use_fwd t); safe1.
    - destruct (geo_safe c o v) as [g E]; auto. rewrite E; cbn [bind]. safe1.
      destruct (t_phasew L v0 g (eps t) (toler t)) as [[? ?] ?]. safe1.
    - destruct (geo_safe o c v) as [g E]; auto. rewrite E; cbn [bind]. safe1.
      destruct (t_phasew L v0 g (eps t) (toler t)) as [[? ?] ?]. safe1.
  Qed.
  Lemma fpw_safe c o ph : 0 <= c < arr_size t -> 0 <= o < arr_size t ->
    exists p wt psi, fast_phase_and_weight L t c o ph = Ok (p, wt, psi).
  Proof.
    intros. cut (exists r, fast_phase_and_weight L t c o ph = Ok r); [intros [[[a b] d] E]; eauto|].
    unfold fast_phase_and_weight. destruct (use_fwd t).
    - destruct (geo_safe c o ph) as [g E]; auto. rewrite E; cbn [bind]. safe1.
      destruct (t_phasew L v g (eps t) (toler t)) as [[? ?] ?]. safe1.
    - destruct (geo_safe o c ph) as [g E]; auto. rewrite E; cbn [bind]. safe1.
      destruct (t_phasew L v g (eps t) (toler t)) as [[? ?] ?]. safe1.
  Qed.
  Lemma loop_safe {A} lo cnt (body : Z -> A -> res A) s :
    (forall i s, lo <= i < lo + cnt -> exists s', body i s = Ok s') ->
    exists s', for_range lo cnt body s = Ok s'.
  Proof.
    intros H. destruct (Z_le_dec 0 cnt).
    - destruct (for_range_total (fun _ _ => True) lo cnt body s) as [s' [E _]]; eauto.
      intros i a Hi _. destruct (H i a Hi) as [s' E]; eauto.
    - rewrite for_range_0 by lia. eauto.
  Qed.

  Lemma fresnel_transform_safe x w c m :
    written x m -> written w m -> 0 <= m <= c -> c + m < arr_size t ->
    exists v, fresnel_transform L t x w c m = Ok v.
  Proof.
    intros Hx Hw H1 H2. unfold fresnel_transform. safe1. cbv zeta. safe1.
    match goal with |- context [for_range 0 m ?b ?s] => destruct (loop_safe 0 m b s) as [[a n] E] end.
    - intros i [acc nrm] Hi. unfold fresnel_body. cbv zeta. repeat safe1.
    - rewrite E; cbn [bind]. eexists; reflexivity.
  Qed.

  Lemma half_2m1 m : (2 * m + 1) / 2 = m.
  Proof. rewrite Z.mul_comm, Z.div_add_l by lia. change (1 / 2) with 0. lia. Qed.
  Lemma filon_first_safe w c o n :
    written w n -> 0 < n -> 0 <= c < arr_size t -> 0 <= o < arr_size t ->
    exists ls lp l, filon_first L t w c o = Ok (ls, lp, l).
  Proof.
    intros Hw Hn Hc Ho. cut (exists r, filon_first L t w c o = Ok r); [intros [[[a b] d] E]; eauto|].
    unfold filon_first. destruct (pw_safe c o) as (wt & psi & E); auto. rewrite E; cbn [bind].
    repeat safe1.
  Qed.
  Ltac fix_m m := rewrite ?half_2m1; replace (2 * m + 1 - 1) with (2 * m) by lia;
    replace (2 * m / 2) with m by (rewrite Z.mul_comm, Z.div_mul; lia);
    rewrite ?(wrap64_id (2 * m)) by (assert (Hq := proj2 (proj2 (proj2 (proj2 HC)))); lia).

  Section Newton.
    Variables (w : buffer) (c m : Z).
    Hypothesis Hw : written w (2 * m + 1).
    Hypothesis Hm : 0 <= m <= c.
    Hypothesis Hr : c + m < arr_size t.
    Lemma riemann_safe : exists v, newton_riemann L t w (2 * m + 1) c = Ok v.
    Proof.
      unfold newton_riemann. fix_m m. cbv zeta.
      match goal with |- context [for_range 0 _ ?b ?s] => destruct (loop_safe 0 (2 * m) b s) as [[a n] E] end.
      - intros i [acc nrm] Hi. unfold riemann_body.
        destruct (kernel_safe c (c - m + i)) as [k E]; [lia|lia|]. rewrite E; cbn [bind]. repeat safe1.
      - rewrite E; cbn [bind]. eexists; reflexivity.
    Qed.
    Lemma filon01_safe : exists v, newton_filon01 L t w (2 * m + 1) c = Ok v.
    Proof.
      unfold newton_filon01. fix_m m. cbv zeta.
      destruct (filon_first_safe w c (c - m) (2 * m + 1)) as (ls & lp & l & E); auto; try lia.
      rewrite E; cbn [bind].
      match goal with |- context [for_range 0 _ ?b ?s] => destruct (loop_safe 0 (2 * m) b s) as [[[[[a n] ?] ?] ?] E2] end.
      - intros i [[[[acc nrm] ?] ?] ?] Hi. unfold filon01_body.
        destruct (pw_safe c (c - m + i + 1)) as (wt & psi & E3); [lia|lia|]. rewrite E3; cbn [bind]. repeat safe1.
      - rewrite E2; cbn [bind]. eexists; reflexivity.
    Qed.
    Lemma filon11_safe : exists v, newton_filon11 L t w (2 * m + 1) c = Ok v.
    Proof.
      unfold newton_filon11. fix_m m. cbv zeta.
      destruct (filon_first_safe w c (c - m) (2 * m + 1)) as (ls & lp & l & E); auto; try lia.
      rewrite E; cbn [bind].
      match goal with |- context [for_range 0 _ ?b ?s] => destruct (loop_safe 0 (2 * m) b s) as [[[[[a n] ?] ?] ?] E2] end.
      - intros i [[[[acc nrm] ?] ?] ?] Hi. unfold filon11_body.
        destruct (pw_safe c (c - m + i + 1)) as (wt & psi & E3); [lia|lia|]. rewrite E3; cbn [bind]. repeat safe1.
      - rewrite E2; cbn [bind]. eexists; reflexivity.
    Qed.
    Lemma pair_count_odd : 1 <= m -> pair_count (2 * m + 1) = m.
    Proof.
      intros H. unfold pair_count. replace (2 * m + 1 - 2) with (2 * m - 1) by lia.
      rewrite wrap64_id by (assert (Hq := proj2 (proj2 (proj2 (proj2 HC)))); lia).
      replace (2 * m - 1 + 1) with (m * 2) by lia. apply Z.div_mul. lia.
    Qed.
    Lemma filon02_safe : 1 <= m -> exists v, newton_filon02 L t w (2 * m + 1) c = Ok v.
    Proof.
      intros H1. unfold newton_filon02. rewrite pair_count_odd by auto. rewrite half_2m1. cbv zeta.
      destruct (filon_first_safe w c (c - m) (2 * m + 1)) as (ls & lp & l & E); auto; try lia.
      rewrite E; cbn [bind].
      match goal with |- context [for_range 0 m ?b ?s] => destruct (loop_safe 0 m b s) as [[[a n] ?] E2] end.
      - intros i [[acc ?] ?] Hi. unfold filon02_body. cbv zeta.
        destruct (pw_safe c (c - m + 2 * i + 1)) as (wt & psi & E3); [lia|lia|]. rewrite E3; cbn [bind]. do 2 safe1.
        destruct (pw_safe c (c - m + 2 * i + 2)) as (wt2 & psi2 & E4); [lia|lia|]. rewrite E4; cbn [bind]. repeat safe1.
      - rewrite E2; cbn [bind]. eexists; reflexivity.
    Qed.
    Lemma filon12_safe : 1 <= m -> exists v, newton_filon12 L t w (2 * m + 1) c = Ok v.
    Proof.
      intros H1. unfold newton_filon12. rewrite pair_count_odd by auto. rewrite half_2m1. cbv zeta.
      safe1. destruct (fpw_safe c (c - m) v) as (p & wt & psi & E); [lia|lia|]. rewrite E; cbn [bind].
      do 2 safe1.
      match goal with |- context [for_range 0 m ?b ?s] => destruct (loop_safe 0 m b s) as [[[[a n] ?] ?] E2] end.
      - intros i [[[acc ph] ?] ?] Hi. unfold filon12_body. cbv zeta.
        destruct (fpw_safe c (c - m + 2 * i + 1) ph) as (p3 & wt3 & psi3 & E3); [lia|lia|]. rewrite E3; cbn [bind]. do 2 safe1.
        destruct (fpw_safe c (c - m + 2 * i + 2) p3) as (p4 & wt4 & psi4 & E4); [lia|lia|]. rewrite E4; cbn [bind]. repeat safe1.
      - rewrite E2; cbn [bind]. eexists; reflexivity.
    Qed.
    Lemma elliptic_psi_safe o : 0 <= o < arr_size t -> exists v, elliptic_psi L t c o = Ok v.
    Proof. intros Ho. unfold elliptic_psi. cbv zeta. repeat safe1. Qed.
    Lemma perturbed_psi_safe o : 0 <= o < arr_size t -> exists v, perturbed_psi L t c o = Ok v.
    Proof.
      intros Ho. unfold perturbed_psi. cbv zeta. do 6 safe1.
      assert (H5 := proj1 (proj2 (proj2 (proj2 HC)))).
      destruct (aread_in (perturb t) 4) as [a4 ->]; [lia|]. destruct (aread_in (perturb t) 3) as [a3 ->]; [lia|].
      destruct (aread_in (perturb t) 2) as [a2 ->]; [lia|]. destruct (aread_in (perturb t) 1) as [a1 ->]; [lia|].
      destruct (aread_in (perturb t) 0) as [a0 ->]; [lia|]. cbn [bind]. eexists; reflexivity.
    Qed.
    Lemma sum_safe f s : (forall o, 0 <= o < arr_size t -> exists v, f o = Ok v) ->
      exists r, for_range 0 (2 * m + 1) (newton_sum_body L t f w (c - m)) s = Ok r.
    Proof.
      intros Hf. apply loop_safe. intros i [acc nrm] Hi. unfold newton_sum_body.
      destruct (Hf (c - m + i)) as [v E]; [lia|]. rewrite E; cbn [bind]. repeat safe1.
    Qed.
    Lemma elliptical_safe : exists v, elliptical_newton L t w (2 * m + 1) c = Ok v.
    Proof.
      unfold elliptical_newton. fix_m m. cbv zeta.
      destruct (sum_safe (elliptic_psi L t c) (c0, c0)) as [[a n] E]; [apply elliptic_psi_safe|].
      rewrite E; cbn [bind]. eexists; reflexivity.
    Qed.
    Lemma perturbed_safe : exists v, perturbed_newton L t w (2 * m + 1) c = Ok v.
    Proof.
      unfold perturbed_newton. fix_m m. cbv zeta.
      destruct (sum_safe (perturbed_psi L t c) (c0, c0)) as [[a n] E]; [apply perturbed_psi_safe|].
      rewrite E; cbn [bind]. eexists; reflexivity.
    Qed.
  End Newton.

  (** Interpolated transforms: half windows of [m] samples. *)
  Section Half.
    Variables (x w : buffer) (c m : Z).
    Hypothesis Hx : written x m.
    Hypothesis Hw : written w m.
    Hypothesis Hm : 0 <= m <= c.
    Hypothesis Hr : c + m < arr_size t.
    Lemma point4_safe pc wc rw n : 0 <= n < m ->
      exists a b d e, newton4_point t pc wc x w rw (c - m) (c + m) n = Ok (a, b, d, e).
    Proof.
      intros Hn. cut (exists r, newton4_point t pc wc x w rw (c - m) (c + m) n = Ok r);
        [intros [[[[a b] d] e] E]; eauto|].
      unfold newton4_point. safe1. cbv zeta.
      destruct (deg4_eval pc (v * rw)%S) as [pl pr]. destruct (deg4_eval wc (v * rw)%S) as [wl wr].
      repeat safe1.
    Qed.
    Lemma tabulate_len {A} n (f : Z -> res A) : 0 <= n ->
      (forall i, 0 <= i < n -> exists a, f i = Ok a) ->
      exists l, tabulate n f = Ok l /\ zlen l = n.
    Proof.
      intros Hn H. destruct (tabulate_total n f Hn H) as [l E]. exists l. split; auto.
      apply tabulate_ok in E; tauto.
    Qed.
    Lemma newton4_safe : 1 <= m -> exists v, newton4 L t x w m c = Ok v.
    Proof.
      intros H1. unfold newton4. cbv zeta. set (sh := m / 2).
      assert (Hs : 0 <= sh /\ 2 * sh <= m) by (unfold sh; split; [apply Z.div_pos; lia|]; assert (Q := Z.mul_div_le m 2); lia).
      destruct (tabulate_len 5 (fun n => phase_and_weight L t c (c - 2 * sh + n * sh))) as [l [E Hl]]; [lia| |].
      { intros i Hi. destruct (pw_safe c (c - 2 * sh + i * sh)) as (a & b & E); [lia|nia|]. eauto. }
      unfold newton4_samples. rewrite E; cbn [bind].
      destruct l as [|[w0 p0] [|[w1 p1] [|[w2 p2] [|[w3 p3] [|[w4 p4] [|]]]]]]; unfold zlen in Hl; simpl in Hl; try lia.
      safe1.
      destruct (point4_safe (deg4_interp p0 p1 p2 p3 p4) (deg4_interp w0 w1 w2 w3 w4)
        (s1 / (sofZ 4 * dx t * sofZ sh))%S 0) as (a & b & d & e & E2); [lia|].
      rewrite E2; cbn [bind].
      match goal with |- context [for_range 1 _ ?bd ?st] => destruct (loop_safe 1 (m - 1) bd st) as [[acc [[[? ?] ?] ?]] E3] end.
      - intros i [acc [[[pl pr] l'] r']] Hi. unfold newton4_body.
        destruct (point4_safe (deg4_interp p0 p1 p2 p3 p4) (deg4_interp w0 w1 w2 w3 w4)
          (s1 / (sofZ 4 * dx t * sofZ sh))%S i) as (a' & b' & d' & e' & E4); [lia|].
        rewrite E4; cbn [bind]. eexists; reflexivity.
      - rewrite E3; cbn [bind]. eexists; reflexivity.
    Qed.
    Lemma sample_psi_safe i : 0 <= i < arr_size t -> exists v, sample_psi L t c i = Ok v.
    Proof.
      intros Hi. unfold sample_psi. safe1. destruct (geo_safe i c v) as [g E]; [auto|lia|].
      rewrite E; cbn [bind]. repeat safe1.
    Qed.
    Lemma interp_sum_safe table h sh : 0 <= h -> 0 <= sh -> h * sh <= m ->
      exists r, interp_sum L table h t x w m c sh = Ok r.
    Proof.
      intros Hh Hs Hhs. unfold interp_sum. cbv zeta. safe1. unfold node_phases.
      destruct (tabulate_total h (fun j => sample_psi L t c (c - (j + 1) * sh))) as [lo E]; auto.
      { intros j Hj. apply sample_psi_safe. nia. }
      rewrite E; cbn [bind].
      destruct (tabulate_total h (fun j => sample_psi L t c (c + (j + 1) * sh))) as [hi E2]; auto.
      { intros j Hj. apply sample_psi_safe. nia. }
      rewrite E2; cbn [bind]. apply loop_safe. intros i [acc nrm] Hi. unfold interp_body. safe1.
      match goal with |- context [interp_eval ?a ?b] => destruct (interp_eval a b) as [pl pr] end.
      cbv zeta. repeat safe1.
    Qed.
    Lemma newton8_safe : exists v, newton8 L t x w m c = Ok v.
    Proof.
      unfold newton8. destruct (interp_sum_safe C8 4 (m / 4)) as [[a n] E]; [lia|apply Z.div_pos; lia|apply Z.mul_div_le; lia|].
      rewrite E; cbn [bind]. cbv zeta. destruct (use_norm t); eexists; reflexivity.
    Qed.
    Lemma newton16_safe : exists v, newton16 L t x w m c = Ok v.
    Proof.
      unfold newton16. destruct (interp_sum_safe C16 8 (m / 8)) as [[a n] E]; [lia|apply Z.div_pos; lia|apply Z.mul_div_le; lia|].
      rewrite E; cbn [bind]. eexists; reflexivity.
    Qed.

    Lemma horner_safe (cs : list S) bound (y : S) : 2 <= order t -> zlen cs = order t -> bound <= order t ->
      exists a b, horner_pair cs (order t) bound y = Ok (a, b).
    Proof.
      intros Ho Hl Hb. cut (exists r, horner_pair cs (order t) bound y = Ok r); [intros [[a b] E]; eauto|].
      unfold horner_pair. destruct (aread_in cs (order t - 1)) as [a E]; [lia|]. rewrite E; cbn [bind].
      destruct (aread_in cs (order t - 2)) as [b E2]; [lia|]. rewrite E2; cbn [bind].
      apply loop_safe. intros i [p q] Hi. cbv zeta.
      assert (2 * ((bound - 2) / 2) <= bound - 2) by (apply Z.mul_div_le; lia).
      destruct (aread_in cs (order t - (3 + 2 * i))) as [u E3]; [lia|]. rewrite E3; cbn [bind].
      destruct (aread_in cs (order t - (3 + 2 * i) - 1)) as [u2 E4]; [lia|]. rewrite E4; cbn [bind].
      eexists; reflexivity.
    Qed.
    Lemma lsum_safe ph : (forall a b, exists u v, ph a b = Ok (u, v)) ->
      exists a b, legendre_sum L t ph x w m c = Ok (a, b).
    Proof.
      intros Hph. cut (exists r, legendre_sum L t ph x w m c = Ok r); [intros [[a b] E]; eauto|].
      unfold legendre_sum. do 2 safe1. cbv zeta.
      match goal with |- context [for_range 0 m ?b ?s] => destruct (loop_safe 0 m b s) as [[a n] E] end.
      - intros i [acc nrm] Hi. unfold legendre_body. cbv zeta. safe1.
        match goal with |- context [ph ?a ?b] => destruct (Hph a b) as (u & u2 & E) end.
        rewrite E; cbn [bind]. repeat safe1.
      - rewrite E; cbn [bind]. repeat safe1.
    Qed.
    Lemma odd_phases_safe (cs : list S) bound (a b : S) : 2 <= order t -> zlen cs = order t -> bound <= order t ->
      exists u v, legendre_odd_phases cs (order t) bound a b = Ok (u, v).
    Proof.
      intros. unfold legendre_odd_phases. cbv zeta.
      destruct (horner_safe cs bound (b * b)%S) as (p & q & E); auto. rewrite E; cbn [bind]. eauto.
    Qed.
    Lemma even_phases_safe (cs : list S) (a b : S) : 2 <= order t -> zlen cs = order t ->
      exists u v, legendre_even_phases cs (order t) a b = Ok (u, v).
    Proof.
      intros. unfold legendre_even_phases. cbv zeta.
      destruct (horner_safe cs (order t - 1) (b * b)%S) as (p & q & E); auto; [lia|]. rewrite E; cbn [bind].
      destruct (aread_in cs 0) as [u E2]; [lia|]. rewrite E2; cbn [bind]. eauto.
    Qed.
    Lemma legendre_safe f cs : In f (legendre_table L) -> 2 <= order t -> zlen cs = order t ->
      exists v, f t x w cs m c = Ok v.
    Proof.
      intros Hf Ho Hl. simpl in Hf. destruct Hf as [<-|[<-|[<-|[<-|[]]]]].
      - unfold legendre_odd. safe1. edestruct (lsum_safe (fun kD => legendre_odd_phases cs (order t) (order t - 1) kD)) as (a & b & E);
          [intros; apply odd_phases_safe; auto; lia|]. rewrite E; cbn [bind]. eexists; reflexivity.
      - unfold legendre_even. safe1. edestruct (lsum_safe (fun kD => legendre_even_phases cs (order t) kD)) as (a & b & E);
          [intros; apply even_phases_safe; auto; lia|]. rewrite E; cbn [bind]. eexists; reflexivity.
      - unfold legendre_odd_norm. edestruct (lsum_safe (fun kD => legendre_odd_phases cs (order t) (order t) kD)) as (a & b & E);
          [intros; apply odd_phases_safe; auto; lia|]. rewrite E; cbn [bind]. eexists; reflexivity.
      - unfold legendre_even_norm. edestruct (lsum_safe (fun kD => legendre_even_phases cs (order t) kD)) as (a & b & E);
          [intros; apply even_phases_safe; auto; lia|]. rewrite E; cbn [bind]. eexists; reflexivity.
    Qed.
    Lemma legendre_step_safe f : In f (legendre_table L) -> 2 <= order t ->
      (forall a b, zlen (t_legendre L a b (order t)) = order t) ->
      exists v, legendre_step L f t x w m c = Ok v.
    Proof.
      intros Hf Ho Hl. unfold legendre_step. do 2 safe1. cbv zeta. apply legendre_safe; auto.
    Qed.
  End Half.
End Safe.
