(** * Proof_Drivers: window buffers and the parallel drivers. *)
From Coq Require Import List ZArith Bool String Lia.
From Verif Require Import Base BaseFacts Scalar Model_TauRec Model_Checks Model_Select
  Model_Transform Model_Interp Model_Recon Spec_Select Spec_Safety Proof_Safety.
Import ListNotations.
Open Scope Z_scope.

(** Rewriting of the computation under a [bind], up to conversion. *)
Ltac rwc E :=
  match type of E with @eq _ ?l _ =>
    match goal with |- context [bind ?m _] => change m with l; rewrite E end end.

Section Buffers.
  Context {S : scalar} (L : tmpl S) (t : tau S).
  Local Notation buffer := (@buffer S).

  Lemma holds_written (b : buffer) n (f : Z -> S) : n <= zlen b -> holds b n f -> written b n.
  Proof.
    intros H1 H2. split; auto. intros i Hi. exists (f i). apply entry_read. auto.
  Qed.

  (** Filling two buffers by a loop. *)
  Lemma fill2 (body : Z -> buffer * buffer -> res (buffer * buffer)) (f g : Z -> S) x w n :
    0 <= n -> n <= zlen x -> n <= zlen w ->
    (forall i x w, 0 <= i < n -> i < zlen x -> i < zlen w ->
       exists x' w', body i (x, w) = Ok (x', w') /\
         awrite x i (Some (f i)) = Ok x' /\ awrite w i (Some (g i)) = Ok w') ->
    exists x' w', for_range 0 n body (x, w) = Ok (x', w') /\ zlen x' = zlen x /\ zlen w' = zlen w /\
      holds x' n f /\ holds w' n g.
  Proof.
    intros Hn Hx Hw Hb.
    destruct (for_range_total (fun i st => zlen (fst st) = zlen x /\ zlen (snd st) = zlen w /\
       holds (fst st) i f /\ holds (snd st) i g) 0 n body (x, w)) as [[x' w'] [E (H1 & H2 & H3 & H4)]]; auto.
    - simpl. split; auto. split; auto. split; intros i Hi; lia.
    - intros i [x1 w1] Hi (G1 & G2 & G3 & G4). simpl in *.
      destruct (Hb i x1 w1) as (x2 & w2 & E & Ex & Ew); [lia|lia|lia|].
      exists (x2, w2). split; auto. apply awrite_ok in Ex. apply awrite_ok in Ew.
      destruct Ex as (_ & Lx & Rx & Ox), Ew as (_ & Lw & Rw & Ow). simpl.
      split; [lia|]. split; [lia|]. split; intros k Hk.
      + destruct (Z.eq_dec k i); [subst; auto|]. rewrite Ox by auto. apply G3. lia.
      + destruct (Z.eq_dec k i); [subst; auto|]. rewrite Ow by auto. apply G4. lia.
    - exists x', w'. auto.
  Qed.

  Local Notation offset_x := (offset_x t).
  Local Notation fresnel_x := (fresnel_x t).
  Local Notation newton_w := (full_weight L t).
  Lemma reset_window_ok x w n c wc :
    rd t WKM c = Ok wc -> 0 <= n -> n <= zlen x -> n <= zlen w ->
    exists x' w', reset_window L t (x, w) n c = Ok (x', w') /\ zlen x' = zlen x /\ zlen w' = zlen w /\
      holds x' n (offset_x n) /\ holds w' n (fun k => t_window L (window t) (offset_x n k) wc).
  Proof.
    intros Hwc Hn Hx Hw. unfold reset_window. apply fill2; auto.
    intros i x1 w1 Hi Hx1 Hw1.
    destruct (awrite_in x1 i (Some (offset_x n i))) as [x2 Ex]; [lia|].
    destruct (awrite_in w1 i (Some (t_window L (window t) (offset_x n i) wc))) as [w2 Ew]; [lia|].
    exists x2, w2. unfold Spec_Safety.offset_x in *. rewrite Ex. cbn [bind]. rewrite Hwc. cbn [bind].
    rewrite Ew. cbn [bind]. auto.
  Qed.
  Lemma reset_fresnel_ok x w n c wc :
    rd t WKM c = Ok wc -> 0 <= n -> n <= zlen x -> n <= zlen w ->
    exists x' w', reset_fresnel_window L t (x, w) n c = Ok (x', w') /\ zlen x' = zlen x /\ zlen w' = zlen w /\
      holds x' n (fresnel_x n) /\ holds w' n (fun k => t_window L (window t) (offset_x n k) wc).
  Proof.
    intros Hwc Hn Hx Hw. unfold reset_fresnel_window. apply fill2; auto.
    intros i x1 w1 Hi Hx1 Hw1.
    destruct (awrite_in x1 i (Some (fresnel_x n i))) as [x2 Ex]; [lia|].
    destruct (awrite_in w1 i (Some (t_window L (window t) (offset_x n i) wc))) as [w2 Ew]; [lia|].
    exists x2, w2. unfold Spec_Safety.fresnel_x, Spec_Safety.offset_x in *. rewrite Hwc. cbn [bind].
    rewrite Ew. cbn [bind]. rewrite Ex. cbn [bind]. auto.
  Qed.
  (** Radius difference of sample [k] of the window of [2 m + 1] samples around [c]. *)
  Lemma compute_window_ok w m c wc rho f :
    rd t WKM c = Ok wc -> arr t RHO = Some rho ->
    0 <= m <= c -> c + m < zlen rho -> 2 * m + 1 <= zlen w ->
    (forall k a b, 0 <= k < 2 * m + 1 -> aread rho (c - m + k) = Ok a -> aread rho c = Ok b ->
       f k = t_window L (window t) (a - b)%S wc) ->
    exists w', compute_window L t w (2 * m + 1) c = Ok w' /\ zlen w' = zlen w /\ holds w' (2 * m + 1) f.
  Proof.
    intros Hwc Hrho Hm Hc Hw Hf. unfold compute_window. rewrite half_2m1. cbv zeta.
    destruct (for_range_total (fun i (b : buffer) => zlen b = zlen w /\ holds b i f) 0 (2 * m + 1)
      (fun n w =>
      do a <- rd t RHO (c - m + n);
      do b <- rd t RHO c;
      do wc <- rd t WKM c;
      awrite w n (Some (t_window L (window t) (a - b)%S wc))) w) as [w' [E [H1 H2]]]; try lia.
    - split; auto. intros i Hi; lia.
    - intros i b Hi [G1 G2]. unfold rd at 1 2. rewrite Hrho. cbn [deref bind].
      destruct (aread_in rho (c - m + i)) as [a Ea]; [lia|]. rewrite Ea. cbn [bind].
      destruct (aread_in rho c) as [d Ed]; [lia|]. rewrite Ed. cbn [bind]. rewrite Hwc. cbn [bind].
      rewrite <- (Hf i a d) by (auto; lia).
      destruct (awrite_in b i (Some (f i))) as [b' Eb]; [lia|]. exists b'. split; auto.
      apply awrite_ok in Eb. destruct Eb as (_ & Lb & Rb & Ob). split; [lia|].
      intros k Hk. destruct (Z.eq_dec k i); [subst; auto|]. rewrite Ob by auto. apply G2. lia.
    - exists w'. auto.
  Qed.

  (** ** Threads *)
  Lemma chunks_le lo cs hi : chunks_from lo cs hi -> lo <= hi.
  Proof.
    revert lo. induction cs as [|[a b] cs IH]; simpl; intros lo H; [lia|].
    destruct H as (-> & Hb & H). apply IH in H. lia.
  Qed.
  Lemma threads_total {A} (P : Z -> A -> Prop) (f : Z * Z -> A -> res A) lo cs hi a :
    chunks_from lo cs hi -> P lo a ->
    (forall k n a, lo <= k -> 0 <= n -> k + n <= hi -> P k a -> exists a', f (k, n) a = Ok a' /\ P (k + n) a') ->
    exists a', run_threads f cs a = Ok a' /\ P hi a'.
  Proof.
    revert lo a. induction cs as [|[k n] cs IH]; intros lo a Hc Ha Hf; cbn [run_threads].
    - simpl in Hc. subst. eauto.
    - simpl in Hc. destruct Hc as (-> & Hn & Hc). pose proof (chunks_le _ _ _ Hc) as Hle.
      destruct (Hf lo n a) as (a' & E & Ha'); auto; [lia|]. rewrite E. cbn [bind].
      apply (IH (lo + n)); auto. intros k' n' b Hk Hn' Hkn Hb. apply Hf; auto. lia.
  Qed.
  Local Notation progress := (progress t).
  Lemma progress_0 Q T0 : zlen T0 = arr_size t -> progress Q T0 0 T0.
  Proof. intros H. split; auto. split; [intros; lia|auto]. Qed.
  Lemma progress_step Q T0 k T v T' : 0 <= k -> progress Q T0 k T -> Q (start t + k) v ->
    awrite T (start t + k) (Some v) = Ok T' -> progress Q T0 (k + 1) T'.
  Proof.
    intros Hk (H1 & H2 & H3) HQ E. apply awrite_ok in E. destruct E as (B & Ln & R & O).
    split; [lia|]. split.
    - intros i Hi. destruct (Z.eq_dec i (start t + k)); [subst; eauto|]. rewrite O by auto. apply H2. lia.
    - intros i Hi. rewrite O by lia. apply H3. lia.
  Qed.

  (** ** Quadratic Fresnel mode *)
  Section Fresnel.
    Variables (two_dx w_max : S) (nw_max : Z).
    Hypothesis HC : complete t.
    Let lo := start t.
    Let hi := start t + n_used t + 1.
    Hypothesis Hstart : 0 <= start t.
    Hypothesis Hused : 0 <= n_used t.
    Hypothesis Hhi : hi <= arr_size t.
    Hypothesis Hfit : windows_fit t two_dx lo hi.
    Hypothesis Hcap : forall i m, lo <= i < hi -> half_count t two_dx i m -> m <= nw_max.
    Hypothesis Hmax : 0 <= nw_max.

    Lemma width_rd i x : width t i x <-> rd t WKM i = Ok x.
    Proof.
      unfold width, rd. destruct (arr t WKM) as [w|]; cbn [deref bind].
      - split; [intros [w' [E H]]; inversion E; subst; apply entry_read; auto|].
        intros H. exists w. split; auto. apply entry_read; auto.
      - split; [intros [w' [E _]]; discriminate|discriminate].
    Qed.

    (** The private state of a thread when it reaches sample [i]. *)
    Definition fstate (i : Z) (p : @priv S) : Prop :=
      let '(w_init, nw, x, w) := p in
      zlen x = nw_max /\ zlen w = nw_max /\
      ((w_init = (- sofZ 4 * w_max)%S /\ nw = 0) \/
       exists j, lo <= j < i /\ width t j w_init /\ scast (w_init / two_dx)%S = Ok nw /\
         holds x nw (fresnel_x nw) /\
         holds w nw (fun k => t_window L (window t) (offset_x nw k) w_init)).
    (** What an iteration does: it uses a window of width [wj]. *)
    Lemma fresnel_iter_ok n p T :
      lo <= start t + n < hi -> fstate (start t + n) p -> zlen T = arr_size t ->
      exists w_init nw x w v T', fresnel_iter L t two_dx n (p, T) = Ok ((w_init, nw, x, w), T') /\
        fstate (start t + n + 1) (w_init, nw, x, w) /\
        (nw = 0 /\ w_init = (- sofZ 4 * w_max)%S /\
           (exists wc, width t (start t + n) wc /\ sge (sabs (w_init - wc)%S) two_dx = false) \/
         (exists j, lo <= j <= start t + n /\ width t j w_init /\ reusable t two_dx j (start t + n)) /\
          scast (w_init / two_dx)%S = Ok nw /\ holds x nw (fresnel_x nw) /\
          holds w nw (fun k => t_window L (window t) (offset_x nw k) w_init)) /\
        fresnel_transform L t x w (start t + n) nw = Ok v /\
        awrite T (start t + n) (Some v) = Ok T' /\ zlen T' = arr_size t.
    Proof.
      intros Hn Hp HT. destruct p as [[[w_init nw] x] w]. unfold fresnel_iter. cbv zeta.
      set (c := start t + n) in *.
      destruct (rd_safe t HC WKM c) as [wc Ewc]; [simpl; tauto|lia|]. rewrite Ewc. cbn [bind].
      destruct Hp as (Hx & Hw & Hp).
      destruct (proj1 Hfit c Hn) as [m Hm].
      assert (Hmc : scast (wc / two_dx)%S = Ok m).
      { destruct Hm as [y [Hy Hc]]. apply width_rd in Hy. congruence. }
      assert (Hb : 0 <= m <= c /\ c + m < arr_size t).
      { apply (proj2 Hfit c c m); auto; try lia. left; auto. }
      destruct (sge (sabs (w_init - wc)%S) two_dx) eqn:Eg.
      - rewrite Hmc. cbn [bind].
        assert (Hcm := Hcap c m Hn Hm).
        destruct (reset_fresnel_ok x w m c wc) as (x' & w' & E & L1 & L2 & H1 & H2); auto; try lia.
        rwc E. cbn [bind fst snd].
        destruct (fresnel_transform_safe L t HC x' w' c m) as [v Ev]; try lia.
        { eapply holds_written; eauto. lia. } { eapply holds_written; eauto. lia. }
        rewrite Ev. cbn [bind].
        destruct (awrite_in T c (Some v)) as [T' ET]; [lia|]. rewrite ET. cbn [bind].
        exists wc, m, x', w', v, T'. split; auto. split.
        { split; [lia|]. split; [lia|]. right. exists c. split; [lia|]. split; [apply width_rd; auto|]. auto. }
        split.
        { right. split; [|auto]. exists c. split; [lia|]. split; [apply width_rd; auto|left; auto]. }
        split; auto. split; auto. apply awrite_ok in ET. lia.
      - cbn [bind].
        destruct Hp as [[Hi0 ->]|(j & Hj & Hwj & Hcast & H1 & H2)].
        + destruct (fresnel_transform_safe L t HC x w c 0) as [v Ev]; try lia.
          { split; [lia|]. intros; lia. } { split; [lia|]. intros; lia. }
          rewrite Ev. cbn [bind].
          destruct (awrite_in T c (Some v)) as [T' ET]; [lia|]. rewrite ET. cbn [bind].
          exists w_init, 0, x, w, v, T'. split; auto. split.
          { split; [lia|]. split; [lia|]. left; auto. }
          split; [left|]. { split; auto. split; auto. exists wc. split; auto. apply width_rd; auto. }
          split; auto. split; auto. apply awrite_ok in ET. lia.
        + assert (Hre : reusable t two_dx j c).
          { right. exists w_init, wc. split; auto. split; [apply width_rd; auto|auto]. }
          assert (Hhj : half_count t two_dx j nw) by (exists w_init; auto).
          assert (Hbj : 0 <= nw <= c /\ c + nw < arr_size t) by (apply (proj2 Hfit j c nw); auto; lia).
          assert (Hcj := Hcap j nw ltac:(lia) Hhj).
          destruct (fresnel_transform_safe L t HC x w c nw) as [v Ev]; try lia.
          { eapply holds_written; eauto. lia. } { eapply holds_written; eauto. lia. }
          rewrite Ev. cbn [bind].
          destruct (awrite_in T c (Some v)) as [T' ET]; [lia|]. rewrite ET. cbn [bind].
          exists w_init, nw, x, w, v, T'. split; auto. split.
          { split; [lia|]. split; [lia|]. right. exists j. split; [lia|]. auto. }
          split. { right. split; auto. exists j. split; [lia|]. auto. }
          split; auto. split; auto. apply awrite_ok in ET. lia.
    Qed.
    Lemma fresh_len {A} n : 0 <= n -> zlen (@fresh A n) = n.
    Proof. intros. unfold fresh. apply zlen_repeat; auto. Qed.
    (** A sample reached with the initial private state has an empty window. *)
    Hypothesis Hfirst : forall i wc, lo <= i < hi -> width t i wc ->
      sge (sabs ((- sofZ 4 * w_max) - wc)%S) two_dx = false -> scast (wc / two_dx)%S = Ok 0.
    Definition fQ (i : Z) (v : cplx S) : Prop :=
      exists j wj, lo <= j <= i /\ width t j wj /\ reusable t two_dx j i /\ fresnel_value L t two_dx i wj v.
    Lemma fresnel_thread_ok T0 k n T :
      0 <= k -> 0 <= n -> k + n <= n_used t + 1 -> progress fQ T0 k T ->
      exists T', fresnel_thread L t two_dx w_max nw_max (k, n) T = Ok T' /\ progress fQ T0 (k + n) T'.
    Proof.
      intros Hk Hn Hkn HT. unfold fresnel_thread. cbn [fst snd]. cbv zeta.
      destruct (for_range_total (fun i st => fstate (start t + i) (fst st) /\ progress fQ T0 i (snd st))
        k n (fresnel_iter L t two_dx) ((- sofZ 4 * w_max)%S, 0, fresh nw_max, fresh nw_max, T)) as [[p T'] [E [_ HT']]]; auto.
      - simpl. rewrite !fresh_len by auto. repeat split; auto; apply HT.
      - intros i [p T1] Hi [Hp HT1]. cbn [fst snd] in *.
        destruct (fresnel_iter_ok i p T1) as (w_init & nw & x & w & v & T' & E & Hs & HU & EV & EW & HT'); auto.
        { unfold lo, hi. lia. } { apply HT1. }
        assert (HQ : fQ (start t + i) v).
        { destruct HU as [(-> & -> & wc & Hwc & Hg)|((j & Hj & Hwj & Hr) & Hc & Hx & Hw)].
          - exists (start t + i), wc. split; [unfold lo; lia|]. split; auto. split; [left; auto|].
            exists 0, x, w. split; [apply (Hfirst (start t + i)); auto; unfold lo, hi; lia|].
            split; [intros q Hq; lia|]. split; [intros q Hq; lia|]. auto.
          - exists j, w_init. split; auto. split; auto. split; auto. exists nw, x, w. auto. }
        exists (w_init, nw, x, w, T'). split; auto. cbn [fst snd]. rewrite Z.add_assoc. split; auto.
        eapply progress_step; eauto. lia.
      - rwc E. cbn [bind snd]. eauto.
    Qed.
    Lemma fresnel_threads_ok (sch : schedule) T :
      valid_schedule sch -> zlen T = arr_size t ->
      exists T', run_threads (fresnel_thread L t two_dx w_max nw_max) (sch (n_used t + 1)) T = Ok T' /\
        progress fQ T (n_used t + 1) T'.
    Proof.
      intros Hs HT. destruct (Hs (n_used t + 1)) as [_ Hc]; [lia|].
      apply (threads_total (progress fQ T) _ 0 _ (n_used t + 1)); auto.
      - apply progress_0; auto.
      - intros. apply fresnel_thread_ok; auto.
    Qed.
  End Fresnel.

  (** ** Newton modes *)
  Lemma aread_cell (l : list S) i a : aread l i = Ok a -> a = nth_cell l i.
  Proof.
    intros H. pose proof (proj1 (aread_ok _ _ _) H) as [Hi _].
    rewrite (aread_nth l i s0 Hi) in H. inversion H. reflexivity.
  Qed.
  (** A transform that is memory safe on every window of half width at least [m0]
      that stays in the data. *)
  Definition newton_safe (m0 : Z) (f : @newton_fn S) : Prop :=
    forall w m c, m0 <= m -> 0 <= m <= c -> c + m < arr_size t -> written w (2 * m + 1) ->
      exists v, f t w (2 * m + 1) c = Ok v.

  Section Newton.
    Variables (f : @newton_fn S) (m0 : Z) (two_dx : S) (nw_max : Z) (rho : list S).
    Hypothesis HC : complete t.
    Hypothesis Hf : newton_safe m0 f.
    Let lo := start t.
    Let hi := start t + n_used t.
    Hypothesis Hstart : 0 <= start t.
    Hypothesis Hused : 0 < n_used t.
    Hypothesis Hhi : hi <= arr_size t.
    Hypothesis Hrho : arr t RHO = Some rho.
    Hypothesis Hfit : windows_fit t two_dx lo hi.
    Hypothesis Hmin : forall i m, lo <= i < hi -> half_count t two_dx i m -> m0 <= m.
    Hypothesis Hcap : forall i m, lo <= i < hi -> half_count t two_dx i m -> 2 * m + 1 <= nw_max.

    Definition nstate (i : Z) (p : S * Z * buffer) : Prop :=
      let '(w_init, nw, w) := p in
      zlen w = nw_max /\
      exists j m, lo <= j <= i /\ j < hi /\ width t j w_init /\ scast (w_init / two_dx)%S = Ok m /\ nw = 2 * m + 1 /\
      holds w nw (newton_w rho j m w_init).
    Lemma rho_len : zlen rho = arr_size t.
    Proof. destruct HC as [H _]. destruct (H RHO) as [l [E H1]]; [simpl; tauto|]. congruence. Qed.
    Lemma size64 : arr_size t < two64.
    Proof. destruct HC as (_ & _ & _ & _ & H). auto. Qed.
    Lemma own_window i : lo <= i < hi -> exists wc m, rd t WKM i = Ok wc /\ scast (wc / two_dx)%S = Ok m /\
      newton_points wc two_dx = Ok (2 * m + 1) /\ m0 <= m /\ 0 <= m <= i /\ i + m < arr_size t /\ 2 * m + 1 <= nw_max.
    Proof.
      intros Hi. destruct (proj1 Hfit i Hi) as [m Hm]. pose proof Hm as Hm'.
      destruct Hm as [y [Hy Hc]]. apply width_rd in Hy.
      assert (Hb : 0 <= m <= i /\ i + m < arr_size t).
      { apply (proj2 Hfit i i m); auto; try lia. left; auto. }
      exists y, m. split; auto. split; auto. split.
      { unfold newton_points. rewrite Hc. cbn [bind]. rewrite wrap64_id; auto. pose proof size64. lia. }
      split; [apply (Hmin i); auto|]. split; [lia|]. split; [lia|]. apply (Hcap i); auto.
    Qed.
    Lemma compute_own w i wc m :
      rd t WKM i = Ok wc -> 0 <= m <= i -> i + m < arr_size t -> 2 * m + 1 <= zlen w ->
      exists w', compute_window L t w (2 * m + 1) i = Ok w' /\ zlen w' = zlen w /\
      holds w' (2 * m + 1) (newton_w rho i m wc).
    Proof.
      intros Hwc Hm Hi Hw. apply (compute_window_ok w m i wc rho); auto.
      - rewrite rho_len; auto.
      - intros k a b Hk Ea Eb. apply aread_cell in Ea. apply aread_cell in Eb. subst. reflexivity.
    Qed.
    Lemma newton_iter_ok n p T :
      lo <= start t + n < hi -> nstate (start t + n) p -> zlen T = arr_size t ->
      exists w_init m w v T', newton_iter L f t two_dx n (p, T) = Ok ((w_init, 2 * m + 1, w), T') /\
      nstate (start t + n + 1) (w_init, 2 * m + 1, w) /\
      (exists j, lo <= j <= start t + n /\ width t j w_init /\ reusable t two_dx j (start t + n) /\
      scast (w_init / two_dx)%S = Ok m /\ holds w (2 * m + 1) (newton_w rho j m w_init)) /\
      f t w (2 * m + 1) (start t + n) = Ok v /\
      awrite T (start t + n) (Some v) = Ok T' /\ zlen T' = arr_size t.
    Proof.
      intros Hn Hp HT. destruct p as [[w_init nw] w]. unfold newton_iter. cbv zeta.
      set (c := start t + n) in *.
      destruct (own_window c Hn) as (wc & m & Ewc & Hmc & Hnp & H0 & Hb & Hb2 & Hb3).
      rewrite Ewc. cbn [bind].
      destruct Hp as (Hw & j & mj & Hj & Hj2 & Hwj & Hcj & -> & Hh).
      destruct (sge (sabs (w_init - wc)%S) two_dx) eqn:Eg.
      - rewrite Hnp. cbn [bind].
        destruct (compute_own w c wc m) as (w' & E & Lw & Hw'); auto; try lia.
        rwc E. cbn [bind].
        destruct (Hf w' m c) as [v Ev]; auto; try lia.
        { eapply holds_written; eauto. lia. }
        rwc Ev. cbn [bind].
        destruct (awrite_in T c (Some v)) as [T' ET]; [lia|]. rewrite ET. cbn [bind].
        exists wc, m, w', v, T'. split; auto. split.
        { split; [lia|]. exists c, m. split; [lia|]. split; [lia|]. split; [apply width_rd; auto|]. auto. }
        split.
        { exists c. split; [lia|]. split; [apply width_rd; auto|]. split; [left; auto|]. auto. }
        split; auto. split; auto. apply awrite_ok in ET. lia.
      - cbn [bind].
        assert (Hre : reusable t two_dx j c).
        { right. exists w_init, wc. split; auto. split; [apply width_rd; auto|auto]. }
        assert (Hhj : half_count t two_dx j mj) by (exists w_init; auto).
        assert (Hbj : 0 <= mj <= c /\ c + mj < arr_size t) by (apply (proj2 Hfit j c mj); auto; lia).
        assert (Hcapj := Hcap j mj ltac:(lia) Hhj). assert (Hminj := Hmin j mj ltac:(lia) Hhj).
        destruct (Hf w mj c) as [v Ev]; auto; try lia.
        { eapply holds_written; eauto. lia. }
        rwc Ev. cbn [bind].
        destruct (awrite_in T c (Some v)) as [T' ET]; [lia|]. rewrite ET. cbn [bind].
        exists w_init, mj, w, v, T'. split; auto. split.
        { split; [lia|]. exists j, mj. split; [lia|]. auto. }
        split. { exists j. split; [lia|]. auto. }
        split; auto. split; auto. apply awrite_ok in ET. lia.
    Qed.
    Lemma newton_init : exists w_init m w, rd t WKM (start t) = Ok w_init /\
      newton_points w_init two_dx = Ok (2 * m + 1) /\
      compute_window L t (fresh nw_max) (2 * m + 1) (start t) = Ok w /\ nstate (start t) (w_init, 2 * m + 1, w).
    Proof.
      destruct (own_window (start t)) as (wc & m & Ewc & Hmc & Hnp & H0 & Hb & Hb2 & Hb3); [unfold lo, hi; lia|].
      destruct (compute_own (fresh nw_max) (start t) wc m) as (w' & E & Lw & Hw'); auto; try lia.
      { rewrite fresh_len; lia. }
      exists wc, m, w'. split; auto. split; auto. split; auto.
      split. { rewrite Lw. apply fresh_len. lia. }
      exists (start t), m. unfold lo, hi. split; [lia|]. split; [lia|]. split; [apply width_rd; auto|]. auto.
    Qed.
    Lemma nstate_mono i i' p : i <= i' -> nstate i p -> nstate i' p.
    Proof.
      destruct p as [[a b] c]. intros Hi (H1 & j & m & H2 & H3). split; auto. exists j, m. split; [lia|auto].
    Qed.
    Definition nQ (i : Z) (v : cplx S) : Prop :=
      exists j wj, lo <= j <= i /\ width t j wj /\ reusable t two_dx j i /\ newton_value L t f two_dx rho i j wj v.
    Lemma newton_thread_ok T0 k n T :
      0 <= k -> 0 <= n -> k + n <= n_used t -> progress nQ T0 k T ->
      exists T', newton_thread L f t two_dx nw_max (k, n) T = Ok T' /\ progress nQ T0 (k + n) T'.
    Proof.
      intros Hk Hn Hkn HT. unfold newton_thread. cbn [fst snd]. cbv zeta.
      destruct newton_init as (w_init & m & w & E1 & E2 & E3 & Hi).
      rewrite E1. cbn [bind]. rewrite E2. cbn [bind]. rewrite E3. cbn [bind].
      destruct (for_range_total (fun i st => nstate (start t + i) (fst st) /\ progress nQ T0 i (snd st))
        k n (newton_iter L f t two_dx) (w_init, 2 * m + 1, w, T)) as [[p T'] [E [_ HT']]]; auto.
      - split; auto. cbn [fst]. apply (nstate_mono (start t)); auto. lia.
      - intros i [p T1] Hi1 [Hp HT1]. cbn [fst snd] in *.
        destruct (newton_iter_ok i p T1) as (w1 & m1 & w2 & v & T' & E & Hs & HU & EV & EW & HT'); auto.
        { unfold lo, hi. lia. } { apply HT1. }
        assert (HQ : nQ (start t + i) v).
        { destruct HU as (j & Hj & Hwj & Hr & Hc & Hw). exists j, w1. split; auto. split; auto. split; auto. exists m1, w2. auto. }
        exists (w1, 2 * m1 + 1, w2, T'). split; auto. cbn [fst snd]. rewrite Z.add_assoc. split; auto.
        eapply progress_step; eauto. lia.
      - rwc E. cbn [bind snd]. eauto.
    Qed.
    Lemma newton_threads_ok (sch : schedule) T :
      valid_schedule sch -> zlen T = arr_size t ->
      exists T', run_threads (newton_thread L f t two_dx nw_max) (sch (n_used t)) T = Ok T' /\
        progress nQ T (n_used t) T'.
    Proof.
      intros Hs HT. destruct (Hs (n_used t)) as [_ Hc]; [lia|].
      apply (threads_total (progress nQ T) _ 0 _ (n_used t)); auto.
      - apply progress_0; auto.
      - intros. apply newton_thread_ok; auto.
    Qed.
  End Newton.

  (** ** Sequential modes *)
  Definition interp_safe (m0 : Z) (f : @interp_fn S) : Prop :=
    forall x w m c, m0 <= m -> 0 <= m <= c -> c + m < arr_size t -> written x m -> written w m ->
      exists v, f t x w m c = Ok v.
  Section Seq.
    Variables (f : @interp_fn S) (m0 : Z) (two_dx : S).
    Hypothesis HC : complete t.
    Hypothesis Hf : interp_safe m0 f.
    Let lo := start t.
    Let hi := start t + n_used t.
    Hypothesis Hstart : 0 <= start t.
    Hypothesis Hused : 0 < n_used t.
    Hypothesis Hhi : hi <= arr_size t.
    Hypothesis Hfit : windows_fit t two_dx lo hi.
    Hypothesis Hmin : forall i m, lo <= i < hi -> half_count t two_dx i m -> m0 <= m.
    Hypothesis Hre0 : t_realloc0 L = false \/ 1 <= m0.

    Definition sstate (i : Z) (p : @priv S) : Prop :=
      let '(w_init, nw, x, w) := p in
      zlen x = nw /\ zlen w = nw /\
      exists j, lo <= j <= i /\ j < hi /\ width t j w_init /\ scast (w_init / two_dx)%S = Ok nw /\
      holds x nw (offset_x nw) /\
      holds w nw (half_weight L t nw w_init).
    Lemma seq_own i : lo <= i < hi -> exists wc m, rd t WKM i = Ok wc /\ scast (wc / two_dx)%S = Ok m /\
      m0 <= m /\ 0 <= m <= i /\ i + m < arr_size t.
    Proof.
      intros Hi. destruct (proj1 Hfit i Hi) as [m Hm]. pose proof Hm as Hm'.
      destruct Hm as [y [Hy Hc]]. apply width_rd in Hy.
      assert (Hb : 0 <= m <= i /\ i + m < arr_size t).
      { apply (proj2 Hfit i i m); auto; try lia. left; auto. }
      exists y, m. split; auto. split; auto. split; [apply (Hmin i); auto|]. lia.
    Qed.
    Definition sQ : Z -> cplx S -> Prop := interp_sample L t f two_dx.
    Definition seqP (T0 : @cbuf S) (i : Z) (st : @seq_state S) : Prop :=
      let '(p, T, e) := st in
      zlen T = arr_size t /\ match e with None => sstate (start t + i) p /\ progress sQ T0 i T | Some _ => exists site, t_alloc L site = false end.
    Lemma grow_len (b : buffer) nw : 0 <= nw -> zlen (firstn (Z.to_nat nw) b ++ fresh (nw - zlen b))%list = nw.
    Proof.
      intros H. rewrite zlen_app. unfold fresh. pose proof (zlen_nonneg b).
      assert (E : zlen (firstn (Z.to_nat nw) b) = Z.min nw (zlen b)).
      { unfold zlen. rewrite firstn_length. lia. }
      rewrite E. unfold zlen at 2. rewrite repeat_length. lia.
    Qed.
    Lemma seq_iter_ok T0 n st :
      lo <= start t + n < hi -> seqP T0 n st ->
      exists st', seq_iter L f t two_dx n st = Ok st' /\ seqP T0 (n + 1) st'.
    Proof.
      destruct st as [[[[[w_init nw] x] w] T] e]. intros Hn [HT Hp].
      unfold seq_iter. destruct e as [e|].
      { eexists. split; [reflexivity|]. split; auto. }
      cbv zeta. set (c := start t + n) in *.
      destruct (seq_own c Hn) as (wc & m & Ewc & Hmc & H0 & Hb & Hb2).
      destruct Hp as ((Hx & Hw & j & Hj & Hj2 & Hwj & Hcj & Hh1 & Hh2) & HP).
      unfold resize_half_window. rewrite Ewc. cbn [bind].
      destruct (sge (sabs (w_init - wc)%S) two_dx) eqn:Eg.
      - rewrite Hmc. cbn [bind].
        assert (Er : (m =? 0) && t_realloc0 L = false).
        { destruct Hre0 as [-> | H1]; [apply andb_false_r|]. apply andb_false_intro1. lia. }
        rewrite Er.
        destruct (t_alloc L (100 + 2 * c)) eqn:A1; cbn [negb].
        2: { cbn [bind]. eexists. split; [reflexivity|]. split; eauto. }
        destruct (t_alloc L (101 + 2 * c)) eqn:A2; cbn [negb].
        2: { cbn [bind]. eexists. split; [reflexivity|]. split; eauto. }
        cbn [fst snd].
        destruct (reset_window_ok (firstn (Z.to_nat m) x ++ fresh (m - zlen x))
           (firstn (Z.to_nat m) w ++ fresh (m - zlen w)) m c wc) as (x' & w' & E & L1 & L2 & G1 & G2);
          auto; rewrite ?grow_len by lia; try lia.
        rewrite grow_len in L1, L2 by lia.
        rwc E. cbn [bind fst snd].
        destruct (Hf x' w' m c) as [v Ev]; auto; try lia.
        { eapply holds_written; eauto. lia. } { eapply holds_written; eauto. lia. }
        rwc Ev. cbn [bind].
        destruct (awrite_in T c (Some v)) as [T' ET]; [lia|]. rewrite ET. cbn [bind].
        eexists. split; [reflexivity|]. split. { apply awrite_ok in ET. lia. }
        assert (HQ : sQ (start t + n) v).
        { exists c, wc, m, x', w'. split; [unfold c, lo in *; lia|]. split; [apply width_rd; auto|]. split; [left; reflexivity|]. auto. }
        split; [|eapply progress_step; eauto; unfold c, lo in *; lia].
        split; auto. split; auto. exists c. split; [unfold c in *; lia|]. split; [lia|]. split; [apply width_rd; auto|]. auto.
      - cbn [bind].
        assert (Hre : reusable t two_dx j c).
        { right. exists w_init, wc. split; auto. split; [apply width_rd; auto|auto]. }
        assert (Hhj : half_count t two_dx j nw) by (exists w_init; auto).
        assert (Hbj : 0 <= nw <= c /\ c + nw < arr_size t) by (apply (proj2 Hfit j c nw); auto; lia).
        assert (Hminj := Hmin j nw ltac:(lia) Hhj).
        destruct (Hf x w nw c) as [v Ev]; auto; try lia.
        { eapply holds_written; eauto. lia. } { eapply holds_written; eauto. lia. }
        rwc Ev. cbn [bind].
        destruct (awrite_in T c (Some v)) as [T' ET]; [lia|]. rewrite ET. cbn [bind].
        eexists. split; [reflexivity|]. split. { apply awrite_ok in ET. lia. }
        assert (HQ : sQ (start t + n) v).
        { exists j, w_init, nw, x, w. split; [unfold c, lo in *; lia|]. split; [exact Hwj|]. split; [exact Hre|]. auto. }
        split; [|eapply progress_step; eauto; unfold c, lo in *; lia].
        split; auto. split; auto. exists j. split; [unfold c in *; lia|]. auto.
    Qed.
    Lemma seq_run_ok w_init nw T :
      rd t WKM (start t) = Ok w_init -> scast (w_init / two_dx)%S = Ok nw -> T_out t = Some T ->
      exists T' e, zlen T' = arr_size t /\
        seq_run L f t w_init two_dx nw = Ok (match e with None => set_Tout t T' | Some _ => set_err (set_Tout t T') e end) /\
        (e = None -> progress sQ T (n_used t) T') /\ (e <> None -> exists site, t_alloc L site = false).
    Proof.
      intros Hwi Hnw ET. unfold seq_run.
      destruct (seq_own (start t)) as (wc & m & Ewc & Hmc & H0 & Hb & Hb2); [unfold lo, hi; lia|].
      assert (wc = w_init) by congruence. subst wc. assert (m = nw) by congruence. subst m.
      assert (HT : zlen T = arr_size t). { destruct HC as (_ & _ & (T2 & ET2 & HT) & _). congruence. }
      rewrite ET. cbn [deref bind].
      destruct (reset_window_ok (fresh nw) (fresh nw) nw (start t) w_init) as (x' & w' & E & L1 & L2 & G1 & G2); auto;
        rewrite ?fresh_len by lia; try lia. rewrite fresh_len in L1, L2 by lia.
      rwc E. cbn [bind fst snd].
      destruct (for_range_total (fun i st => seqP T i st)
        0 (n_used t) (seq_iter L f t two_dx) (w_init, nw, x', w', T, None)) as [[[p T'] e] [E1 [HT' HP]]]; auto; try lia.
      - split; auto. split; [|apply progress_0; auto]. split; auto. split; auto. exists (start t). unfold lo, hi. split; [lia|]. split; [lia|].
        split; [apply width_rd; auto|]. auto.
      - intros i st Hi Hst. apply seq_iter_ok; auto. unfold lo, hi. lia.
      - rwc E1. cbn [bind]. exists T', e. split; auto. destruct e as [e|].
        + split; [reflexivity|]. split; [discriminate|]. intros _. exact HP.
        + split; [reflexivity|]. split; [intros _; apply HP|congruence].
    Qed.
  End Seq.
End Buffers.

(** What the two selection tables return. *)
Lemma select_newton_inv {S} (L : tmpl S) p f : select_newton L p = Ok (inl f) ->
  match p with
  | PsiNewtonRiemann => f = newton_riemann L | PsiNewtonFilon01 => f = newton_filon01 L
  | PsiNewtonFilon11 => f = newton_filon11 L | PsiNewtonFilon02 => f = newton_filon02 L
  | PsiNewtonFilon12 => f = newton_filon12 L | PsiEllipticNewton => f = elliptical_newton L
  | PsiNewtonPerturb => f = perturbed_newton L | _ => False
  end.
Proof.
  destruct p; intros E;
    match type of E with ?l = _ => let r := eval cbv [select_newton psi_val Z.eqb Z.ltb Z.compare Pos.eqb Pos.compare Pos.compare_cont aread Z.sub Z.opp Z.add Z.pos_sub Pos.pred_double newton_table bind Z.leb zlen List.length Z.of_nat Pos.of_succ_nat Pos.succ orb nth_error Z.to_nat Pos.to_nat Pos.iter_op Init.Nat.add Z.succ_double Z.pred_double Z.double] in l in
      change l with r in E end; first [congruence | discriminate E].
Qed.
Lemma select_interp_inv {S} (L : tmpl S) p f : select_interp L p = Ok (inl (Some f)) ->
  match p with
  | PsiNewton4 => f = newton4 L | PsiNewton8 => f = newton8 L | PsiNewton16 => f = newton16 L | _ => False
  end.
Proof.
  destruct p; intros E;
    match type of E with ?l = _ => let r := eval cbv [select_interp psi_val Z.eqb Z.ltb Z.compare Pos.eqb Pos.compare Pos.compare_cont aread Z.sub Z.opp Z.add Z.pos_sub Pos.pred_double interp_table bind Z.leb zlen List.length Z.of_nat Pos.of_succ_nat Pos.succ orb nth_error Z.to_nat Pos.to_nat Pos.iter_op Init.Nat.add Z.succ_double Z.pred_double Z.double] in l in
      change l with r in E end; first [congruence | discriminate E].
Qed.
