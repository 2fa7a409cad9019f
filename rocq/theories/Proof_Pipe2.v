(** * Proof_Pipe2: well-posed reconstructions succeed (C54). *)
From Coq Require Import List ZArith Bool String Reals Lra Lia.
From Flocq Require Import Core IEEE754.BinarySingleNaN.
From Verif Require Import Base BaseFacts Dbl DblFacts DblArith Scalar Model_TauRec
  Model_Checks Model_Select Model_Strings Model_Transform Model_Interp Model_Recon
  Spec_Tau Spec_Select Spec_Safety Spec_Recon Spec_Pipe
  Proof_Checks Proof_Select Proof_Drivers Proof_SafeDbl Proof_Safe2 Proof_Recon Proof_Recon2 Proof_Recon3 Proof_Pipe.
Import ListNotations.
Open Scope Z_scope.

Lemma dabs_positive x : positive_number x -> dabs x = x.
Proof.
  intros [[F P]| ->]; [|reflexivity]. unfold val in P. destruct x as [[]|[]| |[] m e He]; try discriminate F; try reflexivity.
  { exfalso. simpl in P. lra. }
  exfalso. assert (G : (F2R (Float radix2 (Z.neg m) e) <= 0)%R) by (apply F2R_le_0; simpl; lia).
  change (B2R (B754_finite true m e He)) with (F2R (Float radix2 (Z.neg m) e)) in P. lra.
Qed.
Lemma map_dabs_positive v : all_positive v -> map dabs v = v.
Proof. intros H. rewrite <- (map_id v) at 2. apply map_ext_in. intros x Hx. apply dabs_positive. auto. Qed.

Lemma rf_dec (f g : rf) : {f = g} + {f <> g}.
Proof. decide equality. Qed.

Section Posed.
  Variables (L : dlib) (sch : schedule) (t : dtau) (rho Fk v : list double) (h W : R).
  Hypothesis Hmm : minmax_law L.
  Hypothesis Hmx : max_law L.
  Hypothesis Hal : forall site, t_alloc L site = true.
  Hypothesis Hsch : valid_schedule sch.
  Hypothesis HP : posed L t rho Fk v h W.
  Let N := arr_size t.

  Lemma pz_len : zlen rho = N.
  Proof.
    destruct (ps_arrays _ _ _ _ _ _ _ HP RHO ltac:(cbn; tauto)) as (l & E & H). rewrite (ps_rho _ _ _ _ _ _ _ HP) in E. injection E as <-. exact H.
  Qed.
  Lemma pz_flen : zlen Fk = N.
  Proof.
    destruct (ps_arrays _ _ _ _ _ _ _ HP FKM ltac:(cbn; tauto)) as (l & E & H). rewrite (ps_fresnel _ _ _ _ _ _ _ HP) in E. injection E as <-. exact H.
  Qed.
  Lemma pz_two : 2 <= N.
  Proof.
    destruct (ps_two _ _ _ _ _ _ _ HP) as (i & j & Hij & (a & Ha & _) & (b & Hb & _)).
    apply entry_range in Ha. apply entry_range in Hb. rewrite pz_len in *. lia.
  Qed.
  Lemma pz_size : N <= 1125899906842624.
  Proof. apply HP. Qed.
  Lemma pz_val i j a b : entry rho i a -> entry rho j b -> (val b = val a + (IZR j - IZR i) * h)%R.
  Proof.
    intros Ha Hb. destruct (ps_even _ _ _ _ _ _ _ HP i a Ha) as (_ & _ & r & Hr & E).
    destruct (ps_even _ _ _ _ _ _ _ HP j b Hb) as (_ & _ & r' & Hr' & E').
    assert (r' = r) by (eapply entry_fun; eauto). subst r'. rewrite E, E'. ring.
  Qed.
  Lemma pz_fin i a : entry rho i a -> finite a /\ (0 < val a <= 1000000000000)%R.
  Proof. intros Ha. destruct (ps_even _ _ _ _ _ _ _ HP i a Ha) as (F & B & _). auto. Qed.
  Lemma pz_h : (/ 1000000 <= h <= 1000000000000)%R.
  Proof.
    split; [apply HP|]. pose proof pz_two. destruct (entry_ex rho 0) as [a Ha]; [rewrite pz_len; lia|].
    destruct (entry_ex rho 1) as [b Hb]; [rewrite pz_len; lia|].
    pose proof (pz_val _ _ _ _ Ha Hb) as E. pose proof (pz_fin _ _ Ha). pose proof (pz_fin _ _ Hb). lra.
  Qed.
  Lemma pz_inc : increasing rho.
  Proof.
    split.
    - intros x Hx. apply In_aread in Hx. destruct Hx as [i Hi]. apply entry_aread in Hi. eapply pz_fin; eauto.
    - intros i j a b Hij Ha Hb. rewrite (pz_val _ _ _ _ Ha Hb). pose proof pz_h. apply IZR_lt in Hij.
      assert (0 < (IZR j - IZR i) * h)%R; [apply Rmult_lt_0_compat; lra|lra].
  Qed.
  Lemma pz_dx : finite (dx t) /\ val (dx t) = h.
  Proof. apply HP. Qed.
  Lemma pz_outward : outward t.
  Proof. left. destruct pz_dx as [F V]. split; auto. rewrite V. pose proof pz_h. lra. Qed.
  Lemma pz_keywords : check_keywords t = Ok t.
  Proof.
    destruct (check_keywords_exact t (ps_clean _ _ _ _ _ _ _ HP)) as (t' & E & _ & H).
    assert (C : clean t') by (apply H, HP). destruct (checks_keywords t t' E) as [->|[m ->]]; auto. discriminate C.
  Qed.
  Lemma pz_occ : exists A, check_occ_type L t = Ok (set_arr t A) /\ A RHODOT = Some (map dabs v) /\
    forall f, f <> RHODOT -> A f = arr t f.
  Proof.
    destruct (ps_velocity _ _ _ _ _ _ _ HP) as [Hv Hs]. destruct pz_dx as [F V].
    assert (Nd : notnan (dx t)). { unfold notnan, finite in *. destruct (dx t); try reflexivity; discriminate F. }
    assert (Ni : ~ inward t).
    { intros [[_ I]|I]; [pose proof pz_h; rewrite V in I; lra|]. rewrite I in F. discriminate F. }
    destruct (occ_type_exact L Hmm t v (ps_clean _ _ _ _ _ _ _ HP) Hv Nd) as (t' & E & C); [tauto|].
    destruct C as [(_ & _ & Hp & ->)|[(_ & _ & Hn & ->)|[(_ & I & _)|(Hno & _)]]].
    - exists (arr t). split; [rewrite E; destruct t; reflexivity|]. rewrite (map_dabs_positive v Hp).
      split; [apply Hv|auto].
    - exists (arr (set_f t RHODOT (Some (map dabs v)))). split; [exact E|]. split; [reflexivity|].
      intros f Hf. apply set_f_neq. auto.
    - contradiction.
    - exfalso. apply Hno. split; [pose proof pz_two; unfold N in *; lia|]. left. split; [apply pz_outward|exact Hs].
  Qed.

  Lemma pz_first s s' : first_wanted t rho s -> first_wanted t rho s' -> s = s'.
  Proof. intros [A1 A2] [B1 B2]. specialize (A2 _ B1). specialize (B2 _ A1). lia. Qed.
  Lemma width_of_fun i x y : width_of L t rho Fk v i x -> width_of L t rho Fk v i y -> x = y.
  Proof.
    intros (F & HF & C) (G & HG & D). assert (G = F) by (eapply entry_fun; eauto). subst G.
    destruct C as [(B1 & ->)|(B1 & s & kv & k & u & A1 & A2 & A3 & A4 & _ & ->)];
      destruct D as [(B2 & ->)|(B2 & s' & kv' & k' & u' & D1 & D2 & D3 & D4 & _ & ->)]; try congruence.
    assert (s' = s) by (apply pz_first; auto). assert (kv' = kv) by congruence. subst s' kv'.
    assert (k' = k) by (eapply entry_fun; eauto). assert (u' = u) by (eapply entry_fun; eauto). congruence.
  Qed.
  Lemma pz_wd i x : wanted t rho i -> width_of L t rho Fk v i x -> finite x /\ (0 <= val x <= W)%R.
  Proof.
    intros Wi Hx. destruct (ps_widths _ _ _ _ _ _ _ HP i Wi) as (y & Hy & B). rewrite (width_of_fun _ _ _ Hx Hy). exact B.
  Qed.

  Lemma pz_edges i a x lo hi : wanted t rho i -> entry rho i a -> width_of L t rho Fk v i x ->
    entry rho 0 lo -> entry rho (N - 1) hi ->
    dlt lo (left_edge a x) = true /\ dlt (right_edge a x) hi = true.
  Proof.
    intros Wi Ha HF Hlo Hhi. destruct (pz_wd i x Wi HF) as [Fx Bx].
    pose proof (ps_margin _ _ _ _ _ _ _ HP i a lo hi Wi Ha Hlo Hhi) as Mg.
    pose proof pz_h as Hh. pose proof pz_two as H2.
    destruct (entry_ex rho 1) as [nx Hnx]; [rewrite pz_len; lia|].
    destruct (entry_ex rho (N - 2)) as [pv Hpv]; [rewrite pz_len; lia|].
    pose proof (pz_val _ _ _ _ Hlo Hnx) as E1. pose proof (pz_val _ _ _ _ Hpv Hhi) as E2.
    rewrite !minus_IZR in E2.
    split; [eapply left_room with (next := nx) (W := W)|eapply right_room with (prev := pv) (W := W)];
      try (eapply pz_fin; eassumption); auto; lra.
  Qed.

  (** The margin, in samples. *)
  Lemma pz_index i : wanted t rho i -> 0 <= i < N /\ (W <= 2 * h * (IZR i - 1))%R /\ (W <= 2 * h * (IZR (N - 1 - i) - 1))%R.
  Proof.
    intros Wi. assert (Wi' := Wi). destruct Wi' as (a & Ha & _). pose proof pz_two as H2.
    assert (Hi := entry_range _ _ _ Ha). rewrite pz_len in Hi. split; auto.
    destruct (entry_ex rho 0) as [lo Hlo]; [rewrite pz_len; lia|].
    destruct (entry_ex rho (N - 1)) as [hi Hhi]; [rewrite pz_len; lia|].
    pose proof (ps_margin _ _ _ _ _ _ _ HP i a lo hi Wi Ha Hlo Hhi) as Mg.
    pose proof (pz_val _ _ _ _ Hlo Ha) as E1. pose proof (pz_val _ _ _ _ Ha Hhi) as E2.
    rewrite !minus_IZR in *. split; lra.
  Qed.

  (** The object the correction works on. *)
  Definition final (A : rf -> option (list double)) r0' r1' s n w : dtau :=
    set_n_used (set_f (set_n_used (set_range1 (set_start (set_range0 (set_arr t A) r0') s) r1') (n + 1)) WKM (Some w)) n.

  (** The drivers, for any prepared object. *)
  Section Correct.
    Variables (tw : dtau) (s n : Z).
    Let two_dx := dmul (dofZ 2) (dx t).
    Hypothesis Hs : 0 <= s.
    Hypothesis Hn : 0 < n.
    Hypothesis Hsn : s + n < N.
    Hypothesis Es : start tw = s.
    Hypothesis En : n_used tw = n.
    Hypothesis Ez : arr_size tw = N.
    Hypothesis Edx : dx tw = dx t.
    Hypothesis Epsi : psinum tw = psinum t.
    Hypothesis Eord : order tw = order t.
    Hypothesis Efw : use_fwd tw = false.
    Hypothesis Erho : arr tw RHO = Some rho.
    Hypothesis Cw : clean tw.
    Hypothesis Pp : prepared tw.
    Hypothesis Po : no_obstacle L tw.
    Hypothesis Rw : forall hi, hi <= s + n + 1 -> room tw two_dx s hi.
    Hypothesis Spw : forall i, 0 <= i < N - 1 -> spacing_at tw i two_dx.
    Hypothesis Ww : wide_windows L t rho Fk v h -> widths_at_least tw two_dx.
    Hypothesis Xw : (forall i x, wanted t rho i -> (forall j, i < j -> ~ wanted t rho j) -> width_of L t rho Fk v i x ->
        exists j y, j < i /\ wanted t rho j /\ width_of L t rho Fk v j y /\ (val x <= val y)%R) -> extra_sample_fits tw.

    Lemma profile_clean (Q Q' : Z -> cplx dbl_scalar -> Prop) (t' : dtau) k : profile_written tw Q t' k -> clean t' -> n <= k ->
      (forall i x, Q i x -> Q' i x) ->
      exists T', t' = set_Tout tw T' /\ zlen T' = N /\ forall i, s <= i < s + n -> exists x, aread T' i = Ok (Some x) /\ Q' i x.
    Proof.
      intros (T0 & e & T' & _ & LT' & Et & Hp) Hc Hk HQ. destruct e as [e|]; [subst t'; discriminate Hc|].
      exists T'. split; auto. split; [rewrite <- Ez; exact LT'|]. destruct (Hp eq_refl) as (_ & P & _). intros i Hi.
      destruct (P i) as (x & Ex & Hx); [rewrite Es; lia|]. eauto.
    Qed.
    Lemma correct_any : method_fits L t rho Fk v h ->
      exists T', diffraction_correction L sch tw = Ok (set_Tout tw T') /\ zlen T' = N /\
        forall i, s <= i < s + n -> exists x, aread T' i = Ok (Some x) /\ method_value L tw rho i x.
    Proof.
      intros Hm. pose proof pz_two as H2.       unfold diffraction_correction. rewrite guarded_clean by exact Cw. cbv zeta.
      unfold method_value. rewrite Edx. fold two_dx.
      assert (NW : window_method L (psinum t) <> None -> (psi_val (psinum t) <=? psi_val PsiNewtonPerturb) = true ->
        (psinum tw = PsiNewtonFilon02 \/ psinum tw = PsiNewtonFilon12 -> widths_at_least tw two_dx) ->
        exists T', dc_newton L sch tw = Ok (set_Tout tw T') /\ zlen T' = N /\
          forall i, s <= i < s + n -> exists x, aread T' i = Ok (Some x) /\
            ((exists f, window_method L (psinum t) = Some f /\ newton_sample L tw f two_dx rho i x) \/
             (exists f, interp_method L (psinum t) = Some f /\ interp_sample L tw f two_dx i x))).
      { intros Hf _ Hd. destruct (window_method L (psinum t)) as [f|] eqn:Ef; [|congruence].
        destruct (newton_safe_all L sch tw two_dx Hmx Hsch Pp) as (t' & E & _ & G); auto.
        { rewrite Es, En, Ez. lia. } { apply Spw. lia. } { rewrite Es, En. apply Rw. lia. }
        rewrite Epsi, En in G. destruct (G f rho Ef Erho) as [Pf Cl]. rewrite E.
        destruct (profile_clean _ (fun i x => ((exists f0, Some f = Some f0 /\ newton_sample L tw f0 two_dx rho i x) \/
             (exists f0, interp_method L (psinum t) = Some f0 /\ interp_sample L tw f0 two_dx i x))) t' n Pf (Cl Po)) as (T' & -> & LT' & HT'); [lia|eauto|].
        exists T'. auto. }
      assert (NI : interp_method L (psinum t) <> None -> wide_windows L t rho Fk v h ->
        exists T', dc_interp L tw = Ok (set_Tout tw T') /\ zlen T' = N /\
          forall i, s <= i < s + n -> exists x, aread T' i = Ok (Some x) /\
            ((exists f, window_method L (psinum t) = Some f /\ newton_sample L tw f two_dx rho i x) \/
             (exists f, interp_method L (psinum t) = Some f /\ interp_sample L tw f two_dx i x))).
      { intros Hf Hd. destruct (interp_method L (psinum t)) as [f|] eqn:Ef; [|congruence].
        destruct (interp_safe_all L tw two_dx Hmx Pp) as (t' & E & _ & G); auto.
        { rewrite Es, En, Ez. lia. } { apply Spw. rewrite Es. lia. } { rewrite Es, En. apply Rw. lia. }
        rewrite Epsi, En in G. destruct (G f Ef) as [Pf Cl]. rewrite E.
        destruct (profile_clean _ (fun i x => ((exists f0, window_method L (psinum t) = Some f0 /\ newton_sample L tw f0 two_dx rho i x) \/
             (exists f0, Some f = Some f0 /\ interp_sample L tw f0 two_dx i x))) t' n Pf (Cl Po)) as (T' & -> & LT' & HT'); [lia|eauto|].
        exists T'. auto. }
      unfold method_fits in Hm. rewrite Epsi.
      destruct (psinum t) eqn:Ep; cbn [psi_val Z.eqb Z.leb Z.ltb Z.compare Pos.eqb Pos.compare Pos.compare_cont CompOpp] in *; try contradiction;
        try (apply NW; [discriminate|reflexivity|intros [K|K]; first [apply Ww; exact Hm|rewrite Epsi in K; discriminate K]]);
        try (apply NI; [discriminate|exact Hm]).
      - destruct (fresnel_safe L sch tw Hmx Hsch Pp (Xw Hm)) as (t' & E & Pf & Cl).
        { rewrite Es, En, Edx. apply Rw. lia. }
        rewrite Edx in Pf. rewrite E. destruct (profile_clean _ (fresnel_sample L tw two_dx) t' _ Pf (Cl Po)) as (T' & -> & LT' & HT'); [rewrite En; lia|auto|].
        exists T'. auto.
      - rewrite <- Eord in Hm. destruct Hm as (Ho & Hl & Hd).
        destruct (legendre_safe_all L tw two_dx Pp) as (t3 & t' & E & K & Pf & Cl); auto.
        { rewrite Es, En, Ez. lia. } { rewrite En, Ez. lia. } { apply Spw. rewrite Es. lia. } { rewrite Es, En. apply Rw. lia. }
        specialize (Cl Po). rewrite E. rewrite En in Pf.
        assert (t3 = tw).
        { destruct K as [[(_ & K)|(K & _)]|[[m K] _]]; auto; [congruence|unfold clean in Cl; congruence]. }
        subst t3. destruct (profile_clean _ (interp_sample L tw (legendre_step L (series_method L (order tw + 1) (use_norm tw))) two_dx) t' n Pf Cl) as (T' & -> & LT' & HT'); [lia|auto|].
        exists T'. auto.
    Qed.
  End Correct.

  Section Prepared.
    Variables (A : rf -> option (list double)) (r0' r1' : double) (s n : Z) (w : list double) (T : @cbuf dbl_scalar).
    Hypothesis HA1 : A RHODOT = Some (map dabs v).
    Hypothesis HA2 : forall f, f <> RHODOT -> A f = arr t f.
    Hypothesis Hs : 0 <= s.
    Hypothesis Hn : 0 < n.
    Hypothesis Hsn : s + n < N.
    Hypothesis HW : forall i, wanted t rho i <-> s <= i <= s + n.
    Hypothesis Lw : zlen w = N.
    Hypothesis Pw : forall i x, wanted t rho i -> entry w i x -> width_of L t rho Fk v i x.
    Hypothesis LT : zlen T = N.
    Let u0 := final A r0' r1' s n w.
    Let tw := set_T_out u0 (Some T).
    Let two_dx := dmul (dofZ 2) (dx t).

    Lemma pz_width i x : s <= i <= s + n -> entry w i x -> finite x /\ (0 <= val x <= W)%R /\ width_of L t rho Fk v i x.
    Proof.
      intros Hi Hx. apply HW in Hi. assert (Q := Pw i x Hi Hx).
      destruct (pz_wd i x Hi Q) as [Fx Bx]. split; [exact Fx|]. split; [exact Bx|exact Q].
    Qed.
    Lemma pz_two_dx : finite two_dx /\ val two_dx = (2 * h)%R.
    Proof. destruct pz_dx as [F V]. rewrite <- V. apply twice_val; auto. rewrite V. pose proof pz_h. lra. Qed.

    Lemma pz_range (u : dtau) : clean u -> arr u WKM = Some w -> dx u = dx t -> arr_size u = N -> start u = s -> n_used u = n ->
      check_data_range u = Ok u.
    Proof.
      intros Hc EW Ed EN Es En. pose proof pz_size as Hz. pose proof pz_h as Hh. destruct pz_dx as [Fd Vd].
      assert (HB : forall i, s <= i <= s + n -> exists m x, width u i x /\ dcast (dmul x (ddiv (dfrac 1 2) (dx u))) = Ok m /\
         m <= i /\ i + m <= N).
      { intros i Hi. destruct (entry_ex w i) as [x Hx]; [rewrite Lw; lia|].
        destruct (pz_width i x Hi Hx) as (Fx & Bx & _). destruct (pz_index i (proj2 (HW i) Hi)) as (_ & B1 & B2).
        destruct (checked_bound x (dx t) h i) as (m & Em & Bm); auto; [lia|lra|].
        destruct (checked_bound x (dx t) h (N - 1 - i)) as (m' & Em' & Bm'); auto; [lia|lra|].
        assert (m' = m) by congruence. subst m'. exists m, x. rewrite Ed. split; [exists w; auto|]. split; auto. lia. }
      destruct (range_check_exact u w EW) as (u' & E & _ & G); auto; try lia.
      - unfold two64. lia.
      - intros i Hi. unfold selected in Hi. rewrite Es, En in Hi. destruct (HB i ltac:(lia)) as (m & x & Hx & Em & _).
        exists m, x. auto.
      - assert (C : clean u').
        { apply G. split.
          - rewrite Ed. apply dle_false; [exact Fd|apply (proj1 (dofZ_exact 0 ltac:(lia)))|].
            rewrite (proj2 (dofZ_exact 0 ltac:(lia))). unfold val in Vd. rewrite Vd. simpl. lra.
          - intros i m Hi (x & Hx & Em). unfold selected in Hi. rewrite Es, En in Hi.
            destruct (HB i ltac:(lia)) as (m' & x' & Hx' & Em' & B1 & B2). rewrite EN.
            assert (x' = x) by (eapply width_fun; eauto). subst x'. assert (m' = m) by congruence. subst m'. auto. }
        destruct (check_data_range_ok u u' E) as [->|[m ->]]; auto. discriminate C.
    Qed.
    Lemma pz_clean : clean tw.
    Proof. exact (ps_clean _ _ _ _ _ _ _ HP). Qed.
    Lemma pz_tw_range : check_data_range tw = Ok tw.
    Proof. apply pz_range; try reflexivity. apply pz_clean. Qed.
    Lemma pz_u0_range : check_data_range u0 = Ok u0.
    Proof. apply pz_range; try reflexivity. apply pz_clean. Qed.
    Lemma pz_arr f : f <> WKM -> f <> RHODOT -> arr tw f = arr t f.
    Proof. intros H1 H2. change (arr (set_f (set_arr t A) WKM (Some w)) f = arr t f). rewrite set_f_neq by auto. apply HA2; auto. Qed.
    Lemma pz_sizes f : In f (WKM :: sampled) -> exists l, arr tw f = Some l /\ zlen l = N.
    Proof.
      intros Hf. destruct (rf_dec f WKM) as [->|H1]; [exists w; split; [reflexivity|exact Lw]|].
      destruct (rf_dec f RHODOT) as [->|H2].
      { exists (map dabs v). split; [exact HA1|]. destruct (ps_velocity _ _ _ _ _ _ _ HP) as [(_ & Lv & _) _].
        unfold zlen in *. rewrite map_length. exact Lv. }
      rewrite pz_arr by auto. destruct Hf as [Hf|Hf]; [congruence|]. apply (ps_arrays _ _ _ _ _ _ _ HP f Hf).
    Qed.
    Lemma pz_tw_fields : arr_size tw = N /\ T_in tw = T_in t /\ T_out tw = Some T /\ perturb tw = perturb t.
    Proof. repeat split. Qed.
    Lemma pz_sizes_tw : has_sizes tw (WKM :: sampled).
    Proof.
      intros f Hf. destruct (pz_sizes f Hf) as (l & E & Z). exists l. split; [exact E|].
      rewrite (proj1 pz_tw_fields). exact Z.
    Qed.
    Lemma pz_small : N < two64.
    Proof. pose proof pz_size. unfold two64. lia. Qed.
    Lemma pz_core f : In f core_fields -> In f (WKM :: sampled).
    Proof. intros Hf. cbn [In core_fields] in Hf. repeat (destruct Hf as [<-|Hf]; [cbn [In sampled]; tauto|]). contradiction. Qed.
    Lemma pz_complete : complete tw.
    Proof.
      destruct pz_tw_fields as (E1 & E2 & E3 & E4). unfold complete. rewrite E1, E2, E3, E4.
      split; [|split; [|split; [|split]]].
      - intros f Hf. apply pz_sizes. apply pz_core. exact Hf.
      - exact (ps_input _ _ _ _ _ _ _ HP).
      - exists T. split; [reflexivity|exact LT].
      - exact (ps_perturb _ _ _ _ _ _ _ HP).
      - exact pz_small.
    Qed.
    Lemma pz_prepared : prepared tw.
    Proof.
      split; [apply pz_clean|]. split; [apply pz_complete|]. split; [change (N <= 9007199254740992); pose proof pz_size; lia|].
      split; [exact Hs|]. split; [exact Hn|]. exists tw. apply pz_tw_range.
    Qed.
    Lemma pz_obstacle : no_obstacle L tw.
    Proof. split; [exact Hal|apply pz_tw_range]. Qed.
    Lemma pz_room hi : hi <= s + n + 1 -> room tw two_dx s hi.
    Proof.
      intros Hhi. destruct pz_two_dx as [F2 V2]. pose proof pz_h as Hh. split; auto. split; [lra|]. rewrite V2. split.
      - intros i Hi. destruct (entry_ex w i) as [x Hx]; [rewrite Lw; lia|]. exists x. split; [exists w; split; auto|].
        destruct (pz_width i x ltac:(lia) Hx) as (Fx & Bx & _). split; auto.
        destruct (pz_index i) as (_ & B1 & _); [apply HW; lia|]. lra.
      - intros j i x y Hj Hi (w1 & E1 & Hx) _ _. injection E1 as <-. change (arr_size tw) with N.
        destruct (pz_width j x ltac:(lia) Hx) as (_ & Bx & _).
        destruct (pz_index i) as (_ & _ & B2); [apply HW; lia|]. lra.
    Qed.
    Lemma pz_spacing i : 0 <= i < N - 1 -> spacing_at tw i two_dx.
    Proof.
      intros Hi. destruct (entry_ex rho i) as [a Ha]; [rewrite pz_len; lia|].
      destruct (entry_ex rho (i + 1)) as [b Hb]; [rewrite pz_len; lia|].
      exists a, b. unfold rd. rewrite pz_arr by discriminate. rewrite (ps_rho _ _ _ _ _ _ _ HP). cbn [deref bind].
      split; [apply entry_aread; auto|]. split; [apply entry_aread; auto|]. unfold two_dx. f_equal.
      destruct pz_dx as [F V]. pose proof pz_h. symmetry. apply dsub_exact; auto; try (eapply pz_fin; eassumption).
      - rewrite V. lra.
      - rewrite V. rewrite (pz_val _ _ _ _ Ha Hb). rewrite plus_IZR. ring.
    Qed.
    Lemma pz_wide : wide_windows L t rho Fk v h -> widths_at_least tw two_dx.
    Proof.
      intros Hww i x Hi (w1 & E1 & Hx). injection E1 as <-. destruct pz_two_dx as [_ ->].
      unfold selected in Hi. change (start tw) with s in Hi. change (n_used tw) with n in Hi.
      destruct (pz_width i x ltac:(lia) Hx) as (_ & _ & Hwd). apply (Hww i x); auto. apply HW. lia.
    Qed.
    Lemma pz_extra : (forall i x, wanted t rho i -> (forall j, i < j -> ~ wanted t rho j) -> width_of L t rho Fk v i x ->
        exists j y, j < i /\ wanted t rho j /\ width_of L t rho Fk v j y /\ (val x <= val y)%R) -> extra_sample_fits tw.
    Proof.
      intros Hx. split; [exact Hsn|]. change (start tw + n_used tw) with (s + n).
      destruct (entry_ex w (s + n)) as [y Hy]; [rewrite Lw; lia|].
      destruct (pz_width (s + n) y ltac:(lia) Hy) as (_ & _ & Hwd).
      destruct (Hx (s + n) y) as (j & x & Hj & Wj & Hwj & Hle); auto.
      { apply HW; lia. } { intros j Hj Wj. apply HW in Wj. lia. }
      assert (Hj' := proj1 (HW j) Wj). destruct (entry_ex w j) as [x' Hx']; [rewrite Lw; lia|].
      assert (x' = x) by (eapply width_of_fun; eauto). subst x'.
      exists j, x, y. split; [split; [exact (proj1 Hj')|exact Hj]|].
      split; [exists w; split; auto|]. split; [exists w; split; auto|]. exact Hle.
    Qed.

    Lemma pz_correct : method_fits L t rho Fk v h ->
      exists T', diffraction_correction L sch tw = Ok (set_Tout tw T') /\ zlen T' = N /\
        forall i, s <= i < s + n -> exists x, aread T' i = Ok (Some x) /\ method_value L tw rho i x.
    Proof.
      apply (correct_any tw s n Hs Hn Hsn); try reflexivity.
      - exact (ps_fwd _ _ _ _ _ _ _ HP).
      - rewrite pz_arr by discriminate. apply HP.
      - exact pz_clean.
      - exact pz_prepared.
      - exact pz_obstacle.
      - exact pz_room.
      - exact pz_spacing.
      - exact pz_wide.
      - exact pz_extra.
    Qed.
  End Prepared.

  Lemma reconstruction_posed : method_fits L t rho Fk v h ->
    exists t' tw, reconstruction L sch t = Ok t' /\ clean t' /\ aligned t' /\ 0 < n_used t' /\
      prepared_from L t tw Fk v (start t') (n_used t') /\
      (forall i, selected t' i <-> wanted t rho i /\ exists j, i < j /\ wanted t rho j) /\
      (forall f l, In f aligned_fields -> arr tw f = Some l ->
         exists l', arr t' f = Some l' /\ piece l (start t') (n_used t') l') /\
      (forall T, T_in t = Some T -> exists T', T_in t' = Some T' /\ piece T (start t') (n_used t') T') /\
      (exists T', T_out t' = Some T' /\ forall k, 0 <= k < n_used t' ->
         exists x, entry T' k (Some x) /\ method_value L tw rho (start t' + k) x).
  Proof.
    intros Hm. pose proof pz_two as H2. pose proof pz_size as Hz. assert (Hc := ps_clean _ _ _ _ _ _ _ HP).
    unfold reconstruction. rewrite pz_keywords. cbn [bind].
    destruct pz_occ as (A & -> & HA1 & HA2). cbn [bind].
    assert (Hrd : ready (set_arr t A) rho).
    { destruct (ps_keywords _ _ _ _ _ _ _ HP) as (_ & _ & _ & _ & F0 & F1 & _).
      split; [exact Hc|]. split; [change (A RHO = Some rho); rewrite HA2 by discriminate; apply HP|].
      split; [apply pz_len|]. split; [change (1 <= N < two64); unfold two64; lia|]. split; [apply pz_inc|]. split; [exact F0|exact F1]. }
    destruct (gww_all L Hal (set_arr t A) rho Fk (width_of L t rho Fk v) Hrd) as (s & n & r0' & r1' & w & Hs & Hn & Hsn & HW & Lw & Pw & E).
    { change (A WKM = None). rewrite HA2 by discriminate. apply HP. }
    { change (A FKM = Some Fk). rewrite HA2 by discriminate. apply HP. }
    { apply pz_flen. }
    { change (exists kv, A KV = Some kv /\ zlen kv = N). rewrite HA2 by discriminate. apply (ps_arrays _ _ _ _ _ _ _ HP KV). cbn; tauto. }
    { exists (map dabs v). split; [exact HA1|]. destruct (ps_velocity _ _ _ _ _ _ _ HP) as [(_ & Lv & _) _].
      unfold zlen in *. rewrite map_length. exact Lv. }
    { apply HP. }
    { intros i F Wi HF. change (wanted t rho i) in Wi. split.
      - intros Hb. exists F. split; [exact HF|]. left. split; [exact Hb|reflexivity].
      - intros Hb s kv rd k u Fs HK HD Hk Hu. change (first_wanted t rho s) in Fs.
        change (A KV = Some kv) in HK. rewrite HA2 in HK by discriminate.
        change (A RHODOT = Some rd) in HD. rewrite HA1 in HD. injection HD as <-.
        rewrite entry_aread, aread_map in Hu. apply bind_ok in Hu. destruct Hu as (u' & Hu & E). injection E as <-. apply entry_aread in Hu.
        change (bfac t = true) in Hb.
        destruct (ps_widths _ _ _ _ _ _ _ HP i Wi) as (x & (F' & HF' & [[B _]|(_ & s' & kv' & k' & u0 & D1 & D2 & D3 & D4 & D5 & D6)]) & _); [congruence|].
        assert (s' = s) by (apply pz_first; auto). assert (kv' = kv) by congruence. subst s' kv'.
        assert (F' = F) by (eapply entry_fun; eauto). assert (k' = k) by (eapply entry_fun; eauto). assert (u0 = u') by (eapply entry_fun; eauto). subst F' k' u0.
        split; [exact D5|]. exists F. split; [exact HF|]. right. split; [exact Hb|].
        exists s, kv, k, u'. repeat (split; [assumption|]). reflexivity. }
    { intros i a x lo hi Wi Ha Hx Hlo Hhi. eapply pz_edges; eauto. }
    rewrite E. cbn [bind]. clear E. change (arr_size (set_arr t A)) with N in *.
    change (forall i, wanted t rho i <-> s <= i <= s + n) in HW.
    change (forall i x, wanted t rho i -> entry w i x -> width_of L t rho Fk v i x) in Pw.
    set (u0 := final A r0' r1' s n w).
    match goal with |- context [check_data_range ?u] => change u with u0 end.
    assert (Eu : check_data_range u0 = Ok u0) by exact (pz_u0_range A r0' r1' s n w (fresh N) Hs Hn Hsn HW Lw Pw).
    rewrite Eu. cbn [bind].
    rewrite guarded_clean by exact Hc. rewrite Hal. cbv zeta. change (arr_size u0) with N.
    assert (LT : zlen (@fresh (cplx dbl_scalar) N) = N) by (apply fresh_len; lia).
    set (tw := set_T_out u0 (Some (fresh N))).
    rewrite check_core_complete; [|exact Hc|exact (pz_complete A r0' r1' s n w _ HA1 HA2 Lw LT)]. cbn [bind].
    rewrite guarded_clean by exact Hc.
    assert (Efw : use_fwd tw = false) by exact (ps_fwd _ _ _ _ _ _ _ HP). rewrite Efw.
    assert (Eset : set_use_fwd tw false = tw).
    { change (set_use_fwd tw false = tw). rewrite <- Efw. destruct tw; reflexivity. }
    rewrite Eset.
    destruct (pz_correct A r0' r1' s n w (fresh N) HA1 HA2 Hs Hn Hsn HW Lw Pw LT Hm) as (T' & E & LT' & HT').
    change (diffraction_correction L sch tw = Ok (set_Tout tw T')) in E.
    change (forall i, s <= i < s + n -> exists x, aread T' i = Ok (Some x) /\ method_value L tw rho i x) in HT'.
    rwc E. cbn [bind].
    assert (Eset' : set_use_fwd (set_Tout tw T') false = set_Tout tw T').
    { rewrite <- Efw at 1. change (use_fwd tw) with (use_fwd (set_Tout tw T')). destruct (set_Tout tw T'); reflexivity. }
    rewrite Eset'. change (use_fwd (set_Tout tw T')) with (use_fwd tw). rewrite Efw. cbn iota.
    assert (Hfin : exists t', finish L (set_Tout tw T') = Ok t').
    { apply finish_total; auto; try (exact Hc); try (change (use_fwd (set_Tout tw T')) with (use_fwd tw); congruence).
      - change (0 <= n). lia.
      - intros f Hf. change (start (set_Tout tw T') + n_used (set_Tout tw T')) with (s + n).
        destruct (pz_sizes A r0' r1' s n w (fresh N) HA1 HA2 Lw f) as (l & El & Ll); [cbn in Hf |- *; intuition|].
        exists l. split; [exact El|]. rewrite Ll. lia.
      - destruct (ps_input _ _ _ _ _ _ _ HP) as (T & ET & LTi & _). exists T. split; [exact ET|].
        rewrite LTi. change (s + n <= N). lia.
      - exists T'. split; [reflexivity|]. rewrite LT'. change (s + n <= N). lia. }
    destruct Hfin as [t' Ef]. assert (Ef' := Ef).
    apply finish_pieces in Ef; [|exact Hc|change (0 <= n); lia].
    destruct Ef as (C' & Al & En & Es & _ & _ & Pa & Pi & Po & _).
    change (n_used (set_Tout tw T')) with n in *. change (start (set_Tout tw T')) with s in *.
    exists t', tw. split; [exact Ef'|]. split; [exact C'|]. split; [exact Al|]. rewrite En, Es. split; [exact Hn|].
    split; [|split; [|split; [|split]]].
    - split.
      + intros f Hf1 Hf2. apply (pz_arr A r0' r1' s n w (fresh N) HA2 f Hf1 Hf2).
      + exact HA1.
      + exists w. split; [reflexivity|]. intros rho' i x Er. rewrite (ps_rho _ _ _ _ _ _ _ HP) in Er. injection Er as <-. apply Pw.
      + split; reflexivity.
      + repeat split.
    - intros i. unfold selected. rewrite En, Es. rewrite (HW i). split.
      + intros Hi. split; [lia|]. exists (s + n). split; [lia|]. apply HW. lia.
      + intros [Hi (j & Hj & Wj)]. apply HW in Wj. lia.
    - intros f l Hf El. apply Pa; auto.
    - intros T ET. apply Pi. exact ET.
    - destruct (Po T' eq_refl) as (T'' & E'' & [L'' P'']). exists T''. split; [exact E''|]. intros k Hk.
      destruct (HT' (s + k)) as (x & Ex & Hx); [lia|]. exists x. split; [|exact Hx].
      apply P''; [lia|]. apply entry_aread. exact Ex.
  Qed.
End Posed.
