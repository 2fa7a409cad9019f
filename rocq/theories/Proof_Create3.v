(** * Proof_Create3: C44-C46. *)
From Coq Require Import List ZArith Lia Bool String Reals Lra.
From Verif Require Import Base BaseFacts Dbl DblFacts Scalar Spec_Tau Spec_Select Model_TauRec Model_Checks
  Model_Heap Spec_Csv Model_Create Spec_Create Proof_Checks Proof_Heap Proof_CsvText Proof_Create Proof_Create2.
Import ListNotations.
Open Scope list_scope.
Open Scope Z_scope.

Ltac in_list := solve [repeat (first [left; reflexivity|right])].

Section Geometry.
  Context {S : scalar}.
  Variable L : tmpl S.
  Definition only_err (t t' : tau S) : Prop := t' = set_err t (err t').
  Lemma only_err_refl t : only_err t t.
  Proof. unfold only_err. rewrite set_err_same. reflexivity. Qed.
  Lemma only_err_trans a b c : only_err a b -> only_err b c -> only_err a c.
  Proof. unfold only_err. intros -> ->. reflexivity. Qed.
  Lemma only_err_fail t m : exists t', fail t m = Ok t' /\ only_err t t'.
  Proof. exists (set_err t (Some m)). split; reflexivity. Qed.
  Definition sized_t (t : tau S) : Prop :=
    forall f, In f [PHI; BDEG; DKM; RHO] -> exists l, arr t f = Some l /\ zlen l = arr_size t.
  Lemma sized_only t t' : sized_t t -> only_err t t' -> sized_t t'.
  Proof. unfold only_err. intros A E. rewrite E. exact A. Qed.
  Definition returns (k : tau S -> res (tau S)) : Prop :=
    forall t, sized_t t -> exists t', k t = Ok t' /\ only_err t t'.
  Ltac finish_only := first [exact (only_err_fail _ _)|eexists; split; [reflexivity|apply only_err_refl]].
  Ltac begin_check f := intros t A; unfold f, guarded; destruct (err t); [finish_only|].
  Ltac array_check f A :=
    let l := fresh "l" in let E := fresh "E" in let Z := fresh "Z" in
    destruct (A f ltac:(in_list)) as (l & E & Z); rewrite E, aprefix_all by (symmetry; exact Z); cbn [bind].

  Lemma azimuth_returns : returns (check_azimuth_angle L).
  Proof.
    begin_check @check_azimuth_angle. array_check PHI A. destruct (t_minmax L l) as [mn mx].
    repeat match goal with |- context [if ?b then _ else _] => destruct b end; finish_only.
  Qed.
  Lemma displacement_returns : returns check_displacement.
  Proof.
    begin_check @check_displacement.
    repeat match goal with |- context [if ?b then _ else _] => destruct b end; finish_only.
  Qed.
  Lemma opening_returns : returns (check_opening_angle L).
  Proof.
    begin_check @check_opening_angle. array_check BDEG A. destruct (t_minmax L l) as [mn mx].
    repeat match goal with |- context [if ?b then _ else _] => destruct b end; finish_only.
  Qed.
  Lemma distance_returns : returns (check_ring_distance L).
  Proof.
    begin_check @check_ring_distance. array_check DKM A.
    repeat match goal with |- context [if ?b then _ else _] => destruct b end; finish_only.
  Qed.
  Lemma radius_returns : returns (check_ring_radius L).
  Proof.
    begin_check @check_ring_radius. array_check RHO A.
    repeat match goal with |- context [if ?b then _ else _] => destruct b end; finish_only.
  Qed.
  Lemma returns_bind k1 k2 : returns k1 -> returns k2 -> returns (fun t => do t1 <- k1 t; k2 t1).
  Proof.
    intros A B t Z. destruct (A t Z) as (t1 & E1 & O1). rewrite E1. cbn [bind].
    destruct (B t1 (sized_only _ _ Z O1)) as (t2 & E2 & O2). exists t2.
    split; [exact E2|exact (only_err_trans _ _ _ O1 O2)].
  Qed.
  Lemma geometry_returns : returns (check_geometry L).
  Proof.
    intros t A. unfold check_geometry, guarded. destruct (err t); [finish_only|].
    apply (returns_bind _ _ azimuth_returns (returns_bind _ _ displacement_returns
      (returns_bind _ _ opening_returns (returns_bind _ _ distance_returns radius_returns))) t A).
  Qed.
  Lemma only_err_same t t' : only_err t t' -> same_data t t'.
  Proof. unfold only_err. intros ->. apply same_data_set_err. Qed.
End Geometry.

Section Creation.
  Context {S : scalar}.
  Variable L : tmpl S.
  Variable C : createlib S.
  Notation tobj := (@tobj S).

  Lemma in_copy_same f g : In (f, g) same_arrays <-> In (f, g) copy_table.
  Proof. reflexivity. Qed.

  (** The object before and after the arrays are there. *)
  Definition start_obj (id : Z) (res : S) (n : Z) : tobj :=
    with_tau (tau_init L id) (set_arr_size (set_reso (default_tau L) res) n).

  Lemma frame_mids (fs : list rf) (o o' : tobj) ms : frame fs o o' -> mids ms o' = mids ms o.
  Proof. intros (_ & _ & _ & _ & B & _). apply mids_ext. intros; apply B. Qed.
  Lemma frame_oblocks fs (o o' : tobj) : frame fs o o' -> oblocks o' = oblocks o.
  Proof.
    intro F. unfold oblocks. rewrite (frame_mids _ _ _ _ F). destruct F as (-> & _). reflexivity.
  Qed.

  Lemma data_ok base (d : dlp S) res id h : usable d -> owns base [id] h ->
    exists o' h', copy_dlp_data C (Some d) (with_tau (tau_init L id) (set_reso (default_tau L) res)) h = Ok (o', h') /\
      owns base (oblocks o') h' /\ files h' = files h /\ x_id o' = id /\
      ((x_err o' <> None /\ exists m, In m malloc_order /\ k_mem C m = false) \/
       (x_err o' = None /\ (forall m, In m malloc_order -> k_mem C m = true) /\
        exists t, view o' = Ok t /\ clean t /\ made_from C d res t /\ default_parameters L t)).
  Proof.
    intros U O. pose proof U as (Ue & Un & UA).
    unfold copy_dlp_data. cbn [x_err with_tau x_tau set_reso default_tau err]. rewrite Ue.
    destruct (Z.leb_spec (d_n d) 1); [lia|].
    set (o0 := with_tau _ _). change o0 with (start_obj id res (d_n d)). clear o0.
    set (o0 := start_obj id res (d_n d)).
    assert (E0 : malloc_members C o0 = malloc_each C malloc_order o0).
    { unfold malloc_members. cbn [o0 start_obj with_tau x_err x_tau set_arr_size set_reso default_tau err arr_size].
      destruct (Z.eqb_spec (d_n d) 0); [lia|reflexivity]. }
    unfold hbind. rewrite E0.
    destruct (malloc_each_ok C base malloc_order o0 h malloc_NoDup) as (o1 & h1 & E1 & O1 & F1 & G1 & A1 & B1).
    { intros m I. repeat (destruct I as [<-|I]; [reflexivity|]). destruct I. }
    { exact malloc_in. }
    { apply (owns_perm _ _ _ _ O). reflexivity. }
    rewrite E1. cbn [bind].
    destruct G1 as (G1 & [e G2] & G3 & G4 & G5 & G6).
    destruct (x_err o1) as [msg|] eqn:Er1.
    - exists o1, h1. split; [reflexivity|]. split; [exact O1|]. split; [exact F1|]. split; [exact G1|]. left.
      split; [congruence|].
      destruct (existsb (fun m => negb (k_mem C m)) malloc_order) eqn:X.
      + apply existsb_exists in X. destruct X as (m & I & X). exists m. split; [exact I|].
        destruct (k_mem C m); [discriminate|reflexivity].
      + exfalso. assert (x_err o1 = None); [|congruence]. rewrite Er1. apply B1; [reflexivity|].
        intros m I. destruct (k_mem C m) eqn:K; [reflexivity|].
        assert (existsb (fun m => negb (k_mem C m)) malloc_order = true); [|congruence].
        apply existsb_exists. exists m. rewrite K. auto.
    - destruct (A1 eq_refl) as [_ A]. clear A1 B1.
      assert (He : e = None) by (unfold x_err in Er1; rewrite G2 in Er1; exact Er1). subst e.
      assert (T1 : x_tau o1 = set_arr_size (set_reso (default_tau L) res) (d_n d)).
      { rewrite G2. reflexivity. }
      assert (N1 : arr_size (x_tau o1) = d_n d) by (rewrite T1; reflexivity).
      assert (Sz : sized d o1).
      { split.
        - intros f I. destruct (A _ I) as [_ [b B]]. exists b, (repeat None (Z.to_nat (d_n d))).
          split; [exact B|]. split; [apply zlen_repeat; lia|intros; lia].
        - destruct (A MTin) as [_ [b B]]; [in_list|]. exists b, (repeat None (Z.to_nat (d_n d))).
          split; [exact B|]. split; [apply zlen_repeat; lia|intros; lia]. }
      destruct (copy_members_ok d U o1 Er1 N1 Sz) as (o2 & E2 & Fr2 & I2 & Cp2).
      pose proof Fr2 as (J1 & J2 & J3 & J4 & J5 & J6).
      unfold hlift. rewrite E2. cbn [bind].
      assert (NK : ~ In KV (map fst copy_table) /\ ~ In FKM (map fst copy_table)).
      { split; cbn; intro Q; repeat (destruct Q as [Q|Q]; [discriminate Q|]); exact Q. }
      destruct (compute_members_ok C d U o2) as (o3 & E3 & Fr3 & Fi & Fk & Ff).
      { unfold x_err. rewrite J2. exact Er1. }
      { rewrite J2. exact N1. }
      { exact Cp2. }
      { destruct Sz as [_ (b & l & X & Y)]. exists b, l. rewrite I2. split; [exact X|exact Y]. }
      { apply (filled_frame d _ _ _ _ _ _ Fr2 (proj1 NK)). apply Sz. in_list. }
      { apply (filled_frame d _ _ _ _ _ _ Fr2 (proj2 NK)). apply Sz. in_list. }
      rewrite E3. cbn [bind].
      pose proof (copied_frame d _ _ Cp2 Fr3) as Cp3.
      assert (Rho := Cp3 RHO dRHO (or_introl eq_refl)).
      destruct (get_ok d o3 RHO 1 _ Rho ltac:(lia)) as (r1 & R1 & ->). cbn [bind].
      destruct (get_ok d o3 RHO 0 _ Rho ltac:(lia)) as (r0 & R0 & ->). cbn [bind hret].
      set (o4 := with_tau o3 _).
      exists o4, h1. split; [reflexivity|].
      pose proof Fr3 as (K1 & K2 & K3 & K4 & K5 & K6).
      assert (OB : oblocks o4 = oblocks o1).
      { change (oblocks o4) with (oblocks o3).
        rewrite (frame_oblocks _ _ _ Fr3), (frame_oblocks _ _ _ Fr2). reflexivity. }
      split; [rewrite OB; exact O1|]. split; [exact F1|].
      split; [change (x_id o3 = id); rewrite K1, J1; exact G1|]. right.
      assert (T3 : x_tau o3 = set_arr_size (set_reso (default_tau L) res) (d_n d)) by congruence.
      assert (T4 : x_tau o4 = set_dx (x_tau o3) (r1 - r0)%S) by reflexivity.
      split; [unfold x_err; rewrite T4, T3; reflexivity|].
      split; [intros m I; apply A; exact I|].
      assert (Wk : x_arr o3 WKM = None).
      { rewrite K6 by (intros [X|[X|[]]]; discriminate X).
        rewrite J6 by (cbn; intro Q; repeat (destruct Q as [Q|Q]; [discriminate Q|]); exact Q).
        rewrite G3 by (cbn; intro Q; repeat (destruct Q as [Q|Q]; [discriminate Q|]); exact Q). reflexivity. }
      assert (Wt : x_arr o3 TTHR = None).
      { rewrite K6 by (intros [X|[X|[]]]; discriminate X).
        rewrite J6 by (cbn; intro Q; repeat (destruct Q as [Q|Q]; [discriminate Q|]); exact Q).
        rewrite G3 by (cbn; intro Q; repeat (destruct Q as [Q|Q]; [discriminate Q|]); exact Q). reflexivity. }
      assert (Xo : x_out o3 = None).
      { rewrite K3, J3. rewrite G5 by (cbn; intro Q; repeat (destruct Q as [Q|Q]; [discriminate Q|]); exact Q). reflexivity. }
      assert (Xf : x_fwd o3 = None).
      { rewrite K4, J4. rewrite G6 by (cbn; intro Q; repeat (destruct Q as [Q|Q]; [discriminate Q|]); exact Q). reflexivity. }
      destruct (filled_contents d o3 KV _ Fk) as (FullK & lk & Ck & Zk & Pk).
      destruct (filled_contents d o3 FKM _ Ff) as (FullF & lf & Cf & Zf & Pf).
      assert (FC := fun f g I => filled_contents d o3 f _ (Cp3 f g I)).
      assert (Vw : view o4 = Ok (set_arr (set_T_in (set_T_out (set_T_fwd (x_tau o4) (option_map snd (x_fwd o4)))
               (option_map snd (x_out o4))) (option_map snd (x_in o4))) (fun f => contents (x_arr o4 f)))).
      { unfold view. replace (forallb (fun f => is_full (x_arr o4 f)) all_rf) with true; [reflexivity|].
        symmetry. apply forallb_forall. intros f _. change (x_arr o4 f) with (x_arr o3 f).
        destruct f; try exact FullK; try exact FullF; try (rewrite ?Wk, ?Wt; reflexivity);
          match goal with |- is_full (x_arr o3 ?f) = true =>
            first [exact (proj1 (FC RHO dRHO ltac:(in_list)))|exact (proj1 (FC PHI dPHI ltac:(in_list)))
            |exact (proj1 (FC BDEG dB ltac:(in_list)))|exact (proj1 (FC DKM dD ltac:(in_list)))
            |exact (proj1 (FC RHODOT dRHODOT ltac:(in_list)))|exact (proj1 (FC TOET dTOET ltac:(in_list)))
            |exact (proj1 (FC TRET dTRET ltac:(in_list)))|exact (proj1 (FC TSET dTSET ltac:(in_list)))
            |exact (proj1 (FC CPOLE dCPOLE ltac:(in_list)))|exact (proj1 (FC CTIM dCTIM ltac:(in_list)))
            |exact (proj1 (FC PHIRL dPHIRL ltac:(in_list)))|exact (proj1 (FC RX dRX ltac:(in_list)))
            |exact (proj1 (FC RY dRY ltac:(in_list)))|exact (proj1 (FC RZ dRZ ltac:(in_list)))] end. }
      eexists. split; [exact Vw|]. rewrite T4, T3.
      split; [reflexivity|]. split; [|repeat split; reflexivity].
      destruct Fi as (bi & li & Xi & Zi & Pi).
      constructor.
      + reflexivity.
      + intros f g I. destruct (FC f g I) as (_ & m & Cm & Zm & Pm).
        cbn [arr set_arr]. change (x_arr o4 f) with (x_arr o3 f). split; [exists m; auto|].
        intros i Hi. destruct (Pm i Hi) as (x & X & Y). exists x. split; [exact X|]. exists m. split; [exact Cm|exact Y].
      + exists li. cbn [T_in set_arr set_T_in]. change (x_in o4) with (x_in o3). rewrite Xi.
        split; [reflexivity|]. split; [exact Zi|]. intros i Hi. destruct (Pi i Hi) as (x & (p & ph & P1 & P2 & ->) & X).
        exists p, ph. split; [exact P1|]. split; [exact P2|]. apply entry_aread. exact X.
      + cbn [arr set_arr]. change (x_arr o4 KV) with (x_arr o3 KV). split; [exists lk; auto|].
        intros i Hi. destruct (Pk i Hi) as (x & (f & X & ->) & Y). exists f. split; [exact X|]. exists lk.
        split; [exact Ck|exact Y].
      + cbn [arr set_arr]. change (x_arr o4 FKM) with (x_arr o3 FKM). split; [exists lf; auto|].
        intros i Hi. destruct (Pf i Hi) as (x & (f & dist & phi & b & X1 & X2 & X3 & X4 & ->) & Y).
        exists f, dist, phi, b. do 4 (split; [assumption|]). exists lf. split; [exact Cf|exact Y].
      + exists r0, r1. split; [exact R0|]. split; [exact R1|reflexivity].
      + reflexivity.
      + cbn [T_out T_fwd arr set_arr set_T_in set_T_out set_T_fwd].
        change (x_arr o4 WKM) with (x_arr o3 WKM). change (x_arr o4 TTHR) with (x_arr o3 TTHR).
        change (x_out o4) with (x_out o3). change (x_fwd o4) with (x_fwd o3). rewrite Wk, Wt, Xo, Xf. repeat split.
  Qed.

  Lemma view_err (o : tobj) t e : view o = Ok t ->
    view (with_tau o (set_err (x_tau o) e)) = Ok (set_err t e).
  Proof.
    unfold view. cbn [with_tau x_arr x_in x_out x_fwd x_tau].
    destruct (forallb _ all_rf); [|discriminate]. intro E. injection E as <-. reflexivity.
  Qed.

  Lemma made_sized (d : dlp S) res t : made_from C d res t -> sized_t t.
  Proof.
    intros M f I.
    assert (X : forall g, In (f, g) same_arrays -> exists l, arr t f = Some l /\ zlen l = arr_size t).
    { intros g J. destruct (mf_copies _ _ _ _ M f g J) as [(l & E & Z) _]. exists l. split; [exact E|].
      rewrite (mf_size _ _ _ _ M). exact Z. }
    repeat (destruct I as [<-|I]; [first [apply (X dPHI); in_list|apply (X dB); in_list
      |apply (X dD); in_list|apply (X dRHO); in_list]|]). destruct I.
  Qed.

  Lemma made_set_err (d : dlp S) res t e : made_from C d res t -> made_from C d res (set_err t e).
  Proof. intros [A1 A2 A3 A4 A5 A6 A7 A8]. constructor; assumption. Qed.

  (** Everything about a creation from usable input. *)
  Lemma create_usable (d : dlp S) res h : usable d -> sle res s0 = false -> good_heap h ->
    (k_obj C = false /\ create_from_dlp L C (Some d) res h = Ok (None, h)) \/
    (k_obj C = true /\ exists o h1, create_from_dlp L C (Some d) res h = Ok (Some o, h1) /\
      owns (live h) (oblocks o) h1 /\ files h1 = files h /\
      ((x_err o <> None /\ exists m, In m allocated_members /\ k_mem C m = false) \/
       ((forall m, In m allocated_members -> k_mem C m = true) /\
        exists t0 t, view o = Ok t /\ x_err o = err t /\ clean t0 /\ check_geometry L t0 = Ok t /\ same_data t0 t /\
          made_from C d res t /\ default_parameters L t))).
  Proof.
    intros U R G. unfold create_from_dlp, hbind, halloc. destruct (k_obj C); [right|left; split; reflexivity].
    split; [reflexivity|]. cbn [bind]. destruct U as (Ue & U'). rewrite Ue, R.
    assert (U : usable d) by (split; assumption).
    pose proof (owns_alloc _ _ _ (owns_start h G)) as O.
    destruct (data_ok (live h) d res (next h) _ U O) as (o1 & h1 & E1 & O1 & F1 & I1 & K).
    change (x_tau (tau_init L (next h))) with (default_tau L). rewrite E1. cbn [bind hlift].
    destruct K as [(Er & m & I & K)|(Er & K & t & V & Cl & M & D)].
    - unfold x_check_geometry. destruct (x_err o1) as [msg|] eqn:Em; [|congruence]. cbn [bind hret hlift].
      exists o1, h1. split; [reflexivity|]. split; [exact O1|]. split; [exact F1|]. left.
      split; [congruence|]. exists m. split; [apply malloc_allocated; exact I|exact K].
    - unfold x_check_geometry. rewrite Er. unfold hlift. rewrite V. cbn [bind].
      destruct (geometry_returns L t (made_sized _ _ _ M)) as (t' & E' & OE). rewrite E'. cbn [bind hret].
      eexists _, h1. split; [reflexivity|]. split; [exact O1|]. split; [exact F1|]. right.
      split; [intros m I; apply K, malloc_allocated; exact I|].
      exists t, t'. split; [rewrite (view_err _ _ (err t') V); f_equal; symmetry; exact OE|].
      split; [reflexivity|]. split; [exact Cl|]. split; [exact E'|]. split; [exact (only_err_same _ _ OE)|].
      unfold only_err in OE. rewrite OE. split; [apply made_set_err; exact M|exact D].
  Qed.

  Lemma create_refused (p : option (dlp S)) res h : refused p res -> good_heap h ->
    (k_obj C = false /\ create_from_dlp L C p res h = Ok (None, h)) \/
    (k_obj C = true /\ exists o h1, create_from_dlp L C p res h = Ok (Some o, h1) /\
      owns (live h) (oblocks o) h1 /\ files h1 = files h /\ x_err o <> None /\
      arr_size (x_tau o) = 0 /\ forall m, block o m = None).
  Proof.
    intros R G. unfold create_from_dlp, hbind, halloc. destruct (k_obj C); [right|left; split; reflexivity].
    split; [reflexivity|]. cbn [bind].
    pose proof (owns_alloc _ _ _ (owns_start h G)) as O.
    destruct p as [d|].
    2:{ eexists _, _. split; [reflexivity|]. split; [apply (owns_perm _ _ _ _ O); reflexivity|].
        split; [reflexivity|]. split; [discriminate|]. split; [reflexivity|intros []; reflexivity]. }
    destruct (d_err d) eqn:Ed.
    { eexists _, _. split; [reflexivity|]. split; [apply (owns_perm _ _ _ _ O); reflexivity|].
      split; [reflexivity|]. split; [discriminate|]. split; [reflexivity|intros []; reflexivity]. }
    destruct (sle res s0) eqn:Er.
    { eexists _, _. split; [reflexivity|]. split; [apply (owns_perm _ _ _ _ O); reflexivity|].
      split; [reflexivity|]. split; [discriminate|]. split; [reflexivity|intros []; reflexivity]. }
    assert (N : d_n d <= 1).
    { destruct R as [R|(d' & R & X)]; [discriminate|]. injection R as <-. intuition congruence. }
    unfold copy_dlp_data. cbn [x_err with_tau x_tau set_reso tau_init default_tau err]. rewrite Ed.
    destruct (Z.leb_spec (d_n d) 1); [|lia]. cbn [hret bind].
    eexists _, _. split; [reflexivity|]. split; [apply (owns_perm _ _ _ _ O); reflexivity|].
    split; [reflexivity|]. split; [discriminate|]. split; [reflexivity|intros []; reflexivity].
  Qed.

  (** Destroying. *)
  Lemma destroy_created (o : tobj) h h1 :
    good_heap h -> owns (live h) (oblocks o) h1 -> files h1 = files h ->
    exists o' h2, tau_destroy (Some o) h1 = Ok (Some o', h2) /\ same_resources h h2 /\
      tau_destroy (Some o') h2 = UB UseAfterFree.
  Proof.
    intros G O F. destruct (destroy_ok _ o h1 O) as (o' & h2 & E & I & O2 & F2).
    exists o', h2. split; [exact E|]. split.
    - destruct (owns_end _ _ O2) as [X _]. split; [exact X|congruence].
    - assert (D : is_live h2 (x_id o') = false).
      { rewrite I. destruct (is_live h2 (x_id o)) eqn:X; [|reflexivity]. exfalso.
        apply is_live_cnt in X. rewrite (ow_cnt _ _ _ O2), cnt_nil in X.
        pose proof (ow_one _ _ _ O (x_id o)) as Y. rewrite (ow_cnt _ _ _ O) in Y.
        unfold oblocks in Y. rewrite cnt_cons, cnt_same in Y. lia. }
      unfold tau_destroy, tau_destroy_members, hbind, haccess. rewrite D. reflexivity.
  Qed.
End Creation.
