(** * Proof_Create4: C44-C46 in doubles, in exact arithmetic, and repeated
    destruction. *)
From Coq Require Import List ZArith Lia Bool String Reals Lra.
From Verif Require Import Base BaseFacts Dbl DblFacts Scalar Spec_Tau Spec_Select Model_TauRec Model_Checks
  Model_Heap Model_Csv Model_CsvData Spec_Csv Model_Create Spec_Create Proof_Checks Proof_Heap Proof_CsvText
  Proof_Create Proof_Create2 Proof_Create3.
Import ListNotations.
Open Scope list_scope.
Open Scope Z_scope.

Section Main.
  Context {S : scalar}.
  Variable L : tmpl S.
  Variable C : createlib S.

  Lemma creation (d : dlp S) res h : usable d -> sle res s0 = false -> good_heap h ->
    k_obj C = true -> (forall m, In m allocated_members -> k_mem C m = true) ->
    exists o h1 t, create_from_dlp L C (Some d) res h = Ok (Some o, h1) /\ view o = Ok t /\
      made_from C d res t /\ default_parameters L t.
  Proof.
    intros U R G K A. destruct (create_usable L C d res h U R G) as [(X & _)|(_ & o & h1 & E & _ & _ & X)]; [congruence|].
    destruct X as [(_ & m & I & X)|(_ & t0 & t & V & _ & _ & _ & _ & M & D)]; [rewrite (A m I) in X; discriminate|].
    exists o, h1, t. auto.
  Qed.

  Lemma creation_checked (d : dlp S) res h o h1 t : usable d -> sle res s0 = false -> good_heap h ->
    k_obj C = true -> (forall m, In m allocated_members -> k_mem C m = true) ->
    create_from_dlp L C (Some d) res h = Ok (Some o, h1) -> view o = Ok t ->
    made_from C d res t /\ default_parameters L t /\
    exists t0, clean t0 /\ check_geometry L t0 = Ok t /\ same_data t0 t.
  Proof.
    intros U R G K A E' V'. destruct (create_usable L C d res h U R G) as [(X & _)|(_ & o2 & h2 & E & _ & _ & X)]; [congruence|].
    rewrite E in E'. injection E' as -> ->.
    destruct X as [(_ & m & I & X)|(_ & t0 & t2 & V & _ & Cl & Ck & Sd & M & D)]; [rewrite (A m I) in X; discriminate|].
    rewrite V in V'. injection V' as ->. split; [exact M|]. split; [exact D|]. exists t0. auto.
  Qed.

  Lemma refusal (p : option (dlp S)) res h : refused p res -> good_heap h -> k_obj C = true ->
    exists o h1, create_from_dlp L C p res h = Ok (Some o, h1) /\ x_err o <> None /\
      arr_size (x_tau o) = 0 /\ forall m, block o m = None.
  Proof.
    intros R G K. destruct (create_refused L C p res h R G) as [(X & _)|(_ & o & h1 & E & _ & _ & X)]; [congruence|].
    exists o, h1. auto.
  Qed.

  Lemma memory p res h : good_heap h -> ((exists d, p = Some d /\ usable d) \/ refused p res) ->
    exists r h1, create_from_dlp L C p res h = Ok (r, h1) /\
      (r = None <-> k_obj C = false) /\ (r = None -> h1 = h) /\
      (forall o, r = Some o -> exists q h2, tau_destroy (Some o) h1 = Ok (q, h2) /\ same_resources h h2 /\
         tau_destroy q h2 = UB UseAfterFree) /\
      (forall o m, r = Some o -> In m allocated_members -> k_mem C m = false -> x_err o <> None).
  Proof.
    intros G D.
    assert (D' : (exists d, p = Some d /\ usable d /\ sle res s0 = false) \/ refused p res).
    { destruct D as [(d & -> & U)|R]; [|right; exact R]. destruct (sle res s0) eqn:X; [|left; eauto].
      right. right. exists d. auto. }
    clear D. destruct D' as [(d & -> & U & R)|R].
    - destruct (create_usable L C d res h U R G) as [(K & E)|(K & o & h1 & E & O & F & X)].
      + exists None, h. split; [exact E|]. split; [tauto|]. split; [reflexivity|]. split; intros; discriminate.
      + exists (Some o), h1. split; [exact E|]. split; [split; [discriminate|congruence]|]. split; [discriminate|]. split.
        * intros o' Q. injection Q as <-. destruct (destroy_created o h h1 G O F) as (o2 & h2 & A & B & B'). eauto 6.
        * intros o' m Q I Km. injection Q as <-. destruct X as [(X & _)|(X & _)]; [exact X|].
          rewrite (X m I) in Km. discriminate.
    - destruct (create_refused L C p res h R G) as [(K & E)|(K & o & h1 & E & O & F & X & _)].
      + exists None, h. split; [exact E|]. split; [tauto|]. split; [reflexivity|]. split; intros; discriminate.
      + exists (Some o), h1. split; [exact E|]. split; [split; [discriminate|congruence]|]. split; [discriminate|]. split.
        * intros o' Q. injection Q as <-. destruct (destroy_created o h h1 G O F) as (o2 & h2 & A & B & B'). eauto 6.
        * intros o' m Q _ _. injection Q as <-. exact X.
  Qed.
End Main.

(** Destroying again. *)
Lemma again_none {A} (f : option A -> H (option A)) k h :
  (forall h, f None h = Ok (None, h)) -> again f k None h = Ok (None, h).
Proof.
  intro N. revert h; induction k as [|k IH]; intro h; [reflexivity|].
  cbn [again]. unfold hbind. rewrite N. cbn [bind]. apply IH.
Qed.
Lemma destroy_table_null {S : scalar} t (p : option (obj S)) h q h1 :
  destroy_table t p h = Ok (q, h1) -> q = None.
Proof.
  unfold destroy_table, destroy. destruct p as [o|]; [|intro E; injection E as <- _; reflexivity].
  unfold hbind. intro E. apply bind_ok in E. destruct E as ([o1 h2] & _ & E).
  apply bind_ok in E. destruct E as ([u h3] & _ & E). apply bind_ok in E. destruct E as ([v h4] & _ & E).
  injection E as <- _. reflexivity.
Qed.
Lemma csv_destroy_null {S : scalar} K (p : option (csv S)) h q h1 :
  csv_destroy K p h = Ok (q, h1) -> q = None.
Proof.
  unfold csv_destroy. destruct p as [o|]; [|intro E; injection E as <- _; reflexivity].
  unfold hbind. intro E. apply bind_ok in E. destruct E as ([o1 h2] & _ & E).
  apply bind_ok in E. destruct E as ([u h3] & _ & E). apply bind_ok in E. destruct E as ([v h4] & _ & E).
  injection E as <- _. reflexivity.
Qed.
Lemma table_again {S : scalar} t (p : option (obj S)) h q h1 k :
  destroy_table t p h = Ok (q, h1) -> q = None /\ again (destroy_table t) k q h1 = Ok (None, h1).
Proof.
  intro E. rewrite (destroy_table_null _ _ _ _ _ E). split; [reflexivity|]. apply again_none. reflexivity.
Qed.
Lemma csv_again {S : scalar} K (p : option (csv S)) h q h1 k :
  csv_destroy K p h = Ok (q, h1) -> q = None /\ again (csv_destroy K) k q h1 = Ok (None, h1).
Proof.
  intro E. rewrite (csv_destroy_null _ _ _ _ _ E). split; [reflexivity|]. apply again_none. reflexivity.
Qed.
Lemma tau_null {S : scalar} h : tau_destroy (S := S) None h = Ok (None, h).
Proof. reflexivity. Qed.

(** Acceptance in doubles. *)
Section Accept.
  Variable L : dlib.
  Hypothesis LM : minmax_law L.
  Hypothesis LN : min_law L.
  Variable C : createlib dbl_scalar.

  Lemma made_array (d : dlp dbl_scalar) res (t : dtau) f g :
    made_from C d res t -> In (f, g) same_arrays -> exists l, arr t f = Some l /\ zlen l = d_n d /\
      (forall P : double -> Prop, (forall x, In x l -> P x) <-> samples_are d g P).
  Proof.
    intros M I. destruct (mf_copies _ _ _ _ M f g I) as [(l & E & Z) A]. exists l. split; [exact E|]. split; [exact Z|].
    intro P. split.
    - intros Hl i x Hi Hx. destruct (A i Hi) as (y & Y & l' & E' & Q). rewrite E in E'. injection E' as <-.
      rewrite (sample_fun d g i x y Hx Y). apply Hl. apply (entry_In _ _ _ Q).
    - intros Hs x Hx. destruct (In_nth_error l x Hx) as [k K].
      assert (B : 0 <= Z.of_nat k < d_n d).
      { rewrite <- Z. unfold zlen. split; [lia|]. apply inj_lt. apply nth_error_Some. congruence. }
      destruct (A _ B) as (y & Y & l' & E' & Q). rewrite E in E'. injection E' as <-.
      destruct Q as [_ Q]. rewrite Nat2Z.id in Q. rewrite K in Q. injection Q as ->. apply (Hs _ _ B Y).
  Qed.

  Lemma acceptance (d : dlp dbl_scalar) (res : double) h :
    usable d -> notnan res -> dle res (dofZ 0) = false -> good_heap h ->
    (forall g, In g [dPHI; dB; dD; dRHO] -> samples_are d g notnan) ->
    k_obj C = true -> (forall m, In m allocated_members -> k_mem C m = true) ->
    exists o h1 t, create_from_dlp L C (Some d) res h = Ok (Some o, h1) /\ view o = Ok t /\
      made_from C d res t /\ (clean t <-> input_geometry_ok d res).
  Proof.
    intros U Rn R G NN K A.
    destruct (creation L C d res h U R G K A) as (o & h1 & t & E & V & _).
    destruct (creation_checked L C d res h o h1 t U R G K A E V) as (M & D & t0 & Cl & Ck & Sd).
    exists o, h1, t. split; [exact E|]. split; [exact V|]. split; [exact M|].
    destruct (made_array d res t PHI dPHI M ltac:(in_list)) as (lp & Ep & Zp & Qp).
    destruct (made_array d res t BDEG dB M ltac:(in_list)) as (lb & Eb & Zb & Qb).
    destruct (made_array d res t DKM dD M ltac:(in_list)) as (ld & Ed & Zd & Qd).
    destruct (made_array d res t RHO dRHO M ltac:(in_list)) as (lr & Er & Zr & Qr).
    assert (Sa : arr t0 = arr t) by (unfold same_data in Sd; intuition congruence).
    assert (Ss : arr_size t0 = arr_size t) by (unfold same_data in Sd; intuition congruence).
    assert (Sx : dx t0 = dx t) by (unfold same_data in Sd; intuition congruence).
    assert (Sr : reso t0 = res) by (rewrite <- (mf_reso _ _ _ _ M); unfold same_data in Sd; intuition congruence).
    pose proof (mf_size _ _ _ _ M) as Sz. destruct U as (_ & Un & _).
    destruct (check_geometry_exact L LM LN t0 lp lb ld lr Cl) as (t' & Ck' & _ & X).
    { lia. }
    { split; [rewrite Sa; exact Ep|]. split; [rewrite Ss, Sz; exact Zp|]. apply Qp. apply NN; in_list. }
    { split; [rewrite Sa; exact Eb|]. split; [rewrite Ss, Sz; exact Zb|]. apply Qb. apply NN; in_list. }
    { split; [rewrite Sa; exact Ed|]. split; [rewrite Ss, Sz; exact Zd|]. apply Qd. apply NN; in_list. }
    { split; [rewrite Sa; exact Er|]. split; [rewrite Ss, Sz; exact Zr|]. apply Qr. apply NN; in_list. }
    { rewrite Sr. exact Rn. }
    rewrite Ck in Ck'. injection Ck' as <-. rewrite X.
    unfold geometry_ok, input_geometry_ok. rewrite Qp, Qb, Qd, Qr, Sx, Sr.
    destruct (mf_spacing _ _ _ _ M) as (r0 & r1 & R0 & R1 & Ex). rewrite Ex. change ((r1 - r0)%S) with (dsub r1 r0).
    split.
    - intros (A1 & A2 & A3 & A4 & A5 & A6 & A7). do 4 (split; [assumption|]). exists r0, r1. auto.
    - intros (A1 & A2 & A3 & A4 & r0' & r1' & R0' & R1' & A5 & A6 & A7).
      rewrite <- (sample_fun d dRHO 0 _ _ R0 R0'), <- (sample_fun d dRHO 1 _ _ R1 R1') in *. auto 10.
  Qed.
End Accept.

(** Exact arithmetic. *)
Lemma exact_data (L : tmpl real_scalar) (C : createlib real_scalar) (d : dlp real_scalar) res t :
  polard_law C -> wave_law C -> scale_law C -> made_from C d res t ->
  forall i (p ph f dist phi b : R), 0 <= i < d_n d ->
    sample d dPNORM i p -> sample d dPHASE i ph -> sample d dFSKY i f ->
    sample d dD i dist -> sample d dPHI i phi -> sample d dB i b ->
    (0 <= p)%R -> f <> 0%R ->
    exists T re im k F, T_in t = Some T /\ entry T i (Some (re, im)) /\
      (re * re + im * im = p)%R /\
      re = (R_sqrt.sqrt p * cos (degree (- ph)))%R /\ im = (R_sqrt.sqrt p * sin (degree (- ph)))%R /\
      tau_entry t KV i k /\ (k = 2 * PI * f / light_speed)%R /\
      tau_entry t FKM i F /\
      F = R_sqrt.sqrt ((light_speed / f * dist / 2) *
            (1 - Rsqr (cos (degree b)) * Rsqr (sin (degree phi))) / Rsqr (sin (degree b))).
Proof.
  intros LP [LW LK] LS M i p ph f dist phi b Hi Sp Sph Sf Sd Sphi Sb P F.
  destruct (mf_profile _ _ _ _ M) as (T & ET & _ & A). destruct (A i Hi) as (p' & ph' & X1 & X2 & X).
  rewrite <- (sample_fun d _ _ _ _ Sp X1), <- (sample_fun d _ _ _ _ Sph X2) in X. rewrite LP in X.
  destruct (mf_wave _ _ _ _ M) as [_ W]. destruct (W i Hi) as (f' & Y1 & Y).
  rewrite <- (sample_fun d _ _ _ _ Sf Y1) in Y.
  destruct (mf_scale _ _ _ _ M) as [_ Sc]. destruct (Sc i Hi) as (f2 & di2 & phi2 & b2 & Z1 & Z2 & Z3 & Z4 & Z).
  rewrite <- (sample_fun d _ _ _ _ Sf Z1), <- (sample_fun d _ _ _ _ Sd Z2), <- (sample_fun d _ _ _ _ Sphi Z3),
    <- (sample_fun d _ _ _ _ Sb Z4) in Z.
  rewrite LW, LS in Z. rewrite LW, LK in Y.
  assert (LSp : light_speed <> 0%R) by (unfold light_speed; lra).
  assert (Kv : (2 * PI / (light_speed / f) = 2 * PI * f / light_speed)%R) by (field; auto).
  exists T. eexists _, _, _, _. split; [exact ET|]. split; [exact X|].
  split.
  { cbn [ssqrt real_scalar sneg car]. set (c := cos _). set (s := sin _).
    replace (R_sqrt.sqrt p * c * (R_sqrt.sqrt p * c) + R_sqrt.sqrt p * s * (R_sqrt.sqrt p * s))%R
      with (R_sqrt.sqrt p * R_sqrt.sqrt p * (s * s + c * c))%R by ring.
    rewrite sqrt_sqrt by exact P.
    pose proof (sin2_cos2 (degree (- ph))) as Q. unfold Rsqr in Q. unfold c, s. rewrite Q. ring. }
  split; [reflexivity|]. split; [reflexivity|]. split; [exact Y|].
  split; [exact Kv|]. split; [exact Z|reflexivity].
Qed.
