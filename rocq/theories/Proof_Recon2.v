(** * Proof_Recon2: orientation (C20, C21), finishing (C22), the forward model
    (C23), the whole reconstruction (C12, C24). *)
From Coq Require Import List ZArith Bool String Reals Lia Lra.
From Flocq Require Import Core IEEE754.BinarySingleNaN.
From Verif Require Import Base BaseFacts Dbl DblFacts Scalar Model_TauRec Model_Checks Model_Select
  Model_Strings Model_Transform Model_Interp Model_Recon Spec_Tau Spec_Ops Spec_Select Spec_Recon
  Proof_Checks Proof_Sticky Proof_Select Proof_SafeDbl Proof_Recon.
Import ListNotations.
Open Scope Z_scope.

(** ** Signs of doubles *)
Lemma sign_cases (x : double) : notnan x ->
  (dlt x (dofZ 0) = true /\ dlt (dofZ 0) x = false /\ deq x (dofZ 0) = false /\ negative_number x /\ ~ positive_number x) \/
  (dlt x (dofZ 0) = false /\ dlt (dofZ 0) x = true /\ deq x (dofZ 0) = false /\ ~ negative_number x /\ positive_number x) \/
  (dlt x (dofZ 0) = false /\ dlt (dofZ 0) x = false /\ deq x (dofZ 0) = true /\ ~ negative_number x /\ ~ positive_number x).
Proof.
  intros Hn. destruct (dfinite x) eqn:Ef.
  - assert (F0 := fin_0).
    assert (A := dlt_iff x (dofZ 0) Ef F0). assert (B := dlt_iff (dofZ 0) x F0 Ef).
    assert (C := deq_iff x (dofZ 0) Ef F0). rewrite d2r_0 in A, B, C.
    assert (P : positive_number x <-> (0 < val x)%R).
    { unfold positive_number, finite. split; [intros [H| ->]; [tauto|discriminate Ef]|tauto]. }
    assert (N : negative_number x <-> (val x < 0)%R).
    { unfold negative_number, finite. split; [intros [H| ->]; [tauto|discriminate Ef]|tauto]. }
    unfold val in P, N. destruct (Rtotal_order (B2R x) 0) as [H|[H|H]].
    + left. destruct (dlt x (dofZ 0)), (dlt (dofZ 0) x), (deq x (dofZ 0)); intuition (try congruence; try lra).
    + right; right. destruct (dlt x (dofZ 0)), (dlt (dofZ 0) x), (deq x (dofZ 0)); intuition (try congruence; try lra).
    + right; left. destruct (dlt x (dofZ 0)), (dlt (dofZ 0) x), (deq x (dofZ 0)); intuition (try congruence; try lra).
  - destruct x as [s|[]| |s m e He]; try discriminate Ef; try discriminate Hn.
    + left. repeat split; try (vm_compute; reflexivity); [right; reflexivity|].
      intros [[H _]|H]; discriminate.
    + right; left. repeat split; try (vm_compute; reflexivity); [|right; reflexivity].
      intros [[H _]|H]; discriminate.
Qed.
Lemma le_positive (a b : double) : notnan a -> notnan b -> positive_number a -> dle a b = true -> positive_number b.
Proof.
  intros Na Nb Pa H. destruct (sign_cases b Nb) as [D|[D|D]]; [|tauto|].
  - exfalso. destruct D as (_ & _ & _ & Nb' & _). destruct Pa as [[Fa Va]| ->].
    + destruct Nb' as [[Fb Vb]| ->].
      * apply (dle_iff a b) in H; auto. unfold val in *. lra.
      * destruct a as [s|s| |[] m e He]; try discriminate Fa; vm_compute in H; try discriminate H.
    + destruct Nb' as [[Fb Vb]| ->]; [|discriminate H].
      destruct b as [s|s| |[] m e He]; try discriminate Fb; vm_compute in H; try discriminate H.
  - exfalso. destruct D as (D1 & D2 & D3 & D4 & D5).
    destruct Pa as [[Fa Va]| ->].
    + destruct (dfinite b) eqn:Fb.
      * apply (dle_iff a b) in H; auto. apply D5. left. split; auto. unfold val in *. lra.
      * destruct b as [s|[]| |s m e He]; try discriminate Fb; try discriminate Nb.
        -- apply D4. right; reflexivity.
        -- apply D5. right; reflexivity.
    + destruct b as [s|[]| |[] m e He]; vm_compute in H; try discriminate H; apply D5; right; reflexivity.
Qed.
Lemma le_negative (a b : double) : notnan a -> notnan b -> negative_number b -> dle a b = true -> negative_number a.
Proof.
  intros Na Nb Pb H. destruct (sign_cases a Na) as [D|[D|D]]; [tauto| |]; exfalso.
  - destruct D as (_ & _ & _ & _ & Pa). assert (G := le_positive a b Na Nb Pa H).
    destruct (sign_cases b Nb) as [D|[D|D]]; tauto.
  - destruct D as (_ & _ & D & _ & Pa). destruct Pb as [[Fb Vb]| ->].
    + destruct (dfinite a) eqn:Fa.
      * assert (H2 := H). apply (dle_iff a b) in H2; auto. apply (deq_iff a (dofZ 0) Fa fin_0) in D. rewrite d2r_0 in D.
        unfold val in *. lra.
      * destruct a as [s|[]| |s m e He]; try discriminate Fa; try discriminate Na; vm_compute in D; discriminate D.
    + destruct a as [s|[]| |s m e He]; vm_compute in H, D; try discriminate.
Qed.
Lemma abs_negative (x : double) : negative_number x -> positive_number (dabs x).
Proof.
  intros [[F V]| ->]; [|right; reflexivity]. left.
  unfold finite, val, dabs, dfinite in *. rewrite is_finite_Babs, B2R_Babs. split; auto. apply Rabs_pos_lt. lra.
Qed.
Lemma positive_notnan x : positive_number x -> notnan x.
Proof. intros [[F V]| ->]; [|reflexivity]. destruct x; try discriminate F; reflexivity. Qed.
Lemma negative_notnan x : negative_number x -> notnan x.
Proof. intros [[F V]| ->]; [|reflexivity]. destruct x; try discriminate F; reflexivity. Qed.

(** ** Reversal *)
Lemma rf_eqb_eq f g : rf_eqb f g = true <-> f = g.
Proof. destruct f, g; cbn; split; intros H; congruence. Qed.
Lemma firstn_zlen {A} (l : list A) n : n = zlen l -> firstn (Z.to_nat n) l = l /\ skipn (Z.to_nat n) l = [].
Proof. intros ->. unfold zlen. rewrite Nat2Z.id. split; [apply firstn_all|apply skipn_all]. Qed.
Lemma aprefix_all {A} (l : list A) n : n = zlen l -> aprefix l n = Ok l.
Proof.
  intros H. unfold aprefix. assert (0 <= zlen l) by apply zlen_nonneg.
  destruct (Z.leb_spec 0 n); [|lia]. destruct (Z.leb_spec n (zlen l)); [|lia]. cbn [andb].
  f_equal. apply firstn_zlen; auto.
Qed.
Section Reverse.
  Context {S : scalar}.
  Local Notation tau := (tau S).
  Lemma set_f_eq (t : tau) f v : arr (set_f t f v) f = v.
  Proof. cbn. assert (E : rf_eqb f f = true) by (apply rf_eqb_eq; reflexivity). rewrite E. reflexivity. Qed.
  Lemma set_f_neq (t : tau) f g v : f <> g -> arr (set_f t f v) g = arr t g.
  Proof. intros H. cbn. destruct (rf_eqb f g) eqn:E; auto. apply rf_eqb_eq in E. contradiction. Qed.
  Lemma reverse_f_ok (t : tau) f l : arr t f = Some l -> zlen l = arr_size t ->
    reverse_f f t = Ok (set_f t f (Some (rev l))).
  Proof.
    intros E Hl. unfold reverse_f. rewrite E. cbn [deref bind]. rewrite aprefix_all by auto. cbn [bind].
    rewrite (proj2 (firstn_zlen l (arr_size t) (eq_sym Hl))), app_nil_r. reflexivity.
  Qed.
  Lemma reverse_all_ok fs : forall (t : tau), NoDup fs -> has_sizes t fs ->
    exists A, reverse_all fs t = Ok (set_arr t A) /\
      (forall f, In f fs -> exists l, arr t f = Some l /\ A f = Some (rev l)) /\
      (forall f, ~ In f fs -> A f = arr t f).
  Proof.
    induction fs as [|f fs IH]; intros t Hnd Hs.
    - exists (arr t). split; [destruct t; reflexivity|]. split; [intros f []|auto].
    - inversion Hnd; subst. destruct (Hs f (or_introl eq_refl)) as (l & El & Hl).
      cbn [reverse_all]. rewrite (reverse_f_ok t f l El Hl). cbn [bind].
      destruct (IH (set_f t f (Some (rev l)))) as (A & EA & HA & HB); auto.
      { intros g Hg. destruct (Hs g (or_intror Hg)) as (lg & Eg & Hlg). exists lg.
        rewrite set_f_neq; auto. intros ->; contradiction. }
      exists A. split; [exact EA|]. split.
      + intros g [<-|Hg].
        * exists l. split; auto. rewrite HB by auto. apply set_f_eq.
        * destruct (HA g Hg) as (lg & Eg & Ag). rewrite set_f_neq in Eg by (intros ->; contradiction). eauto.
      + intros g Hg. cbn in Hg. rewrite HB by tauto. apply set_f_neq. intuition congruence.
  Qed.
  Lemma abs_rho_dot_ok (t : tau) l : arr t RHODOT = Some l -> zlen l = arr_size t ->
    abs_rho_dot t = Ok (set_f t RHODOT (Some (map sabs l))).
  Proof.
    intros E Hl. unfold abs_rho_dot. rewrite E. cbn [deref bind]. rewrite aprefix_all by auto. cbn [bind].
    rewrite (proj2 (firstn_zlen l (arr_size t) (eq_sym Hl))), app_nil_r. reflexivity.
  Qed.
End Reverse.
Lemma nodup_occ : NoDup occ_reversed.
Proof. unfold occ_reversed. repeat (constructor; [cbn; intuition congruence|]). constructor. Qed.

Section Orient.
  Variable L : dlib.
  Hypothesis HL : minmax_law L.

  (** The four possible outcomes. *)
  Lemma occ_type_exact (t : dtau) v :
    clean t -> velocities t v -> notnan (dx t) -> (inward t -> has_sizes t occ_reversed) ->
    exists t', check_occ_type L t = Ok t' /\
    ((1 < arr_size t /\ outward t /\ all_positive v /\ t' = t) \/
     (1 < arr_size t /\ outward t /\ all_negative v /\ t' = set_f t RHODOT (Some (map dabs v))) \/
     (1 < arr_size t /\ inward t /\ all_negative v /\ exists A, t' = set_dx (set_arr t A) (dabs (dx t)) /\
        A RHODOT = Some (map dabs (rev v)) /\
        (forall f, In f occ_reversed -> f <> RHODOT -> exists l, arr t f = Some l /\ A f = Some (rev l)) /\
        (forall f, ~ In f occ_reversed -> A f = arr t f)) \/
     (~ (1 < arr_size t /\ ((outward t /\ (all_positive v \/ all_negative v)) \/ (inward t /\ all_negative v))) /\
      exists m, t' = set_err t (Some m))).
  Proof.
    intros Hc (Hv & Hl & Hn) Hd Hs. unfold check_occ_type. rewrite guarded_clean by exact Hc. rewrite Hv.
    destruct (Z.leb_spec (arr_size t) 1) as [H1|H1].
    { eexists. split; [reflexivity|]. right; right; right. split; [lia|]. eexists; reflexivity. }
    assert (Hne : v <> []) by (intros ->; change (zlen (@nil double)) with 0 in Hl; lia).
    change (car dbl_scalar) with double in *.
    assert (Sd := sign_cases (dx t) Hd). fold (inward t) in Sd. fold (outward t) in Sd.
    destruct (@seqb dbl_scalar (dx t) s0) eqn:E0.
    { change (deq (dx t) (dofZ 0) = true) in E0.
      eexists. split; [reflexivity|]. right; right; right. split; [|eexists; reflexivity].
      destruct Sd as [D|[D|D]]; intuition congruence. }
    change (deq (dx t) (dofZ 0) = false) in E0.
    rewrite aprefix_all by (symmetry; exact Hl). cbn [bind].
    destruct (HL v Hne Hn) as (Hmn & Hmx & Hb). destruct (t_minmax L v) as [mn mx]. cbn [fst snd] in *.
    unfold sgt. change (@slt dbl_scalar) with dlt. change (@seqb dbl_scalar) with deq. change (@s0 dbl_scalar) with (dofZ 0).
    assert (Nm := Hn _ Hmn). assert (Nx := Hn _ Hmx).
    assert (Sn := sign_cases mn Nm). assert (Sx := sign_cases mx Nx).
    assert (P : positive_number mn -> all_positive v).
    { intros P x Hx. apply (le_positive mn x); auto. apply Hb; auto. }
    assert (N : negative_number mx -> all_negative v).
    { intros N x Hx. apply (le_negative x mx); auto. apply Hb; auto. }
    assert (P' : all_positive v -> positive_number mn) by (intros H; apply H; auto).
    assert (N' : all_negative v -> negative_number mx) by (intros H; apply H; auto).
    assert (P2 : all_positive v -> positive_number mx) by (intros H; apply H; auto).
    assert (N2 : all_negative v -> negative_number mn) by (intros H; apply H; auto).
    destruct (dlt mn (dofZ 0) && dlt (dofZ 0) mx)%bool eqn:C1.
    { apply andb_true_iff in C1. eexists. split; [reflexivity|]. right; right; right. split; [|eexists; reflexivity].
      destruct Sn as [D|[D|D]], Sx as [D'|[D'|D']]; intuition congruence. }
    destruct (deq mn (dofZ 0) || deq mx (dofZ 0))%bool eqn:C2.
    { apply orb_true_iff in C2. eexists. split; [reflexivity|]. right; right; right. split; [|eexists; reflexivity].
      destruct Sn as [D|[D|D]], Sx as [D'|[D'|D']]; intuition congruence. }
    apply orb_false_iff in C2. destruct C2 as [C2 C3].
    destruct (dlt (dx t) (dofZ 0) && dlt (dofZ 0) mn)%bool eqn:C4.
    { apply andb_true_iff in C4. eexists. split; [reflexivity|]. right; right; right. split; [|eexists; reflexivity].
      destruct Sd as [D|[D|D]], Sn as [D'|[D'|D']]; intuition congruence. }
    destruct (dlt (dofZ 0) (dx t) && dlt mx (dofZ 0))%bool eqn:C5.
    { apply andb_true_iff in C5. rewrite (abs_rho_dot_ok t v Hv Hl).
      eexists. split; [reflexivity|]. right; left. split; auto.
      destruct Sd as [D|[D|D]], Sx as [D'|[D'|D']]; intuition congruence. }
    destruct (dlt (dx t) (dofZ 0)) eqn:C6.
    { assert (Hi : inward t) by (destruct Sd as [D|[D|D]]; intuition congruence).
      destruct (reverse_all_ok occ_reversed t nodup_occ (Hs Hi)) as (A & EA & HA & HB).
      rewrite EA. cbn [bind].
      destruct (HA RHODOT) as (l & El & Al); [cbn; tauto|]. assert (l = v) by congruence. subst l.
      assert (El2 : arr (set_arr t A) RHODOT = Some (rev v)) by exact Al.
      rewrite (abs_rho_dot_ok (set_arr t A) (rev v) El2) by (rewrite zlen_rev; exact Hl). cbn [bind].
      eexists. split; [reflexivity|]. right; right; left. split; auto. split; auto. split.
      { destruct Sn as [D|[D|D]], Sx as [D'|[D'|D']]; try (intuition congruence).
        - rewrite (proj1 D), (proj1 (proj2 D')) in C1. discriminate C1.
        - cbn [andb] in C4. rewrite ?C6, (proj1 (proj2 D)) in C4. discriminate C4. }
      exists (arr (set_f (set_arr t A) RHODOT (Some (map dabs (rev v))))). split; [reflexivity|].
      split; [reflexivity|]. split.
      - intros f Hf Hne2. destruct (HA f Hf) as (lf & Ef & Af). exists lf. split; auto.
        rewrite set_f_neq by auto. exact Af.
      - intros f Hf. rewrite set_f_neq by (intros <-; apply Hf; cbn; tauto). apply HB; auto. }
    eexists. split; [reflexivity|]. left. split; auto.
    assert (Ho : outward t) by (destruct Sd as [D|[D|D]]; intuition congruence).
    split; auto. split; auto.
    assert (C7 : dlt (dofZ 0) (dx t) = true) by (destruct Sd as [D|[D|D]]; intuition congruence).
    rewrite C7 in C5. cbn [andb] in C5.
    destruct Sn as [D|[D|D]], Sx as [D'|[D'|D']]; try (intuition congruence).
    - rewrite (proj1 D), (proj1 (proj2 D')) in C1. discriminate C1.
  Qed.
End Orient.

(** ** Finishing *)
Section Finish.
  Context {S : scalar} (L : tmpl S).
  Local Notation tau := (tau S).
  Lemma resize_ok {A} (p q : option (list A)) st len : 0 <= len ->
    resize L p st len = Ok q ->
    exists l', q = Some l' /\ zlen l' = len /\ forall l, p = Some l -> piece l st len l'.
  Proof.
    intros Hn. unfold resize. intros E. apply bind_ok in E. destruct E as (u & _ & E).
    destruct p as [l|].
    - apply bind_ok in E. destruct E as (r & Er & E). injection E as <-.
      apply tabulate_ok in Er; auto. destruct Er as [Hl Hr].
      exists r. split; auto. split; auto. intros l0 El. injection El as <-. split; auto.
      intros i a Hi. specialize (Hr i Hi). rewrite !entry_aread, Hr. tauto.
    - destruct (Z.leb_spec len 0); [|discriminate E]. injection E as <-. exists []. split; auto.
      split; [cbn; lia|]. discriminate.
  Qed.
  Lemma resize_total {A} (l : list A) st len : 0 <= st -> 0 <= len -> st + len <= zlen l ->
    t_alloc L 8 = true -> exists q, resize L (Some l) st len = Ok q.
  Proof.
    intros Hs Hn Hl Ha. unfold resize, need. rewrite Ha. cbn [orb bind].
    destruct (tabulate_total len (fun n => aread l (st + n))) as [r Er]; auto.
    { intros i Hi. apply aread_in. lia. }
    rewrite Er. cbn [bind]. eauto.
  Qed.
  Lemma resize_all_ok fs : forall (t t' : tau), NoDup fs -> 0 <= n_used t ->
    resize_all L fs t = Ok t' ->
    t' = set_arr t (arr t') /\
    (forall f, In f fs -> exists l', arr t' f = Some l' /\ zlen l' = n_used t /\
       forall l, arr t f = Some l -> piece l (start t) (n_used t) l') /\
    (forall f, ~ In f fs -> arr t' f = arr t f).
  Proof.
    induction fs as [|f fs IH]; intros t t' Hnd Hn E.
    - injection E as <-. split; [destruct t; reflexivity|]. split; [intros f []|auto].
    - inversion Hnd; subst. cbn [resize_all] in E. apply bind_ok in E. destruct E as (t1 & E1 & E).
      unfold resize_f in E1. apply bind_ok in E1. destruct E1 as (v & Ev & E1). injection E1 as <-.
      apply IH in E; auto. destruct E as (E & HA & HB). cbn [n_used start set_f set_arr] in HA.
      destruct (resize_ok _ _ _ _ Hn Ev) as (l' & -> & Hl' & Hp). split; [exact E|]. split.
      + intros g [<-|Hg].
        * exists l'. rewrite HB by auto. rewrite set_f_eq. auto.
        * destruct (HA g Hg) as (lg & Eg & Lg & Pg). exists lg. split; auto. split; auto.
          intros l El. apply Pg. rewrite set_f_neq; auto. intros ->; contradiction.
      + intros g Hg. cbn in Hg. rewrite HB by tauto. apply set_f_neq. intuition congruence.
  Qed.
  Lemma resize_all_total fs : forall (t : tau), NoDup fs -> 0 <= start t -> 0 <= n_used t ->
    t_alloc L 8 = true ->
    (forall f, In f fs -> exists l, arr t f = Some l /\ start t + n_used t <= zlen l) ->
    exists t', resize_all L fs t = Ok t'.
  Proof.
    induction fs as [|f fs IH]; intros t Hnd Hs Hn Ha Hf; cbn [resize_all]; [eauto|].
    inversion Hnd; subst. destruct (Hf f (or_introl eq_refl)) as (l & El & Hl).
    unfold resize_f. rewrite El. destruct (resize_total l (start t) (n_used t)) as [q Eq]; auto.
    rewrite Eq. cbn [bind]. apply IH; auto.
    intros g Hg. destruct (Hf g (or_intror Hg)) as (lg & Eg & Hlg). exists lg.
    rewrite set_f_neq by (intros ->; contradiction). auto.
  Qed.
  Lemma nodup_finish : NoDup finish_resized.
  Proof. unfold finish_resized. repeat (constructor; [cbn; intuition congruence|]). constructor. Qed.

  Lemma finish_pieces (t t' : tau) : clean t -> 0 <= n_used t -> finish L t = Ok t' ->
    clean t' /\ aligned t' /\ n_used t' = n_used t /\ start t' = start t /\ use_fwd t' = use_fwd t /\ dx t' = dx t /\
    (forall f l, In f aligned_fields -> arr t f = Some l ->
       exists l', arr t' f = Some l' /\ piece l (start t) (n_used t) l') /\
    (forall T, T_in t = Some T -> exists T', T_in t' = Some T' /\ piece T (start t) (n_used t) T') /\
    (forall T, T_out t = Some T -> exists T', T_out t' = Some T' /\ piece T (start t) (n_used t) T') /\
    (forall T, use_fwd t = true -> T_fwd t = Some T -> exists T', T_fwd t' = Some T' /\ piece T (start t) (n_used t) T') /\
    (forall f, ~ In f aligned_fields -> arr t' f = arr t f).
  Proof.
    intros Hc Hn. unfold finish. rewrite guarded_clean by exact Hc. intros E.
    apply bind_ok in E. destruct E as (a & Ea & E).
    apply bind_ok in E. destruct E as (b & Eb & E).
    apply bind_ok in E. destruct E as (t3 & E3 & E).
    destruct (resize_ok _ _ _ _ Hn Ea) as (la & -> & Hla & Pa).
    destruct (resize_ok _ _ _ _ Hn Eb) as (lb & -> & Hlb & Pb).
    apply resize_all_ok in E3; [|apply nodup_finish|exact Hn]. destruct E3 as (E3 & HA & HB).
    cbn [n_used start arr set_T_in set_T_out T_in T_out T_fwd] in *.
    assert (U : use_fwd t3 = use_fwd t) by (rewrite E3; reflexivity).
    assert (N3 : n_used t3 = n_used t) by (rewrite E3; reflexivity).
    assert (S3 : start t3 = start t) by (rewrite E3; reflexivity).
    assert (F3 : T_fwd t3 = T_fwd t) by (rewrite E3; reflexivity).
    assert (I3 : T_in t3 = Some la) by (rewrite E3; reflexivity).
    assert (O3 : T_out t3 = Some lb) by (rewrite E3; reflexivity).
    assert (C3 : err t3 = None) by (rewrite E3; exact Hc).
    assert (D3 : dx t3 = dx t) by (rewrite E3; reflexivity).
    clear E3. change aligned_fields with finish_resized.
    assert (AL : forall t4, arr t4 = arr t3 -> T_in t4 = T_in t3 -> T_out t4 = T_out t3 -> arr_size t4 = n_used t3 ->
                 n_used t4 = n_used t3 -> use_fwd t4 = use_fwd t3 -> start t4 = start t3 -> err t4 = err t3 -> dx t4 = dx t3 ->
                 (use_fwd t = true -> exists T', T_fwd t4 = Some T' /\ zlen T' = n_used t /\
                    forall T, T_fwd t = Some T -> piece T (start t) (n_used t) T') ->
                 t' = t4 ->
      clean t' /\ aligned t' /\ n_used t' = n_used t /\ start t' = start t /\ use_fwd t' = use_fwd t /\ dx t' = dx t /\
    (forall f l, In f finish_resized -> arr t f = Some l ->
       exists l', arr t' f = Some l' /\ piece l (start t) (n_used t) l') /\
    (forall T, T_in t = Some T -> exists T', T_in t' = Some T' /\ piece T (start t) (n_used t) T') /\
    (forall T, T_out t = Some T -> exists T', T_out t' = Some T' /\ piece T (start t) (n_used t) T') /\
    (forall T, use_fwd t = true -> T_fwd t = Some T -> exists T', T_fwd t' = Some T' /\ piece T (start t) (n_used t) T') /\
    (forall f, ~ In f finish_resized -> arr t' f = arr t f)).
    { intros t4 H1 H2 H3 H4 H5 H6 H7 H8 H10 H9 ->. unfold clean, aligned.
      split; [congruence|]. split; [|split; [congruence|split; [congruence|split; [congruence|split; [congruence|]]]]].
      - split; [congruence|]. rewrite H4, N3, H1, H2, H3, I3, O3. split; [|split; [|split]].
        + intros f Hf. destruct (HA f Hf) as (l' & E1 & E2 & _). eauto.
        + eauto.
        + eauto.
        + rewrite H6, U. intros Hu. destruct (H9 Hu) as (T' & E1 & E2 & _). eauto.
      - split; [|split; [|split; [|split]]].
        + intros f l Hf El. destruct (HA f Hf) as (l' & E1 & E2 & E4). exists l'. rewrite H1. auto.
        + intros T ET. exists la. rewrite H2, I3. auto.
        + intros T ET. exists lb. rewrite H3, O3. auto.
        + intros T Hu ET. destruct (H9 Hu) as (T' & E1 & E2 & E4). eauto.
        + intros f Hf. rewrite H1. apply HB; auto. }
    cbn [use_fwd set_arr_size] in E. destruct (use_fwd t3) eqn:U3.
    - apply bind_ok in E. destruct E as (c & Ec & E). injection E as <-. cbn [T_fwd start n_used set_arr_size] in Ec.
      rewrite N3, S3 in Ec. destruct (resize_ok _ _ _ _ Hn Ec) as (lc & -> & Hlc & Pc).
      eapply AL; cycle -1; [reflexivity|try reflexivity..]; [exact U3|]. intros _. exists lc. split; [reflexivity|]. split; auto.
      intros T ET. apply Pc. congruence.
    - injection E as <-. eapply AL; cycle -1; [reflexivity|try reflexivity..]; [exact U3|]. intros Hu. congruence.
  Qed.
  Lemma finish_total (t : tau) : clean t -> 0 <= start t -> 0 <= n_used t -> t_alloc L 8 = true ->
    (forall f, In f aligned_fields -> exists l, arr t f = Some l /\ start t + n_used t <= zlen l) ->
    (exists T, T_in t = Some T /\ start t + n_used t <= zlen T) ->
    (exists T, T_out t = Some T /\ start t + n_used t <= zlen T) ->
    (use_fwd t = true -> exists T, T_fwd t = Some T /\ start t + n_used t <= zlen T) ->
    exists t', finish L t = Ok t'.
  Proof.
    intros Hc Hs Hn Ha Hf (Ti & Ei & Hi) (To & Eo & Ho) Hw. unfold finish. rewrite guarded_clean by exact Hc.
    rewrite Ei. destruct (resize_total Ti (start t) (n_used t)) as [q1 ->]; auto. cbn [bind].
    cbn [T_out set_T_in start n_used]. rewrite Eo. destruct (resize_total To (start t) (n_used t)) as [q2 ->]; auto. cbn [bind].
    destruct (resize_all_total finish_resized (set_T_out (set_T_in t q1) q2)) as [t3 E3]; auto.
    { apply nodup_finish. }
    rewrite E3. cbn [bind]. apply resize_all_ok in E3; [|apply nodup_finish|exact Hn]. destruct E3 as (E3 & _ & _).
    assert (U : use_fwd t3 = use_fwd t) by (rewrite E3; reflexivity).
    assert (N3 : n_used t3 = n_used t) by (rewrite E3; reflexivity).
    assert (S3 : start t3 = start t) by (rewrite E3; reflexivity).
    assert (F3 : T_fwd t3 = T_fwd t) by (rewrite E3; reflexivity).
    cbn [use_fwd set_arr_size T_fwd start n_used]. rewrite U, N3, S3, F3. destruct (use_fwd t); [|eauto].
    destruct (Hw eq_refl) as (Tf & -> & Hl). destruct (resize_total Tf (start t) (n_used t)) as [q3 ->]; auto. cbn [bind]. eauto.
  Qed.
End Finish.
