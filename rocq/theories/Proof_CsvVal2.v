(** * Proof_CsvVal2: the steps that combine tables, on columns with known values. *)
From Coq Require Import List ZArith Lia Bool Ascii FunctionalExtensionality.
From Verif Require Import Base BaseFacts Scalar Spec_Select Proof_Misc Model_Heap Model_Csv
  Model_CsvData Spec_Csv Spec_CsvData Proof_Heap Proof_CsvOwn Proof_CsvOwn2 Proof_CsvText Proof_Csv
  Proof_Csv2 Proof_CsvVal.
Import ListNotations.
Open Scope list_scope.
Open Scope Z_scope.

Lemma shift_length {A B} (f : A -> A -> B) (l : list A) : forall a, zlen (map2 f (a :: l) l) = zlen l.
Proof.
  induction l as [|b l IH]; intro a; [reflexivity|].
  change (map2 f (a :: b :: l) (b :: l)) with (f a b :: map2 f (b :: l) l).
  rewrite zlen_cons, IH, zlen_cons. reflexivity.
Qed.

Section Steps.
  Context {S : scalar}.
  Variable L : csvlib S.

  Lemma entry_map_some (vs : list S) i v : entry vs i v -> entry (map Some vs) i (Some v).
  Proof. intros [H E]. split; [exact H|]. rewrite nth_error_map, E. reflexivity. Qed.
  Lemma fetch_values (o : obj S) c vs i v : values_are o c vs -> entry vs i v -> fetch o c i = Ok v.
  Proof.
    intros [id E] X. unfold fetch. rewrite E. apply entry_map_some, entry_iff in X. rewrite X. reflexivity.
  Qed.

  (** [store] at the end of the part already written. *)
  Lemma store_at (o : obj S) c id ws x rest w :
    o_col o c = Some (id, map Some ws ++ x :: rest) ->
    store o c (zlen ws) w = Ok (with_col o c (Some (id, map Some (ws ++ [w]) ++ rest))).
  Proof.
    intro E. unfold store. rewrite E.
    destruct (awrite_in (map Some ws ++ x :: rest) (zlen ws) (Some w)) as [l W].
    { pose proof (zlen_nonneg ws). pose proof (zlen_nonneg rest). rewrite zlen_app, zlen_map, zlen_cons. lia. }
    rewrite W. cbn [bind]. do 4 f_equal. apply awrite_ok in W as [_ [Z1 [R1 R2]]].
    apply list_ext. intro n.
    assert (G : forall (m1 m2 : list (option S)), zlen m1 = zlen m2 ->
       (0 <= Z.of_nat n < zlen m2 -> aread m1 (Z.of_nat n) = aread m2 (Z.of_nat n)) ->
       nth_error m1 n = nth_error m2 n).
    { intros m1 m2 Zm X. destruct (nth_error m2 n) as [y|] eqn:En.
      - assert (B : 0 <= Z.of_nat n < zlen m2).
        { split; [lia|]. unfold zlen. assert (n < List.length m2)%nat by (apply nth_error_Some; congruence). lia. }
        specialize (X B).
        assert (Y : entry m2 (Z.of_nat n) y) by (split; [lia|rewrite Nat2Z.id; exact En]).
        apply entry_iff in Y. rewrite <- X in Y. apply entry_iff in Y as [_ Y]. rewrite Nat2Z.id in Y. exact Y.
      - apply nth_error_None in En. apply nth_error_None. unfold zlen in Zm. lia. }
    rewrite zlen_app, zlen_map, zlen_cons in Z1.
    apply G.
    - rewrite Z1, zlen_app, zlen_map, zlen_app, zlen_cons, zlen_nil. lia.
    - intros B. pose proof (zlen_nonneg ws) as Pw.
      destruct (Z.eq_dec (Z.of_nat n) (zlen ws)) as [->|Nn].
      + rewrite R1. symmetry. apply entry_iff. split; [lia|].
        rewrite nth_error_app1; [|rewrite map_length, app_length; unfold zlen; cbn; lia].
        rewrite nth_error_map, nth_error_app2 by (unfold zlen; lia).
        replace (Z.to_nat (zlen ws) - List.length ws)%nat with 0%nat by (unfold zlen; lia). reflexivity.
      + rewrite (R2 _ Nn).
        destruct (Z_lt_le_dec (Z.of_nat n) (zlen ws)) as [Lt|Ge].
        * rewrite aread_app1 by (rewrite zlen_map; lia).
          rewrite aread_app1 by (rewrite zlen_map, zlen_app, zlen_cons, zlen_nil; lia).
          rewrite !aread_map. rewrite aread_app1 by lia. reflexivity.
        * rewrite aread_app2 by (rewrite zlen_map; lia).
          rewrite aread_app2 by (rewrite zlen_map, zlen_app, zlen_cons, zlen_nil; lia).
          rewrite zlen_map, zlen_map, zlen_app, zlen_cons, zlen_nil.
          rewrite aread_cons_pos by lia. f_equal. lia.
  Qed.

  (** A loop that fills one column. *)
  Lemma fill_loop (body : Z -> obj S -> res (obj S)) c (o : obj S) id l0 ws :
    o_col o c = Some (id, l0) -> zlen l0 = zlen ws ->
    (forall i w done, entry ws i w -> zlen done = i ->
       body i (with_col o c (Some (id, map Some done ++ skipn (Z.to_nat i) l0))) =
       store (with_col o c (Some (id, map Some done ++ skipn (Z.to_nat i) l0))) c i w) ->
    for_range 0 (zlen ws) body o = Ok (with_col o c (Some (id, map Some ws))).
  Proof.
    intros E Z0 B.
    assert (G : forall todo done, ws = done ++ todo ->
      for_range (zlen done) (zlen todo) body
        (with_col o c (Some (id, map Some done ++ skipn (Z.to_nat (zlen done)) l0))) =
      Ok (with_col o c (Some (id, map Some ws)))).
    { induction todo as [|w todo IH]; intros done Q.
      - rewrite zlen_nil, for_range_0 by lia. rewrite app_nil_r in Q; subst done.
        rewrite skipn_all2 by (unfold zlen in *; lia). rewrite app_nil_r. reflexivity.
      - pose proof (zlen_nonneg todo) as Pt. pose proof (zlen_nonneg done) as Pd.
        rewrite zlen_cons, for_range_step by lia.
        assert (Lw : zlen ws = zlen done + zlen todo + 1) by (rewrite Q, zlen_app, zlen_cons; lia).
        rewrite (B _ w); [| |reflexivity].
        2:{ rewrite Q. split; [lia|]. rewrite nth_error_app2 by (unfold zlen; lia).
            replace (Z.to_nat (zlen done) - List.length done)%nat with 0%nat by (unfold zlen; lia). reflexivity. }
        assert (Sk : exists x, skipn (Z.to_nat (zlen done)) l0 = x :: skipn (Z.to_nat (zlen done) + 1) l0).
        { destruct (skipn (Z.to_nat (zlen done)) l0) as [|x r] eqn:Es.
          - assert (X : List.length (skipn (Z.to_nat (zlen done)) l0) = 0%nat) by (rewrite Es; reflexivity).
            rewrite skipn_length in X. unfold zlen in *. lia.
          - exists x. f_equal. clear -Es. revert l0 Es. generalize (Z.to_nat (zlen done)).
            induction n as [|n IHn]; intros l0 Es; [destruct l0; [discriminate|cbn in *; congruence]|].
            destruct l0 as [|y l0]; [discriminate|]. exact (IHn _ Es). }
        destruct Sk as [x Sk]. rewrite Sk.
        rewrite (store_at _ c id done x (skipn (Z.to_nat (zlen done) + 1) l0) w) by apply with_col_same.
        cbn [bind]. rewrite with_col_twice.
        replace (zlen todo + 1 - 1) with (zlen todo) by lia.
        specialize (IH (done ++ [w])).
        rewrite zlen_app, zlen_cons, zlen_nil in IH.
        replace (Z.to_nat (zlen done + (0 + 1))) with (Z.to_nat (zlen done) + 1)%nat in IH by lia.
        replace (zlen done + (0 + 1)) with (zlen done + 1) in IH by lia.
        apply IH. rewrite Q, <- app_assoc. reflexivity. }
    specialize (G ws [] eq_refl). cbn [map app zlen] in G. rewrite zlen_nil in G.
    cbn [Z.to_nat skipn app] in G. rewrite <- E, with_col_id in G. exact G.
  Qed.

  Lemma store_list_all c (o : obj S) id l0 ws :
    o_col o c = Some (id, l0) -> zlen l0 = zlen ws ->
    store_list o c 0 ws = Ok (with_col o c (Some (id, map Some ws))).
  Proof.
    intros E Z0.
    assert (G : forall todo done, ws = done ++ todo ->
      store_list (with_col o c (Some (id, map Some done ++ skipn (List.length done) l0))) c (zlen done) todo =
      Ok (with_col o c (Some (id, map Some ws)))).
    { induction todo as [|w todo IH]; intros done Q.
      - cbn. rewrite app_nil_r in Q; subst done. rewrite skipn_all2 by (unfold zlen in *; lia).
        rewrite app_nil_r. reflexivity.
      - cbn [store_list].
        assert (Lw : zlen ws = zlen done + zlen todo + 1) by (rewrite Q, zlen_app, zlen_cons; lia).
        pose proof (zlen_nonneg todo) as Pt.
        assert (Sk : exists x, skipn (List.length done) l0 = x :: skipn (List.length done + 1) l0).
        { destruct (skipn (List.length done) l0) as [|x r] eqn:Es.
          - assert (X : List.length (skipn (List.length done) l0) = 0%nat) by (rewrite Es; reflexivity).
            rewrite skipn_length in X. unfold zlen in *. lia.
          - exists x. f_equal. clear -Es. revert l0 Es. generalize (List.length done).
            induction n as [|n IHn]; intros l0 Es; [destruct l0; [discriminate|cbn in *; congruence]|].
            destruct l0 as [|y l0]; [discriminate|]. exact (IHn _ Es). }
        destruct Sk as [x Sk]. rewrite Sk.
        rewrite (store_at _ c id done x (skipn (List.length done + 1) l0) w) by apply with_col_same.
        cbn [bind]. rewrite with_col_twice.
        specialize (IH (done ++ [w])).
        rewrite zlen_app, zlen_cons, zlen_nil, app_length in IH. cbn [List.length] in IH.
        replace (zlen done + (0 + 1)) with (zlen done + 1) in IH by lia.
        apply IH. rewrite Q, <- app_assoc. reflexivity. }
    specialize (G ws [] eq_refl). cbn [map app List.length skipn] in G. rewrite zlen_nil in G.
    rewrite <- E, with_col_id in G. exact G.
  Qed.

  (** ** Interpolation *)
  Lemma values_some (vs : list S) : values (map Some vs) = Ok vs.
  Proof. induction vs as [|v r IH]; cbn; [reflexivity|rewrite IH; reflexivity]. Qed.
  Lemma cells_values (o : obj S) c vs from len :
    values_are o c vs -> 0 <= from <= zlen vs -> len = zlen vs - from ->
    cells o c from len = Ok (skipn (Z.to_nat from) vs).
  Proof.
    intros [id E] B ->. unfold cells. rewrite E, zlen_map.
    destruct (Z.leb_spec 0 from); [|lia]. destruct (Z.leb_spec from (zlen vs)); [|lia]. cbn [andb].
    rewrite skipn_map. rewrite aprefix_all.
    - cbn [bind]. apply values_some.
    - rewrite zlen_map. unfold zlen. rewrite skipn_length. unfold zlen in *. lia.
  Qed.
  Lemma cells_all (o : obj S) c vs n : values_are o c vs -> n = zlen vs -> cells o c 0 n = Ok vs.
  Proof.
    intros V ->. rewrite (cells_values o c vs 0 _ V); [reflexivity| |lia]. pose proof (zlen_nonneg vs). lia.
  Qed.

  Hypothesis IL : interp_law L.
  Lemma interpolate_ok (src dst : obj S) x y from len at_ out xs ys ps id l0 :
    values_are src x xs -> values_are src y ys -> zlen ys = zlen xs ->
    0 <= from <= zlen xs -> len = zlen xs - from ->
    values_are dst at_ ps -> o_n dst = zlen ps ->
    o_col dst out = Some (id, l0) -> zlen l0 = zlen ps ->
    interpolate L src x y from len at_ out dst =
    Ok (with_col dst out (Some (id, map Some
          (l_interp L (skipn (Z.to_nat from) xs) (skipn (Z.to_nat from) ys) ps)))).
  Proof using IL.
    intros X Y Zy B Ln P N O Z0. unfold interpolate.
    rewrite (cells_values src x xs from len X B Ln). cbn [bind].
    rewrite (cells_values src y ys from len Y) by (rewrite Zy; assumption). cbn [bind].
    rewrite (cells_all dst at_ ps _ P N). cbn [bind].
    apply (store_list_all out dst id l0); [exact O|].
    rewrite Z0. unfold zlen. rewrite IL. reflexivity.
  Qed.

  (** ** Radial velocities *)
  Definition step_range (s : S * S) (v : S) : S * S :=
    (if slt v (fst s) then v else fst s, if slt (snd s) v then v else snd s).
  Lemma for_fold {A B} (g : A -> B -> A) (f : Z -> res B) (vs : list B) : forall lo s,
    (forall i v, entry vs i v -> f (lo + i) = Ok v) ->
    for_range lo (zlen vs) (fun n s => do v <- f n; Ok (g s v)) s = Ok (fold_left g vs s).
  Proof.
    induction vs as [|v r IH]; intros lo s F.
    - rewrite zlen_nil, for_range_0 by lia. reflexivity.
    - pose proof (zlen_nonneg r). rewrite zlen_cons, for_range_step by lia.
      replace (f lo) with (Ok v); [|symmetry; rewrite <- (Z.add_0_r lo); apply F; apply entry_cons; left; auto].
      cbn [bind fold_left]. replace (zlen r + 1 - 1) with (zlen r) by lia. apply IH.
      intros i w E. replace (lo + 1 + i) with (lo + (i + 1)) by lia. apply F.
      apply entry_cons; right. destruct E as [Hi E]. split; [lia|].
      replace (i + 1 - 1) with i by lia. split; assumption.
  Qed.
  Lemma differences_length (l : list S) : zlen (differences l) = Z.max 0 (zlen l - 1).
  Proof.
    unfold differences. destruct l as [|a l]; [reflexivity|]. cbn [tl].
    rewrite shift_length, zlen_cons. pose proof (zlen_nonneg l). lia.
  Qed.
  Lemma differences_entry (l : list S) : forall i a b, entry l i a -> entry l (i + 1) b ->
    entry (differences l) i (b - a)%S.
  Proof.
    intros i a b E1 E2. unfold differences. apply (map2_entry (fun a b => (b - a)%S)); [exact E1|].
    destruct l as [|x l]; [destruct (entry_nil _ _ E1)|]. cbn [tl].
    apply entry_cons in E2 as [[X _]|[_ E2]]; [destruct E1; lia|]. replace (i + 1 - 1) with i in E2 by lia. exact E2.
  Qed.
  Lemma speeds_length (r t : list S) : zlen r = zlen t -> zlen (speeds r t) = Z.max 0 (zlen r - 1).
  Proof.
    intro E. unfold speeds. rewrite <- differences_length. unfold zlen. f_equal. apply map2_length.
    assert (X : zlen (differences r) = zlen (differences t)) by (rewrite !differences_length; lia).
    unfold zlen in X. lia.
  Qed.
  Lemma speed_range_ok (o : obj S) r t :
    values_are o cRHO r -> values_are o cTSET t -> zlen r = zlen t -> o_n o = zlen r ->
    0 < zlen r < two64 ->
    speed_range o = Ok (fold_left step_range (speeds r t) (big, (- big)%S)).
  Proof.
    intros Vr Vt E N B. unfold speed_range.
    replace (wrap64 (o_n o - 1)) with (zlen (speeds r t)).
    2:{ rewrite speeds_length by exact E. rewrite N. unfold wrap64. rewrite Z.mod_small by lia. lia. }
    transitivity (for_range 0 (zlen (speeds r t))
       (fun n s => do v <- radial_speed o n; Ok (step_range s v)) (big, (- big)%S)).
    { apply for_range_ext. intros n [mn mx] _. reflexivity. }
    apply for_fold. intros i v Ev. rewrite Z.add_0_l.
    pose proof (entry_bound _ _ _ Ev) as Bi. rewrite speeds_length in Bi by exact E.
    destruct (entry_in r i ltac:(lia)) as [r0 R0]. destruct (entry_in r (i + 1) ltac:(lia)) as [r1 R1].
    destruct (entry_in t i ltac:(lia)) as [t0 T0]. destruct (entry_in t (i + 1) ltac:(lia)) as [t1 T1].
    unfold radial_speed. rewrite (fetch_values o cRHO r _ _ Vr R1). cbn [bind].
    rewrite (fetch_values o cRHO r _ _ Vr R0). cbn [bind].
    rewrite (fetch_values o cTSET t _ _ Vt T1). cbn [bind].
    rewrite (fetch_values o cTSET t _ _ Vt T0). cbn [bind].
    f_equal. apply (entry_fun (speeds r t) i); [|exact Ev].
    unfold speeds. apply map2_entry; apply differences_entry; assumption.
  Qed.

  (** ** Reversal and search *)
  Lemma reverse_col_ok (o : obj S) c id vs :
    o_col o c = Some (id, map Some vs) -> o_n o = zlen vs ->
    reverse_col o c = Ok (with_col o c (Some (id, map Some (rev vs)))).
  Proof.
    intros E N. unfold reverse_col. rewrite E, N, aprefix_all by (rewrite zlen_map; reflexivity).
    cbn [bind]. rewrite skipn_all2 by (rewrite map_length; unfold zlen; lia).
    rewrite app_nil_r, map_rev. reflexivity.
  Qed.
  Lemma values_with (o : obj S) c d id vs ws :
    values_are o d ws -> d <> c -> values_are (with_col o c (Some (id, map Some vs))) d ws.
  Proof. intros [i E] N. exists i. rewrite with_col_other by exact N. exact E. Qed.
  Lemma values_same (o : obj S) c id vs : values_are (with_col o c (Some (id, map Some vs))) c vs.
  Proof. exists id. apply with_col_same. Qed.

  Definition geo_cols : list col := [cRHO; cRHODOT; cD; cRX; cRY; cRZ].
  Definition reversed_of (g : obj S) (f : col -> list S) (g1 : obj S) : Prop :=
    o_err g1 = o_err g /\ o_n g1 = o_n g /\ o_id g1 = o_id g /\
    forall c, In c geo_cols -> values_are g1 c (rev (f c)).
  Lemma reverse_step cs : forall (o : obj S) (f : col -> list S),
    NoDup cs -> (forall c, In c cs -> values_are o c (f c) /\ o_n o = zlen (f c)) ->
    exists o1, fold_left (fun r c => do o <- r; reverse_col o c) cs (Ok o) = Ok o1 /\
      o_err o1 = o_err o /\ o_n o1 = o_n o /\ o_id o1 = o_id o /\
      (forall c, In c cs -> values_are o1 c (rev (f c))) /\
      (forall c, ~ In c cs -> o_col o1 c = o_col o c).
  Proof.
    induction cs as [|c r IH]; intros o f ND V.
    - exists o. repeat split; auto. intros c [].
    - inversion ND as [|? ? Nc Nr]; subst. cbn [fold_left].
      destruct (V c (or_introl eq_refl)) as [[id E] N]. cbn [bind].
      rewrite (reverse_col_ok o c id (f c) E N).
      destruct (IH (with_col o c (Some (id, map Some (rev (f c))))) f Nr) as [o1 [E1 [X1 [X2 [X3 [X4 X5]]]]]].
      { intros d I. destruct (V d (or_intror I)) as [Vd Nd]. split; [|exact Nd].
        apply values_with; [exact Vd|]. intros ->; contradiction. }
      exists o1. split; [exact E1|]. split; [exact X1|]. split; [exact X2|]. split; [exact X3|]. split.
      + intros d [<-|I]; [|apply X4; exact I]. exists id. rewrite (X5 c Nc). apply with_col_same.
      + intros d Nd. rewrite (X5 d) by (intro; apply Nd; right; assumption).
        apply with_col_other. intros ->; apply Nd; left; reflexivity.
  Qed.
  Lemma reverse_geo_ok (g : obj S) f :
    (forall c, In c geo_cols -> values_are g c (f c) /\ o_n g = zlen (f c)) ->
    exists g1, reverse_geo g = Ok g1 /\ reversed_of g f g1.
  Proof.
    intro V. destruct (reverse_step geo_cols g f) as [g1 [E [X1 [X2 [X3 [X4 _]]]]]].
    { unfold geo_cols; nodup_tac. }
    { exact V. }
    exists g1. split; [|repeat split; assumption].
    rewrite <- E. unfold reverse_geo, geo_cols. cbn [fold_left bind].
    destruct (reverse_col g cRHO) as [a1|]; [|reflexivity]. cbn [bind].
    destruct (reverse_col a1 cRHODOT) as [a2|]; [|reflexivity]. cbn [bind].
    destruct (reverse_col a2 cD) as [a3|]; [|reflexivity]. cbn [bind].
    destruct (reverse_col a3 cRX) as [a4|]; [|reflexivity]. cbn [bind].
    destruct (reverse_col a4 cRY) as [a5|]; [|reflexivity]. reflexivity.
  Qed.

  Lemma seek_ok wrong (g : obj S) vs j :
    values_are g cRHODOT vs -> o_n g = zlen vs ->
    first_at (fun v => wrong v = false) vs j ->
    seek (seek_fuel g) wrong g 0 = Ok j.
  Proof.
    intros V N [[v [Ev Pv]] F]. pose proof (entry_bound _ _ _ Ev) as Bj.
    assert (G : forall fuel i, 0 <= i <= j -> (Z.to_nat (j - i) < fuel)%nat ->
      seek fuel wrong g i = Ok j).
    { induction fuel as [|k IH]; intros i Bi Fu; [lia|]. cbn [seek].
      destruct (Z.eq_dec i j) as [->|Ni].
      - rewrite (fetch_values g cRHODOT vs j v V Ev). cbn [bind]. rewrite Pv. reflexivity.
      - destruct (entry_in vs i ltac:(lia)) as [w Ew].
        rewrite (fetch_values g cRHODOT vs i w V Ew). cbn [bind].
        destruct (wrong w) eqn:Q; [|exfalso; exact (F i w Ew ltac:(lia) Q)].
        destruct (Z.leb_spec (o_n g) i); [lia|]. apply IH; lia. }
    apply G; [lia|]. unfold seek_fuel. rewrite N. lia.
  Qed.
  Lemma seek_none wrong (g : obj S) vs :
    values_are g cRHODOT vs -> o_n g = zlen vs ->
    (forall v, In v vs -> wrong v = true) ->
    seek (seek_fuel g) wrong g 0 = UB OutOfBounds.
  Proof.
    intros V N F.
    assert (G : forall fuel i, 0 <= i <= zlen vs -> (Z.to_nat (zlen vs - i) < fuel)%nat ->
      seek fuel wrong g i = UB OutOfBounds).
    { induction fuel as [|k IH]; intros i Bi Fu; [lia|]. cbn [seek].
      destruct (Z.eq_dec i (zlen vs)) as [->|Ni].
      - destruct V as [id E]. unfold fetch. rewrite E.
        rewrite aread_out by (rewrite zlen_map; lia). reflexivity.
      - destruct (entry_in vs i ltac:(lia)) as [w Ew].
        rewrite (fetch_values g cRHODOT vs i w V Ew). cbn [bind].
        rewrite (F w (entry_In _ _ _ Ew)).
        destruct (Z.leb_spec (o_n g) i); [lia|]. apply IH; lia. }
    apply G; [pose proof (zlen_nonneg vs); lia|]. unfold seek_fuel. rewrite N. pose proof (zlen_nonneg vs). lia.
  Qed.
End Steps.
