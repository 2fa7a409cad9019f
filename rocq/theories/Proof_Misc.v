(** * Proof_Misc: proofs of C47-C50. *)
From Coq Require Import List ZArith Bool String Lia Lra Reals.
From Verif Require Import Base BaseFacts Dbl DblFacts Scalar Model_TauRec Model_Checks Model_Recon Model_Misc
  Spec_Tau Spec_Select Spec_Safety Spec_Misc.
Import ListNotations.
Open Scope list_scope.
Open Scope Z_scope.

(** ** C47 *)
Definition row (p : Z * Z * string) : Z := fst (fst p).
Definition lookup (year doy : Z) : option string :=
  match find (fun p => (fst (fst p) =? year) && (snd (fst p) =? doy)) occultations with
  | Some p => Some (snd p) | None => None end.
Fixpoint find_rows (ys ds : list Z) (rs : list string) (year doy : Z) : option string :=
  match ys, ds, rs with
  | y :: ys, d :: ds, r :: rs => if (y =? year) && (d =? doy) then Some r else find_rows ys ds rs year doy
  | _, _, _ => None
  end.
Lemma skipn_succ {A} n : forall (l : list A) a r, skipn n l = a :: r -> skipn (Datatypes.S n) l = r.
Proof.
  induction n as [|n IH]; intros [|x l] a r E; try discriminate E.
  - cbn in *. congruence.
  - cbn [skipn] in E. exact (IH l a r E).
Qed.
Lemma aread_cons_pos {A} (x : A) l i : 0 < i -> aread (x :: l) i = aread l (i - 1).
Proof.
  intros Hi. unfold aread. rewrite zlen_cons. destruct (Z.ltb_spec i 0); [lia|]. destruct (Z.ltb_spec (i - 1) 0); [lia|].
  destruct (Z.leb_spec (zlen l + 1) i); destruct (Z.leb_spec (zlen l) (i - 1)); try lia; [reflexivity|].
  replace (Z.to_nat i) with (Datatypes.S (Z.to_nat (i - 1))) by lia. reflexivity.
Qed.
Lemma aread_skip {A} (l : list A) n a r : 0 <= n -> skipn (Z.to_nat n) l = a :: r -> aread l n = Ok a /\ skipn (Z.to_nat (n + 1)) l = r.
Proof.
  intros Hn E. assert (L : (Z.to_nat n < List.length l)%nat).
  { destruct (Nat.lt_ge_cases (Z.to_nat n) (List.length l)); auto. rewrite skipn_all2 in E by lia. discriminate. }
  split.
  - apply aread_ok. split; [unfold zlen; lia|]. rewrite <- (firstn_skipn (Z.to_nat n) l). rewrite nth_error_app2 by (rewrite firstn_length; lia).
    rewrite firstn_length, Nat.min_l, Nat.sub_diag, E by lia. reflexivity.
  - replace (Z.to_nat (n + 1)) with (Datatypes.S (Z.to_nat n)) by lia.
    apply (skipn_succ _ _ a). exact E.
Qed.
Lemma rev_loop_find k n year doy :
  0 <= n ->
  List.length (skipn (Z.to_nat n) rev_year_vals) = k -> List.length (skipn (Z.to_nat n) rev_doy_vals) = k ->
  List.length (skipn (Z.to_nat n) rev_number_vals) = k ->
  rev_loop k n year doy =
  Ok (find_rows (skipn (Z.to_nat n) rev_year_vals) (skipn (Z.to_nat n) rev_doy_vals) (skipn (Z.to_nat n) rev_number_vals) year doy).
Proof.
  revert n. induction k as [|k IH]; intros n Hn H1 H2 H3.
  - destruct (skipn (Z.to_nat n) rev_year_vals); [|discriminate]. reflexivity.
  - destruct (skipn (Z.to_nat n) rev_year_vals) as [|y ys] eqn:E1; [discriminate|].
    destruct (skipn (Z.to_nat n) rev_doy_vals) as [|d ds] eqn:E2; [discriminate|].
    destruct (skipn (Z.to_nat n) rev_number_vals) as [|r rs] eqn:E3; [discriminate|].
    destruct (aread_skip _ _ _ _ Hn E1) as [R1 S1]. destruct (aread_skip _ _ _ _ Hn E2) as [R2 S2]. destruct (aread_skip _ _ _ _ Hn E3) as [R3 S3].
    cbn [List.length] in *. cbn [rev_loop find_rows]. rewrite R1. cbn [bind]. rewrite (Z.eqb_sym year y).
    specialize (IH (n + 1) ltac:(lia)). rewrite S1, S2, S3 in IH.
    destruct (y =? year); cbn [negb andb]; [|apply IH; lia].
    rewrite R2. cbn [bind]. rewrite (Z.eqb_sym doy d). destruct (d =? doy); cbn [negb]; [|apply IH; lia].
    rewrite R3. reflexivity.
Qed.
Lemma find_rows_table : forall year doy,
  find_rows rev_year_vals rev_doy_vals rev_number_vals year doy = lookup year doy.
Proof.
  intros year doy. unfold lookup.
  assert (G : forall tb, find_rows (map (fun p => fst (fst p)) tb) (map (fun p => snd (fst p)) tb) (map snd tb) year doy =
    match find (fun p : Z * Z * string => (fst (fst p) =? year) && (snd (fst p) =? doy)) tb with Some p => Some (snd p) | None => None end).
  { induction tb as [|[[y d] r] tb IH]; [reflexivity|]. cbn [map find find_rows fst snd].
    destruct ((y =? year) && (d =? doy)); [reflexivity|exact IH]. }
  rewrite <- G. reflexivity.
Qed.
Lemma date_to_rev_lookup year doy : date_to_rev year doy = Ok (lookup year doy).
Proof.
  assert (T : forall p, In p occultations -> 2005 <= fst (fst p) <= 2017 /\ snd (fst p) <= 366).
  { apply Forall_forall. unfold occultations. repeat (constructor; [cbn; lia|]). constructor. }
  assert (N : ~ (2005 <= year <= 2017 /\ doy <= 366) -> lookup year doy = None).
  { intros H. unfold lookup. destruct (find _ _) as [[[y d] r]|] eqn:E; [|reflexivity]. exfalso. apply H.
    apply find_some in E. destruct E as [I E]. apply andb_prop in E. cbn in E. destruct E as [Ea Eb]. apply Z.eqb_eq in Ea, Eb. subst. exact (T _ I). }
  unfold date_to_rev. destruct (Z.ltb_spec year 2005); [rewrite N by lia; reflexivity|].
  destruct (Z.ltb_spec 2017 year); [rewrite N by lia; reflexivity|].
  destruct (Z.ltb_spec 366 doy); [rewrite N by lia; reflexivity|].
  rewrite (rev_loop_find _ 0 year doy) by (reflexivity || lia). cbn [Z.to_nat skipn]. rewrite find_rows_table. reflexivity.
Qed.
Lemma rev_correct year doy : exists r, date_to_rev year doy = Ok r /\
  match r with
  | Some s => In (year, doy, s) occultations
  | None => forall s, ~ In (year, doy, s) occultations
  end.
Proof.
  exists (lookup year doy). split; [apply date_to_rev_lookup|]. unfold lookup.
  destruct (find _ _) as [[[y d] r]|] eqn:E.
  - apply find_some in E. destruct E as [I E]. apply andb_prop in E. cbn in E. destruct E as [Ea Eb]. apply Z.eqb_eq in Ea, Eb. subst. exact I.
  - intros s I. pose proof (find_none _ _ E _ I) as F. cbn in F. rewrite !Z.eqb_refl in F. discriminate.
Qed.
Lemma rev_unique year doy s : In (year, doy, s) occultations -> (year, doy) <> (2017, 135) -> date_to_rev year doy = Ok (Some s).
Proof.
  intros I N. rewrite date_to_rev_lookup. f_equal. revert I N.
  assert (F : Forall (fun p => (fst (fst p), snd (fst p)) <> (2017, 135) -> lookup (fst (fst p)) (snd (fst p)) = Some (snd p)) occultations).
  { unfold occultations. repeat (constructor; [first [intros _; reflexivity | intros H; exfalso; apply H; reflexivity]|]). constructor. }
  intros I N. rewrite Forall_forall in F. exact (F _ I N).
Qed.

(** ** C48 *)
Lemma flat_length (ps : list (string * string)) : List.length (flat_map (fun p => [Str (fst p); Str (snd p)]) ps) = (2 * List.length ps)%nat.
Proof. induction ps; cbn [flat_map List.length app]; [reflexivity|]. rewrite IHps. lia. Qed.
Lemma aread_at {A} (a : list A) x b : aread (a ++ x :: b) (zlen a) = Ok x.
Proof.
  apply aread_ok. split; [unfold zlen; rewrite app_length; cbn [List.length]; lia|]. unfold zlen. rewrite Nat2Z.id.
  rewrite nth_error_app2 by lia. rewrite Nat.sub_diag. reflexivity.
Qed.
Lemma print_pairs_ok ps : forall k tb pre rest acc,
  tb = pre ++ flat_map (fun p => [Str (fst p); Str (snd p)]) ps ++ Null :: rest -> List.length tb = 17%nat ->
  (List.length ps < k)%nat ->
  print_pairs k tb (zlen pre) acc = Ok (acc ++ map (fun p => PairLine (fst p) (snd p)) ps).
Proof.
  induction ps as [|[a b] ps IH]; intros k tb pre rest acc E L K.
  - destruct k as [|k]; [cbn in K; lia|]. cbn [flat_map app] in E. cbn [print_pairs map]. rewrite E, aread_at. cbn [bind slot_set]. rewrite app_nil_r. reflexivity.
  - destruct k as [|k]; [cbn in K; lia|]. cbn [List.length] in K. cbn [print_pairs].
    cbn [flat_map app fst snd] in E.
    assert (R1 : aread tb (zlen pre) = Ok (Str a)) by (rewrite E; apply aread_at).
    assert (R2 : aread tb (zlen pre + 1) = Ok (Str b)).
    { assert (E' : tb = (pre ++ [Str a]) ++ Str b :: flat_map (fun p => [Str (fst p); Str (snd p)]) ps ++ Null :: rest) by (rewrite E, <- app_assoc; reflexivity).
      rewrite E'. replace (zlen pre + 1) with (zlen (pre ++ [Str a])) by (unfold zlen; rewrite app_length; cbn; lia). apply aread_at. }
    rewrite R1. cbn [bind slot_set slot_text]. rewrite R2. cbn [bind slot_text].
    assert (LP : (List.length pre + 2 * List.length ps + 2 + 1 + List.length rest = 17)%nat).
    { rewrite <- L, E, app_length. cbn [List.length]. rewrite app_length, flat_length. cbn [List.length]. lia. }
    destruct (Z.leb_spec 17 (zlen pre + 2)) as [H|_]; [unfold zlen in H; lia|].
    replace (zlen pre + 2) with (zlen (pre ++ [Str a; Str b])) by (unfold zlen; rewrite app_length; cbn; lia).
    rewrite (IH k tb (pre ++ [Str a; Str b]) rest).
    + cbn [map fst snd]. rewrite <- app_assoc. reflexivity.
    + rewrite E. rewrite <- app_assoc. reflexivity.
    + exact L.
    + lia.
Qed.
Lemma table_pairs ps tb : table_of ps tb -> (List.length ps <= 8)%nat.
Proof. intros (L & rest & E). subst. rewrite app_length, flat_length in L. cbn in L. lia. Qed.
Lemma print_table_ok ps tb : table_of ps tb -> print_table tb = Ok (table_lines ps).
Proof.
  intros H. pose proof (table_pairs _ _ H) as P. destruct H as (L & rest & E). unfold print_table, table_lines.
  destruct ps as [|[a b] ps].
  - cbn [flat_map app] in E. subst. reflexivity.
  - replace (aread tb 0) with (@Ok slot (Str a)) by (subst; reflexivity). cbn [bind slot_set].
    change 0 with (zlen (@nil slot)). rewrite (print_pairs_ok ((a, b) :: ps) 18 tb [] rest []); [reflexivity|exact E|exact L|cbn in *; lia].
Qed.
Lemma print_header_ok hs k : print_header (map Str hs) k = Ok (map (fun p => HeaderLine (fst p) (snd p)) (combine (map (fun i => k + Z.of_nat i) (seq 0 (List.length hs))) hs)).
Proof.
  revert k. induction hs as [|h hs IH]; intros k; [reflexivity|]. cbn [map print_header slot_text bind List.length seq combine fst snd].
  rewrite IH. cbn [bind]. rewrite <- seq_shift, map_map.
  rewrite (map_ext (fun i => k + 1 + Z.of_nat i) (fun x => k + Z.of_nat (Datatypes.S x))) by (intros; lia).
  cbn [Z.of_nat]. rewrite Z.add_0_r. reflexivity.
Qed.
Lemma history_print_ok hs vs ks tv tk : table_of vs tv -> table_of ks tk ->
  history_print (Some (mkHistory (map Str hs) tv tk)) =
  Ok (header_lines hs ++ [TextLine "Input Arguments:"] ++ table_lines vs ++ [TextLine "Input Keywords:"] ++ table_lines ks)%list.
Proof.
  intros Hv Hk. unfold history_print. cbn [h_header h_vars h_kwds]. rewrite print_header_ok. cbn [bind].
  rewrite (print_table_ok _ _ Hv), (print_table_ok _ _ Hk). cbn [bind]. reflexivity.
Qed.
Lemma history_print_full hs tv tk : (forall c, In c tv -> exists s, c = Str s) -> List.length tv = 17%nat ->
  history_print (Some (mkHistory (map Str hs) tv tk)) = UB OutOfBounds.
Proof.
  intros H L. unfold history_print. cbn [h_header h_vars]. rewrite print_header_ok. cbn [bind].
  assert (E : print_table tv = UB OutOfBounds); [|rewrite E; reflexivity].
  do 17 (destruct tv as [|c tv]; [discriminate L|]; destruct (H c) as [? ->]; [cbn; tauto|]; assert (H' : forall d, In d tv -> exists s, d = Str s) by (intros d Hd; apply H; right; exact Hd); clear H; rename H' into H).
  destruct tv; [|discriminate L]. reflexivity.
Qed.

(** ** C49 *)
Section Fill.
  Context {S : scalar}.
  Lemma fill_ok (T : list (option (cplx S))) lo cnt f (g : Z -> option (cplx S)) :
    0 <= lo -> 0 <= cnt -> lo + cnt <= zlen T -> (forall n, lo <= n < lo + cnt -> f n = Ok (g n)) ->
    exists T', fill T lo cnt f = Ok T' /\ zlen T' = zlen T /\
      forall j, aread T' j = if (lo <=? j) && (j <? lo + cnt) then Ok (g j) else aread T j.
  Proof.
    intros Hl Hc Hz Hf. unfold fill.
    destruct (for_range_total (fun i U => zlen U = zlen T /\ forall j, aread U j = if (lo <=? j) && (j <? i) then Ok (g j) else aread T j)
      lo cnt (fun n T => do v <- f n; awrite T n v) T) as (T' & E & H); [lia| | |].
    - split; [reflexivity|]. intros j. destruct (Z.leb_spec lo j); destruct (Z.ltb_spec j lo); cbn; try lia; reflexivity.
    - intros i U Hi [HL HU]. rewrite Hf by lia. cbn [bind]. destruct (awrite_in U i (g i)) as [U' E]; [lia|]. exists U'. split; [exact E|].
      destruct (awrite_ok _ _ _ _ E) as (_ & L' & R & O). split; [lia|]. intros j. destruct (Z.eq_dec j i) as [->|N].
      + destruct (Z.leb_spec lo i); destruct (Z.ltb_spec i (i + 1)); try lia. exact R.
      + rewrite O, HU by lia. destruct (Z.leb_spec lo j); destruct (Z.ltb_spec j i); destruct (Z.ltb_spec j (i + 1)); cbn; try lia; reflexivity.
    - exists T'. split; [exact E|exact H].
  Qed.
  Lemma fill_all (T : list (option (cplx S))) v : forall n, n = zlen T ->
    fill T 0 n (fun _ => Ok v) = Ok (map (fun _ => v) T).
  Proof.
    intros n ->. destruct (fill_ok T 0 (zlen T) (fun _ => Ok v) (fun _ => v)) as (T' & E & L & R); [lia|unfold zlen; lia|lia|reflexivity|].
    rewrite E. f_equal. apply aread_ext; [rewrite zlen_map; exact L|]. intros i Hi. rewrite R, aread_map.
    destruct (aread_in T i ltac:(lia)) as [a ->]. cbn [bind]. destruct (Z.leb_spec 0 i); destruct (Z.ltb_spec i (0 + zlen T)); try lia. reflexivity.
  Qed.
  (** The scan stops at the first sample that is not left of the edge. *)
  Lemma edge_scan_ok center v : forall (rho : list S) k T, 0 <= k -> k + zlen rho <= zlen T ->
    (exists r, In r rho /\ slt r center = false) ->
    exists n T', edge_scan rho center v k T = Ok (n, T') /\ zlen T' = zlen T /\ k <= n < k + zlen rho /\
      (forall j r, k <= j < n -> aread rho (j - k) = Ok r -> slt r center = true) /\
      (forall r, aread rho (n - k) = Ok r -> slt r center = false) /\
      (forall j, aread T' j = if (k <=? j) && (j <? n) then Ok (Some v) else aread T j).
  Proof.
    induction rho as [|x rho IH]; intros k T Hk HT [r [I F]]; [contradiction|]. cbn [edge_scan].
    rewrite zlen_cons in HT |- *. pose proof (zlen_nonneg rho).
    destruct (slt x center) eqn:E.
    - destruct (awrite_in T k (Some v)) as [T1 E1]; [lia|]. rewrite E1. cbn [bind]. destruct (awrite_ok _ _ _ _ E1) as (_ & L1 & R1 & O1).
      destruct (IH (k + 1) T1) as (n & T' & E2 & L2 & Hn & A & B & C); [lia|lia|exists r; split; [destruct I as [->|I]; [congruence|exact I]|exact F]|].
      exists n, T'. split; [exact E2|]. split; [lia|]. split; [lia|]. split; [|split].
      + intros j q Hj Q. destruct (Z.eq_dec j k) as [->|N].
        * rewrite Z.sub_diag in Q. cbn in Q. inversion Q; subst. exact E.
        * apply (A j q); [lia|]. rewrite (aread_cons_pos x) in Q by lia. rewrite <- Q. f_equal. lia.
      + intros q Q. apply B. rewrite (aread_cons_pos x) in Q by lia. rewrite <- Q. f_equal. lia.
      + intros j. rewrite C. destruct (Z.eq_dec j k) as [->|N].
        * destruct (Z.leb_spec (k + 1) k); [lia|]. destruct (Z.leb_spec k k); destruct (Z.ltb_spec k n); try lia. exact R1.
        * rewrite O1 by lia. destruct (Z.leb_spec (k + 1) j); destruct (Z.leb_spec k j); destruct (Z.ltb_spec j n); cbn; try lia; reflexivity.
    - exists k, T. split; [reflexivity|]. split; [reflexivity|]. split; [lia|]. split; [intros; lia|]. split.
      + intros q Q. rewrite Z.sub_diag in Q. cbn in Q. inversion Q; subst. exact E.
      + intros j. destruct (Z.leb_spec k j); destruct (Z.ltb_spec j k); cbn; try lia; reflexivity.
  Qed.
End Fill.

(** ** C49: the profile of an edge *)
Lemma entry_iff {A} (l : list A) i a : entry l i a <-> aread l i = Ok a.
Proof.
  unfold entry. rewrite aread_ok. split; [|intros [? ?]; split; [lia|assumption]].
  intros [H E]. split; [|exact E]. split; [exact H|]. assert (Z.to_nat i < List.length l)%nat by (apply nth_error_Some; congruence).
  unfold zlen. lia.
Qed.
Lemma incr_le rho i j a b : increasing rho -> i <= j -> aread rho i = Ok a -> aread rho j = Ok b -> dle a b = true.
Proof.
  intros [F I] H A B. pose proof (F _ (aread_In _ _ _ A)) as Fa. pose proof (F _ (aread_In _ _ _ B)) as Fb.
  apply dle_iff; [exact Fa|exact Fb|]. destruct (Z.eq_dec i j) as [->|N]; [rewrite A in B; inversion B; lra|].
  apply Rlt_le. apply (I i j a b); [lia| |]; apply entry_iff; assumption.
Qed.
Section Edge.
  Lemma const_profile (rho : list double) (T : list (option (cplx dbl_scalar))) (center : double) (lv rv v : cplx dbl_scalar) :
    zlen T = zlen rho -> (forall r, In r rho -> (if dlt r center then lv else rv) = v) ->
    map (fun _ => Some v) T = @step_profile dbl_scalar rho center lv rv.
  Proof.
    intros L H. apply aread_ext; [unfold step_profile; rewrite !zlen_map; exact L|].
    intros i Hi. rewrite zlen_map in Hi. unfold step_profile. rewrite !aread_map.
    destruct (aread_in T i Hi) as [x ->]. destruct (aread_in rho i ltac:(lia)) as [r E]. change (@aread (car dbl_scalar)) with (@aread double). rewrite E. cbn [bind].
    do 2 f_equal. symmetry. apply (H r). eapply aread_In, E.
  Qed.
  Lemma edge_profile_step (t : tau dbl_scalar) (rho : list double) T (center : double) (lv rv : cplx dbl_scalar) :
    arr t RHO = Some rho -> zlen rho = arr_size t -> 1 <= arr_size t < two64 -> increasing rho ->
    T_in t = Some T -> zlen T = arr_size t -> finite center ->
    (forall a, entry rho (arr_size t - 1) a -> val a <> val center) ->
    edge_profile t center lv rv =
    Ok (existsb (fun r => dlt r center) rho && existsb (fun r => negb (dlt r center)) rho,
        set_T_in t (Some (step_profile (S := dbl_scalar) rho center lv rv))).
  Proof.
    intros HR HL HS HI HT HLT HC HE. unfold edge_profile. rewrite HR, HT. cbn [deref bind].
    change (car dbl_scalar) with double in *. change (@sle dbl_scalar) with dle.
    assert (FR : forall r, In r rho -> dfinite r = true) by (intros; apply HI; assumption).
    destruct (aread_in rho 0 ltac:(lia)) as [r0 E0]. rewrite E0. cbn [bind].
    destruct (Z.ltb_spec 0 (arr_size t)); [|lia]. cbn [bind].
    destruct (dle center r0) eqn:C0.
    - rewrite (fill_all T _ _ (eq_sym HLT)). cbn [bind].
      assert (A : forall r, In r rho -> dlt r center = false).
      { intros r I. apply In_aread in I. destruct I as [i Ei]. assert (Hi : 0 <= i) by (apply aread_ok in Ei; lia).
        pose proof (dle_trans _ _ _ C0 (incr_le rho 0 i r0 r HI Hi E0 Ei)) as D.
        destruct (dlt r center) eqn:X; [|reflexivity]. pose proof (dlt_not_dle _ _ X). congruence. }
      assert (EX : existsb (fun r => dlt r center) rho = false).
      { destruct (existsb _ rho) eqn:X; [|reflexivity]. apply existsb_exists in X. destruct X as (r & I & X). rewrite (A r I) in X. discriminate. }
      rewrite EX. cbn [andb]. do 4 f_equal. apply const_profile; [lia|]. intros r I. rewrite (A r I). reflexivity.
    - unfold wrap64. rewrite Z.mod_small by lia.
      destruct (aread_in rho (arr_size t - 1) ltac:(lia)) as [rl El]. rewrite El. cbn [bind].
      assert (Fl : dfinite rl = true) by (apply FR; eapply aread_In, El).
      assert (Nl : val rl <> val center) by (apply HE; apply entry_iff; exact El).
      destruct (dle rl center) eqn:C1.
      + rewrite (fill_all T _ _ (eq_sym HLT)). cbn [bind].
        assert (A : forall r, In r rho -> dlt r center = true).
        { intros r I. apply In_aread in I. destruct I as [i Ei]. assert (Hi : i <= arr_size t - 1) by (apply aread_ok in Ei; lia).
          apply (dle_dlt_trans _ _ _ (incr_le rho i _ r rl HI Hi Ei El)).
          apply dlt_iff; [exact Fl|exact HC|]. apply dle_iff in C1; [|exact Fl|exact HC]. unfold val in Nl. lra. }
        assert (EX : existsb (fun r => negb (dlt r center)) rho = false).
        { destruct (existsb _ rho) eqn:X; [|reflexivity]. apply existsb_exists in X. destruct X as (r & I & X). rewrite (A r I) in X. discriminate. }
        rewrite EX, andb_false_r. do 4 f_equal. apply const_profile; [lia|]. intros r I. rewrite (A r I). reflexivity.
      + cbn [deref bind].
        assert (Xl : dlt rl center = false) by (destruct (dlt rl center) eqn:X; [rewrite (dlt_dle _ _ X) in C1; discriminate|reflexivity]).
        assert (F0 : dfinite r0 = true) by (apply FR; eapply aread_In, E0).
        assert (X0 : dlt r0 center = true) by (apply dle_total; [apply dfinite_not_nan, HC|apply dfinite_not_nan, F0|exact C0]).
        destruct (@edge_scan_ok dbl_scalar center lv rho 0 T) as (n & T' & EE & LE & Hn & A & B & C); [lia|change (car dbl_scalar) with double in *; lia|exists rl; split; [eapply aread_In, El|exact Xl]|].
        change (car dbl_scalar) with double in *. rewrite EE. cbn [bind].
        destruct (fill_ok T' n (arr_size t - n) (fun _ => Ok (Some rv)) (fun _ => Some rv)) as (T2 & E2 & L2 & R2); [lia|lia|lia|reflexivity|].
        rewrite E2. cbn [bind].
        assert (EX : existsb (fun r => dlt r center) rho && existsb (fun r => negb (dlt r center)) rho = true).
        { apply andb_true_intro. split; apply existsb_exists; [exists r0|exists rl]; split; try (eapply aread_In; eassumption); [exact X0|]. rewrite Xl. reflexivity. }
        rewrite EX. do 4 f_equal. apply aread_ext; [unfold step_profile; rewrite zlen_map; change (car dbl_scalar) with double in *; lia|].
        intros i Hi. rewrite R2. unfold step_profile. rewrite aread_map. change (@aread (car dbl_scalar)) with (@aread double).
        destruct (aread_in rho i ltac:(lia)) as [r Er]. rewrite Er. cbn [bind]. rewrite C.
        destruct (Z.ltb_spec i n).
        * destruct (Z.leb_spec n i); [lia|]. destruct (Z.leb_spec 0 i); [|lia]. cbn [andb].
          rewrite (A i r) by (try lia; rewrite Z.sub_0_r; exact Er). reflexivity.
        * destruct (Z.leb_spec n i); [|lia]. destruct (Z.ltb_spec i (n + (arr_size t - n))); [|lia]. cbn [andb].
          destruct (aread_in rho n ltac:(lia)) as [rn En].
          assert (Xn : dlt rn center = false) by (apply (B rn); rewrite Z.sub_0_r; exact En).
          assert (Xr : dlt r center = false).
          { destruct (dlt r center) eqn:X; [|reflexivity]. pose proof (dle_dlt_trans _ _ _ (incr_le rho n i rn r HI ltac:(lia) En Er) X). congruence. }
          change (@slt dbl_scalar) with dlt. rewrite Xr. reflexivity.
  Qed.
End Edge.

(** ** C49 and C50 *)
Lemma right_profile (t : dtau) (p : parameters dbl_scalar) (rho : list double) T :
  err t = None -> p_model p = RightEdge ->
  arr t RHO = Some rho -> zlen rho = arr_size t -> 1 <= arr_size t < two64 -> increasing rho ->
  T_in t = Some T -> zlen T = arr_size t -> finite (p_center p) ->
  (forall a, entry rho (arr_size t - 1) a -> val a <> val (p_center p)) ->
  model_right (Some t) (Some p) =
  Ok (Some (set_T_in t (Some (step_profile (S := dbl_scalar) rho (p_center p) (dofZ 0, dofZ 0) (p_opacity p, dofZ 0))))).
Proof.
  intros HE HM HR HL HS HI HT HLT HC HA. unfold model_right, guarded. rewrite HE, HM. cbn [model_eqb negb].
  rewrite (edge_profile_step t rho T _ _ _ HR HL HS HI HT HLT HC HA). reflexivity.
Qed.
Lemma core_ok {S} (t : tau S) : err t = None -> complete t -> check_core_data t = Ok t.
Proof.
  intros HE (HF & (T & HT & _) & (U & HU & _) & _). unfold check_core_data, guarded. rewrite HE, HT, HU.
  match goal with |- context [existsb ?g ?l] => destruct (existsb g l) eqn:E end; [|reflexivity].
  apply existsb_exists in E. destruct E as (f & I & E). destruct (HF f I) as (l & A & _). rewrite A in E. discriminate.
Qed.
Lemma left_profile (L : tmpl dbl_scalar) sch (t : dtau) (p : parameters dbl_scalar) (rho : list double) :
  err t = None -> p_model p = LeftEdge -> complete t -> t_alloc L 33 = true ->
  arr t RHO = Some rho -> 1 <= arr_size t -> increasing rho -> finite (p_center p) ->
  (forall a, entry rho (arr_size t - 1) a -> val a <> val (p_center p)) ->
  let t1 := set_T_in (set_T_out t (Some (repeat None (Z.to_nat (arr_size t)))))
                     (Some (step_profile (S := dbl_scalar) rho (p_center p) (p_opacity p, dofZ 0) (dofZ 0, dofZ 0))) in
  model_left L sch (Some t) (Some p) =
  if existsb (fun r => dlt r (p_center p)) rho && existsb (fun r => negb (dlt r (p_center p))) rho
  then (do t' <- model_tail L sch t1; Ok (Some t')) else Ok (Some t1).
Proof.
  intros HE HM HC HAl HR HS HI HF HA t1. unfold model_left, model_entry. unfold guarded at 1. rewrite HE, HM, HAl. cbn [model_eqb negb].
  set (t0 := set_T_out t (Some (repeat None (Z.to_nat (arr_size t))))).
  assert (CC : complete t0).
  { destruct HC as (H1 & H2 & _ & H4 & H5). split; [exact H1|]. split; [exact H2|]. split; [|split; assumption].
    eexists. split; [reflexivity|]. apply zlen_repeat. cbn. lia. }
  rewrite (core_ok t0 HE CC). cbn [bind]. unfold guarded. rewrite (HE : err t0 = None).
  destruct HC as (H1 & (T & HT & HLT & _) & _ & _ & H5).
  assert (HL : zlen rho = arr_size t) by (destruct (H1 RHO) as (l & E & EL); [cbn; tauto|]; rewrite HR in E; inversion E; subst; exact EL).
  rewrite (edge_profile_step t0 rho T _ _ _ HR HL (conj HS H5) HI HT HLT HF HA). cbn [bind].
  match goal with |- context [if ?b then _ else _] => destruct b end; [|reflexivity].
  change (set_T_in t0 _) with t1. destruct (model_tail L sch t1); reflexivity.
Qed.
Lemma left_refused {S} (L : tmpl S) sch (t : tau S) p : err t = None ->
  (forall q, p = Some q -> p_model q <> LeftEdge) ->
  exists m, model_left L sch (Some t) p = Ok (Some (set_err t (Some m))) /\ model_sine L sch (Some t) p = Ok (Some (set_err t (Some m))).
Proof.
  intros HE H. unfold model_left, model_sine, model_entry, guarded. rewrite HE.
  destruct p as [q|]; [|eexists; split; reflexivity].
  assert (N : model_eqb (p_model q) LeftEdge = false) by (specialize (H q eq_refl); destruct (p_model q); auto; congruence).
  rewrite N. cbn [negb]. eexists; split; reflexivity.
Qed.
Lemma right_refused {S} (t : tau S) p : err t = None ->
  (forall q, p = Some q -> p_model q <> RightEdge) ->
  exists m, model_right (Some t) p = Ok (Some (set_err t (Some m))).
Proof.
  intros HE H. unfold model_right, guarded. rewrite HE. destruct p as [q|]; [|eexists; reflexivity].
  assert (N : model_eqb (p_model q) RightEdge = false) by (specialize (H q eq_refl); destruct (p_model q); auto; congruence).
  rewrite N. cbn [negb]. eexists; reflexivity.
Qed.
(** The sine model, asked for a left edge, writes the squared sine. *)
Lemma sine_profile {S} (L : tmpl S) sch (t : tau S) p (rho : list S) :
  err t = None -> p_model p = LeftEdge -> complete t -> t_alloc L 33 = true -> arr t RHO = Some rho -> 1 <= arr_size t ->
  let wave r := let y := t_sin L (sofZ 3 * (r - p_center p))%S in Some (y * y, s0)%S in
  model_sine L sch (Some t) (Some p) =
  (do t' <- model_tail L sch (set_T_in (set_T_out t (Some (repeat None (Z.to_nat (arr_size t))))) (Some (map wave rho))); Ok (Some t')).
Proof.
  intros HE HM HC HAl HR HS wave. unfold model_sine, model_entry. unfold guarded at 1. rewrite HE, HM, HAl. cbn [model_eqb negb].
  set (t0 := set_T_out t (Some (repeat None (Z.to_nat (arr_size t))))).
  assert (CC : complete t0).
  { destruct HC as (H1 & H2 & _ & H4 & H5). split; [exact H1|]. split; [exact H2|]. split; [|split; assumption].
    eexists. split; [reflexivity|]. apply zlen_repeat. cbn. lia. }
  rewrite (core_ok t0 HE CC). cbn [bind]. unfold guarded. rewrite (HE : err t0 = None).
  destruct HC as (H1 & (T & HT & HLT & _) & _ & _ & H5).
  assert (HL : zlen rho = arr_size t) by (destruct (H1 RHO) as (l & E & EL); [cbn; tauto|]; rewrite HR in E; inversion E; subst; exact EL).
  assert (Ha : arr_size t0 = arr_size t) by reflexivity. rewrite (HR : arr t0 RHO = Some rho), (HT : T_in t0 = Some T).
  destruct (Z.ltb_spec 0 (arr_size t0)); [|lia]. cbn [deref bind].
  destruct (fill_ok T 0 (arr_size t0) (fun n => do r <- aread rho n; Ok (wave r)) (fun n => wave (nth (Z.to_nat n) rho s0))) as (T' & E & L' & R); [lia|lia|lia| |].
  { intros n Hn. rewrite (aread_nth rho n s0) by lia. reflexivity. }
  unfold wave in E at 1. cbn zeta in E. cbn zeta. rewrite E. cbn [bind].
  assert (EM : T' = map wave rho).
  { apply aread_ext; [rewrite zlen_map; lia|]. intros i Hi. rewrite R, aread_map, (aread_nth rho i s0) by lia. cbn [bind].
    destruct (Z.leb_spec 0 i); destruct (Z.ltb_spec i (0 + arr_size t0)); try lia. reflexivity. }
  rewrite EM. reflexivity.
Qed.

(** Edges at or beyond the ends. *)
Lemma edge_before {S : scalar} (t : tau S) rho r0 T center lv rv :
  arr t RHO = Some rho -> aread rho 0 = Ok r0 -> 1 <= arr_size t -> T_in t = Some T -> zlen T = arr_size t ->
  sle center r0 = true -> edge_profile t center lv rv = Ok (false, set_T_in t (Some (map (fun _ => Some rv) T))).
Proof.
  intros HR H0 HS HT HL HC. unfold edge_profile. rewrite HR, HT. cbn [deref bind]. rewrite H0. cbn [bind]. rewrite HC.
  destruct (Z.ltb_spec 0 (arr_size t)); [|lia]. cbn [bind]. rewrite (fill_all T _ _ (eq_sym HL)). reflexivity.
Qed.
Lemma edge_after {S : scalar} (t : tau S) rho r0 rl T center lv rv :
  arr t RHO = Some rho -> aread rho 0 = Ok r0 -> 1 <= arr_size t < two64 -> aread rho (arr_size t - 1) = Ok rl ->
  T_in t = Some T -> zlen T = arr_size t ->
  sle center r0 = false -> sle rl center = true -> edge_profile t center lv rv = Ok (false, set_T_in t (Some (map (fun _ => Some lv) T))).
Proof.
  intros HR H0 HS H1 HT HL HC HC1. unfold edge_profile. rewrite HR, HT. cbn [deref bind]. rewrite H0. cbn [bind]. rewrite HC.
  unfold wrap64. rewrite Z.mod_small by lia. rewrite H1. cbn [bind]. rewrite HC1.
  destruct (Z.ltb_spec 0 (arr_size t)); [|lia]. cbn [bind]. rewrite (fill_all T _ _ (eq_sym HL)). reflexivity.
Qed.
