(** * Proof_Pool: proofs of C66. *)
From Coq Require Import List ZArith Bool Reals Lra Lia String.
From Verif Require Import Base Scalar Model_Geometry Model_Pool Spec_Pool.
Import ListNotations.

Section Proofs.
  Context {S : scalar}.
  Variable N : naif S.
  Variable upper : string -> string.

  Lemma occ_picked : forall planet spacecraft obs radii ets out,
    occ_loop N radii planet ("IAU_" ++ upper planet)%string spacecraft obs ets = Some out ->
    picked (hides N upper planet spacecraft obs radii) ets out.
  Proof.
    intros planet spacecraft obs radii. induction ets as [|et ets IH]; intros out H.
    - cbn in H. injection H as <-. constructor.
    - cbn [occ_loop] in H. destruct (n_occult N radii planet _ spacecraft obs et) as [c|] eqn:E; [|discriminate].
      destruct (occ_loop N radii planet _ spacecraft obs ets) as [l|]; [|discriminate].
      injection H as <-. destruct (Z.eqb_spec c 0) as [->|K]; cbn [negb].
      + apply pk_drop; [|apply IH; reflexivity]. exists 0%Z. split; [exact E|]. split; [discriminate|lia].
      + apply pk_keep; [|apply IH; reflexivity]. exists c. split; [exact E|]. tauto.
  Qed.
  Lemma times_exact : forall p ets obs planet spacecraft h c radii,
    n_code N planet = Some c -> p c = Some radii ->
    let '(p', r) := get_planet_occ_times N upper p ets obs planet spacecraft h None in
    (forall c', p' c' = if Z.eqb c' c then Some (raised h radii) else p c') /\
    (forall out, r = Some out -> picked (hides N upper planet spacecraft obs (raised h radii)) ets out).
  Proof.
    intros p ets obs planet spacecraft h c radii C P. unfold get_planet_occ_times. cbn [kernels_read].
    rewrite C, P. split; [reflexivity|]. intros out H. apply occ_picked. exact H.
  Qed.
  (** The order of the picked elements and the membership. *)
  Lemma picked_in : forall (P : S -> bool -> Prop) l l', picked P l l' ->
    (forall x, P x true -> P x false -> False) ->
    forall x, In x l' <-> In x l /\ P x true.
  Proof.
    intros P l l' H D x. induction H as [|y l l' Py H IH|y l l' Py H IH].
    - cbn. tauto.
    - cbn [In]. rewrite IH. split; [intros [<-|K]; tauto|intros [[<-|K] Q]; tauto].
    - cbn [In]. rewrite IH. split; [tauto|]. intros [[->|K] Q]; [|tauto]. exfalso. eauto.
  Qed.
  Lemma hides_decided : forall planet spacecraft obs radii et b b',
    hides N upper planet spacecraft obs radii et b -> hides N upper planet spacecraft obs radii et b' -> b = b'.
  Proof.
    intros planet spacecraft obs radii et b b' (c & E & H) (c' & E' & H'). rewrite E in E'. injection E' as <-.
    destruct b, b'; try reflexivity; exfalso.
    - assert (K : c <> 0%Z) by (apply H; reflexivity). apply H' in K. discriminate.
    - assert (K : c <> 0%Z) by (apply H'; reflexivity). apply H in K. discriminate.
  Qed.

  (** ** History. *)
  Fixpoint all_raised (hs : list S) (radii : list S) : list S :=
    match hs with [] => radii | h :: hs' => all_raised hs' (raised h radii) end.
  Lemma all_raised_snoc : forall hs h radii, all_raised (hs ++ [h]) radii = raised h (all_raised hs radii).
  Proof. induction hs as [|a hs IH]; intros h radii; [reflexivity|]. cbn. apply IH. Qed.
  Lemma history : forall ets obs planet spacecraft c heights p radii,
    n_code N planet = Some c -> p c = Some radii ->
    let '(p', rs) := occ_history N upper p ets obs planet spacecraft heights in
    p' c = Some (all_raised heights radii) /\ List.length rs = List.length heights /\
    forall k out, nth_error rs k = Some (Some out) ->
      picked (hides N upper planet spacecraft obs (all_raised (firstn (Datatypes.S k) heights) radii)) ets out.
  Proof.
    intros ets obs planet spacecraft c. induction heights as [|h hs IH]; intros p radii C P.
    - cbn. split; [exact P|]. split; [reflexivity|]. intros [|k]; discriminate.
    - cbn [occ_history]. pose proof (times_exact p ets obs planet spacecraft h c radii C P) as T.
      destruct (get_planet_occ_times N upper p ets obs planet spacecraft h None) as [p1 r]. destruct T as (T1 & T2).
      specialize (IH p1 (raised h radii) C). rewrite (T1 c), Z.eqb_refl in IH. specialize (IH eq_refl).
      destruct (occ_history N upper p1 ets obs planet spacecraft hs) as [p2 rs]. destruct IH as (I1 & I2 & I3).
      split; [exact I1|]. split; [cbn; congruence|]. intros [|k] out E.
      + cbn in E. injection E as E. cbn. apply T2. exact E.
      + cbn [nth_error] in E. cbn [firstn all_raised]. apply I3. exact E.
  Qed.

  (** ** The ring intercepts. *)
  Lemma rho_restores : forall p ets planet spacecraft dsn ref kernels ring_frame out p',
    calc_rho_vec_km N upper p ets planet spacecraft dsn ref kernels ring_frame = (p', Some out) ->
    same_pool p' (kernels_read N kernels p).
  Proof.
    intros p ets planet spacecraft dsn ref kernels ring_frame out p' H. unfold calc_rho_vec_km in H.
    destruct (n_code N planet) as [c|]; [|discriminate].
    destruct (kernels_read N kernels p c) as [radii|] eqn:P; [|discriminate].
    destruct (rho_loop _ _ _ _ _ _ _ _) as [o|]; [|discriminate].
    injection H as <- _. intros c'. unfold pdpool. destruct (Z.eqb_spec c' c) as [->|K]; [symmetry; exact P|reflexivity].
  Qed.
  Lemma rho_value : forall p q ets planet spacecraft dsn ref ring_frame c,
    n_code N planet = Some c -> p c <> None -> q c <> None ->
    snd (calc_rho_vec_km N upper p ets planet spacecraft dsn ref None ring_frame) =
    snd (calc_rho_vec_km N upper q ets planet spacecraft dsn ref None ring_frame).
  Proof.
    intros p q ets planet spacecraft dsn ref ring_frame c C P Q. unfold calc_rho_vec_km. cbn [kernels_read].
    rewrite C. destruct (p c) as [r1|]; [|congruence]. destruct (q c) as [r2|]; [|congruence].
    destruct (rho_loop _ _ _ _ _ _ _ _); reflexivity.
  Qed.
  Lemma rho_raises : forall p ets planet spacecraft dsn ref kernels ring_frame c radii p',
    n_code N planet = Some c -> kernels_read N kernels p c = Some radii ->
    calc_rho_vec_km N upper p ets planet spacecraft dsn ref kernels ring_frame = (p', None) ->
    p' c = Some flat_radii.
  Proof.
    intros p ets planet spacecraft dsn ref kernels ring_frame c radii p' C P H. unfold calc_rho_vec_km in H.
    rewrite C, P in H. destruct (rho_loop _ _ _ _ _ _ _ _) as [o|]; [discriminate|].
    injection H as <-. unfold pdpool. rewrite Z.eqb_refl. reflexivity.
  Qed.

  (** ** The constructor. *)
  Lemma geometry_forgets : forall p q t_oet t_set year planet spacecraft dsn ul_dsn ref kernels ring_frame,
    geometry N upper p t_oet t_set year planet spacecraft dsn ul_dsn ref kernels ring_frame =
    geometry N upper q t_oet t_set year planet spacecraft dsn ul_dsn ref kernels ring_frame.
  Proof. reflexivity. Qed.
  Lemma geometry_times : forall p t_oet t_set year planet spacecraft dsn ul_dsn ref kernels ring_frame p' out c radii,
    n_code N planet = Some c -> n_load N kernels c = Some radii ->
    geometry N upper p t_oet t_set year planet spacecraft dsn ul_dsn ref kernels ring_frame = (p', Some out) ->
    picked (hides N upper planet spacecraft dsn (raised (sofZ 5000) radii)) t_oet (i_ionos out) /\
    picked (hides N upper planet spacecraft dsn (raised (sofZ 500) (raised (sofZ 5000) radii))) t_oet (i_atmos out) /\
    p' c = Some (raised (sofZ 500) (raised (sofZ 5000) radii)).
  Proof.
    intros p t_oet t_set year planet spacecraft dsn ul_dsn ref kernels ring_frame p' out c radii C L H.
    unfold geometry in H.
    destruct (calc_rho_vec_km N upper (kernels_read N (Some kernels) p) t_oet planet spacecraft dsn ref (Some kernels) ring_frame)
      as [p1 [rho|]] eqn:E1; [|discriminate].
    apply rho_restores in E1. cbn [kernels_read] in E1.
    set (u := if (2011 <=? year)%Z then _ else _) in H.
    destruct u as [p2 [uplink|]] eqn:E2; [|discriminate]. subst u.
    assert (P2 : p2 c = Some radii).
    { destruct (2011 <=? year)%Z.
      - destruct (calc_rho_vec_km N upper p1 t_set planet ul_dsn spacecraft "J2000" None None) as [p2' [u|]] eqn:E3.
        + apply rho_restores in E3. cbn [kernels_read] in E3. cbn in E2. injection E2 as <- _. rewrite E3, E1. exact L.
        + cbn in E2. discriminate.
      - injection E2 as <- _. rewrite E1. exact L. }
    pose proof (times_exact p2 t_oet dsn planet spacecraft (sofZ 5000) c radii C P2) as T3.
    destruct (get_planet_occ_times N upper p2 t_oet dsn planet spacecraft (sofZ 5000) None) as [p3 [ionos|]]; [|discriminate].
    destruct T3 as (T3 & T3').
    assert (P3 : p3 c = Some (raised (sofZ 5000) radii)) by (rewrite T3, Z.eqb_refl; reflexivity).
    pose proof (times_exact p3 t_oet dsn planet spacecraft (sofZ 500) c _ C P3) as T4.
    destruct (get_planet_occ_times N upper p3 t_oet dsn planet spacecraft (sofZ 500) None) as [p4 [atmos|]]; [|discriminate].
    destruct T4 as (T4 & T4'). injection H as <- <-. cbn [i_ionos i_atmos].
    split; [apply T3'; reflexivity|]. split; [apply T4'; reflexivity|]. rewrite T4, Z.eqb_refl. reflexivity.
  Qed.
End Proofs.

Lemma picked_mono : forall (P Q : real_scalar -> bool -> Prop) l a b,
  (forall x c, P x true -> Q x c -> c = true) -> (forall x, P x true -> P x false -> False) ->
  picked P l a -> picked Q l b -> forall x, In x a -> In x b.
Proof.
  intros P Q l a b M D Ha. revert b. induction Ha as [|y l a Py Ha IH|y l a Py Ha IH]; intros b Hb x.
  - cbn. tauto.
  - inversion Hb as [|? ? ? Qy Hb'|? ? ? Qy Hb']; subst.
    + cbn [In]. intros [->|K]; [left; reflexivity|right; eapply IH; eauto].
    + apply (M y false Py) in Qy. discriminate.
  - inversion Hb as [|? ? ? Qy Hb'|? ? ? Qy Hb']; subst; intro K.
    + right. eapply IH; eauto.
    + eapply IH; eauto.
Qed.
Lemma atmosphere_contains : forall (N : naif real_scalar) upper p t_oet t_set year planet spacecraft dsn ul_dsn ref kernels ring_frame p' out c radii,
  monotone N upper -> n_code N planet = Some c -> n_load N kernels c = Some radii ->
  geometry N upper p t_oet t_set year planet spacecraft dsn ul_dsn ref kernels ring_frame = (p', Some out) ->
  forall et, In et (i_ionos out) -> In et (i_atmos out).
Proof.
  intros N upper p t_oet t_set year planet spacecraft dsn ul_dsn ref kernels ring_frame p' out c radii M C L H et.
  destruct (geometry_times _ _ _ _ _ _ _ _ _ _ _ _ _ _ _ _ _ C L H) as (A & B & _).
  revert et. eapply picked_mono; [| |exact A|exact B].
  - intros x b Px Qx. eapply (M planet spacecraft dsn (raised (sofZ 5000) radii) 500%R x b); [lra|exact Px|].
    exact Qx.
  - intros x H1 H2. pose proof (hides_decided _ _ _ _ _ _ _ _ _ H1 H2). discriminate.
Qed.
Lemma raised_raised : forall (a b : R) (radii : list real_scalar),
  raised (a : real_scalar) (raised (b : real_scalar) radii) = raised ((a + b)%R : real_scalar) radii.
Proof.
  intros a b radii. unfold raised. rewrite map_map. apply map_ext. intro r. cbn. lra.
Qed.
Lemma occ_defined : forall {S : scalar} (N : naif S) upper planet spacecraft obs radii ets,
  (forall et, In et ets -> exists b, hides N upper planet spacecraft obs radii et b) ->
  exists out, occ_loop N radii planet ("IAU_" ++ upper planet)%string spacecraft obs ets = Some out.
Proof.
  intros S N upper planet spacecraft obs radii. induction ets as [|et ets IH]; intro H.
  - exists []. reflexivity.
  - destruct IH as (out & IH); [intros x Hx; apply H; right; exact Hx|].
    destruct (H et) as (b & c & E & _); [left; reflexivity|]. cbn [occ_loop]. rewrite E, IH. eexists. reflexivity.
Qed.
Lemma times_reported : forall {S : scalar} (N : naif S) upper p ets obs planet spacecraft h c radii,
  n_code N planet = Some c -> p c = Some radii ->
  (forall et, In et ets -> exists b, hides N upper planet spacecraft obs (raised h radii) et b) ->
  exists p' out, get_planet_occ_times N upper p ets obs planet spacecraft h None = (p', Some out) /\
    picked (hides N upper planet spacecraft obs (raised h radii)) ets out /\
    (forall et, In et out <-> In et ets /\ hides N upper planet spacecraft obs (raised h radii) et true).
Proof.
  intros S N upper p ets obs planet spacecraft h c radii C P H.
  destruct (occ_defined N upper planet spacecraft obs (raised h radii) ets H) as (out & E).
  unfold get_planet_occ_times. cbn [kernels_read]. rewrite C, P. fold (raised h radii). rewrite E.
  eexists _, out. split; [reflexivity|]. assert (K := occ_picked _ _ _ _ _ _ _ _ E). split; [exact K|].
  apply picked_in with (1 := K). intros x H1 H2. pose proof (hides_decided _ _ _ _ _ _ _ _ _ H1 H2). discriminate.
Qed.
Lemma history_real : forall (N : naif real_scalar) upper ets obs planet spacecraft c heights p radii,
  n_code N planet = Some c -> p c = Some radii ->
  let '(p', rs) := occ_history N upper p ets obs planet spacecraft heights in
  p' c = Some (raised (fold_right Rplus 0%R heights : real_scalar) radii) /\
  forall k out, nth_error rs k = Some (Some out) ->
    picked (hides N upper planet spacecraft obs (raised (fold_right Rplus 0%R (firstn (Datatypes.S k) heights) : real_scalar) radii)) ets out.
Proof.
  intros N upper ets obs planet spacecraft c heights p radii C P.
  assert (A : forall (hs r : list real_scalar), all_raised hs r = raised (fold_right Rplus 0%R hs : real_scalar) r).
  { induction hs as [|h hs IH]; intro r.
    - cbn. unfold raised. rewrite <- (map_id r) at 1. apply map_ext. intro x. cbn. lra.
    - cbn [all_raised fold_right]. rewrite IH, raised_raised. f_equal. apply Rplus_comm. }
  pose proof (history N upper ets obs planet spacecraft c heights p radii C P) as H.
  destruct (occ_history N upper p ets obs planet spacecraft heights) as [p' rs]. destruct H as (H1 & _ & H2).
  split; [rewrite <- A; exact H1|]. intros k out E. rewrite <- A. apply H2. exact E.
Qed.
(** ** The intercepts, in order. *)
Lemma loop_order : forall {S : scalar} (N : naif S) radii planet frame ref spacecraft dsn ets vs ts,
  rho_loop N radii planet frame ref spacecraft dsn ets = Some (vs, ts) ->
  exists l, Forall2 (fun et x => n_intercept N radii et planet frame ref spacecraft dsn = Some x) ets l /\ vs = map fst l /\ ts = map snd l.
Proof.
  intros S N radii planet frame ref spacecraft dsn. induction ets as [|et ets IH]; intros vs ts H; cbn in H.
  - injection H as <- <-. exists []. repeat split. constructor.
  - destruct (n_intercept N radii et planet frame ref spacecraft dsn) as [(v, t)|] eqn:E; [|discriminate].
    destruct (rho_loop N radii planet frame ref spacecraft dsn ets) as [(vs', ts')|]; [|discriminate]. injection H as <- <-.
    destruct (IH _ _ eq_refl) as (l & F & -> & ->). exists ((v, t) :: l). repeat split. constructor; assumption.
Qed.
Lemma rho_order : forall {S : scalar} (N : naif S) upper p ets planet spacecraft dsn ref kernels ring_frame vs ts p',
  calc_rho_vec_km N upper p ets planet spacecraft dsn ref kernels ring_frame = (p', Some (vs, ts)) ->
  exists frame l, (frame = match ring_frame with None => ("IAU_" ++ upper planet)%string | Some f => f end) /\
    Forall2 (fun et x => n_intercept N flat_radii et planet frame ref spacecraft dsn = Some x) ets l /\ vs = map fst l /\ ts = map snd l.
Proof.
  intros S N upper p ets planet spacecraft dsn ref kernels ring_frame vs ts p'. unfold calc_rho_vec_km. cbv zeta.
  destruct (n_code N planet) as [c|]; [|discriminate]. destruct (kernels_read N kernels p c) as [radii|]; [|discriminate].
  set (frame := match ring_frame with None => _ | Some f => f end).
  destruct (rho_loop N flat_radii planet frame ref spacecraft dsn ets) as [(vs', ts')|] eqn:E; [|discriminate]. intro H. injection H as _ <- <-.
  apply loop_order in E. destruct E as (l & E). exists frame, l. split; [reflexivity|exact E].
Qed.
