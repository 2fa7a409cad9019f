(** * Properties_Pool: C66, the radii of the planet in the kernel pool.

    Vocabulary: Spec_Pool.v. *)
From Coq Require Import List ZArith Bool Reals Lra String.
From Verif Require Import Base Scalar Model_Geometry Model_Pool Spec_Pool Proof_Pool.
Import ListNotations.

(** ** C66 *)
(** One call of get_planet_occ_times: the times, in order, at which the planet with the
    height added to the radii in the pool hides the spacecraft. *)
Theorem c66_times : forall {S : scalar} (N : naif S) upper p ets obs planet spacecraft h c radii,
  n_code N planet = Some c -> p c = Some radii ->
  (forall et, In et ets -> exists b, hides N upper planet spacecraft obs (raised h radii) et b) ->
  exists p' out, get_planet_occ_times N upper p ets obs planet spacecraft h None = (p', Some out) /\
    picked (hides N upper planet spacecraft obs (raised h radii)) ets out /\
    (forall et, In et out <-> In et ets /\ hides N upper planet spacecraft obs (raised h radii) et true).
Proof. exact @times_reported. Qed.
Print Assumptions c66_times.
(** Any number of calls: the heights add up, in the results and in the pool. *)
Theorem c66_history : forall (N : naif real_scalar) upper ets obs planet spacecraft c heights p radii,
  n_code N planet = Some c -> p c = Some radii ->
  let '(p', rs) := occ_history N upper p ets obs planet spacecraft heights in
  p' c = Some (raised (fold_right Rplus 0%R heights : real_scalar) radii) /\
  forall k out, nth_error rs k = Some (Some out) ->
    picked (hides N upper planet spacecraft obs (raised (fold_right Rplus 0%R (firstn (Datatypes.S k) heights) : real_scalar) radii)) ets out.
Proof. exact history_real. Qed.
Print Assumptions c66_history.
(** The ring intercepts: the pool is as before when the call returns, and the result does
    not depend on the radii that were in it. *)
Theorem c66_intercepts_restore : forall {S : scalar} (N : naif S) upper p ets planet spacecraft dsn ref kernels ring_frame out p',
  calc_rho_vec_km N upper p ets planet spacecraft dsn ref kernels ring_frame = (p', Some out) ->
  same_pool p' (kernels_read N kernels p).
Proof. exact @rho_restores. Qed.
Print Assumptions c66_intercepts_restore.
Theorem c66_intercepts_independent : forall {S : scalar} (N : naif S) upper p q ets planet spacecraft dsn ref ring_frame c,
  n_code N planet = Some c -> p c <> None -> q c <> None ->
  snd (calc_rho_vec_km N upper p ets planet spacecraft dsn ref None ring_frame) =
  snd (calc_rho_vec_km N upper q ets planet spacecraft dsn ref None ring_frame).
Proof. exact @rho_value. Qed.
Print Assumptions c66_intercepts_independent.
(** They are the intercepts with the flat ellipsoid, one for each time, in the order of the
    times. *)
Theorem c66_intercepts : forall {S : scalar} (N : naif S) upper p ets planet spacecraft dsn ref kernels ring_frame vs ts p',
  calc_rho_vec_km N upper p ets planet spacecraft dsn ref kernels ring_frame = (p', Some (vs, ts)) ->
  exists frame l, (frame = match ring_frame with None => ("IAU_" ++ upper planet)%string | Some f => f end) /\
    Forall2 (fun et x => n_intercept N flat_radii et planet frame ref spacecraft dsn = Some x) ets l /\ vs = map fst l /\ ts = map snd l.
Proof. exact @rho_order. Qed.
Print Assumptions c66_intercepts.
(** If one sample has no intercept, the exception leaves the flat ellipsoid in the pool. *)
Theorem c66_exception_refuted : forall {S : scalar} (N : naif S) upper p ets planet spacecraft dsn ref kernels ring_frame c radii p',
  n_code N planet = Some c -> kernels_read N kernels p c = Some radii ->
  calc_rho_vec_km N upper p ets planet spacecraft dsn ref kernels ring_frame = (p', None) ->
  p' c = Some flat_radii.
Proof. exact @rho_raises. Qed.
Print Assumptions c66_exception_refuted.
(** A Geometry instance: the kernels are loaded again, so nothing that happened before
    matters; the times of the ionosphere are those for 5000 km, the times of the
    atmosphere those for 500 km added to the radii with 5000 km, and these radii stay. *)
Theorem c66_geometry_forgets : forall {S : scalar} (N : naif S) upper p q t_oet t_set year planet spacecraft dsn ul_dsn ref kernels ring_frame,
  geometry N upper p t_oet t_set year planet spacecraft dsn ul_dsn ref kernels ring_frame =
  geometry N upper q t_oet t_set year planet spacecraft dsn ul_dsn ref kernels ring_frame.
Proof. exact @geometry_forgets. Qed.
Print Assumptions c66_geometry_forgets.
Theorem c66_geometry : forall {S : scalar} (N : naif S) upper p t_oet t_set year planet spacecraft dsn ul_dsn ref kernels ring_frame p' out c radii,
  n_code N planet = Some c -> n_load N kernels c = Some radii ->
  geometry N upper p t_oet t_set year planet spacecraft dsn ul_dsn ref kernels ring_frame = (p', Some out) ->
  picked (hides N upper planet spacecraft dsn (raised (sofZ 5000) radii)) t_oet (i_ionos out) /\
  picked (hides N upper planet spacecraft dsn (raised (sofZ 500) (raised (sofZ 5000) radii))) t_oet (i_atmos out) /\
  p' c = Some (raised (sofZ 500) (raised (sofZ 5000) radii)).
Proof. exact @geometry_times. Qed.
Print Assumptions c66_geometry.
(** So every time reported for the ionosphere is also reported for the atmosphere. *)
Theorem c66_atmosphere_contains_ionosphere : forall (N : naif real_scalar) upper p t_oet t_set year planet spacecraft dsn ul_dsn ref kernels ring_frame p' out c radii,
  monotone N upper -> n_code N planet = Some c -> n_load N kernels c = Some radii ->
  geometry N upper p t_oet t_set year planet spacecraft dsn ul_dsn ref kernels ring_frame = (p', Some out) ->
  forall et, In et (i_ionos out) -> In et (i_atmos out).
Proof. exact atmosphere_contains. Qed.
Print Assumptions c66_atmosphere_contains_ionosphere.

(** A library: the planet hides the spacecraft while the time is below its equatorial
    radius; there is an intercept before the time 10^6. *)
Definition ex_naif : naif real_scalar := Build_naif real_scalar
  (fun planet => if String.eqb planet "Saturn" then Some 699%Z else None)
  (fun _ c => if Z.eqb c 699 then Some [60268%R; 60268%R; 54364%R] else None)
  (fun radii _ _ _ _ et => Some (if slt et (hd 0%R radii : real_scalar) then 3%Z else 0%Z))
  (fun _ et _ _ _ _ _ => if slt et (1000000%R : real_scalar) then Some ((et, 0%R, 0%R) : vec3 real_scalar, et) else None).
Lemma ex_monotone : monotone ex_naif (fun s => s).
Proof.
  intros planet spacecraft obs radii h et b Hh (c & E & T) (c' & E' & T'). cbn [ex_naif n_occult] in E, E'.
  injection E as E. injection E' as E'. destruct T as [T _]. specialize (T eq_refl). destruct b; [reflexivity|].
  exfalso. destruct T' as [_ T']. assert (K : c' <> 0%Z); [|specialize (T' K); discriminate].
  subst c c'. destruct radii as [|r radii]; cbn in *.
  - destruct (Rlt_dec et 0); [discriminate|congruence].
  - destruct (Rlt_dec et r); [|congruence]. destruct (Rlt_dec et (r + h)); [discriminate|]. lra.
Qed.
(** Four samples: the tangent heights above the planet are 232, 732, 5232 and 9732 km.
    Only the first is behind the atmosphere of 500 km; the first three are reported. *)
Theorem c66_atmosphere_refuted : exists (N : naif real_scalar) upper t_oet p' out c radii,
  monotone N upper /\ n_code N "Saturn" = Some c /\ n_load N "kernels" c = Some radii /\
  geometry N upper (n_load N "kernels") t_oet [] 2005 "Saturn" "Cassini" "DSS-43" "" "J2000" "kernels" None = (p', Some out) /\
  exists et, In et (i_atmos out) /\ ~ In et (i_ionos out) /\
    hides N upper "Saturn" "Cassini" "DSS-43" (raised (sofZ 500) radii) et false.
Proof.
  exists ex_naif, (fun s => s), [60500%R; 61000%R; 65500%R; 70000%R].
  assert (L : forall a b : R, (a < b)%R -> (if Rlt_dec a b then true else false) = true)
    by (intros a b K; destruct (Rlt_dec a b); [reflexivity|contradiction]).
  assert (G : forall a b : R, (b <= a)%R -> (if Rlt_dec a b then true else false) = false)
    by (intros a b K; destruct (Rlt_dec a b); [lra|reflexivity]).
  unfold geometry, calc_rho_vec_km, get_planet_occ_times, pdpool.
  cbn [kernels_read ex_naif n_code n_load n_occult n_intercept String.eqb Ascii.eqb Bool.eqb Z.eqb Pos.eqb rho_loop occ_loop slt real_scalar map sadd sofZ hd Z.leb Z.compare Pos.compare Pos.compare_cont].
  rewrite !(L _ 1000000%R) by lra. cbn [Z.eqb Pos.eqb negb map hd].
  rewrite (L 60500%R (60268 + 5000)%R), (L 61000%R (60268 + 5000)%R), (G 65500%R (60268 + 5000)%R), (G 70000%R (60268 + 5000)%R) by lra.
  cbn [Z.eqb Pos.eqb negb map hd].
  rewrite (L 60500%R (60268 + 5000 + 500)%R), (L 61000%R (60268 + 5000 + 500)%R), (L 65500%R (60268 + 5000 + 500)%R), (G 70000%R (60268 + 5000 + 500)%R) by lra.
  cbn [Z.eqb Pos.eqb negb].
  eexists _, _, 699%Z, [60268%R; 60268%R; 54364%R].
  split; [exact ex_monotone|]. split; [reflexivity|]. split; [reflexivity|]. split; [reflexivity|].
  exists 65500%R. cbn [i_atmos i_ionos]. split; [right; right; left; reflexivity|].
  split; [intros [K|[K|K]]; [lra|lra|exact K]|].
  exists 0%Z. split; [|split; [discriminate|congruence]]. cbn. rewrite (G 65500%R (60268 + 500)%R) by lra. reflexivity.
Qed.
Print Assumptions c66_atmosphere_refuted.
(** A sample without an intercept. *)
Example c66_exception_nonvacuous :
  exists p', calc_rho_vec_km ex_naif (fun s => s) (n_load ex_naif "kernels") [2000000%R] "Saturn" "Cassini" "DSS-43" "J2000" None None = (p', None) /\
    p' 699%Z = Some (flat_radii (S := real_scalar)).
Proof.
  unfold calc_rho_vec_km. cbn. destruct (Rlt_dec 2000000 1000000); [lra|]. eexists. split; reflexivity.
Qed.
