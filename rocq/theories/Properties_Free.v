(** * Properties_Free: C69, free-space regions.

    Vocabulary: Spec_Free.v, Spec_Chord.v. *)
From Coq Require Import List ZArith Bool Reals Lra Lia Sorted.
From Verif Require Import Base Model_Time Model_Chord Model_Free Spec_Chord Spec_Free Proof_Chord Proof_Free Proof_Free2 Proof_Free3.
Import ListNotations.
Open Scope R_scope.

(** ** C69 *)
(** The radius of the edge of a gap lies between periapse and apoapse; the edge of a circle
    has its radius. *)
Theorem c69_edge : forall days xs e n tol,
  (ellipse e -> g_a e - g_ae e <= rad_converge days xs e n tol <= g_a e + g_ae e) /\
  (0 < g_a e -> g_ae e = 0 -> rad_converge days xs e n tol = g_a e).
Proof. intros. split; [apply edge_bounds|apply circular]. Qed.
Print Assumptions c69_edge.
(** It is the radius that the ellipse has at the longitude of a sample, namely of the one
    nearest to a radius that differs by at most the tolerance, or the passes are used up. *)
Theorem c69_edge_fixed : forall days xs e n tol, 0 <= tol -> exists prev,
  (forall x, nearest xs prev x -> rad_converge days xs e n tol = ellipse_radius e (from_periapse days e x)) /\
  (Rabs (rad_converge days xs e n tol - prev) <= tol \/
   rad_converge days xs e n tol = Nat.iter (S n) (radius_at days xs e) (g_a e * (1 + g_ae e / g_a e))).
Proof.
  intros days xs e n tol T. destruct (edge_fixed days xs e n tol T) as (prev & E & H). exists prev. split; [|exact H].
  intros x Nx. rewrite E. apply nearest_radius. exact Nx.
Qed.
Print Assumptions c69_edge_fixed.
(** If two samples are equally near, the mean of both. *)
Theorem c69_edge_tie : forall days xs e g x y l1 l2 l3, xs = l1 ++ x :: l2 ++ y :: l3 -> Rabs (s_rho x - g) = Rabs (s_rho y - g) ->
  (forall z, In z (l1 ++ l2 ++ l3) -> Rabs (s_rho x - g) < Rabs (s_rho z - g)) ->
  radius_at days xs e g = ellipse_radius e ((from_periapse days e x + from_periapse days e y) / 2).
Proof. exact nearest_two. Qed.
Print Assumptions c69_edge_tie.
(** Which regions there are. *)
Theorem c69_regions : forall days xs rmin rmax lo hi, xs <> [] -> least xs rmin -> largest xs rmax ->
  (In (lo, hi) (get_freespace_km days xs gap_table) <->
   (lo = rmin /\ hi = 72000 /\ rmin < 72000 < rmax) \/
   (exists i e1 e2, nth_error gap_table (2 * i) = Some e1 /\ nth_error gap_table (2 * i + 1) = Some e2 /\
      lo = rad_converge days xs e1 100 (1 / 1000) /\ hi = rad_converge days xs e2 100 (1 / 1000) /\ rmin < lo /\ hi < rmax) \/
   (In (lo, hi) [(133500, 133650); (137000, 143000); (143000, 170000)] /\ rmin <= lo /\ hi <= rmax)).
Proof. exact regions_exact. Qed.
Print Assumptions c69_regions.
(** They are in order and within the recorded radii. *)
Theorem c69_ordered : forall days xs, ascending (get_freespace_km days xs gap_table) /\
  forall rmin rmax r, xs <> [] -> least xs rmin -> largest xs rmax -> In r (get_freespace_km days xs gap_table) -> rmin <= fst r /\ snd r <= rmax.
Proof. intros. split; [apply km_ascending|intros; eapply km_inside; eassumption]. Qed.
Print Assumptions c69_ordered.
(** The regions in time, of a profile in one direction: in the order of time, and each
    contains the same samples as its region in radius. *)
Theorem c69_rising : forall days xs atmos out, frees s_oet atmos xs out -> (2 <= length out)%nat -> rising s_rho xs -> in_time s_oet xs ->
  exists spm, get_freespace days gap_table xs atmos None = Returns (One (get_freespace_km days out gap_table), spm) /\
    Forall2 (same_samples out) (get_freespace_km days out gap_table) spm /\ ascending spm.
Proof. exact rising_regions. Qed.
Print Assumptions c69_rising.
Theorem c69_falling : forall days xs atmos out, frees s_oet atmos xs out -> (2 <= length out)%nat -> falling s_rho xs -> in_time s_oet xs ->
  exists spm, get_freespace days gap_table xs atmos None = Returns (One (get_freespace_km days out gap_table), spm) /\
    Forall2 (same_samples out) (rev (get_freespace_km days out gap_table)) spm /\ ascending spm.
Proof. exact falling_regions. Qed.
Print Assumptions c69_falling.
(** Of a chord. *)
Theorem c69_chord : forall days xs m atmos ing egr, valley s_rho xs m -> in_time s_oet xs ->
  frees s_oet atmos (firstn (m + 1) xs) ing -> frees s_oet atmos (skipn (m + 1) xs) egr -> (2 <= length ing)%nat -> (2 <= length egr)%nat ->
  exists spm_ing spm_egr,
    get_freespace days gap_table xs atmos (Some (m + 1)%nat) =
      Returns (Two (get_freespace_km days ing gap_table) (get_freespace_km days egr gap_table), spm_ing ++ spm_egr) /\
    Forall2 (same_samples ing) (rev (get_freespace_km days ing gap_table)) spm_ing /\
    Forall2 (same_samples egr) (get_freespace_km days egr gap_table) spm_egr /\
    ascending (spm_ing ++ spm_egr).
Proof. exact chord_regions. Qed.
Print Assumptions c69_chord.
(** Fewer than two samples that are not blocked: an exception. *)
Theorem c69_few : forall days xs atmos out, frees s_oet atmos xs out -> (length out < 2)%nat -> get_freespace days gap_table xs atmos None = Raises.
Proof. exact few_samples. Qed.
Print Assumptions c69_few.

(** A chord of four samples; both parts cross 72000 km. *)
Definition ex_smp (t rho : R) : smp := {| s_ret := t; s_oet := t; s_phi := 0; s_rho := rho |}.
Definition ex_in : list smp := [ex_smp 0 90000; ex_smp 1 60000].
Definition ex_out : list smp := [ex_smp 2 65000; ex_smp 3 95000].
Lemma ex_none : forall l, frees s_oet [] l l.
Proof. induction l as [|x l IH]; [constructor|]. apply fr_keep; [intros []|exact IH]. Qed.
Example c69_chord_nonvacuous : forall days, exists km_ing km_egr spm,
  get_freespace days gap_table (ex_in ++ ex_out) [] (Some 2%nat) = Returns (Two km_ing km_egr, spm) /\ ascending spm /\
  In (60000, 72000) km_ing /\ In (65000, 72000) km_egr.
Proof.
  intro days. destruct (c69_chord days (ex_in ++ ex_out) 1 [] ex_in ex_out) as (si & se & E & _ & _ & A).
  - unfold valley, falling, rising, ex_in, ex_out, ex_smp. split; [lia|]. split; [cbn; lia|]. split; cbn; repeat (first [constructor | cbn; lra]).
  - unfold in_time, ex_in, ex_out, ex_smp. cbn. repeat (first [constructor | cbn; lra]).
  - apply ex_none.
  - apply ex_none.
  - cbn. lia.
  - cbn. lia.
  - eexists _, _, _. split; [exact E|]. split; [exact A|]. split.
    + apply (c69_regions days ex_in 60000 90000).
      * discriminate.
      * split; [exists (ex_smp 1 60000); split; [right; left; reflexivity|reflexivity]|]. intros x [<-|[<-|[]]]; cbn; lra.
      * split; [exists (ex_smp 0 90000); split; [left; reflexivity|reflexivity]|]. intros x [<-|[<-|[]]]; cbn; lra.
      * left. lra.
    + apply (c69_regions days ex_out 65000 95000).
      * discriminate.
      * split; [exists (ex_smp 2 65000); split; [left; reflexivity|reflexivity]|]. intros x [<-|[<-|[]]]; cbn; lra.
      * split; [exists (ex_smp 3 95000); split; [right; left; reflexivity|reflexivity]|]. intros x [<-|[<-|[]]]; cbn; lra.
      * left. lra.
Qed.
(** One way, one sample blocked; the region (65000, 72000) is passed from the second sample
    on. *)
Example c69_rising_nonvacuous : forall days, exists km spm,
  get_freespace days gap_table [ex_smp 1 62000; ex_smp 2 65000; ex_smp 3 95000] [1] None = Returns (One km, spm) /\ ascending spm /\ In (65000, 72000) km.
Proof.
  intro days. destruct (c69_rising days [ex_smp 1 62000; ex_smp 2 65000; ex_smp 3 95000] [1] ex_out) as (spm & E & _ & A).
  - apply fr_drop; [intro K; apply K; left; reflexivity|]. apply fr_keep; [intros [K|[]]; cbn in K; lra|]. apply fr_keep; [intros [K|[]]; cbn in K; lra|]. constructor.
  - cbn. lia.
  - unfold rising, ex_smp. repeat (first [constructor | cbn; lra]).
  - unfold in_time, ex_smp. repeat (first [constructor | cbn; lra]).
  - eexists _, _. split; [exact E|]. split; [exact A|]. apply (c69_regions days ex_out 65000 95000).
    + discriminate.
    + split; [exists (ex_smp 2 65000); split; [left; reflexivity|reflexivity]|]. intros x [<-|[<-|[]]]; cbn; lra.
    + split; [exists (ex_smp 3 95000); split; [right; left; reflexivity|reflexivity]|]. intros x [<-|[<-|[]]]; cbn; lra.
    + left. lra.
Qed.
(** The rows of the table are ellipses. *)
Example c69_edge_nonvacuous : Forall ellipse gap_table.
Proof. eapply Forall_impl; [|exact gap_table_below]. intros e H. apply H. Qed.
