(** * Model_Free: free-space regions (rss_ringoccs/occgeo/calc_occ_geometry.py).
    Definitions only.  Exact arithmetic. *)
From Coq Require Import List ZArith Bool Reals.
From Verif Require Import Base Model_Time Model_Chord.
Import ListNotations.
Open Scope R_scope.

(** ** numpy and scipy. *)
Fixpoint insert (x : R) (l : list R) : list R :=
  match l with [] => [x] | y :: l' => if ltb y x then y :: insert x l' else x :: l end.
Definition sorted (l : list R) : list R := fold_right insert [] l.
(** np.nanmedian of numbers. *)
Definition median (l : list R) : R :=
  let s := sorted l in
  let n := length s in
  if Nat.odd n then nth (n / 2) s 0 else (nth (n / 2 - 1) s 0 + nth (n / 2) s 0) / 2.
(** Python's min and max of a list that is not empty. *)
Definition minimum (l : list R) : R := match l with [] => 0 | x :: l' => lmin x l' end.
Definition maximum (l : list R) : R := match l with [] => 0 | x :: l' => lmax x l' end.
(** The pairs of scipy.interpolate.interp1d in the order of their abscissae. *)
Fixpoint insert_pair (p : R * R) (l : list (R * R)) : list (R * R) :=
  match l with [] => [p] | q :: l' => if ltb (fst q) (fst p) then q :: insert_pair p l' else p :: l end.
Definition sorted_pairs (l : list (R * R)) : list (R * R) := fold_right insert_pair [] l.
(** np.searchsorted, on a sorted array: the number of smaller elements. *)
Definition searchsorted (xs : list R) (x : R) : nat := length (filter (fun y => ltb y x) xs).
(** interp1d(x, y, fill_value='extrapolate'), linear, for at least two points. *)
Definition interp1d (ps : list (R * R)) (x : R) : R :=
  let s := sorted_pairs ps in
  let i := Nat.max 1 (Nat.min (searchsorted (map fst s) x) (length s - 1)) in
  let lo := nth (i - 1) s (0, 0) in
  let hi := nth i s (0, 0) in
  (snd hi - snd lo) / (fst hi - fst lo) * (x - fst lo) + snd lo.

(** ** Gaps. *)
(** A row of the table of gap edges: semimajor axis, semimajor axis times eccentricity,
    longitude of periapse, precession rate. *)
Record edge : Type := { g_a : R; g_ae : R; g_w0 : R; g_wdot : R }.
(** A sample: ring event time, observed event time, ring longitude, ring radius. *)
Record smp : Type := { s_ret : R; s_oet : R; s_phi : R; s_rho : R }.

Section Gaps.
  (** Days from the epoch of the table to a ring event time: calc_occ_geometry.py 612-628,
      670-671. *)
  Variable days : R -> R.
  Variable xs : list smp.
  (** The longitude from periapse at the sample whose radius is closest to the guess:
      732-747 and 761-776 (rad_converge). *)
  Definition anomaly (e : edge) (radius_guess : R) : R :=
    let diff := map (fun x => Rabs (s_rho x - radius_guess)) xs in
    let m := minimum diff in
    let ind := filter (fun x => eqb (Rabs (s_rho x - radius_guess)) m) xs in
    let time := median (map (fun x => days (s_ret x)) ind) in
    let longitude := median (map s_phi ind) in
    (longitude - g_w0 e - g_wdot e * time) * (PI / 180).
  Definition radius_at (e : edge) (guess : R) : R :=
    let ecc := g_ae e / g_a e in
    g_a e * (1 - ecc * ecc) / (1 + ecc * cos (anomaly e guess)).
  (** The loop of rad_converge, 756-793, with the number of passes left. *)
  Fixpoint converge (e : edge) (tolerance : R) (left : nat) (radius_old radius_new : R) : R :=
    match left with
    | O => radius_new
    | S left' =>
        if ltb tolerance (Rabs (radius_new - radius_old))
        then converge e tolerance left' radius_new (radius_at e radius_new)
        else radius_new
    end.
  (** rad_converge, 707-795. *)
  Definition rad_converge (e : edge) (niter : nat) (tolerance : R) : R :=
    let guess := g_a e * (1 + g_ae e / g_a e) in
    converge e tolerance niter guess (radius_at e guess).
  (** find_gaps, 673-705: pairs of rows. *)
  Fixpoint find_gaps (table : list edge) : list (R * R) :=
    match table with
    | e1 :: e2 :: table' =>
        let r1 := rad_converge e1 100 (1 / 1000) in
        let r2 := rad_converge e2 100 (1 / 1000) in
        let rho := map s_rho xs in
        if (ltb (minimum rho) r1 && ltb r2 (maximum rho))%bool
        then (r1, r2) :: find_gaps table' else find_gaps table'
    | _ => []
    end.
  (** get_freespace_km, 1029-1053. *)
  Definition get_freespace_km (table : list edge) : list (R * R) :=
    let rho := map s_rho xs in
    let region := fun lo hi : R => if (ltb lo (minimum rho) || ltb (maximum rho) hi)%bool then [] else [(lo, hi)] in
    let fsp0 := if (ltb (minimum rho) 72000 && ltb 72000 (maximum rho))%bool then [(minimum rho, 72000)] else [] in
    fsp0 ++ find_gaps table ++ region 133500 133650 ++ region 137000 143000 ++ region 143000 170000.
End Gaps.

Definition spm_regions (xs : list smp) (km : list (R * R)) : list (R * R) :=
  let f := interp1d (map (fun x => (s_rho x, s_oet x)) xs) in
  map (fun r => (f (fst r), f (snd r))) km.
Definition reversed (l : list (R * R)) : list (R * R) := rev (map (fun r => (snd r, fst r)) l).
(** get_freespace, calc_occ_geometry.py 824-898: the regions in km, one list or one for
    each part of a chord, and the regions in seconds past midnight. *)
Inductive regions : Type := One (km : list (R * R)) | Two (ingress egress : list (R * R)).
Definition get_freespace (days : R -> R) (table : list edge) (xs : list smp) (atmos : list R) (split_ind : option nat)
    : py (regions * list (R * R)) :=
  match split_ind with
  | Some ind =>
      match split_chord_arr s_oet s_rho xs atmos ind INGRESS, split_chord_arr s_oet s_rho xs atmos ind EGRESS with
      | Returns ing, Returns egr =>
          match ing, egr with
          | _ :: _ :: _, _ :: _ :: _ =>
              let km_ing := get_freespace_km days ing table in
              let spm_ing := reversed (spm_regions ing km_ing) in
              let km_egr := get_freespace_km days egr table in
              let spm_egr := spm_regions egr km_egr in
              let spm := match spm_egr, spm_ing with
                         | (e, _) :: _, (i, _) :: _ => if ltb e i then spm_egr ++ spm_ing else spm_ing ++ spm_egr
                         | _, _ => spm_ing ++ spm_egr
                         end in
              Returns (Two km_ing km_egr, spm)
          | _, _ => Raises            (* no or one sample: min of an empty list, or interp1d *)
          end
      | _, _ => Raises
      end
  | None =>
      match remove_blocked s_oet xs atmos with
      | (x :: y :: _) as out =>
          let km := get_freespace_km days out table in
          let spm := spm_regions out km in
          Returns (One km, if ltb (s_rho y - s_rho x) 0 then reversed spm else spm)
      | _ => Raises                   (* 878-880; one sample: rho_out[1] *)
      end
  end.

(** tables/gap_orbital_elements.txt. *)
Definition row (a ae w0 wdot : Z) : edge :=
  {| g_a := IZR a / 100; g_ae := IZR ae / 1000; g_w0 := IZR w0 / 100; g_wdot := IZR wdot / 100000 |}.
Definition gap_table : list edge := [
  row 7774789 3110 9690 2257346; row 7786713 17390 27054 2257503;
  row 7789021 27200 27070 2257562; row 7792601 4890 28002 2257696;
  row 8734277 0 0 0; row 8748029 18930 5560 1469572;
  row 8753936 58020 5720 1469314; row 8761012 1110 22854 1469150;
  row 11767000 0 0 0; row 11780555 27810 13753 502872;
  row 11782365 28030 14177 502587; row 11790704 7630 15321 500570;
  row 11791677 7400 15383 500735; row 11793090 2200 24891 503383;
  row 11818842 8270 34732 497362; row 11823430 1490 17281 496229;
  row 11826325 1760 26477 495659; row 11828351 280 11347 494653;
  row 11858992 7600 23673 490922; row 11862840 110 7368 490829;
  row 11892963 3260 33351 485753; row 11896670 80 11489 480910;
  row 11984478 3250 31011 472673; row 12003653 1190 23612 471250 ].
