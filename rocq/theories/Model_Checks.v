(** * Model_Checks: the validation functions of src/tau.  Definitions only.

    Every function has the shape [tau -> res tau].  The C functions return
    immediately when the pointer is NULL; a NULL tau is not modelled. *)
From Coq Require Import List ZArith Bool String.
From Verif Require Import Base Scalar Model_TauRec.
Import ListNotations.
Open Scope string_scope.
Open Scope Z_scope.

Section Checks.
  Context {S : scalar} (L : tmpl S).
  Local Notation tau := (tau S).

  (** The common prologue [if (tau->error_occurred) return;]. *)
  Definition guarded (t : tau) (k : res tau) : res tau :=
    match err t with Some _ => Ok t | None => k end.

  (** src/tau/rss_ringoccs_tau_check_allan_deviation.c 11-56. *)
  Definition check_allan_deviation (t : tau) : res tau :=
    guarded t (
      if snan (sigma t) then fail t "allan: nan"
      else if sinf (sigma t) then fail t "allan: inf"
      else if sle (sigma t) s0 then fail t "allan: not positive"
      else Ok t).

  (** src/tau/rss_ringoccs_tau_check_resolution.c 75-120. *)
  Definition check_resolution (t : tau) : res tau :=
    guarded t (
      if snan (reso t) then fail t "resolution: nan"
      else if sinf (reso t) then fail t "resolution: inf"
      else if sle (reso t) s0 then fail t "resolution: not positive"
      else Ok t).

  (** src/tau/rss_ringoccs_tau_check_eccentricity.c 11-56. *)
  Definition check_eccentricity (t : tau) : res tau :=
    guarded t (
      if snan (ecc t) then fail t "eccentricity: nan"
      else if sinf (ecc t) then fail t "eccentricity: inf"
      else if slt (ecc t) s0 then fail t "eccentricity: negative"
      else Ok t).

  (** src/tau/rss_ringoccs_tau_check_periapse.c 11-68. *)
  Definition check_periapse (t : tau) : res tau :=
    guarded t (
      if snan (peri t) then fail t "periapse: nan"
      else if sinf (peri t) then fail t "periapse: inf"
      else if slt (peri t) (- stwopi)%S then fail t "periapse: less than -2pi"
      else if sgt (peri t) stwopi then fail t "periapse: greater than 2pi"
      else Ok t).

  (** src/tau/rss_ringoccs_tau_check_range.c 11-92. *)
  Definition check_range (t : tau) : res tau :=
    guarded t (
      if snan (range0 t) then fail t "range: range[0] nan"
      else if snan (range1 t) then fail t "range: range[1] nan"
      else if sinf (range0 t) then fail t "range: range[0] inf"
      else if sinf (range1 t) then fail t "range: range[1] inf"
      else if slt (range0 t) s0 then fail t "range: negative start"
      else if sgt (range0 t) (range1 t) then fail t "range: start after end"
      else Ok t).

  (** src/tau/rss_ringoccs_tau_check_keywords.c 81-97. *)
  Definition check_keywords (t : tau) : res tau :=
    guarded t (
      do t1 <- check_allan_deviation t;
      do t2 <- check_resolution t1;
      do t3 <- check_eccentricity t2;
      do t4 <- check_periapse t3;
      check_range t4).

  (** src/tau/rss_ringoccs_tau_check_azimuth_angle.c 83-159. *)
  Definition check_azimuth_angle (t : tau) : res tau :=
    guarded t (
      match arr t PHI with
      | None => fail t "azimuth: null"
      | Some phi =>
          do l <- aprefix phi (arr_size t);
          let '(mn, mx) := t_minmax L l in
          if snan mn || snan mx then fail t "azimuth: nan"
          else if sinf mn || sinf mx then fail t "azimuth: inf"
          else if slt mn (- sofZ 360)%S then fail t "azimuth: less than -360"
          else if sgt mx (sofZ 360) then fail t "azimuth: greater than 360"
          else Ok t
      end).

  (** src/tau/rss_ringoccs_tau_check_opening_angle.c 79-131. *)
  Definition check_opening_angle (t : tau) : res tau :=
    guarded t (
      match arr t BDEG with
      | None => fail t "opening: null"
      | Some b =>
          do l <- aprefix b (arr_size t);
          let '(mn, mx) := t_minmax L l in
          if slt mn (- sofZ 360)%S then fail t "opening: less than -360"
          else if sgt mx (sofZ 360) then fail t "opening: greater than 360"
          else Ok t
      end).

  (** src/tau/rss_ringoccs_tau_check_ring_distance.c 79-120. *)
  Definition check_ring_distance (t : tau) : res tau :=
    guarded t (
      match arr t DKM with
      | None => fail t "distance: null"
      | Some d =>
          do l <- aprefix d (arr_size t);
          if sle (t_min L l) s0 then fail t "distance: not positive"
          else Ok t
      end).

  (** src/tau/rss_ringoccs_tau_check_ring_radius.c 78-119. *)
  Definition check_ring_radius (t : tau) : res tau :=
    guarded t (
      match arr t RHO with
      | None => fail t "radius: null"
      | Some r =>
          do l <- aprefix r (arr_size t);
          if sle (t_min L l) s0 then fail t "radius: not positive"
          else Ok t
      end).

  (** src/tau/rss_ringoccs_tau_check_displacement.c 77-140. *)
  Definition check_displacement (t : tau) : res tau :=
    guarded t (
      if snan (dx t) then fail t "displacement: nan"
      else if sinf (dx t) then fail t "displacement: inf"
      else if seqb (dx t) s0 then fail t "displacement: zero"
      else if slt (reso t) (sfrac 199 100 * sabs (dx t))%S
           then fail t "displacement: resolution too fine"
      else Ok t).

  (** src/tau/rss_ringoccs_tau_check_geometry.c 5-18. *)
  Definition check_geometry (t : tau) : res tau :=
    guarded t (
      do t1 <- check_azimuth_angle t;
      do t2 <- check_displacement t1;
      do t3 <- check_opening_angle t2;
      do t4 <- check_ring_distance t3;
      check_ring_radius t4).

  (** src/tau/rss_ringoccs_tau_check_core_data.c 73-114: the members in the
      order in which the macro is expanded. *)
  Definition check_core_data (t : tau) : res tau :=
    guarded t (
      match T_in t, T_out t with
      | None, _ => fail t "core: T_in"
      | _, None => fail t "core: T_out"
      | _, _ =>
        if existsb (fun f => match arr t f with None => true | _ => false end)
             [RHO; FKM; PHI; KV; RHODOT; BDEG; DKM; WKM; RX; RY; RZ]
        then fail t "core: array"
        else Ok t
      end).

  (** src/tau/rss_ringoccs_tau_check_data_range.c 139-189: the loop
      [for (n = start; n < start + n_used; ++n)]; [Some msg] stops it. *)
  Fixpoint data_range_loop (w : list S) (rcpr_two_dx : S) (size : Z)
      (k : nat) (n : Z) : res (option string) :=
    match k with
    | O => Ok None
    | Datatypes.S k' =>
        do wn <- aread w n;
        do nw <- scast (wn * rcpr_two_dx)%S;
        if n <? nw then Ok (Some "data range: left"%string)
        else if size <? wrap64 (n + nw) then Ok (Some "data range: right"%string)
        else data_range_loop w rcpr_two_dx size k' (n + 1)
    end.
  (** src/tau/rss_ringoccs_tau_check_data_range.c 89-191.  [start + n_used] is
      assumed not to wrap (it is at most [arr_size] whenever this is called). *)
  Definition check_data_range (t : tau) : res tau :=
    guarded t (
      match arr t WKM with
      | None => fail t "data range: null"
      | Some w =>
          if sle (dx t) s0 then fail t "data range: dx"
          else
            let rcpr_two_dx := (shalf / dx t)%S in
            do r <- data_range_loop w rcpr_two_dx (arr_size t)
                      (Z.to_nat (n_used t)) (start t);
            match r with Some m => fail t m | None => Ok t end
      end).
End Checks.
