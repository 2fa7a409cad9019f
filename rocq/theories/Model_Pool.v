(** * Model_Pool: the kernel pool of SPICE during the geometry of an occultation
    (rss_ringoccs/occgeo).  Definitions only. *)
From Coq Require Import List ZArith Bool String.
From Verif Require Import Base Scalar Model_Geometry.
Import ListNotations.
Open Scope string_scope.

(** The kernel pool is global to the process.  Of its variables only BODYn_RADII is
    written by the code of rss_ringoccs: by planet code, the radii. *)
Definition pool (S : scalar) : Type := Z -> option (list S).

(** What the functions use of SPICE.
    - [n_code]: bodn2c, [None] for an unknown name (an exception);
    - [n_load]: the radii in the pool after kclear and furnsh of the given kernels;
    - [n_occult radii planet frame spacecraft observer et]: occult with the shape
      ELLIPSOID, which takes the radii of the planet from the pool;
    - [n_intercept radii et planet frame ref target observer]: spkpos, vhat, sincpt with
      the method Ellipsoid, pxfrm2 and mxv, as one function of the radii in the pool;
      [None] if one of them raises (no intercept: NotFoundError). *)
Record naif (S : scalar) : Type := {
  n_code : string -> option Z;
  n_load : string -> pool S;
  n_occult : list S -> string -> string -> string -> string -> S -> option Z;
  n_intercept : list S -> S -> string -> string -> string -> string -> string -> option (vec3 S * S)
}.
Arguments n_code {S}. Arguments n_load {S}. Arguments n_occult {S}. Arguments n_intercept {S}.

Section Pool.
  Context {S : scalar}.
  Variable N : naif S.
  (** pdpool of one variable. *)
  Definition pdpool (p : pool S) (c : Z) (radii : list S) : pool S :=
    fun c' => if Z.eqb c' c then Some radii else p c'.
  (** [if kernels: spice.kclear(); spice.furnsh(kernels)], the first lines of every
      function. *)
  Definition kernels_read (kernels : option string) (p : pool S) : pool S :=
    match kernels with Some k => n_load N k | None => p end.
  (** str.upper, which only enters the name of the frame. *)
  Variable upper : string -> string.

  (** rss_ringoccs/occgeo/calc_occ_geometry.py 1099-1107: the loop of
      get_planet_occ_times. *)
  Fixpoint occ_loop (radii : list S) (planet frame spacecraft obs : string) (ets : list S) : option (list S) :=
    match ets with
    | [] => Some []
    | et :: ets' =>
        match n_occult N radii planet frame spacecraft obs et with
        | None => None
        | Some occ_code =>
            match occ_loop radii planet frame spacecraft obs ets' with
            | None => None
            | Some blocked => Some (if negb (Z.eqb occ_code 0) then et :: blocked else blocked)
            end
        end
    end.
  (** get_planet_occ_times, calc_occ_geometry.py 1079-1109.  The pool after the call, and
      the times ([None]: an exception). *)
  Definition get_planet_occ_times (p : pool S) (ets : list S) (obs planet spacecraft : string)
      (height_above : S) (kernels : option string) : pool S * option (list S) :=
    let p0 := kernels_read kernels p in
    match n_code N planet with
    | None => (p0, None)
    | Some c =>
        match p0 c with
        | None => (p0, None)
        | Some original_radii =>
            let new_radii := map (fun radius => (radius + height_above)%S) original_radii in
            (pdpool p0 c new_radii,
             occ_loop new_radii planet ("IAU_" ++ upper planet) spacecraft obs ets)
        end
    end.

  (** calc_occ_geometry.py 426-463: the loop of calc_rho_vec_km. *)
  Fixpoint rho_loop (radii : list S) (planet frame ref spacecraft dsn : string) (ets : list S)
      : option (list (vec3 S) * list S) :=
    match ets with
    | [] => Some ([], [])
    | et :: ets' =>
        match n_intercept N radii et planet frame ref spacecraft dsn with
        | None => None
        | Some (v, t) =>
            match rho_loop radii planet frame ref spacecraft dsn ets' with
            | None => None
            | Some (vs, ts) => Some (v :: vs, t :: ts)
            end
        end
    end.
  (** The flat ellipsoid, calc_occ_geometry.py 409. *)
  Definition flat_radii : list S := [sofZ 1000000; sofZ 1000000; sfrac 1 100000].
  (** calc_rho_vec_km, calc_occ_geometry.py 392-471. *)
  Definition calc_rho_vec_km (p : pool S) (ets : list S) (planet spacecraft dsn ref : string)
      (kernels ring_frame : option string) : pool S * option (list (vec3 S) * list S) :=
    let p0 := kernels_read kernels p in
    match n_code N planet with
    | None => (p0, None)
    | Some c =>
        match p0 c with
        | None => (p0, None)
        | Some radii =>
            let p1 := pdpool p0 c flat_radii in
            let frame := match ring_frame with None => "IAU_" ++ upper planet | Some f => f end in
            match rho_loop flat_radii planet frame ref spacecraft dsn ets with
            | None => (p1, None)
            | Some out => (pdpool p1 c radii, Some out)
            end
        end
    end.

  (** What a Geometry instance takes from these functions. *)
  Record intercepts : Type := {
    i_rho : list (vec3 S) * list S;             (* rho_vec_vals, t_ret_et_vals *)
    i_uplink : option (list (vec3 S) * list S);  (* ul_rho_vec_km, t_ul_ret_vals *)
    i_ionos : list S;                           (* ionos_occ_et_vals *)
    i_atmos : list S                            (* atmos_occ_et_vals *)
  }.
  (** The part of Geometry.__init__ that touches the pool: rss_ringoccs/occgeo/occgeo.py
      181 (spm_to_et loads the kernels), 272-273, 285-296 (calc_uplink_geo,
      calc_occ_geometry.py 604-605, loads nothing and gives no frame), 365-372.  The times
      are given: the sampled times, after false intercepts were removed, and the
      spacecraft event times. *)
  Definition geometry (p : pool S) (t_oet t_set : list S) (year : Z)
      (planet spacecraft dsn ul_dsn ref kernels : string) (ring_frame : option string)
      : pool S * option intercepts :=
    let p0 := kernels_read (Some kernels) p in
    let '(p1, rho) := calc_rho_vec_km p0 t_oet planet spacecraft dsn ref (Some kernels) ring_frame in
    match rho with
    | None => (p1, None)
    | Some rho =>
        let '(p2, uplink) :=
          if (2011 <=? year)%Z
          then let '(p2, u) := calc_rho_vec_km p1 t_set planet ul_dsn spacecraft "J2000" None None in
               (p2, option_map Some u)
          else (p1, Some None) in
        match uplink with
        | None => (p2, None)
        | Some uplink =>
            let '(p3, ionos) := get_planet_occ_times p2 t_oet dsn planet spacecraft (sofZ 5000) None in
            match ionos with
            | None => (p3, None)
            | Some ionos =>
                let '(p4, atmos) := get_planet_occ_times p3 t_oet dsn planet spacecraft (sofZ 500) None in
                match atmos with
                | None => (p4, None)
                | Some atmos => (p4, Some (Build_intercepts rho uplink ionos atmos))
                end
            end
        end
    end.
  (** A sequence of calls of get_planet_occ_times without kernels, for several heights:
      the results, in order. *)
  Fixpoint occ_history (p : pool S) (ets : list S) (obs planet spacecraft : string) (heights : list S)
      : pool S * list (option (list S)) :=
    match heights with
    | [] => (p, [])
    | h :: hs =>
        let '(p1, r) := get_planet_occ_times p ets obs planet spacecraft h None in
        let '(p2, rs) := occ_history p1 ets obs planet spacecraft hs in
        (p2, r :: rs)
    end.
End Pool.
Arguments i_rho {S}. Arguments i_uplink {S}. Arguments i_ionos {S}. Arguments i_atmos {S}.
