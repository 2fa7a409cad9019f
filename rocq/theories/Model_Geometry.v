(** * Model_Geometry: the angles of an occultation (src/occultation_geometry).
    Definitions only. *)
From Coq Require Import List ZArith Bool String.
From Verif Require Import Base Scalar.
Import ListNotations.
Open Scope string_scope.

(** A tmpl_ThreeVectorDouble. *)
Definition vec3 (S : scalar) : Type := (car S * car S * car S)%type.

(** What the two functions use of SPICE and of libtmpl.  [e_spkpos target time ref
    abcorr observer]: the position stored by [spkpos_c]; [None] if SPICE signals an
    error, in which case (with the error action RETURN; with the default action the
    process ends) nothing is stored.  [e_angle] is [tmpl_3DDouble_Angle], [e_degrees] is
    [tmpl_double_rad_to_deg]. *)
Record spice (S : scalar) : Type := {
  e_spkpos : string -> S -> string -> string -> string -> option (vec3 S);
  e_angle : vec3 S -> vec3 S -> S;
  e_degrees : S
}.
Arguments e_spkpos {S}. Arguments e_angle {S}. Arguments e_degrees {S}.

Section Geometry.
  Context {S : scalar}.
  Variable E : spice S.
  (** The local vector after [spkpos_c]: not initialised if nothing was stored. *)
  Definition position (target : string) (time : S) (ref abcorr observer : string) : res (vec3 S) :=
    match e_spkpos E target time ref abcorr observer with
    | Some v => Ok v
    | None => UB Uninitialised
    end.
  (** src/occultation_geometry/rss_ringoccs_elevation_angle_deg.c 13-33. *)
  Definition elevation_angle_deg (time : S) (target observer ref : string) : res S :=
    do p1 <- position target time ref "CN" observer;
    do p2 <- position observer time ref "CN" "EARTH";
    Ok ((spihalf - e_angle E p1 p2) * e_degrees E)%S.
  (** src/occultation_geometry/rss_ringoccs_opening_angle_deg.c 6-23. *)
  Definition opening_angle_deg (time : S) (nhat : vec3 S) (spacecraft dsn ref : string) : res S :=
    do p <- position dsn time ref "CN" spacecraft;
    Ok ((spihalf - e_angle E p nhat) * e_degrees E)%S.
End Geometry.
