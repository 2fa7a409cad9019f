(** * Spec_Frame: vocabulary of C70.  Definitions only. *)
From Coq Require Import List ZArith Bool Reals String.
From Verif Require Import Base Model_Time Model_Chord Model_Frame.
Open Scope R_scope.

Definition radians (x : R) : R := x * (PI / 180).
Definition unit_vector (n : vec) : Prop := vdot n n = 1.
(** Projection along [n], a unit vector. *)
Definition onto_plane (n v : vec) : vec := vsub v (vscl (vdot v n) n).
(** The angle [x], in degrees and from 0 to 360, by which the projection of [u] must be
    turned counterclockwise about [n] to point along the projection of [v]. *)
Definition turned (n u v : vec) (x : R) : Prop :=
  0 <= x < 360 /\
  let p := onto_plane n u in
  let q := onto_plane n v in
  vdot p q = vnorm p * vnorm q * cos (radians x) /\ vdot n (vcrss p q) = vnorm p * vnorm q * sin (radians x).
(** The line in which the plane with normal [n] cuts the plane of the first two axes, in the
    direction in which it comes from below. *)
Definition node (n : vec) : vec := match n with (a, b, _) => (- b, a, 0) end.
(** [x] degrees above the plane with normal [n] lies the direction of [p]. *)
Definition height (n p : vec) (x : R) : Prop :=
  -90 <= x <= 90 /\ sin (radians x) = vdot p n / (vnorm p * vnorm n).
(** The distance of the origin from the line through [p] in the direction [d]. *)
Definition distance_to_line (p d : vec) (r : R) : Prop :=
  (exists s, vnorm (vadd p (vscl s d)) = r) /\ forall s, r <= vnorm (vadd p (vscl s d)).
(** The effective opening angle [x] in degrees: the direction in the plane through the
    line of sight and the radial direction. *)
Definition effective (B phi x : R) : Prop :=
  -180 < x <= 180 /\ exists r, 0 < r /\ cos (radians phi) = r * cos (radians x) /\ tan (radians B) = r * sin (radians x).
(** What is asked of the ephemerides at a time: the state of the spacecraft seen from the
    planet ([p]), and the position of the station seen from it ([d], [los]), in the frame of
    the call and in J2000, not along the pole. *)
Definition known (E : ephemeris) (spacecraft dsn planet : string) (n : vec) (ref : string) (t : R) (p d los : vec) : Prop :=
  (exists v, spkezr E spacecraft t ref "CN" planet = Some (p, v)) /\ spkpos E dsn t ref "XCN" spacecraft = Some d /\
  spkpos E dsn t "J2000" "XCN" spacecraft = Some los /\ onto_plane n los <> (0, 0, 0) /\ d <> (0, 0, 0).
(** A direction that is not the third axis. *)
Definition inclined (n : vec) : Prop := match n with (a, b, _) => a <> 0 \/ b <> 0 end.
