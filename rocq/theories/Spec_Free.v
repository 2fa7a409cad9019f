(** * Spec_Free: vocabulary of C69.  Definitions only. *)
From Coq Require Import List ZArith Bool Reals Sorted.
From Verif Require Import Base Model_Time Model_Chord Model_Free Spec_Chord.
Import ListNotations.
Open Scope R_scope.

(** An ellipse. *)
Definition ellipse (e : edge) : Prop := 0 < g_a e /\ 0 <= g_ae e < g_a e.
(** Intervals, each from a smaller to a larger number, both ends going up from each to
    every later one. *)
Definition ascending (l : list (R * R)) : Prop :=
  Forall (fun r => fst r < snd r) l /\ StronglySorted (fun p q => fst p < fst q /\ snd p < snd q) l.
(** The least and the largest radius of the samples. *)
Definition least (xs : list smp) (r : R) : Prop := (exists x, In x xs /\ s_rho x = r) /\ forall x, In x xs -> r <= s_rho x.
Definition largest (xs : list smp) (r : R) : Prop := (exists x, In x xs /\ s_rho x = r) /\ forall x, In x xs -> s_rho x <= r.
(** A region in time for a region in radius: exactly the samples in it. *)
Definition same_samples (xs : list smp) (km spm : R * R) : Prop :=
  forall x, In x xs ->
    (fst spm < s_oet x < snd spm <-> fst km < s_rho x < snd km) /\
    (fst spm <= s_oet x <= snd spm <-> fst km <= s_rho x <= snd km).
(** The sample nearest to a radius, if there is only one. *)
Definition nearest (xs : list smp) (g : R) (x : smp) : Prop :=
  exists l1 l2, xs = l1 ++ x :: l2 /\ forall y, In y (l1 ++ l2) -> Rabs (s_rho x - g) < Rabs (s_rho y - g).
(** The radius of an ellipse at a longitude from its periapse. *)
Definition ellipse_radius (e : edge) (theta : R) : R :=
  let ecc := g_ae e / g_a e in g_a e * (1 - ecc * ecc) / (1 + ecc * cos theta).
(** The longitude of a sample from the periapse of the edge, which precesses; in radians. *)
Definition from_periapse (days : R -> R) (e : edge) (x : smp) : R :=
  (s_phi x - (g_w0 e + g_wdot e * days (s_ret x))) * (PI / 180).
