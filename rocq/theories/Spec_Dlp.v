(** * Spec_Dlp: vocabulary of C72.  Definitions only. *)
From Coq Require Import List ZArith Bool Reals Sorted.
From Verif Require Import Base Model_Time Model_Chord Model_Dlp.
Import ListNotations.
Open Scope R_scope.

(** In the order of their times, all different. *)
Definition timed {A} (t : A -> R) (xs : list A) : Prop := StronglySorted (fun x y => t x < t y) xs.
(** The radius of the geometry goes only up, or only down. *)
Definition one_way (geo : list gsmp) : Prop :=
  StronglySorted (fun x y => g_rho x < g_rho y) geo \/ StronglySorted (fun x y => g_rho y < g_rho x) geo.
(** The sample of the profile lies between two samples of the geometry, the part [w] of the
    way from the first to the second, in every column. *)
Definition between (a b : gsmp) (w : R) (p : prof) : Prop :=
  0 <= w <= 1 /\
  p_rho p = (1 - w) * g_rho a + w * g_rho b /\
  p_t p = (1 - w) * g_t a + w * g_t b /\
  p_dot p = (1 - w) * g_dot a + w * g_dot b /\
  p_B p = ((1 - w) * g_B a + w * g_B b) * (PI / 180) /\
  forall c, p_col p c = (1 - w) * g_col a c + w * g_col b c.
(** Two samples that follow each other. *)
Definition neighbours {A} (a b : A) (xs : list A) : Prop := exists l1 l2, xs = l1 ++ a :: b :: l2.
(** The samples with a time in an interval, in their order. *)
Inductive those {A} (P : A -> Prop) : list A -> list A -> Prop :=
| th_nil : those P [] []
| th_keep x l l' : P x -> those P l l' -> those P (x :: l) (x :: l')
| th_drop x l l' : ~ P x -> those P l l' -> those P (x :: l) l'.
(** The threshold of a sample of the calibration, with the velocity and the opening angle of
    the geometry at its time. *)
Definition threshold_of (noise res : R) (geo : list gsmp) (c : csmp) (T : R) : Prop :=
  exists g h u, neighbours g h geo /\ 0 <= u <= 1 /\ c_t c = (1 - u) * g_t g + u * g_t h /\
    T = tau_thresh noise res (241 / 100) ((1 - u) * g_dot g + u * g_dot h) ((1 - u) * g_B g + u * g_B h) (c_free c).
(** The direction of a part is that of its first two radii. *)
Definition heads (d : dir) (g : list gsmp) : Prop := exists a b l, g = a :: b :: l /\ ((d = INGRESS /\ g_rho b < g_rho a) \/ (d = EGRESS /\ g_rho a <= g_rho b)).
