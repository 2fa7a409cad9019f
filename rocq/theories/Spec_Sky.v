(** * Spec_Sky: motions, light times and signals, independently of the code (only vectors are
    shared). *)
From Coq Require Import String List ZArith Reals Sorting.Sorted.
From Verif Require Import Model_Frame.
Import ListNotations.
Open Scope R_scope.

(** [v] is the velocity of the motion [p]. *)
Definition px (v : vec) : R := fst (fst v).
Definition py_ (v : vec) : R := snd (fst v).
Definition pz (v : vec) : R := snd v.
Definition moves (p v : R -> vec) : Prop := forall t,
  derivable_pt_lim (fun s => px (p s)) t (px (v t)) /\ derivable_pt_lim (fun s => py_ (p s)) t (py_ (v t)) /\ derivable_pt_lim (fun s => pz (p s)) t (pz (v t)).
(** The light time of a signal received at [t], for a sender [p1] and a receiver [p2]: the
    distance over the velocity of light and the delay in the field of a mass at the origin (the
    barycentre), with [k] the factor of the delay. *)
Definition travels (c k : R) (p1 p2 : R -> vec) (lt : R -> R) : Prop := forall t,
  let a := p1 (t - lt t) in let b := p2 t in
  lt t = vnorm (vsub b a) / c + k * ln ((vnorm a + vnorm b + vnorm (vsub b a)) / (vnorm a + vnorm b - vnorm (vsub b a))).

(** A spline that reproduces cubic polynomials. *)
Definition cubic (a b c d x : R) : R := a + b * x + c * x ^ 2 + d * x ^ 3.
Definition reproduces_cubics (spl : list (R * R) -> option (R -> R)) : Prop :=
  forall xs a b c d, StronglySorted Rlt xs -> (4 <= length xs)%nat -> exists g, spl (map (fun x => (x, cubic a b c d x)) xs) = Some g /\ forall x, g x = cubic a b c d x.
(** The signal with amplitude [A] and phase [theta]; its power. *)
Definition signal (A theta : R) : R * R := (A * cos theta, A * sin theta).
Definition power (z : R * R) : R := fst z ^ 2 + snd z ^ 2.
(** The masses (km^3/s^2) of the barycentres of Mercury, Venus, Mars, ..., Pluto (1, 2, 4, ..., 9),
    the Earth (399), the Sun (10), the Moon (301) and Titan (606). *)
Definition masses : list (Z * R) :=
  [(1%Z, 22032.080); (2%Z, 324858.5990); (399%Z, 398600.4360); (4%Z, 42828.314); (5%Z, 126712767.8630); (6%Z, 37940626.063); (7%Z, 5794549.0070); (8%Z, 6836534.0640); (9%Z, 981.6010);
   (10%Z, 132712440023.31); (301%Z, 4902.7990); (606%Z, 8978.1370309840)].
(** 1 - the rate of the clock of a station or spacecraft at [p] with velocity [v], when the bodies
    are at [q]. *)
Definition slowness (c : R) (p v : vec) (q : Z -> vec) : R :=
  (fold_right (fun m s => snd m / vnorm (vsub (q (fst m)) p) + s) 0 masses + vnorm v ^ 2 / 2) / c ^ 2 - 1.550520e-8.
(** The ratios of the transponder, from uplink to downlink band. *)
Open Scope string_scope.
Definition ratios : list (string * R) := [("S-S", 240 / 221); ("S-X", 880 / 221); ("X-S", 240 / 749); ("X-X", 880 / 749); ("X-K", 3344 / 749); ("K-K", 3360 / 3600)].
Close Scope string_scope.
(** The light time has a derivative given by the motions: neither end is at the origin or at the
    other, the origin is not between them, and the sender is slower than light. *)
Definition clear_path (c k : R) (a va b : vec) : Prop :=
  let D := vnorm (vsub b a) in
  vnorm a <> 0 /\ vnorm b <> 0 /\ D <> 0 /\ D < vnorm a + vnorm b /\
  (let r := vdot (vhat a) va in let w := - vdot (vhat (vsub b a)) va in
   ((r + w) / (vnorm a + vnorm b + D) - (r - w) / (vnorm a + vnorm b - D)) * k + w / c + 1 <> 0).
