(** * Spec_Offset: spectra and windows, independently of the code. *)
From Coq Require Import List ZArith Reals.
From Verif Require Import Spec_Sky.
Import ListNotations.
Open Scope R_scope.

(** The power of samples [z 0], ..., [z (n-1)] taken at [t 0], ..., at the frequency [f], weighted
    with the window of von Hann. *)
Fixpoint total (n : nat) (g : nat -> R) : R := match n with O => 0 | S n' => total n' g + g n' end.
Definition hann (n k : nat) : R := sin (PI * INR k / (INR n - 1)) ^ 2.
Definition spectrum (n : nat) (t : nat -> R) (z : nat -> R * R) (f : R) : R :=
  (total n (fun k => hann n k * (fst (z k) * cos (2 * PI * f * t k) + snd (z k) * sin (2 * PI * f * t k))) ^ 2
   + total n (fun k => hann n k * (snd (z k) * cos (2 * PI * f * t k) - fst (z k) * sin (2 * PI * f * t k))) ^ 2) / INR n ^ 2.
(** The frequencies of the discrete transform of [n] samples are [m] / ([n] [dt]). *)
Definition bin (n : nat) (m : Z) : Prop := (- Z.of_nat n <= 2 * m < Z.of_nat n)%Z.
(** The samples in the window of half width [w] around [mid]. *)
Fixpoint samples_in (w mid : R) (data : list (R * (R * R))) : list (R * (R * R)) :=
  match data with
  | [] => []
  | d :: l => if Rle_dec (mid - w) (fst d) then if Rlt_dec (fst d) (mid + w) then d :: samples_in w mid l else samples_in w mid l else samples_in w mid l
  end.
