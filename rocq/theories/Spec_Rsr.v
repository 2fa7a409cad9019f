(** * Spec_Rsr: raw data files as records of samples, independently of the reader (of the model only the
    options are used). *)
From Coq Require Import List ZArith Reals.
From Verif Require Import Model_Rsr.
Import ListNotations.

(** A number in bytes, the first one the most significant; a field of a header by its position
    and its size. *)
Fixpoint number (b : list Z) : Z := match b with [] => 0 | x :: b' => x * 256 ^ Z.of_nat (length b') + number b' end%Z.
Definition field (pos size : nat) (b : list Z) : list Z := firstn size (skipn pos b).

(** A record: 260 bytes of header and samples [(i, q)], signed numbers of 16 bits.  In the file
    q is before i, and each is written in two's complement. *)
Record record : Type := { head : list Z; samples : list (Z * Z) }.
Definition word (v : Z) : list Z := [v mod 65536 / 256; v mod 256]%Z.
Definition written (r : record) : list Z := head r ++ flat_map (fun s => word (snd s) ++ word (fst s)) (samples r).
Definition short (v : Z) : Prop := (-32768 <= v <= 32767)%Z.
Definition file_of (rs : list record) (tail : list Z) : list Z := concat (map written rs) ++ tail.

(** The records of a file of 16-bit samples with [n] samples in each record and [rate] thousand
    samples in a second.  The first header has the length of the records (less 20 bytes) at
    byte 12, the number of bits at 68, the rate at 70 and the length of the data at 258. *)
Definition alike (n : nat) (r : record) : Prop :=
  length (head r) = 260%nat /\ length (samples r) = n /\ Forall (fun s => short (fst s) /\ short (snd s)) (samples r).
Definition announced (rate : Z) (n : nat) (h : list Z) : Prop :=
  (number (field 12 8 h) = 240 + 4 * Z.of_nat n /\ number (field 68 1 h) = 16 /\
   number (field 70 2 h) = rate /\ number (field 258 2 h) = 4 * Z.of_nat n)%Z.
(** A file that ends with a part of a record. *)
Definition well_formed (rate : Z) (n : nat) (r0 : record) (rs : list record) (tail : list Z) : Prop :=
  (0 < n)%nat /\ Forall (alike n) (r0 :: rs) /\ announced rate n (head r0) /\ (length tail < 260 + 4 * n)%nat.

Local Open Scope R_scope.
(** The value of a sample: twice the number plus one if the bias is corrected. *)
Definition reading (corrected : bool) (v : Z) : R := if corrected then 2 * IZR v + 1 else IZR v.
Definition readings (corrected : bool) (s : Z * Z) : R * R := (reading corrected (fst s), reading corrected (snd s)).
(** Time number [k] at [hz] samples in a second after [t0]. *)
Definition time_of (t0 : R) (hz : Z) (k : nat) : R := t0 + INR k / IZR hz.
(** During second number [i] after [t0]. *)
Definition during (t0 : R) (i : nat) (t : R) : Prop := t0 + INR i <= t < t0 + INR i + 1.
(** The predicted frequency from one header at the part [x] of its second. *)
Definition predicted (f64 : list Z -> R) (h : list Z) (x : R) : R :=
  1000000 * (IZR (number (field 74 2 h)) + IZR (number (field 72 2 h)))
  - (f64 (field 176 8 h) + f64 (field 184 8 h) * x + f64 (field 192 8 h) * x ^ 2).

(** One sample in how many is asked for: of the factors for the rate of the file the least
    one that is switched on. *)
Definition one_in (o : options) (rate : Z) : nat :=
  (if (rate =? 50)%Z then if to25 o then 2 else if to10 o then 5 else if to5 o then 10 else if to1_50 o then 50 else 1
   else if (rate =? 16)%Z then if to8 o then 2 else if to4 o then 4 else if to2 o then 8 else if to1_16 o then 16 else 1
   else 1)%nat.
(** Decimation by [q] keeps the first sample and every [q]-th one after it. *)
Definition one_of_each (dec : nat -> list (R * R) -> list (R * R)) : Prop :=
  forall q x, (0 < q)%nat -> length (dec q x) = ((length x + q - 1) / q)%nat.
