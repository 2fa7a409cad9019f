(** * Spec_Typed: how a list of gaps is written, independently of the code. *)
From Coq Require Import String Ascii List Reals.
Import ListNotations.

Definition text := list ascii.
(** A gap, as the texts of its limits, written [a,b]. *)
Definition written (g : text * text) : text := "["%char :: fst g ++ ","%char :: snd g ++ ["]"%char].
(** The gaps one after the other, each separator before the next gap. *)
Fixpoint listed (g : text * text) (gs : list (text * (text * text))) : text :=
  match gs with [] => written g | (sep, h) :: gs' => written g ++ sep ++ listed h gs' end.
Definition typed (g : text * text) (gs : list (text * (text * text))) : text := "["%char :: listed g gs ++ ["]"%char].
Definition plain (t : text) : Prop := ~ In "["%char t /\ ~ In ","%char t.
Definition plain_gap (g : text * text) : Prop := plain (fst g) /\ plain (snd g).
(** [fl] reads the gap [x] from the texts [g]. *)
Definition reads (fl : text -> option R) (g : text * text) (x : R * R) : Prop := fl (fst g) = Some (fst x) /\ fl (snd g) = Some (snd x).
(** A gap without the last character of its upper limit. *)
Definition shortened (g : text * text) : text * text := (fst g, removelast (snd g)).
