(** * Spec_Strings: what it means that a user's string names an option (C04-C06).
    Definitions only. *)
From Coq Require Import List ZArith Bool String Ascii DecimalString.
From Verif Require Import Base Scalar Model_TauRec Model_Strings.
Import ListNotations.
Open Scope string_scope.
Open Scope Z_scope.

(** [c] is the character [d] or its capital. *)
Definition same_letter (c d : ascii) : Prop :=
  c = d \/
  (65 <= Z.of_nat (nat_of_ascii c) <= 90 /\
   Z.of_nat (nat_of_ascii d) = Z.of_nat (nat_of_ascii c) + 32).
(** The string [s] spells the word [k], ignoring white space and case. *)
Inductive spells (ws : ascii -> bool) : string -> string -> Prop :=
| spells_nil : spells ws EmptyString EmptyString
| spells_ws c s k : ws c = true -> spells ws s k -> spells ws (String c s) k
| spells_letter c d s k :
    ws c = false -> same_letter c d -> spells ws s k ->
    spells ws (String c s) (String d k).

(** The allowed strings and their radii as printed by the library itself in
    src/tau/rss_ringoccs_tau_set_range_from_string.c 149-217 (the text
    "Allowed strings are:"). *)
Definition documented_ranges : list (string * (Z * Z)) :=
  [("all", (1, 400000)); ("besselbarnard", (120210, 120330));
   ("bessel-barnard", (120210, 120330)); ("cringripples", (77690, 77760));
   ("encke", (132900, 134200)); ("enckegap", (132900, 134200));
   ("herschel", (118100, 118380)); ("herschelgap", (118100, 118380));
   ("huygens", (117650, 117950)); ("huygensringlet", (117650, 117950));
   ("janusepimetheus", (96200, 96800)); ("jeffreys", (118900, 119000));
   ("jeffreysgap", (118900, 119000)); ("kuiper", (119300, 119500));
   ("kuipergap", (119300, 119500)); ("maxwell", (87410, 87610));
   ("maxwellringlet", (87410, 87610)); ("russell", (118550, 118660));
   ("russellgap", (118550, 118660)); ("titan", (77870, 77930));
   ("titanringlet", (77870, 77930))].

(** The window names of the error text of
    src/tau/rss_ringoccs_tau_set_window_type.c 86-104, with the window each of
    them names. *)
Definition documented_windows : list (string * wintype) :=
  [("rect", Rect); ("coss", Coss); ("kb20", KB20); ("kb25", KB25);
   ("kb35", KB35); ("kbmd20", KBMD20); ("kbmd25", KBMD25); ("kbmd35", KBMD35)].

(** The method names of the error text of
    src/tau/rss_ringoccs_tau_set_psi_type.c 200-, with the method each of them
    names ("fresnelN" is separate). *)
Definition documented_methods : list (string * psitype) :=
  [("newtonriemann", PsiNewtonRiemann); ("newtonfilon01", PsiNewtonFilon01);
   ("newtonfilon11", PsiNewtonFilon11); ("newtonfilon02", PsiNewtonFilon02);
   ("newtonfilon12", PsiNewtonFilon12); ("newtonperturb", PsiNewtonPerturb);
   ("ellipse", PsiEllipticNewton); ("simplefft", PsiSimpleFFT);
   ("newton4", PsiNewton4); ("newton8", PsiNewton8);
   ("newton16", PsiNewton16); ("fresnel", PsiFresnel)].

(** The decimal numeral of a natural number. *)
Definition decimal (n : nat) : string := NilEmpty.string_of_uint (Nat.to_uint n).
(** tmpl_String_To_UChar reads decimal numerals below 256. *)
Definition uchar_law (X : strlib) : Prop :=
  forall n, (n <= 255)%nat -> to_uchar X (decimal n) = Z.of_nat n.
(** [s] starts with the word [k] after normalisation. *)
Definition spells_prefix (ws : ascii -> bool) (s k : string) : Prop :=
  exists r, spells ws s (k ++ r).
