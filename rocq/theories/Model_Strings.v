(** * Model_Strings: the setters of src/tau that parse strings.  Definitions
    only.  Strings are byte strings ([Coq.Strings.String]). *)
From Coq Require Import List ZArith Bool String Ascii.
From Verif Require Import Base Scalar Model_TauRec Model_Checks.
Import ListNotations.
Open Scope string_scope.
Open Scope Z_scope.

(** libtmpl's string helpers: which bytes count as white space, and
    tmpl_String_To_UChar. *)
Record strlib : Type := {
  is_ws : ascii -> bool;
  to_uchar : string -> Z;
}.

(** tmpl_String_Remove_Whitespace. *)
Fixpoint remove_ws (ws : ascii -> bool) (s : string) : string :=
  match s with
  | EmptyString => EmptyString
  | String c r => if ws c then remove_ws ws r else String c (remove_ws ws r)
  end.
(** tmpl_String_Make_Lower_Case (ASCII letters). *)
Definition lower_ascii (c : ascii) : ascii :=
  let n := nat_of_ascii c in
  if (Nat.leb 65 n && Nat.leb n 90)%bool then ascii_of_nat (n + 32) else c.
Fixpoint lower (s : string) : string :=
  match s with
  | EmptyString => EmptyString
  | String c r => String (lower_ascii c) (lower r)
  end.

Section Strings.
  Context {S : scalar} (L : tmpl S) (X : strlib).
  Local Notation tau := (tau S).

  (** The two calls that normalise the user's string. *)
  Definition normalise (s : string) : string := lower (remove_ws (is_ws X) s).

  (** src/tau/rss_ringoccs_tau_set_range_from_string.c 52-134: the chain of
      comparisons, as a table in the same order. *)
  Definition range_table : list (string * (Z * Z)) :=
    [("all", (1, 400000));
     ("besselbarnard", (120210, 120330)); ("bessel-barnard", (120210, 120330));
     ("cringripples", (77690, 77760));
     ("encke", (132900, 134200)); ("enckegap", (132900, 134200));
     ("herschel", (118100, 118380)); ("herschelgap", (118100, 118380));
     ("huygens", (117650, 117950)); ("huygensringlet", (117650, 117950));
     ("janusepimetheus", (96200, 96800));
     ("jeffreys", (118900, 119000)); ("jeffreysgap", (118900, 119000));
     ("kuiper", (119300, 119500)); ("kuipergap", (119300, 119500));
     ("maxwell", (87410, 87610)); ("maxwellringlet", (87410, 87610));
     ("russell", (118550, 118660)); ("russellgap", (118550, 118660));
     ("titan", (77870, 77930)); ("titanringlet", (77870, 77930))].
  Fixpoint lookup {A} (tbl : list (string * A)) (s : string) : option A :=
    match tbl with
    | [] => None
    | (k, v) :: r => if String.eqb s k then Some v else lookup r s
    end.
  (** src/tau/rss_ringoccs_tau_set_range_from_string.c 24-142.  [None] is a
      NULL argument.  Allocation site 12 is tmpl_String_Duplicate, whose
      result is used unchecked. *)
  Definition set_range_from_string (a : option string) (t : tau) : res tau :=
    guarded t (
      match a with
      | None => fail t "range string: null"
      | Some s =>
          do _ <- need (t_alloc L 12) 1;
          match lookup range_table (normalise s) with
          | Some (lo, hi) => Ok (set_range1 (set_range0 t (sofZ lo)) (sofZ hi))
          | None =>
              fail (set_range1 (set_range0 t (sneg s1)) (sneg s1))
                   "range string: unknown"
          end
      end).

  (** src/tau/rss_ringoccs_tau_set_window_type.c 46-85, same order. *)
  Definition window_table : list (string * wintype) :=
    [("rect", Rect); ("coss", Coss); ("kb20", KB20); ("kb25", KB25);
     ("kb35", KB35); ("kbmd20", KBMD20); ("kbmd25", KBMD25); ("kbmd35", KBMD35)].
  (** src/tau/rss_ringoccs_tau_set_window_type.c 9-106.  Site 10 is the
      duplication of the string. *)
  Definition set_window_type (a : option string) (t : tau) : res tau :=
    guarded t (
      match a with
      | None => fail t "window type: null"
      | Some s =>
          if negb (t_alloc L 10) then fail t "window type: duplicate"
          else match lookup window_table (normalise s) with
               | Some w => Ok (set_window (set_normeq t (t_normeq L w)) w)
               | None => fail (set_normeq t (sneg s1)) "window type: unknown"
               end
      end).

  (** src/tau/rss_ringoccs_tau_set_psi_type.c 77-124, same order. *)
  Definition psi_table : list (string * psitype) :=
    [("newtonriemann", PsiNewtonRiemann); ("newtonfilon01", PsiNewtonFilon01);
     ("newtonfilon11", PsiNewtonFilon11); ("newtonfilon02", PsiNewtonFilon02);
     ("newtonfilon12", PsiNewtonFilon12); ("newtonperturb", PsiNewtonPerturb);
     ("ellipse", PsiEllipticNewton); ("simplefft", PsiSimpleFFT);
     ("newton4", PsiNewton4); ("newton8", PsiNewton8);
     ("newton16", PsiNewton16); ("fresnel", PsiFresnel)].
  (** src/tau/rss_ringoccs_tau_set_psi_type.c 25-198.  Site 11 is the
      duplication of the string. *)
  Definition set_psi_type (a : option string) (t : tau) : res tau :=
    guarded t (
      match a with
      | None => fail t "psitype: null"
      | Some s =>
          if negb (t_alloc L 11) then fail t "psitype: duplicate"
          else
            let str := normalise s in
            match lookup psi_table str with
            | Some p => Ok (set_psinum t p)
            | None =>
                if String.eqb (substring 0 7 str) "fresnel" then
                  let n := to_uchar X (substring 7 (String.length str - 7) str) in
                  let t1 := set_psinum (set_order t n) PsiLegendre in
                  if n =? 0 then fail t1 "psitype: fresnel0"
                  else if n =? 1 then fail (set_order t1 0) "psitype: fresnel1"
                  else if n =? 2 then Ok (set_order (set_psinum t1 PsiFresnel) 0)
                  else Ok (set_order t1 (n - 1))
                else
                  fail (set_psinum (set_order t 0) PsiNone) "psitype: unknown"
            end
      end).
End Strings.
