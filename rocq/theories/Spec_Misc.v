(** * Spec_Misc: vocabulary of C47-C50. *)
From Coq Require Import List ZArith Bool String.
From Verif Require Import Base Scalar Model_TauRec Model_Misc.
Import ListNotations.
Open Scope Z_scope.

(** The ring occultation events of the mission: year, day of year, revolution. *)
Definition occultations : list (Z * Z * string) :=
  ([
   (2005, 123, "007RI"); (2005, 123, "007RI"); (2005, 141, "008RI");
   (2005, 141, "008RI"); (2005, 159, "009RI"); (2005, 177, "010RI");
   (2005, 177, "010RI"); (2005, 196, "011RI"); (2005, 214, "012RI");
   (2005, 214, "012RI"); (2005, 232, "013RI"); (2005, 248, "014RI");
   (2006, 258, "028RI"); (2006, 259, "028RI"); (2007, 130, "044RI");
   (2007, 162, "046RI"); (2007, 337, "053RI"); (2007, 353, "054RI");
   (2008, 15, "056RI"); (2008, 27, "057RI"); (2008, 39, "058RI");
   (2008, 62, "060RI"); (2008, 92, "063RI"); (2008, 102, "064RI");
   (2008, 130, "067RI"); (2008, 217, "079RI"); (2008, 232, "081RI");
   (2008, 239, "082RI"); (2008, 254, "084RI"); (2008, 291, "089RI");
   (2009, 359, "123RI"); (2009, 360, "123RI"); (2010, 26, "125RI");
   (2010, 27, "125RI"); (2010, 169, "133RI"); (2010, 170, "133RI");
   (2010, 245, "137RI"); (2010, 245, "137RI"); (2012, 156, "167RI");
   (2012, 180, "168RI"); (2012, 204, "169RI"); (2012, 225, "170RI");
   (2012, 315, "174RI"); (2013, 18, "179RI"); (2013, 31, "180RI");
   (2013, 130, "189RI"); (2013, 140, "190RI"); (2013, 151, "191RI");
   (2013, 175, "193RI"); (2013, 187, "194RI"); (2013, 220, "196RI");
   (2013, 244, "197RI"); (2016, 158, "236RI"); (2016, 182, "237RI");
   (2016, 182, "237RI"); (2016, 206, "238RI"); (2016, 307, "247RI");
   (2016, 317, "248RI"); (2016, 333, "250RI"); (2016, 340, "251RI");
   (2016, 354, "253RI"); (2017, 3, "255RI"); (2017, 10, "256RI");
   (2017, 17, "257RI"); (2017, 81, "266RI"); (2017, 96, "268RI");
   (2017, 110, "270RI"); (2017, 129, "273RI"); (2017, 129, "273RI");
   (2017, 129, "273RI"); (2017, 135, "PERIO"); (2017, 135, "274RI");
   (2017, 136, "274RI"); (2017, 142, "275RI"); (2017, 142, "275RI");
   (2017, 142, "275RI"); (2017, 148, "276RI"); (2017, 161, "278RI");
   (2017, 161, "278RI"); (2017, 174, "280RI"); (2017, 174, "280RI");
   (2017, 187, "282RI"); (2017, 200, "284RI"); (2017, 200, "284RI")
  ])%string.
(** The documented form of a history table: 17 cells; the name/value pairs, a null
    pointer, anything. *)
Definition table_of (pairs : list (string * string)) (tb : list slot) : Prop :=
  List.length tb = 17%nat /\
  exists rest, tb = (flat_map (fun p => [Str (fst p); Str (snd p)]) pairs ++ (Null :: rest))%list.
(** What is printed for a table. *)
Definition table_lines (pairs : list (string * string)) : list line :=
  match pairs with
  | [] => [TextLine "None"]
  | _ => map (fun p => PairLine (fst p) (snd p)) pairs
  end.
(** The seven descriptive lines. *)
Definition header_lines (hs : list string) : list line :=
  map (fun p => HeaderLine (fst p) (snd p)) (combine (map Z.of_nat (seq 0 (List.length hs))) hs).
(** The step profile with value [lv] left of the edge and [rv] from it on. *)
Definition step_profile {S : scalar} (rho : list S) (center : S) (lv rv : cplx S) : list (option (cplx S)) :=
  map (fun r => Some (if slt r center then lv else rv)) rho.
