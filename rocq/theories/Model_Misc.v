(** * Model_Misc: revolution lookup, history printing and the straight-edge
    models.  Definitions only. *)
From Coq Require Import List ZArith Bool String Ascii.
From Verif Require Import Base Scalar Model_TauRec Model_Checks Model_Recon.
Import ListNotations.
Open Scope Z_scope.

(** src/history/rss_ringoccs_date_to_rev.c 5-27. *)
Definition rev_number_vals : list string :=
  ([
   "007RI"; "007RI"; "008RI"; "008RI"; "009RI"; "010RI"; "010RI"; "011RI";
   "012RI"; "012RI"; "013RI"; "014RI"; "028RI"; "028RI"; "044RI"; "046RI";
   "053RI"; "054RI"; "056RI"; "057RI"; "058RI"; "060RI"; "063RI"; "064RI";
   "067RI"; "079RI"; "081RI"; "082RI"; "084RI"; "089RI"; "123RI"; "123RI";
   "125RI"; "125RI"; "133RI"; "133RI"; "137RI"; "137RI"; "167RI"; "168RI";
   "169RI"; "170RI"; "174RI"; "179RI"; "180RI"; "189RI"; "190RI"; "191RI";
   "193RI"; "194RI"; "196RI"; "197RI"; "236RI"; "237RI"; "237RI"; "238RI";
   "247RI"; "248RI"; "250RI"; "251RI"; "253RI"; "255RI"; "256RI"; "257RI";
   "266RI"; "268RI"; "270RI"; "273RI"; "273RI"; "273RI"; "PERIO"; "274RI";
   "274RI"; "275RI"; "275RI"; "275RI"; "276RI"; "278RI"; "278RI"; "280RI";
   "280RI"; "282RI"; "284RI"; "284RI"
  ])%string.
(** src/history/rss_ringoccs_date_to_rev.c 29-38. *)
Definition rev_year_vals : list Z :=
  [
   2005; 2005; 2005; 2005; 2005; 2005; 2005; 2005; 2005; 2005; 2005; 2005;
   2006; 2006; 2007; 2007; 2007; 2007; 2008; 2008; 2008; 2008; 2008; 2008;
   2008; 2008; 2008; 2008; 2008; 2008; 2009; 2009; 2010; 2010; 2010; 2010;
   2010; 2010; 2012; 2012; 2012; 2012; 2012; 2013; 2013; 2013; 2013; 2013;
   2013; 2013; 2013; 2013; 2016; 2016; 2016; 2016; 2016; 2016; 2016; 2016;
   2016; 2017; 2017; 2017; 2017; 2017; 2017; 2017; 2017; 2017; 2017; 2017;
   2017; 2017; 2017; 2017; 2017; 2017; 2017; 2017; 2017; 2017; 2017; 2017
  ].
(** src/history/rss_ringoccs_date_to_rev.c 40-48. *)
Definition rev_doy_vals : list Z :=
  [
   123; 123; 141; 141; 159; 177; 177; 196; 214; 214; 232; 248; 258; 259; 130;
   162; 337; 353; 15; 27; 39; 62; 92; 102; 130; 217; 232; 239; 254; 291; 359;
   360; 26; 27; 169; 170; 245; 245; 156; 180; 204; 225; 315; 18; 31; 130;
   140; 151; 175; 187; 220; 244; 158; 182; 182; 206; 307; 317; 333; 340; 354;
   3; 10; 17; 81; 96; 110; 129; 129; 129; 135; 135; 136; 142; 142; 142; 148;
   161; 161; 174; 174; 187; 200; 200
  ].
(** src/history/rss_ringoccs_date_to_rev.c 71-80: the loop, [k] entries to go. *)
Fixpoint rev_loop (k : nat) (n year doy : Z) : res (option string) :=
  match k with
  | O => Ok None
  | Datatypes.S k' =>
      do y <- aread rev_year_vals n;
      if negb (year =? y) then rev_loop k' (n + 1) year doy
      else
        do d <- aread rev_doy_vals n;
        if negb (doy =? d) then rev_loop k' (n + 1) year doy
        else do r <- aread rev_number_vals n; Ok (Some r)
  end.
(** src/history/rss_ringoccs_date_to_rev.c 50-83.  [None] is the null pointer. *)
Definition date_to_rev (year doy : Z) : res (option string) :=
  if year <? 2005 then Ok None
  else if 2017 <? year then Ok None
  else if 366 <? doy then Ok None
  else rev_loop (List.length rev_number_vals) 0 year doy.

(** A cell of type [const char *]: never written, null, or a string. *)
Inductive slot : Type := Unset | Null | Str (s : string).
(** include/types/rss_ringoccs_history.h 31-48: the seven descriptive strings in
    the order in which they are printed, and the two tables (17 cells each). *)
Record history : Type := mkHistory {
  h_header : list slot;
  h_vars : list slot;
  h_kwds : list slot;
}.
(** What printing produces: the lines for the seven descriptive strings, the
    name/value lines and the fixed lines. *)
Inductive line : Type :=
| HeaderLine (k : Z) (s : string)
| PairLine (name value : string)
| TextLine (s : string).
(** The test [if (p)] on a pointer cell. *)
Definition slot_set (c : slot) : res bool :=
  match c with Unset => UB Uninitialised | Null => Ok false | Str _ => Ok true end.
(** A cell printed with the conversion %s. *)
Definition slot_text (c : slot) : res string :=
  match c with Unset => UB Uninitialised | Null => UB BadArgument | Str s => Ok s end.
(** src/history/rss_ringoccs_history_print.c 29-53 (and, with the keyword table,
    55-76): the loop at position [n].  [k] bounds the number of iterations; it is
    larger than the number of pairs a table can hold. *)
Fixpoint print_pairs (k : nat) (tb : list slot) (n : Z) (acc : list line) : res (list line) :=
  match k with
  | O => UB Diverges
  | Datatypes.S k' =>
      do c <- aread tb n;
      do b <- slot_set c;
      if b then
        do name <- slot_text c;
        do c' <- aread tb (n + 1);
        do value <- slot_text c';
        let acc' := (acc ++ [PairLine name value])%list in
        if 17 <=? n + 2 then Ok acc' else print_pairs k' tb (n + 2) acc'
      else Ok acc
  end.
(** src/history/rss_ringoccs_history_print.c 29-35: the empty table. *)
Definition print_table (tb : list slot) : res (list line) :=
  do c <- aread tb 0;
  do b <- slot_set c;
  if b then print_pairs 18 tb 0 [] else Ok [TextLine "None"].
(** src/history/rss_ringoccs_history_print.c 14-27. *)
Fixpoint print_header (l : list slot) (k : Z) : res (list line) :=
  match l with
  | [] => Ok []
  | c :: r => do s <- slot_text c; do q <- print_header r (k + 1); Ok (HeaderLine k s :: q)
  end.
(** src/history/rss_ringoccs_history_print.c 5-77. *)
Definition history_print (h : option history) : res (list line) :=
  match h with
  | None => Ok [TextLine "None"]
  | Some h =>
      do a <- print_header (h_header h) 0;
      do b <- print_table (h_vars h);
      do c <- print_table (h_kwds h);
      Ok (a ++ [TextLine "Input Arguments:"] ++ b ++ [TextLine "Input Keywords:"] ++ c)%list
  end.
(** src/history/rss_ringoccs_history_create_base.c 12-28 and
    src/history/rss_ringoccs_get_version.c: [env] are the six strings obtained
    from libtmpl and the compiler (library version, C version, host, user, date,
    system), possibly null; the tables stay unwritten. *)
Definition history_create_base (env : list slot) : history :=
  mkHistory (Str "1.3" :: env) (repeat Unset 17) (repeat Unset 17).
(** src/csv_tools/rss_ringoccs_geo_csv_write_history.c 29-40: the tables filled
    for a geometry table. *)
Definition geo_history (env : list slot) (filename : slot) (deprecated : bool) : history :=
  let h := history_create_base env in
  mkHistory (h_header h)
    (Str "filename" :: filename :: Null :: skipn 3 (h_vars h))
    (Str "use_deprecated" :: Str (if deprecated then "True" else "False") :: Null :: skipn 3 (h_kwds h)).

(** include/rss_ringoccs_model.h 39-48. *)
Inductive model_type : Type :=
| LeftEdge | RightEdge | Ringlet | Gap | SquareWave | SineWave | DiracDelta | ModelNone.
Definition model_eqb (a b : model_type) : bool :=
  match a, b with
  | LeftEdge, LeftEdge | RightEdge, RightEdge | Ringlet, Ringlet | Gap, Gap
  | SquareWave, SquareWave | SineWave, SineWave | DiracDelta, DiracDelta
  | ModelNone, ModelNone => true
  | _, _ => false
  end.

Section Models.
  Context {S : scalar} (L : tmpl S).
  Local Notation tau := (tau S).
  Local Notation cplx := (cplx S).
  (** include/rss_ringoccs_model.h 50-68.  Only the members of the union used by
      the edge models are kept; [wavelength] is not read by any function. *)
  Record parameters : Type := mkParameters {
    p_model : model_type;
    p_opacity : S;
    p_center : S;
  }.
  (** [for (n = lo; n < lo + count; ++n) tau->T_in[n] = f n]. *)
  Definition fill (T : list (option cplx)) (lo count : Z) (f : Z -> res (option cplx)) : res (list (option cplx)) :=
    for_range lo count (fun n T => do v <- f n; awrite T n v) T.
  (** Rows 84-91 of the left and 63-70 of the right model:
      [while (rho[n] < center) { T_in[n] = v; ++n; }]. *)
  Fixpoint edge_scan (rho : list S) (center : S) (v : cplx) (n : Z) (T : list (option cplx)) : res (Z * list (option cplx)) :=
    match rho with
    | [] => UB OutOfBounds
    | x :: r =>
        if slt x center then do T' <- awrite T n (Some v); edge_scan r center v (n + 1) T'
        else Ok (n, T)
    end.
  (** Lines 59-94 of src/model/rss_ringoccs_tau_model_left_straightedge.c and
      46-72 of src/model/rss_ringoccs_tau_model_right_straightedge.c: the profile
      with value [lv] left of the edge and [rv] right of it.  The flag says
      whether the edge is inside the data. *)
  Definition edge_profile (t : tau) (center : S) (lv rv : cplx) : res (bool * tau) :=
    do rho <- deref (arr t RHO);
    do r0 <- aread rho 0;
    if sle center r0 then
      do T <- (if 0 <? arr_size t then deref (T_in t) else Ok []);
      do T' <- fill T 0 (arr_size t) (fun _ => Ok (Some rv));
      Ok (false, if 0 <? arr_size t then set_T_in t (Some T') else t)
    else
      do rl <- aread rho (wrap64 (arr_size t - 1));
      if sle rl center then
        do T <- (if 0 <? arr_size t then deref (T_in t) else Ok []);
        do T' <- fill T 0 (arr_size t) (fun _ => Ok (Some lv));
        Ok (false, if 0 <? arr_size t then set_T_in t (Some T') else t)
      else
        do T <- deref (T_in t);
        do ' (n, T1) <- edge_scan rho center lv 0 T;
        do T2 <- fill T1 n (arr_size t - n) (fun _ => Ok (Some rv));
        Ok (true, set_T_in t (Some T2)).
  (** Lines 96-149 of src/model/rss_ringoccs_tau_model_left_straightedge.c and
      72-125 of src/model/rss_ringoccs_tau_model_sine_wave.c: diffract the
      profile, reconstruct it and, if asked, model forward again.  Copying a
      cell that was never written is allowed; using its value is not.
      Allocation site 32 is the calloc of line 127 (103). *)
  Definition model_tail (sch : schedule) (t : tau) : res tau :=
    let fwd := use_fwd t in
    do t1 <- diffraction_correction L sch (set_use_fwd t true);
    do Tin <- (if 0 <? arr_size t1 then deref (T_in t1) else Ok []);
    do Tout <- (if 0 <? arr_size t1 then deref (T_out t1) else Ok []);
    do Tin' <- fill Tin 0 (arr_size t1) (fun n => aread Tout n);
    do Tout' <- fill Tout 0 (arr_size t1) (fun _ => Ok (Some c0));
    let t2 := if 0 <? arr_size t1 then set_T_out (set_T_in t1 (Some Tin')) (Some Tout') else t1 in
    do w <- deref (arr t2 WKM);
    do ws <- aprefix w (arr_size t2);
    let w_max := t_max L ws in
    do nw <- scast (w_max / (dx t2 * s2))%S;
    if n_used t2 <=? wrap64 (2 * nw) then fail t2 "forward: not enough data"
    else
      let t3 := set_n_used (set_start t2 (start t2 + nw)) (n_used t2 - 2 * nw) in
      do t4 <- diffraction_correction L sch (set_use_fwd t3 false);
      let t5 := set_use_fwd t4 fwd in
      if use_fwd t5 then
        let temp := T_in t5 in
        let t6 := set_T_in t5 (T_out t5) in
        let t7 := set_T_out t6 (if t_alloc L 32 then Some (repeat (Some c0) (Z.to_nat (arr_size t6))) else None) in
        if n_used t7 <=? wrap64 (2 * nw) then fail t7 "forward: not enough data"
        else
          let t8 := set_n_used (set_start t7 (start t7 + nw)) (n_used t7 - 2 * nw) in
          do t9 <- diffraction_correction L sch t8;
          let t10 := set_T_fwd t9 (T_out t9) in
          let t11 := set_T_out t10 (T_in t10) in
          Ok (set_T_in t11 temp)
      else Ok t5.
  (** src/model/rss_ringoccs_tau_model_left_straightedge.c 24-57 and
      src/model/rss_ringoccs_tau_model_sine_wave.c 23-56: the entry checks, for
      the model type [m].  Null arguments are [None].  Allocation site 33 is the
      malloc of line 52 (51). *)
  Definition model_entry (m : model_type) (t : tau) (p : option parameters) (k : tau -> parameters -> res tau) : res tau :=
    guarded t (
      match p with
      | None => fail t "model: parameters"
      | Some p =>
          if negb (model_eqb (p_model p) m) then fail t "model: type"
          else
            let t1 := set_T_out t (if t_alloc L 33 then Some (repeat None (Z.to_nat (arr_size t))) else None) in
            do t2 <- check_core_data t1;
            guarded t2 (k t2 p)
      end).
  (** src/model/rss_ringoccs_tau_model_left_straightedge.c 12-150. *)
  Definition model_left (sch : schedule) (t : option tau) (p : option parameters) : res (option tau) :=
    match t with
    | None => Ok None
    | Some t =>
        do t' <- model_entry LeftEdge t p (fun t p =>
          do ' (inside, t1) <- edge_profile t (p_center p) (p_opacity p, s0) c0;
          if inside then model_tail sch t1 else Ok t1);
        Ok (Some t')
    end.
  (** src/model/rss_ringoccs_tau_model_right_straightedge.c 8-73. *)
  Definition model_right (t : option tau) (p : option parameters) : res (option tau) :=
    match t with
    | None => Ok None
    | Some t =>
        do t' <- guarded t (
          match p with
          | None => fail t "model: parameters"
          | Some p =>
              if negb (model_eqb (p_model p) RightEdge) then fail t "model: type"
              else do ' (_, t1) <- edge_profile t (p_center p) c0 (p_opacity p, s0); Ok t1
          end);
        Ok (Some t')
    end.
  (** src/model/rss_ringoccs_tau_model_sine_wave.c 12-126.  (Line 39 tests for the
      left-edge type.) *)
  Definition model_sine (sch : schedule) (t : option tau) (p : option parameters) : res (option tau) :=
    match t with
    | None => Ok None
    | Some t =>
        do t' <- model_entry LeftEdge t p (fun t p =>
          do rho <- (if 0 <? arr_size t then deref (arr t RHO) else Ok []);
          do T <- (if 0 <? arr_size t then deref (T_in t) else Ok []);
          do T' <- fill T 0 (arr_size t) (fun n =>
            do r <- aread rho n;
            let y := t_sin L (sofZ 3 * (r - p_center p))%S in
            Ok (Some (y * y, s0)%S));
          model_tail sch (if 0 <? arr_size t then set_T_in t (Some T') else t));
        Ok (Some t')
    end.
End Models.
Arguments parameters S : clear implicits.
