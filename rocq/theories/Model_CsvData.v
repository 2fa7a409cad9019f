(** * Model_CsvData: combining CSV tables (src/csv_tools/rss_ringoccs_csv_data_*.c
    and rss_ringoccs_uranus_csv_data_*.c).  Definitions only. *)
From Coq Require Import List ZArith Bool String Ascii.
From Verif Require Import Base Scalar Model_Heap Model_Csv.
Import ListNotations.
Open Scope list_scope.
Open Scope Z_scope.

(** include/rss_ringoccs_csv_tools.h: [rssringoccs_CSVData] and
    [rssringoccs_UranusCSVData] (which has no [cal] member: always [None]; its
    boolean member is [dlp_in_radians]). *)
Record csv (S : scalar) : Type := mkCsv {
  c_obj : obj S;
  c_geo : option (obj S);
  c_cal : option (obj S);
  c_dlp : option (obj S);
  c_tau : option (obj S);
  c_inc : Z;                   (* geo_increment *)
  c_dec : Z                    (* geo_decrement *)
}.
Arguments mkCsv {S}. Arguments c_obj {S}. Arguments c_geo {S}. Arguments c_cal {S}.
Arguments c_dlp {S}. Arguments c_tau {S}. Arguments c_inc {S}. Arguments c_dec {S}.

Section CsvData.
  Context {S : scalar}.
  Variable L : csvlib S.
  Local Open Scope heap_scope.

  Definition with_obj (c : csv S) (o : obj S) : csv S :=
    mkCsv o (c_geo c) (c_cal c) (c_dlp c) (c_tau c) (c_inc c) (c_dec c).
  Definition with_geo (c : csv S) (o : option (obj S)) : csv S :=
    mkCsv (c_obj c) o (c_cal c) (c_dlp c) (c_tau c) (c_inc c) (c_dec c).
  Definition with_cal (c : csv S) (o : option (obj S)) : csv S :=
    mkCsv (c_obj c) (c_geo c) o (c_dlp c) (c_tau c) (c_inc c) (c_dec c).
  Definition with_dlp (c : csv S) (o : option (obj S)) : csv S :=
    mkCsv (c_obj c) (c_geo c) (c_cal c) o (c_tau c) (c_inc c) (c_dec c).
  Definition with_tau (c : csv S) (o : option (obj S)) : csv S :=
    mkCsv (c_obj c) (c_geo c) (c_cal c) (c_dlp c) o (c_inc c) (c_dec c).
  Definition with_inc (c : csv S) (i : Z) : csv S :=
    mkCsv (c_obj c) (c_geo c) (c_cal c) (c_dlp c) (c_tau c) i (c_dec c).

  Definition c_err (c : csv S) : bool := o_err (c_obj c).
  Definition c_n (c : csv S) : Z := o_n (c_obj c).

  (** How the two types differ: which kind of object, the format of the DLP
      file. *)
  Record family : Type := mkFamily { fam_kind : kind; fam_dlp : format }.

  (** [csv->error_occurred = tmpl_True; csv->error_message =
      tmpl_String_Duplicate(...)]. *)
  Definition csv_error (K : family) (c : csv S) : H (csv S) :=
    o <~ set_error L (fam_kind K) true (c_obj c); hret (with_obj c o).

  (** rss_ringoccs_csv_data_destroy_members.c 49-70,
      rss_ringoccs_uranus_csv_data_destroy_members.c 49-70. *)
  Definition csv_cols : list col :=
    [cB; cD; cFSKY; cPNORM; cRAWTAU; cPHASE; cPHIDEG; cPHIRL; cRAWTHR; cCPOLE;
     cCTIM; cRHODOT; cRHO; cRX; cRY; cRZ; cTOET; cTRET; cTSET; cTAUPHASE;
     cTAUPOWER; cTAUV].
  (** rss_ringoccs_csv_data_destroy_members.c 42-77,
      rss_ringoccs_uranus_csv_data_destroy_members.c 42-76. *)
  Definition csv_destroy_members (K : family) (c : csv S) : H (csv S) :=
    _ <~ haccess (Some (o_id (c_obj c)));
    o <~ destroy_cols csv_cols (c_obj c);
    g <~ destroy geo_format (c_geo c);
    k <~ destroy cal_format (c_cal c);
    d <~ destroy (fam_dlp K) (c_dlp c);
    t <~ destroy tau_format (c_tau c);
    hret (mkCsv o g k d t (c_inc c) (c_dec c)).
  (** rss_ringoccs_csv_data_destroy.c 34-68,
      rss_ringoccs_uranus_csv_data_destroy.c 34-68. *)
  Definition csv_destroy (K : family) (p : option (csv S)) : H (option (csv S)) :=
    match p with
    | None => hret None
    | Some c =>
        c1 <~ csv_destroy_members K c;
        _ <~ hfree (o_msg (c_obj c1));
        _ <~ hfree (Some (o_id (c_obj c1)));
        hret None
    end.

  (** rss_ringoccs_csv_data_extract_{geo,cal,dlp,tau}.c 12-112 and the Uranus
      versions: extract a table into a member; a NULL result sets the error, a
      failed or empty table sets the error and releases all members.  (The
      composed message is one allocation.) *)
  Definition extract_part (K : family) (table : H (option (obj S)))
      (put : csv S -> option (obj S) -> csv S) (c : csv S) : H (csv S) :=
    if c_err c then hret c
    else
      p <~ table;
      let c1 := put c p in
      match p with
      | None => csv_error K c1
      | Some o => if (o_err o || (o_n o =? 0))%bool
                  then c2 <~ csv_error K c1; csv_destroy_members K c2
                  else hret c1
      end.
  (** rss_ringoccs_csv_data_extract_dlp.c 115: additionally [csv->n_elements =
      csv->dlp->n_elements] on success. *)
  Definition extract_dlp_part (K : family) (table : H (option (obj S))) (c : csv S)
    : H (csv S) :=
    c1 <~ extract_part K table with_dlp c;
    if c_err c1 then hret c1
    else match c_dlp c1 with
         | Some d => hret (with_obj c1 (with_n (c_obj c1) (o_n d)))
         | None => hret c1
         end.

  (** The guard at the start of the later steps (e.g. csv_data_check_chord_occ.c
      12-61): nothing to do after an error; a missing or failed member is an
      error; otherwise continue with the member. *)
  Definition with_member (K : family) (sel : csv S -> option (obj S)) (c : csv S)
      (k : obj S -> H (csv S)) : H (csv S) :=
    if c_err c then hret c
    else match sel c with
         | None => csv_error K c
         | Some o => _ <~ haccess (Some (o_id o));
                     if o_err o then csv_error K c else k o
         end.

  (** Copy pointers: [csv->dst = csv->dlp->src] for each pair. *)
  Definition steal_cols (pairs : list (col * col)) (d : obj S) (o : obj S) : obj S :=
    fold_left (fun o dst_src => with_col o (fst dst_src) (o_col d (snd dst_src))) pairs o.

  (** [exp(-tau / sind(|B|))], csv_data_steal_dlp_data.c 118-123,
      csv_data_interpolate_tau.c 83-86. *)
  Definition power_of (tau B : S) : S :=
    l_exp L (- tau / l_sind L (sabs B))%S.

  (** rss_ringoccs_csv_data_steal_dlp_data.c 76-89. *)
  Definition steal_pairs : list (col * col) :=
    [(cRHO, cRHO); (cRAWTAU, cRAWTAU); (cTRET, cTRET); (cTSET, cTSET);
     (cTOET, cTOET); (cCPOLE, cCPOLE); (cCTIM, cCTIM); (cRAWTHR, cRAWTHR);
     (cPHASE, cPHASE); (cPHIDEG, cPHIORA); (cB, cB); (cPHIRL, cPHIRL)].
  (** rss_ringoccs_csv_data_steal_dlp_data.c 16-126. *)
  Definition steal_dlp_data (K : family) (c : csv S) : H (csv S) :=
    with_member K c_dlp c (fun d =>
      let o := steal_cols steal_pairs d (c_obj c) in
      if negb (o_flag o) then hret (with_obj c (with_col o cPNORM (o_col d cPNORM)))
      else
        b <~ halloc (l_alloc L (SArr (fam_kind K) cPNORM));
        match b with
        | None => csv_error K (with_obj c (with_col o cPNORM None))
        | Some id =>
            let o1 := with_col o cPNORM (Some (id, repeat None (Z.to_nat (o_n o)))) in
            o2 <~ hlift (for_range 0 (o_n o1)
                    (fun n o => do B <- fetch d cB n;
                                do t <- fetch o cRAWTAU n;
                                store o cPNORM n (power_of t B)) o1);
            hret (with_obj c o2)
        end).
  (** rss_ringoccs_uranus_csv_data_steal_dlp_data.c 73-95. *)
  Definition uranus_steal_pairs : list (col * col) :=
    [(cRHO, cRHO); (cRAWTAU, cRAWTAU); (cTRET, cTRET); (cTSET, cTSET);
     (cTOET, cTOET); (cCPOLE, cCPOLE); (cCTIM, cCTIM); (cRAWTHR, cRAWTHR);
     (cPHASE, cPHASE); (cPHIDEG, cPHIDEG); (cB, cB); (cPHIRL, cPHIRL);
     (cPNORM, cPNORM); (cRHODOT, cRHODOT); (cD, cD); (cFSKY, cFSKY)].
  (** rss_ringoccs_uranus_csv_data_steal_dlp_data.c 16-96. *)
  Definition uranus_steal_dlp_data (K : family) (c : csv S) : H (csv S) :=
    with_member K c_dlp c (fun d =>
      hret (with_obj c (steal_cols uranus_steal_pairs d (c_obj c)))).

  (** The [MALLOC_CSV_VAR] macro in sequence, rss_ringoccs_csv_data_malloc.c
      12-25. *)
  Fixpoint csv_malloc_cols (K : family) (cs : list col) (c : csv S) : H (csv S) :=
    match cs with
    | [] => hret c
    | x :: r =>
        b <~ halloc (l_alloc L (SArr (fam_kind K) x));
        match b with
        | Some id => csv_malloc_cols K r
            (with_obj c (with_col (c_obj c) x (Some (id, repeat None (Z.to_nat (c_n c))))))
        | None =>
            c1 <~ csv_error K (with_obj c (with_col (c_obj c) x None));
            csv_destroy_members K c1
        end
    end.
  (** rss_ringoccs_csv_data_malloc.c 27-63 with [base] the members of 49-54;
      rss_ringoccs_uranus_csv_data_malloc.c 27-60 with those of 49-51. *)
  Definition csv_malloc (K : family) (base : list col) (c : csv S) : H (csv S) :=
    if c_err c then hret c
    else if c_n c =? 0 then csv_error K c
    else csv_malloc_cols K
           (base ++ match c_tau c with
                    | Some _ => [cTAUPHASE; cTAUPOWER; cTAUV]
                    | None => []
                    end) c.

  (** rss_ringoccs_csv_data_check_chord_occ.c 68-85: smallest and largest
      radial velocity between consecutive samples. *)
  Definition radial_speed (o : obj S) (n : Z) : res S :=
    do r1 <- fetch o cRHO (n + 1); do r0 <- fetch o cRHO n;
    do t1 <- fetch o cTSET (n + 1); do t0 <- fetch o cTSET n;
    Ok ((r1 - r0) / (t1 - t0))%S.
  Definition big : S := sofZ 1000000000000000000000000000000000000.
  Definition speed_range (o : obj S) : res (S * S) :=
    for_range 0 (wrap64 (o_n o - 1))
      (fun n '(mn, mx) =>
         do v <- radial_speed o n;
         Ok (if slt v mn then v else mn, if slt mx v then v else mx))
      (big, (- big)%S).

  (** tmpl_Double_Array_Reverse(x->col, n): the first [n] cells in reverse. *)
  Definition reverse_col (o : obj S) (c : col) : res (obj S) :=
    match o_col o c with
    | None => UB NullDeref
    | Some (id, l) =>
        do p <- aprefix l (o_n o);
        Ok (with_col o c (Some (id, rev p ++ skipn (Z.to_nat (o_n o)) l)))
    end.
  (** rss_ringoccs_csv_data_reverse_geo_variables.c 8-70, Uranus 8-71. *)
  Definition reverse_geo (o : obj S) : res (obj S) :=
    do o <- reverse_col o cRHO; do o <- reverse_col o cRHODOT;
    do o <- reverse_col o cD; do o <- reverse_col o cRX;
    do o <- reverse_col o cRY; reverse_col o cRZ.

  (** rss_ringoccs_csv_data_check_chord_occ.c 120-126 and 131-137: [while
      (wrong(rho_dot[inc])) { if (inc >= n_elements) break; ++inc; }].  The fuel
      is one more than the number of iterations the test allows. *)
  Fixpoint seek (fuel : nat) (wrong : S -> bool) (g : obj S) (inc : Z) : res Z :=
    match fuel with
    | O => UB Diverges
    | Datatypes.S k =>
        do v <- fetch g cRHODOT inc;
        if wrong v
        then if o_n g <=? inc then Ok inc else seek k wrong g (inc + 1)
        else Ok inc
    end.
  Definition seek_fuel (g : obj S) : nat := (Z.to_nat (o_n g) + 1)%nat.

  (** rss_ringoccs_csv_data_check_chord_occ.c 6-139,
      rss_ringoccs_uranus_csv_data_check_chord_occ.c 6-139. *)
  Definition check_chord_occ (K : family) (c : csv S) : H (csv S) :=
    with_member K c_geo c (fun g =>
      '(mn, mx) <~ hlift (speed_range (c_obj c));
      if slt mn s0 && sgt mx s0 then csv_error K c
      else if seqb mn s0 || seqb mx s0 then csv_error K c
      else if slt mx s0
      then g1 <~ hlift (reverse_geo g);
           i <~ hlift (seek (seek_fuel g1) (fun v => sge v s0) g1 (c_inc c));
           hret (with_inc (with_geo c (Some g1)) i)
      else if sgt mn s0
      then i <~ hlift (seek (seek_fuel g) (fun v => sle v s0) g (c_inc c));
           hret (with_inc c i)
      else hret c).

  (** [len] cells from index [from] on, as values. *)
  Fixpoint values (l : list (option S)) : res (list S) :=
    match l with
    | [] => Ok []
    | Some x :: r => do v <- values r; Ok (x :: v)
    | None :: _ => UB Uninitialised
    end.
  Definition cells (o : obj S) (c : col) (from len : Z) : res (list S) :=
    match o_col o c with
    | None => UB NullDeref
    | Some (_, l) =>
        if (0 <=? from) && (from <=? zlen l)
        then do p <- aprefix (skipn (Z.to_nat from) l) len; values p
        else UB OutOfBounds
    end.
  (** Store [r] from index [i] on. *)
  Fixpoint store_list (o : obj S) (c : col) (i : Z) (r : list S) : res (obj S) :=
    match r with
    | [] => Ok o
    | v :: t => do o1 <- store o c i v; store_list o1 c (i + 1) t
    end.
  (** tmpl_Double_Sorted_Linear_Interp1d(src->x + from, src->y + from, len,
      dst->at, dst->out, dst->n_elements). *)
  Definition interpolate (src : obj S) (x y : col) (from len : Z)
      (at_ out : col) (dst : obj S) : res (obj S) :=
    do xs <- cells src x from len; do ys <- cells src y from len;
    do ps <- cells dst at_ 0 (o_n dst);
    store_list dst out 0 (l_interp L xs ys ps).

  (** rss_ringoccs_csv_data_interpolate_geo.c 6-110, Uranus 6-110. *)
  Definition interpolate_geo (K : family) (c : csv S) : H (csv S) :=
    with_member K c_geo c (fun g =>
      let decrease := wrap64 (c_inc c + c_dec c) in
      if o_n g <? decrease then csv_error K c
      else
        let len := o_n g - decrease in
        let i := c_inc c in
        o <~ hlift (interpolate g cRHO cD i len cRHO cD (c_obj c));
        o <~ hlift (interpolate g cRHO cRHODOT i len cRHO cRHODOT o);
        o <~ hlift (interpolate g cRHO cRX i len cRHO cRX o);
        o <~ hlift (interpolate g cRHO cRY i len cRHO cRY o);
        o <~ hlift (interpolate g cRHO cRZ i len cRHO cRZ o);
        hret (with_obj c o)).

  (** rss_ringoccs_csv_data_interpolate_cal.c 7-77. *)
  Definition interpolate_cal (K : family) (c : csv S) : H (csv S) :=
    with_member K c_cal c (fun k =>
      k1 <~ hlift (for_range 0 (o_n k)
              (fun n k => do f <- fetch k cFPRED n; do r <- fetch k cFRESID n;
                          store k cFPRED n (f - r)%S) k);
      o <~ hlift (interpolate k1 cTOET cFPRED 0 (o_n k1) cTOET cFSKY (c_obj c));
      hret (with_obj (with_cal c (Some k1)) o)).

  (** rss_ringoccs_csv_data_interpolate_tau.c 8-97 ([legacy] is
      [csv->use_deprecated]); rss_ringoccs_uranus_csv_data_interpolate_tau.c
      8-77 with [legacy] false. *)
  Definition interpolate_tau (K : family) (legacy : bool) (c : csv S) : H (csv S) :=
    with_member K c_tau c (fun t =>
      let n := o_n t in
      o <~ hlift (interpolate t cRHO cPHASE 0 n cRHO cTAUPHASE (c_obj c));
      o <~ hlift (interpolate t cRHO cTAUV 0 n cRHO cTAUV o);
      o <~ (if legacy
            then o <~ hlift (interpolate t cRHO cTAUV 0 n cRHO cTAUPOWER o);
                 hlift (for_range 0 (o_n o)
                   (fun n o => do B <- fetch o cB n; do t <- fetch o cTAUPOWER n;
                               store o cTAUPOWER n (power_of t B)) o)
            else hlift (interpolate t cRHO cPOWER 0 n cRHO cTAUPOWER o));
      hret (with_obj c o)).

  (** rss_ringoccs_csv_data_init.c 36-84, uranus 36-82. *)
  Definition csv_init (id : Z) (flag : bool) : csv S :=
    mkCsv (init id flag) None None None None 0 0.

  Definition csv_family : family := mkFamily KCsv dlp_format.
  Definition uranus_family : family := mkFamily KUranusCsv uranus_dlp_format.

  (** rss_ringoccs_csv_data_extract.c 37-86.  The file arguments are contents,
      [None] for a file that cannot be opened; [tau = None] is a NULL file name. *)
  Definition csv_extract (geo cal dlp : option text) (tau : option (option text))
      (dep : bool) : H (option (csv S)) :=
    let K := csv_family in
    b <~ halloc (l_alloc L (SObj KCsv));
    match b with
    | None => hret None
    | Some id =>
        let c := csv_init id dep in
        c <~ extract_part K (geo_extract L dep geo) with_geo c;
        c <~ extract_part K (cal_extract L cal) with_cal c;
        c <~ extract_dlp_part K (dlp_extract L dep dlp) c;
        c <~ (match tau with
              | Some t => extract_part K (tau_extract L dep t) with_tau c
              | None => hret c
              end);
        c <~ steal_dlp_data K c;
        c <~ csv_malloc K [cD; cFSKY; cRHODOT; cRX; cRY; cRZ] c;
        c <~ check_chord_occ K c;
        c <~ interpolate_geo K c;
        c <~ interpolate_cal K c;
        c <~ (match tau with Some _ => interpolate_tau K dep c | None => hret c end);
        g <~ destroy geo_format (c_geo c);
        k <~ destroy cal_format (c_cal c);
        t <~ destroy tau_format (c_tau c);
        _ <~ hfree (option_map o_id (c_dlp c));
        hret (Some (mkCsv (c_obj c) g k None t (c_inc c) (c_dec c)))
    end.

  (** rss_ringoccs_uranus_csv_data_extract.c 37-87; the geometry and tau files
      are in the current format (extract_geo.c 28, extract_tau.c 28). *)
  Definition uranus_csv_extract (geo dlp : option text) (tau : option (option text))
      (in_radians : bool) : H (option (csv S)) :=
    let K := uranus_family in
    b <~ halloc (l_alloc L (SObj KUranusCsv));
    match b with
    | None => hret None
    | Some id =>
        let c := csv_init id in_radians in
        c <~ extract_part K (geo_extract L false geo) with_geo c;
        c <~ extract_dlp_part K (uranus_dlp_extract L (o_flag (c_obj c)) dlp) c;
        c <~ (match tau with
              | Some t => extract_part K (tau_extract L false t) with_tau c
              | None => hret c
              end);
        c <~ uranus_steal_dlp_data K c;
        c <~ csv_malloc K [cRX; cRY; cRZ] c;
        c <~ check_chord_occ K c;
        c <~ interpolate_geo K c;
        c <~ (match tau with Some _ => interpolate_tau K false c | None => hret c end);
        g <~ destroy geo_format (c_geo c);
        t <~ destroy tau_format (c_tau c);
        match c_dlp c with
        | None => hlift (UB NullDeref)
        | Some d =>
            _ <~ haccess (Some (o_id d));
            _ <~ hfree (pid (o_col d cF));
            _ <~ hfree (Some (o_id d));
            hret (Some (mkCsv (c_obj c) g (c_cal c) None t (c_inc c) (c_dec c)))
        end
    end.
End CsvData.
