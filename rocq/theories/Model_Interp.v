(** * Model_Interp: the transforms that interpolate the phase
    (src/fresnel_transform/rss_ringoccs_fresnel_transform_newton{4,8,16}.c).
    Definitions only. *)
From Coq Require Import List ZArith Bool String.
From Verif Require Import Base Scalar Model_TauRec Model_Transform.
Import ListNotations.
Open Scope Z_scope.

Section Interp.
  Context {S : scalar} (L : tmpl S).
  Local Notation tau := (tau S).
  Local Notation cplx := (cplx S).
  Local Notation buffer := (@buffer S).

  (** src/fresnel_transform/rss_ringoccs_fresnel_transform_newton4.c 14-28
      ([rssringoccs_deg4_interp]): in[0..4] to out[0..4]. *)
  Definition deg4_interp (i0 i1 i2 i3 i4 : S) : S * S * S * S * S :=
    let mean0 := ((i1 + i3) * shalf)%S in
    let mean1 := ((i0 + i4) * shalf)%S in
    let diff0 := (i3 - i1)%S in
    let diff1 := (i4 - i0)%S in
    (i2,
     ((sofZ 8 * diff0 - diff1) * (s1 / sofZ 3))%S,
     (sofZ 4 * (sofZ 16 * mean0 - mean1) / sofZ 3 - sofZ 20 * i2)%S,
     ((diff1 - s2 * diff0) * (sofZ 16 / sofZ 3))%S,
     (sofZ 64 * (i2 + (mean1 - sofZ 4 * mean0) / sofZ 3))%S).
  (** src/fresnel_transform/rss_ringoccs_fresnel_transform_newton4.c 79-84
      (and 86-89, 97-102, 104-107): values at x (left) and -x (right). *)
  Definition deg4_eval (c : S * S * S * S * S) (x : S) : S * S :=
    let '(k0, k1, k2, k3, k4) := c in
    let xsq := (x * x)%S in
    let odd := (x * (k1 + xsq * k3))%S in
    let even := (k0 + xsq * (k2 + xsq * k4))%S in
    (even + odd, even - odd)%S.

  (** src/fresnel_transform/rss_ringoccs_fresnel_transform_newton4.c 64-71: the
      five phase / weight samples. *)
  Definition newton4_samples (t : tau) (center shift : Z) : res (list (S * S)) :=
    tabulate 5 (fun n => phase_and_weight L t center (center - 2 * shift + n * shift)).

  (** One pair of samples, lines 78-92 and 96-110: (psi_l, psi_r, l, r). *)
  Definition newton4_point (t : tau) (pc wc : S * S * S * S * S) (x w : buffer)
      (rw : S) (l_ind r_ind n : Z) : res (S * S * cplx * cplx) :=
    do xn <- rdb x n;
    let xx := (xn * rw)%S in
    let '(pl, pr) := deg4_eval pc xx in
    let '(wl, wr) := deg4_eval wc xx in
    do wn <- rdb w n;
    do Tl <- rdT (T_in t) (l_ind + n);
    do Tr <- rdT (T_in t) (r_ind - n);
    Ok (pl, pr, cscale (wl * wn)%S Tl, cscale (wr * wn)%S Tr).
  (** Lines 94-130: state (T_out[center], psi_l, psi_r, l, r). *)
  Definition newton4_body (t : tau) (pc wc : S * S * S * S * S) (x w : buffer)
      (rw : S) (l_ind r_ind n : Z) (st : cplx * (S * S * cplx * cplx))
    : res (cplx * (S * S * cplx * cplx)) :=
    let '(acc, (pl, pr, l, r)) := st in
    do nx <- newton4_point t pc wc x w rw l_ind r_ind n;
    let '(pl', pr', l', r') := nx in
    let acc1 := cadd acc (t_filon11 L l l' pl pl' (dx t)) in
    let acc2 := cadd acc1 (t_filon11 L r' r pr' pr (dx t)) in
    Ok (acc2, nx).
  (** src/fresnel_transform/rss_ringoccs_fresnel_transform_newton4.c 30-143.
      [use_norm] is not consulted. *)
  Definition newton4 (t : tau) (x w : buffer) (nw_pts center : Z) : res cplx :=
    let shift := nw_pts / 2 in
    let rw := (s1 / (sofZ 4 * dx t * sofZ shift))%S in
    do ps <- newton4_samples t center shift;
    match ps with
    | [(w0, p0); (w1, p1); (w2, p2); (w3, p3); (w4, p4)] =>
        let pc := deg4_interp p0 p1 p2 p3 p4 in
        let wc := deg4_interp w0 w1 w2 w3 w4 in
        do T0 <- rdT (T_in t) center;
        let in_c := cscale w2 T0 in
        let l_ind := center - nw_pts in
        let r_ind := center + nw_pts in
        do first <- newton4_point t pc wc x w rw l_ind r_ind 0;
        do st <- for_range 1 (nw_pts - 1)
                   (newton4_body t pc wc x w rw l_ind r_ind) (c0, first);
        let '(acc, (pl, pr, l, r)) := st in
        Ok (cadd acc (t_filon12 L l in_c r pl p2 pr (dx t)))
    | _ => UB OutOfBounds
    end.

  (** src/fresnel_transform/rss_ringoccs_fresnel_transform_newton8.c 13-51: the
      constants C00 ... C73 (row N, column j = C[N][j]), as the decimal fractions
      written in the source. *)
  Definition C8 : list (list S) :=
    [
     [sfrac 64 10;
      sfrac (-16) 10;
      sfrac 304761904761904761904762 1000000000000000000000000;
      sfrac (-285714285714285714285714) 10000000000000000000000000];
     [sfrac 1024 10;
      sfrac (-128) 10;
      sfrac 16253968253968253968254 10000000000000000000000;
      sfrac (-114285714285714285714286) 1000000000000000000000000];
     [sfrac (-173511111111111111111111) 1000000000000000000000;
      sfrac 120177777777777777777778 1000000000000000000000;
      sfrac (-256) 10;
      sfrac 248888888888888888888889 100000000000000000000000];
     [sfrac (-277617777777777777777778) 100000000000000000000;
      sfrac 961422222222222222222222 1000000000000000000000;
      sfrac (-136533333333333333333333) 1000000000000000000000;
      sfrac 995555555555555555555556 100000000000000000000000];
     [sfrac 131982222222222222222222 100000000000000000000;
      sfrac (-118328888888888888888889) 100000000000000000000;
      sfrac 4096 10;
      sfrac (-455111111111111111111111) 10000000000000000000000];
     [sfrac 211171555555555555555556 10000000000000000000;
      sfrac (-946631111111111111111111) 100000000000000000000;
      sfrac 218453333333333333333333 100000000000000000000;
      sfrac (-182044444444444444444444) 1000000000000000000000];
     [sfrac (-291271111111111111111111) 100000000000000000000;
      sfrac 291271111111111111111111 100000000000000000000;
      sfrac (-12483047619047619047619) 10000000000000000000;
      sfrac 208050793650793650793651 1000000000000000000000];
     [sfrac (-466033777777777777777778) 10000000000000000000;
      sfrac 233016888888888888888889 10000000000000000000;
      sfrac (-665762539682539682539683) 100000000000000000000;
      sfrac 832203174603174603174603 1000000000000000000000]
    ].

  (** src/fresnel_transform/rss_ringoccs_fresnel_transform_newton16.c 13-155: the
      constants C00 ... C157. *)
  Definition C16 : list (list S) :=
    [
     [sfrac 142222222222222222222222 10000000000000000000000;
      sfrac (-497777777777777777777778) 100000000000000000000000;
      sfrac 18101010101010101010101 10000000000000000000000;
      sfrac (-565656565656565656565657) 1000000000000000000000000;
      sfrac 139238539238539238539239 1000000000000000000000000;
      sfrac (-24864024864024864024864) 1000000000000000000000000;
      sfrac 28416028416028416028416 10000000000000000000000000;
      sfrac (-1554001554001554001554) 10000000000000000000000000];
     [sfrac 455111111111111111111111 1000000000000000000000;
      sfrac (-796444444444444444444444) 10000000000000000000000;
      sfrac 193077441077441077441077 10000000000000000000000;
      sfrac (-452525252525252525252525) 100000000000000000000000;
      sfrac 891126651126651126651127 1000000000000000000000000;
      sfrac (-132608132608132608132608) 1000000000000000000000000;
      sfrac 129901844187558473272759 10000000000000000000000000;
      sfrac (-621600621600621600621601) 1000000000000000000000000000];
     [sfrac (-192028508944318468127992) 100000000000000000000;
      sfrac 162783311463844797178131 100000000000000000000;
      sfrac (-656298461439794773128106) 1000000000000000000000;
      sfrac 212132550905884239217573 1000000000000000000000;
      sfrac (-530192572859239525906193) 10000000000000000000000;
      sfrac 954552128647366742604838 100000000000000000000000;
      sfrac (-109627774694441361108028) 100000000000000000000000;
      sfrac 601429751905942382132858 10000000000000000000000000];
     [sfrac (-614491228621819098009574) 10000000000000000000;
      sfrac 260453298342151675485009 10000000000000000000;
      sfrac (-700051692202447758003314) 100000000000000000000;
      sfrac 169706040724707391374058 100000000000000000000;
      sfrac (-339323246629913296579963) 1000000000000000000000;
      sfrac 509094468611928929389247 10000000000000000000000;
      sfrac (-50115554146030336506527) 10000000000000000000000;
      sfrac 240571900762376952853143 1000000000000000000000000];
     [sfrac 915243052949245541838134 10000000000000000000;
      sfrac (-99909731530472271213012) 1000000000000000000;
      sfrac 555468824627224627224627 10000000000000000000;
      sfrac (-197980440567936864233161) 10000000000000000000;
      sfrac 516592338909375946412983 100000000000000000000;
      sfrac (-951556556036556036556037) 1000000000000000000000;
      sfrac 110779458785384711310637 1000000000000000000000;
      sfrac (-613090196497603905011312) 100000000000000000000000];
     [sfrac 292877776943758573388203 100000000000000000;
      sfrac (-159855570448755633940819) 100000000000000000;
      sfrac 592500079602372935706269 1000000000000000000;
      sfrac (-158384352454349491386528) 1000000000000000000;
      sfrac 330619096902000605704309 10000000000000000000;
      sfrac (-507496829886163219496553) 100000000000000000000;
      sfrac 506420383018901537420056 1000000000000000000000;
      sfrac (-245236078599041562004525) 10000000000000000000000];
     [sfrac (-206747214159514011365863) 100000000000000000;
      sfrac 252997018603331373701744 100000000000000000;
      sfrac (-166516088008465608465608) 100000000000000000;
      sfrac 697344136453066823437194 1000000000000000000;
      sfrac (-196728720830883793846757) 1000000000000000000;
      sfrac 378097642328042328042328 10000000000000000000;
      sfrac (-451567826298255927885557) 100000000000000000000;
      sfrac 254078821085635900450715 1000000000000000000000];
     [sfrac (-661591085310444836370762) 10000000000000000;
      sfrac 404795229765330197922791 10000000000000000;
      sfrac (-177617160542363315696649) 10000000000000000;
      sfrac 557875309162453458749755 100000000000000000;
      sfrac (-125906381331765628061924) 100000000000000000;
      sfrac 201652075908289241622575 1000000000000000000;
      sfrac (-206431006307774138461969) 10000000000000000000;
      sfrac 101631528434254360180286 100000000000000000000];
     [sfrac 24534591874368578707203 1000000000000000;
      sfrac (-319145191368214775622183) 10000000000000000;
      sfrac 231200096891710758377425 10000000000000000;
      sfrac (-108689268898138349990202) 10000000000000000;
      sfrac 340738911667646482461297 100000000000000000;
      sfrac (-69932542581002771478962) 100000000000000000;
      sfrac 870587261767587693513619 10000000000000000000;
      sfrac (-503490259287253996248705) 100000000000000000000];
     [sfrac 785106939979794518630497 1000000000000000;
      sfrac (-510632306189143640995493) 1000000000000000;
      sfrac 246613436684491475602587 1000000000000000;
      sfrac (-869514151185106799921615) 10000000000000000;
      sfrac 21807290346729374877523 1000000000000000;
      sfrac (-37297356043201478122113) 10000000000000000;
      sfrac 397982748236611517034797 1000000000000000000;
      sfrac (-201396103714901598499482) 10000000000000000000];
     [sfrac (-156009237308751714677641) 1000000000000000;
      sfrac 210373440244913188320596 1000000000000000;
      sfrac (-161601501569169793169793) 1000000000000000;
      sfrac 821088362404204300500597 10000000000000000;
      sfrac (-281265918089109792813497) 10000000000000000;
      sfrac 628027925918229918229918 100000000000000000;
      sfrac (-831249438008729267988527) 1000000000000000000;
      sfrac 501932650344004418078492 10000000000000000000];
     [sfrac (-49922955938800548696845) 10000000000000;
      sfrac 336597504391861101312953 100000000000000;
      sfrac (-172374935007114446047779) 100000000000000;
      sfrac 656870689923363440400477 1000000000000000;
      sfrac (-180010187577030267400638) 1000000000000000;
      sfrac 334948227156389289722623 10000000000000000;
      sfrac (-379999743089704808223327) 100000000000000000;
      sfrac 200773060137601767231397 1000000000000000000];
     [sfrac 499875950703570448755634 1000000000000000;
      sfrac (-689484069935959239662943) 1000000000000000;
      sfrac 550020246698912938912939 1000000000000000;
      sfrac (-294597738972637129674167) 1000000000000000;
      sfrac 107882559893825790122086 1000000000000000;
      sfrac (-260364613821970621970622) 10000000000000000;
      sfrac 373671436503754133383763 100000000000000000;
      sfrac (-241078346131454279602428) 1000000000000000000];
     [sfrac 159960304225142543601803 10000000000000;
      sfrac (-110317451189753478346071) 10000000000000;
      sfrac 586688263145507134840468 100000000000000;
      sfrac (-235678191178109703739333) 100000000000000;
      sfrac 690448383320485056781353 1000000000000000;
      sfrac (-138861127371717665050998) 1000000000000000;
      sfrac 170821228116001889546863 10000000000000000;
      sfrac (-964313384525817118409711) 1000000000000000000];
     [sfrac (-630385435370019876263262) 1000000000000000;
      sfrac 882539609518027826768568 1000000000000000;
      sfrac (-722077862332931858265192) 1000000000000000;
      sfrac 40115436796273992125844 100000000000000;
      sfrac (-154290141524130738945554) 1000000000000000;
      sfrac 396746078204907614431424 10000000000000000;
      sfrac (-617160566096522955782215) 100000000000000000;
      sfrac 440828975783230682701582 1000000000000000000];
     [sfrac (-201723339318406360404244) 10000000000000;
      sfrac 141206337522884452282971 10000000000000;
      sfrac (-770216386488460648816204) 100000000000000;
      sfrac 320923494370191937006752 100000000000000;
      sfrac (-987456905754436729251544) 1000000000000000;
      sfrac 211597908375950727696759 1000000000000000;
      sfrac (-282130544501267636929013) 10000000000000000;
      sfrac 176331590313292273080633 100000000000000000]
    ].

  (** The macro COEFF_POLY_EVAL: C[N][0]*z[0] + C[N][1]*z[1] + ..., left to
      right. *)
  Definition dot (cs zs : list S) : S :=
    match combine cs zs with
    | [] => s0
    | (c, z) :: r => fold_left (fun a p => (a + fst p * snd p)%S) r (c * z)%S
    end.
  (** rss_ringoccs_fresnel_transform_newton8.c 121-138 and
      rss_ringoccs_fresnel_transform_newton16.c 268-301: [lo] is psi[h-1], ...,
      psi[0] and [hi] is psi[h], ..., psi[2h-1]; row N of the table is applied
      to the differences when N is even and to the means when N is odd. *)
  Definition interp_coeffs (table : list (list S)) (lo hi : list S) : list S :=
    let diff := map (fun p => (snd p - fst p)%S) (combine lo hi) in
    let mean := map (fun p => ((snd p + fst p) * shalf)%S) (combine lo hi) in
    (fix go (tb : list (list S)) (even : bool) : list S :=
       match tb with
       | [] => []
       | row :: r => dot row (if even then diff else mean) :: go r (negb even)
       end) table true.
  (** Entries at even / odd positions. *)
  Fixpoint evens {A} (l : list A) : list A :=
    match l with
    | [] => []
    | a :: r => a :: match r with [] => [] | _ :: r' => evens r' end
    end.
  Definition odds {A} (l : list A) : list A :=
    match l with [] => [] | _ :: r => evens r end.
  (** Horner evaluation c0 + y*(c1 + y*(... + y*cn)). *)
  Fixpoint horner (cs : list S) (y : S) : S :=
    match cs with
    | [] => s0
    | [c] => c
    | c :: r => (c + y * horner r y)%S
    end.
  (** The macros ODD_POLY_EVAL and EVEN_POLY_EVAL and the two sums:
      rss_ringoccs_fresnel_transform_newton8.c 56-60 and 142-148,
      rss_ringoccs_fresnel_transform_newton16.c 168-200 and 305-311.  Phases at x
      (left) and -x (right). *)
  Definition interp_eval (coeffs : list S) (x : S) : S * S :=
    let xsq := (x * x)%S in
    let odd := (x * horner (evens coeffs) xsq)%S in
    let even := (xsq * horner (odds coeffs) xsq)%S in
    (even + odd, even - odd)%S.

  (** rss_ringoccs_fresnel_transform_newton8.c 100-119 and
      rss_ringoccs_fresnel_transform_newton16.c 247-266: the phase at sample
      [ind].  (The wave number is that of the centre; [use_fwd] is not
      consulted.) *)
  Definition sample_psi (t : tau) (center ind : Z) : res S :=
    do p <- rd t PHI ind;
    do g <- geo_at t ind center p;
    do k <- rd t KV center;
    Ok (t_psi L k g (eps t) (toler t)).
  (** The phases at the nodes left ([lo]: center - shift, ..., center - h*shift)
      and right ([hi]) of the centre. *)
  Definition node_phases (t : tau) (h center shift : Z) : res (list S * list S) :=
    do lo <- tabulate h (fun j => sample_psi t center (center - (j + 1) * shift));
    do hi <- tabulate h (fun j => sample_psi t center (center + (j + 1) * shift));
    Ok (lo, hi).

  (** rss_ringoccs_fresnel_transform_newton8.c 140-167 and
      rss_ringoccs_fresnel_transform_newton16.c 303-327: loop body, state
      (T_out[center], norm). *)
  Definition interp_body (t : tau) (coeffs : list S) (x w : buffer) (rw : S)
      (l_ind r_ind n : Z) (st : cplx * cplx) : res (cplx * cplx) :=
    let '(acc, norm) := st in
    do xn <- rdb x n;
    let '(pl, pr) := interp_eval coeffs (xn * rw)%S in
    do wn <- rdb w n;
    let el := polar L wn (- pl)%S in
    let er := polar L wn (- pr)%S in
    do Tl <- rdT (T_in t) (l_ind + n);
    do Tr <- rdT (T_in t) (r_ind - n);
    Ok (cadd (cadd acc (cmul el Tl)) (cmul er Tr), cadd (cadd norm el) er).
  (** Common part of the 8- and 16-point transforms; [h] nodes per side. *)
  Definition interp_sum (table : list (list S)) (h : Z) (t : tau) (x w : buffer)
      (nw_pts center shift : Z) : res (cplx * cplx) :=
    let rw := (s1 / (sofZ (2 * h) * dx t * sofZ shift))%S in
    do T0 <- rdT (T_in t) center;
    do ph <- node_phases t h center shift;
    let coeffs := interp_coeffs table (fst ph) (snd ph) in
    for_range 0 nw_pts
      (interp_body t coeffs x w rw (center - nw_pts) (center + nw_pts)) (T0, c1).
  (** src/fresnel_transform/rss_ringoccs_fresnel_transform_newton8.c 62-175. *)
  Definition newton8 (t : tau) (x w : buffer) (nw_pts center : Z) : res cplx :=
    do st <- interp_sum C8 4 t x w nw_pts center (nw_pts / 4);
    let '(acc, norm) := st in
    if use_norm t then
      let f := (srsqrttwo / t_cabs L norm)%S in Ok (cmul acc (f, f))
    else Ok acc.
  (** src/fresnel_transform/rss_ringoccs_fresnel_transform_newton16.c 202-332.
      [use_norm] is not consulted. *)
  Definition newton16 (t : tau) (x w : buffer) (nw_pts center : Z) : res cplx :=
    do st <- interp_sum C16 8 t x w nw_pts center (nw_pts / 8);
    let '(acc, norm) := st in
    let f := (srsqrttwo / t_cabs L norm)%S in
    Ok (cmul (f, f) acc).
End Interp.
