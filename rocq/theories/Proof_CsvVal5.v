(** * Proof_CsvVal5: combined tables in double precision, and their memory. *)
From Coq Require Import List ZArith Lia Bool Ascii Reals Lra.
From Verif Require Import Base BaseFacts Dbl DblFacts Scalar Spec_Tau Spec_Select Spec_Recon Proof_Misc Proof_Checks Proof_Recon2
  Model_Heap Model_Csv Model_CsvData Spec_Csv Spec_CsvData Proof_Heap Proof_CsvOwn Proof_CsvOwn2 Proof_CsvOwn3
  Proof_CsvText Proof_Csv Proof_Csv2 Proof_CsvVal Proof_CsvVal2 Proof_CsvVal3 Proof_CsvVal4.
Import ListNotations.
Open Scope list_scope.
Open Scope Z_scope.

(** ** Smallest and largest velocity *)
Notation z0 := (dofZ 0).
Definition fmin (l : list double) (a : double) : double := fold_left (fun m v => if dlt v m then v else m) l a.
Definition fmax (l : list double) (a : double) : double := fold_left (fun m v => if dlt m v then v else m) l a.
Lemma range_split (l : list double) : forall a b,
  fold_left (step_range (S := dbl_scalar)) l (a, b) = (fmin l a, fmax l b).
Proof. induction l as [|v l IH]; intros a b; [reflexivity|]. apply IH. Qed.

Lemma fmin_le l : forall a, notnan a -> notnan (fmin l a) /\ dle (fmin l a) a = true /\
  (forall v, In v l -> notnan v -> dle (fmin l a) v = true) /\ (fmin l a = a \/ In (fmin l a) l).
Proof.
  induction l as [|v l IH]; intros a Na; cbn [fmin fold_left].
  - split; [exact Na|]. split; [apply dle_refl; exact Na|]. split; [intros v []|left; reflexivity].
  - fold (fmin l (if dlt v a then v else a)). destruct (dlt v a) eqn:E.
    + destruct (dlt_notnan _ _ E) as [Nv _]. destruct (IH v Nv) as [A [B [C D]]].
      split; [exact A|]. split; [exact (dle_trans _ _ _ B (dlt_dle _ _ E))|]. split.
      * intros w [<-|I] Nw; [exact B|apply C; assumption].
      * right. destruct D as [->|D]; [left; reflexivity|right; exact D].
    + destruct (IH a Na) as [A [B [C D]]].
      split; [exact A|]. split; [exact B|]. split.
      * intros w [<-|I] Nw; [|apply C; assumption].
        exact (dle_trans _ _ _ B (dlt_false_dle _ _ Nw Na E)).
      * destruct D as [D|D]; [left; exact D|right; right; exact D].
Qed.
Lemma fmax_ge l : forall a, notnan a -> notnan (fmax l a) /\ dle a (fmax l a) = true /\
  (forall v, In v l -> notnan v -> dle v (fmax l a) = true) /\ (fmax l a = a \/ In (fmax l a) l).
Proof.
  induction l as [|v l IH]; intros a Na; cbn [fmax fold_left].
  - split; [exact Na|]. split; [apply dle_refl; exact Na|]. split; [intros v []|left; reflexivity].
  - fold (fmax l (if dlt a v then v else a)). destruct (dlt a v) eqn:E.
    + destruct (dlt_notnan _ _ E) as [_ Nv]. destruct (IH v Nv) as [A [B [C D]]].
      split; [exact A|]. split; [exact (dle_trans _ _ _ (dlt_dle _ _ E) B)|]. split.
      * intros w [<-|I] Nw; [exact B|apply C; assumption].
      * right. destruct D as [->|D]; [left; reflexivity|right; exact D].
    + destruct (IH a Na) as [A [B [C D]]].
      split; [exact A|]. split; [exact B|]. split.
      * intros w [<-|I] Nw; [|apply C; assumption].
        exact (dle_trans _ _ _ (dlt_false_dle _ _ Na Nw E) B).
      * destruct D as [D|D]; [left; exact D|right; right; exact D].
Qed.

Definition dbig : double := dofZ 1000000000000000000000000000000000000.
Lemma dbig_nan : notnan dbig. Proof. vm_compute; reflexivity. Qed.
Lemma dnbig_nan : notnan (dneg dbig). Proof. vm_compute; reflexivity. Qed.
Lemma dbig_pos : dlt z0 dbig = true. Proof. vm_compute; reflexivity. Qed.
Lemma dnbig_neg : dlt (dneg dbig) z0 = true. Proof. vm_compute; reflexivity. Qed.
Lemma z0_nan : notnan z0. Proof. reflexivity. Qed.

Lemma pos_lt x : positive_number x <-> dlt z0 x = true.
Proof.
  split.
  - intro P. assert (N : notnan x) by (destruct P as [[F _]| ->]; [apply dfinite_not_nan; exact F|reflexivity]).
    destruct (sign_cases x N) as [D|[D|D]]; tauto.
  - intro E. destruct (dlt_notnan _ _ E) as [_ N]. destruct (sign_cases x N) as [D|[D|D]]; destruct D as (?&?&?&?&?); congruence.
Qed.
Lemma neg_lt x : negative_number x <-> dlt x z0 = true.
Proof.
  split.
  - intro P. assert (N : notnan x) by (destruct P as [[F _]| ->]; [apply dfinite_not_nan; exact F|reflexivity]).
    destruct (sign_cases x N) as [D|[D|D]]; tauto.
  - intro E. destruct (dlt_notnan _ _ E) as [N _]. destruct (sign_cases x N) as [D|[D|D]]; destruct D as (?&?&?&?&?); congruence.
Qed.
Lemma zero_eq x : (finite x /\ val x = 0%R) <-> deq x z0 = true.
Proof.
  split.
  - intros [F V]. apply (deq_iff x z0 F fin_0). rewrite d2r_0. exact V.
  - intro E. assert (F : dfinite x = true) by (destruct x as [s|[]| |s m e He]; try reflexivity; discriminate E).
    split; [exact F|]. apply (deq_iff x z0 F fin_0) in E. rewrite d2r_0 in E. exact E.
Qed.
Lemma lt_eq_excl x : dlt x z0 = true -> deq x z0 = true -> False.
Proof. intros A B. destruct (dlt_notnan _ _ A) as [N _]. destruct (sign_cases x N) as [D|[D|D]]; destruct D as (?&?&?&?&?); congruence. Qed.
Lemma gt_eq_excl x : dlt z0 x = true -> deq x z0 = true -> False.
Proof. intros A B. destruct (dlt_notnan _ _ A) as [_ N]. destruct (sign_cases x N) as [D|[D|D]]; destruct D as (?&?&?&?&?); congruence. Qed.
Lemma tri x : notnan x -> dlt x z0 = true \/ dlt z0 x = true \/ deq x z0 = true.
Proof. intro N. destruct (sign_cases x N) as [D|[D|D]]; tauto. Qed.
Lemma eq_dle x : deq x z0 = true -> dle x z0 = true /\ dle z0 x = true.
Proof.
  intro E. assert (F : dfinite x = true) by (destruct x as [s|[]| |s m e He]; try reflexivity; discriminate E).
  apply (deq_iff x z0 F fin_0) in E.
  split; [apply (dle_iff x z0 F fin_0)|apply (dle_iff z0 x fin_0 F)]; rewrite E; apply Rle_refl.
Qed.
Lemma sq_eq x y : dle x y = true -> dle y x = true -> deq y z0 = true -> deq x z0 = true.
Proof.
  intros A B E. destruct (eq_dle y E) as [C D].
  destruct (dle_notnan _ _ A) as [Nx _].
  destruct (tri x Nx) as [X|[X|X]]; [| |exact X].
  - pose proof (dlt_not_dle _ _ X) as Y. rewrite (dle_trans _ _ _ D B) in Y. discriminate.
  - pose proof (dlt_not_dle _ _ X) as Y. rewrite (dle_trans _ _ _ A C) in Y. discriminate.
Qed.

Lemma some_member {A} (l : list A) : l <> [] -> exists x, In x l.
Proof. destruct l as [|x l]; [congruence|intros _; exists x; left; reflexivity]. Qed.

Lemma member_some {A} (l : list A) x : In x l -> l <> [].
Proof. intros I ->. destruct I. Qed.

Section Signs.
  Variable V : list double.
  Hypothesis NV : numbers V.
  Let mn := fmin V dbig.
  Let mx := fmax V (dneg dbig).
  Lemma mn_neg : dlt mn z0 = true <-> exists x, In x V /\ negative_number x.
  Proof using NV.
    destruct (fmin_le V dbig dbig_nan) as [A [B [C D]]]. fold mn in A, B, C, D. split.
    - intro E. destruct D as [D|D].
      + rewrite D in E. pose proof (dlt_trans _ _ _ E dbig_pos) as X. rewrite dlt_irrefl in X; discriminate.
      + exists mn. split; [exact D|apply neg_lt; exact E].
    - intros [x [I Nx]]. apply neg_lt in Nx. exact (dle_dlt_trans _ _ _ (C x I (NV x I)) Nx).
  Qed.
  Lemma mx_pos : dlt z0 mx = true <-> exists x, In x V /\ positive_number x.
  Proof using NV.
    destruct (fmax_ge V _ dnbig_nan) as [A [B [C D]]]. fold mx in A, B, C, D. split.
    - intro E. destruct D as [D|D].
      + rewrite D in E. pose proof (dlt_trans _ _ _ E dnbig_neg) as X. rewrite dlt_irrefl in X; discriminate.
      + exists mx. split; [exact D|apply pos_lt; exact E].
    - intros [x [I Nx]]. apply pos_lt in Nx. exact (dlt_dle_trans _ _ _ Nx (C x I (NV x I))).
  Qed.
  Lemma mn_in : deq mn z0 = true -> In mn V.
  Proof using Type.
    destruct (fmin_le V dbig dbig_nan) as [A [B [C D]]]. fold mn in A, B, C, D.
    intro E. destruct D as [D|D]; [|exact D]. rewrite D in E. destruct (gt_eq_excl _ dbig_pos E).
  Qed.
  Lemma mx_in : deq mx z0 = true -> In mx V.
  Proof using Type.
    destruct (fmax_ge V _ dnbig_nan) as [A [B [C D]]]. fold mx in A, B, C, D.
    intro E. destruct D as [D|D]; [|exact D]. rewrite D in E. destruct (lt_eq_excl _ dnbig_neg E).
  Qed.
  Lemma mn_nan : notnan mn. Proof using Type. apply (fmin_le V dbig dbig_nan). Qed.
  Lemma mx_nan : notnan mx. Proof using Type. apply (fmax_ge V _ dnbig_nan). Qed.

  Lemma chord_iff : @test_chord dbl_scalar mn mx = true <-> chord V.
  Proof using NV.
    unfold test_chord, chord. cbn [dbl_scalar slt seqb].
    change (@s0 dbl_scalar) with z0. unfold sgt. cbn [slt dbl_scalar].
    rewrite Bool.orb_true_iff, Bool.andb_true_iff, Bool.orb_true_iff.
    rewrite mn_neg, mx_pos. split.
    - intros [X|[X|X]]; [left; exact X| |]; right.
      + exists mn. split; [apply mn_in; exact X|apply zero_eq; exact X].
      + exists mx. split; [apply mx_in; exact X|apply zero_eq; exact X].
    - intros [X|[z [I Z0]]]; [left; exact X|]. apply zero_eq in Z0. destruct (eq_dle z Z0) as [E1 E2].
      destruct (fmin_le V dbig dbig_nan) as [_ [_ [C _]]]. fold mn in C.
      destruct (fmax_ge V _ dnbig_nan) as [_ [_ [C' _]]]. fold mx in C'.
      pose proof (C z I (NV z I)) as L1. pose proof (C' z I (NV z I)) as L2.
      destruct (tri mn mn_nan) as [X|[X|X]]; [|exfalso|right; left; exact X].
      + destruct (tri mx mx_nan) as [Y|[Y|Y]]; [exfalso| |right; right; exact Y].
        * pose proof (dle_dlt_trans _ _ _ (dle_trans _ _ _ E2 L2) Y) as Q. rewrite dlt_irrefl in Q; discriminate.
        * left. split; [apply mn_neg; exact X|apply mx_pos; exact Y].
      + pose proof (dlt_dle_trans _ _ _ X (dle_trans _ _ _ L1 E1)) as Q. rewrite dlt_irrefl in Q; discriminate.
  Qed.
  Lemma ingress_iff : dlt mx z0 = true <-> ingress V.
  Proof using NV.
    destruct (fmax_ge V _ dnbig_nan) as [A [B [C D]]]. fold mx in A, B, C, D. split.
    - intros E x I. apply neg_lt. exact (dle_dlt_trans _ _ _ (C x I (NV x I)) E).
    - intro G. destruct D as [->|D]; [exact dnbig_neg|]. apply neg_lt. exact (G mx D).
  Qed.
  Lemma egress_cond : egress V -> dlt mx z0 = false /\ dlt z0 mn = true.
  Proof using NV.
    intros [NE G]. split.
    - destruct (dlt mx z0) eqn:E; [|reflexivity]. exfalso.
      destruct (some_member V NE) as [x I]. assert (P := G x I).
      apply ingress_iff in E. specialize (E x I). apply neg_lt in E. apply pos_lt in P.
      pose proof (dlt_trans _ _ _ E P) as Q. rewrite dlt_irrefl in Q; discriminate.
    - destruct (fmin_le V dbig dbig_nan) as [A [B [C D]]]. fold mn in A, B, C, D.
      destruct D as [->|D]; [exact dbig_pos|]. apply pos_lt. exact (G mn D).
  Qed.
  Lemma ingress_not_chord : ingress V -> ~ chord V.
  Proof using Type.
    intros G [[_ [y [I P]]]|[z [I Z0]]].
    - specialize (G y I). apply neg_lt in G. apply pos_lt in P.
      pose proof (dlt_trans _ _ _ G P) as Q. rewrite dlt_irrefl in Q; discriminate.
    - specialize (G z I). apply neg_lt in G. apply zero_eq in Z0. exact (lt_eq_excl _ G Z0).
  Qed.
  Lemma egress_not_chord : egress V -> ~ chord V.
  Proof using Type.
    intros [_ G] [[[y [I P]] _]|[z [I Z0]]].
    - specialize (G y I). apply neg_lt in P. apply pos_lt in G.
      pose proof (dlt_trans _ _ _ P G) as Q. rewrite dlt_irrefl in Q; discriminate.
    - specialize (G z I). apply pos_lt in G. apply zero_eq in Z0. exact (gt_eq_excl _ G Z0).
  Qed.
  Lemma directions : ingress V \/ egress V \/ chord V.
  Proof using NV.
    destruct (@test_chord dbl_scalar mn mx) eqn:T; [right; right; apply chord_iff; exact T|].
    assert (NC : ~ chord V) by (intro X; apply chord_iff in X; congruence).
    destruct (dlt mx z0) eqn:E; [left; apply ingress_iff; exact E|].
    right; left. 
    assert (NZ : forall x, In x V -> deq x z0 = false).
    { intros x I. destruct (deq x z0) eqn:Q; [|reflexivity]. exfalso. apply NC. right. exists x. split; [exact I|apply zero_eq; exact Q]. }
    assert (EX : exists y, In y V /\ positive_number y).
    { apply mx_pos. destruct (tri mx mx_nan) as [X|[X|X]]; [congruence|exact X|].
      specialize (NZ mx (mx_in X)). congruence. }
    split.
    - destruct EX as [y [I _]]. exact (member_some V y I).
    - intros x I. destruct (tri x (NV x I)) as [X|[X|X]]; [|apply pos_lt; exact X|specialize (NZ x I); congruence].
      exfalso. apply NC. left. split; [exists x; split; [exact I|apply neg_lt; exact X]|exact EX].
  Qed.
End Signs.

(** ** Whole extractions *)
Lemma first_ext {A} (P Q : A -> Prop) l j :
  (forall x, In x l -> (P x <-> Q x)) -> first_at P l j -> first_at Q l j.
Proof.
  intros E [[x [X Px]] M]. split.
  - exists x. split; [exact X|]. apply E; [exact (entry_In _ _ _ X)|exact Px].
  - intros i y Y Lt Qy. apply (M i y Y Lt). apply E; [exact (entry_In _ _ _ Y)|exact Qy].
Qed.
Lemma sle_iff x : notnan x -> (dle x z0 = false <-> positive_number x).
Proof.
  intro N. rewrite pos_lt. split.
  - apply dle_total; [exact N|exact z0_nan].
  - apply dlt_not_dle.
Qed.
Lemma sge_iff x : notnan x -> (dle z0 x = false <-> negative_number x).
Proof.
  intro N. rewrite neg_lt. split.
  - apply dle_total; [exact z0_nan|exact N].
  - apply dlt_not_dle.
Qed.

Lemma range_dbl (r t : list double) : @range_of dbl_scalar r t =
  (fmin (@speeds dbl_scalar r t) dbig, fmax (@speeds dbl_scalar r t) (dneg dbig)).
Proof. exact (range_split _ _ _). Qed.
Lemma selects_dbl (r t dots : list double) rv inc :
  numbers (@speeds dbl_scalar r t) -> direction rv (@speeds dbl_scalar r t) ->
  numbers dots -> first_at (toward rv) (if rv then rev dots else dots) inc ->
  let '(mn, mx) := @range_of dbl_scalar r t in @selects dbl_scalar mn mx dots rv inc.
Proof.
  intros NV DR ND FA. rewrite range_dbl. set (V := @speeds dbl_scalar r t) in *.
  assert (NC : ~ chord V) by (destruct rv; [apply ingress_not_chord|apply egress_not_chord]; exact DR).
  split.
  - destruct (@test_chord dbl_scalar (fmin V dbig) (fmax V (dneg dbig))) eqn:T; [|reflexivity].
    exfalso. apply NC. apply chord_iff; assumption.
  - change (@s0 dbl_scalar) with z0. unfold sge, sgt. cbn [slt sle dbl_scalar].
    destruct rv; cbn [direction toward] in *.
    + split; [apply ingress_iff; assumption|].
      apply (first_ext negative_number); [|exact FA]. intros x I. symmetry. apply sge_iff, ND. apply in_rev; exact I.
    + destruct (egress_cond V NV DR) as [A B]. split; [exact A|]. split; [exact B|].
      apply (first_ext positive_number); [|exact FA]. intros x I. symmetry. apply sle_iff, ND, I.
Qed.
Lemma chord_dbl (r t : list double) :
  numbers (@speeds dbl_scalar r t) -> chord (@speeds dbl_scalar r t) ->
  let '(mn, mx) := @range_of dbl_scalar r t in @test_chord dbl_scalar mn mx = true.
Proof.
  intros NV C. rewrite range_dbl. apply chord_iff; assumption.
Qed.
Lemma lost_dbl (r t dots : list double) rv :
  numbers (@speeds dbl_scalar r t) -> direction rv (@speeds dbl_scalar r t) ->
  numbers dots -> (forall v, In v dots -> ~ toward rv v) ->
  let '(mn, mx) := @range_of dbl_scalar r t in @lost dbl_scalar mn mx dots.
Proof.
  intros NV DR ND FA. rewrite range_dbl. set (V := @speeds dbl_scalar r t) in *.
  assert (NC : ~ chord V) by (destruct rv; [apply ingress_not_chord|apply egress_not_chord]; exact DR).
  split.
  - destruct (@test_chord dbl_scalar (fmin V dbig) (fmax V (dneg dbig))) eqn:T; [|reflexivity].
    exfalso. apply NC. apply chord_iff; assumption.
  - change (@s0 dbl_scalar) with z0. unfold sge, sgt. cbn [slt sle dbl_scalar].
    destruct rv; cbn [direction toward] in *.
    + left. split; [apply ingress_iff; assumption|]. intros v I.
      destruct (dle z0 v) eqn:E; [reflexivity|]. destruct (FA v I). apply sge_iff; [apply ND; exact I|exact E].
    + right. destruct (egress_cond V NV DR) as [A B]. split; [exact A|]. split; [exact B|]. intros v I.
      destruct (dle v z0) eqn:E; [reflexivity|]. destruct (FA v I). apply sle_iff; [apply ND; exact I|exact E].
Qed.

Lemma all_allocs_list {S : scalar} (L : csvlib S) : all_allocs L ->
  (forall k x, l_alloc L (SArr k x) = true) /\ (forall k, l_alloc L (SObj k) = true).
Proof. intro A. split; [intros k x; apply A|intro k; apply A]. Qed.
Lemma cassini_mem {S : scalar} (L : csvlib S) geo cal dlp tau legacy h :
  good_heap h -> all_allocs L -> mem_ok (csv_extract L geo cal dlp tau legacy) h.
Proof.
  intros G A. destruct (all_allocs_list L A) as [A1 A2].
  apply (csv_extract_own L (live h) h geo cal dlp tau legacy (owns_start h G)); intros; [apply A2|apply A1].
Qed.
Lemma uranus_mem {S : scalar} (L : csvlib S) geo dlp tau rad h :
  good_heap h -> all_allocs L -> mem_ok (uranus_csv_extract L geo dlp tau rad) h.
Proof.
  intros G A. destruct (all_allocs_list L A) as [A1 A2].
  apply (uranus_csv_extract_own L (live h) h geo dlp tau rad (owns_start h G)); intros; [apply A2|apply A1].
Qed.
Lemma ub_done {A} u0 (m : H A) h : ~ memfault u0 -> vub u0 m -> mem_ok m h -> m h = UB u0.
Proof.
  intros N V M. destruct (V h) as [u [E [->|X]]]; [exact E|]. destruct (M u E X).
Qed.

Section Final.
  Variable L : csvlib dbl_scalar.
  Hypothesis LW : csv_laws L.
  Hypothesis IL : interp_law L.
  Hypothesis AL : all_allocs L.

  Lemma cassini_combined legacy rv first geo cal dlp tau h :
    good_heap h ->
    good_table (TGeo legacy) geo -> good_table TCal cal -> good_table (TDlp legacy) dlp ->
    good_tau legacy tau ->
    let V := speeds (column L (TDlp legacy) dlp cRHO) (column L (TDlp legacy) dlp cTSET) in
    let dots := column L (TGeo legacy) geo cRHODOT in
    numbers V -> numbers dots -> direction rv V ->
    first_at (toward rv) (if rv then rev dots else dots) first ->
    exists c h1, csv_extract L (Some (table_text geo)) (Some (table_text cal)) (Some (table_text dlp))
                   (tau_file tau) legacy h = Ok (Some c, h1) /\
      combined L legacy rv first geo cal dlp tau c.
  Proof using LW IL AL.
    intros G GG GC GD GT V dots NV ND DR FA.
    destruct (v_done _ _ h (flow_good L LW AL IL legacy geo cal dlp tau rv first GG GC GD GT
      (selects_dbl _ _ _ _ _ NV DR ND FA)) (cassini_mem L _ _ _ _ _ h G AL)) as [p [h1 [E [c [-> C]]]]].
    exists c, h1. auto.
  Qed.
  Lemma cassini_chord legacy geo cal dlp tau h :
    good_heap h ->
    good_table (TGeo legacy) geo -> good_table TCal cal -> good_table (TDlp legacy) dlp ->
    good_tau legacy tau ->
    let V := speeds (column L (TDlp legacy) dlp cRHO) (column L (TDlp legacy) dlp cTSET) in
    numbers V -> chord V ->
    exists c h1, csv_extract L (Some (table_text geo)) (Some (table_text cal)) (Some (table_text dlp))
                   (tau_file tau) legacy h = Ok (Some c, h1) /\ c_err c = true.
  Proof using LW AL.
    intros G GG GC GD GT V NV CV.
    destruct (v_done _ _ h (flow_chord L LW AL legacy geo cal dlp tau GG GC GD GT
      (chord_dbl _ _ NV CV)) (cassini_mem L _ _ _ _ _ h G AL)) as [p [h1 [E [c [-> C]]]]].
    exists c, h1. auto.
  Qed.
  Lemma cassini_lost legacy rv geo cal dlp tau h :
    good_heap h ->
    good_table (TGeo legacy) geo -> good_table TCal cal -> good_table (TDlp legacy) dlp ->
    good_tau legacy tau ->
    let V := speeds (column L (TDlp legacy) dlp cRHO) (column L (TDlp legacy) dlp cTSET) in
    let dots := column L (TGeo legacy) geo cRHODOT in
    numbers V -> numbers dots -> direction rv V ->
    (forall v, In v dots -> ~ toward rv v) ->
    csv_extract L (Some (table_text geo)) (Some (table_text cal)) (Some (table_text dlp))
                   (tau_file tau) legacy h = UB OutOfBounds.
  Proof using LW AL.
    intros G GG GC GD GT V dots NV ND DR FA. apply ub_done.
    - intros [|]; discriminate.
    - apply (flow_lost L LW AL legacy geo cal dlp tau GG GC GD GT). exact (lost_dbl _ _ _ _ NV DR ND FA).
    - exact (cassini_mem L _ _ _ _ _ h G AL).
  Qed.
  Lemma uranus_good rad rv first geo dlp tau h :
    good_heap h ->
    good_table (TGeo false) geo -> good_table (TUranus rad) dlp -> good_tau false tau ->
    let V := speeds (column L (TUranus rad) dlp cRHO) (column L (TUranus rad) dlp cTSET) in
    let dots := column L (TGeo false) geo cRHODOT in
    numbers V -> numbers dots -> direction rv V ->
    first_at (toward rv) (if rv then rev dots else dots) first ->
    exists c h1, uranus_csv_extract L (Some (table_text geo)) (Some (table_text dlp))
                   (tau_file tau) rad h = Ok (Some c, h1) /\
      uranus_combined L rad rv first geo dlp tau c.
  Proof using LW IL AL.
    intros G GG GD GT V dots NV ND DR FA.
    destruct (v_done _ _ h (uranus_flow_good L LW AL IL rad geo dlp tau rv first GG GD GT
      (selects_dbl _ _ _ _ _ NV DR ND FA)) (uranus_mem L _ _ _ _ h G AL)) as [p [h1 [E [c [-> C]]]]].
    exists c, h1. auto.
  Qed.
  Lemma uranus_chord rad geo dlp tau h :
    good_heap h ->
    good_table (TGeo false) geo -> good_table (TUranus rad) dlp -> good_tau false tau ->
    let V := speeds (column L (TUranus rad) dlp cRHO) (column L (TUranus rad) dlp cTSET) in
    numbers V -> chord V ->
    exists c h1, uranus_csv_extract L (Some (table_text geo)) (Some (table_text dlp))
                   (tau_file tau) rad h = Ok (Some c, h1) /\ c_err c = true.
  Proof using LW AL.
    intros G GG GD GT V NV CV.
    destruct (v_done _ _ h (uranus_flow_chord L LW AL rad geo dlp tau GG GD GT
      (chord_dbl _ _ NV CV)) (uranus_mem L _ _ _ _ h G AL)) as [p [h1 [E [c [-> C]]]]].
    exists c, h1. auto.
  Qed.
End Final.

Section Any.
  Context {S : scalar}.
  Variable L : csvlib S.
  Hypothesis LW : csv_laws L.
  Hypothesis AL : all_allocs L.
  Lemma case_of t f : unusable L t f \/ good_file t f -> file_case L t f.
  Proof. intro X. exact X. Qed.
  Lemma cassini_unusable legacy geo cal dlp tau h :
    good_heap h ->
    unusable L (TGeo legacy) geo \/ good_file (TGeo legacy) geo ->
    unusable L TCal cal \/ good_file TCal cal ->
    unusable L (TDlp legacy) dlp \/ good_file (TDlp legacy) dlp ->
    (forall f, tau = Some f -> unusable L (TTau legacy) f \/ good_file (TTau legacy) f) ->
    unusable L (TGeo legacy) geo \/ unusable L TCal cal \/ unusable L (TDlp legacy) dlp \/
      (exists f, tau = Some f /\ unusable L (TTau legacy) f) ->
    exists c h1, csv_extract L geo cal dlp tau legacy h = Ok (Some c, h1) /\ c_err c = true.
  Proof using LW AL.
    intros G A B C D E.
    destruct (v_done _ _ h (flow_bad L LW AL legacy geo cal dlp tau A B C D E) (cassini_mem L _ _ _ _ _ h G AL))
      as [p [h1 [X [c [-> Y]]]]].
    exists c, h1. auto.
  Qed.
  Lemma uranus_unusable rad geo dlp tau h :
    good_heap h ->
    unusable L (TGeo false) geo \/ good_file (TGeo false) geo ->
    unusable L (TUranus rad) dlp \/ good_file (TUranus rad) dlp ->
    (forall f, tau = Some f -> unusable L (TTau false) f \/ good_file (TTau false) f) ->
    unusable L (TGeo false) geo \/ unusable L (TUranus rad) dlp \/
      (exists f, tau = Some f /\ unusable L (TTau false) f) ->
    uranus_csv_extract L geo dlp tau rad h = UB NullDeref.
  Proof using LW AL.
    intros G A B D E. apply ub_done.
    - intros [|]; discriminate.
    - exact (uranus_flow_bad L LW AL rad geo dlp tau A B D E).
    - exact (uranus_mem L _ _ _ _ h G AL).
  Qed.
End Any.

(** ** Memory of the combined extraction *)
Lemma csv_family_format : format_ok (fam_dlp csv_family). Proof. apply dlp_format_ok. Qed.
Lemma uranus_family_format : format_ok (fam_dlp uranus_family). Proof. apply uranus_dlp_format_ok. Qed.
Lemma cassini_memory {S : scalar} (L : csvlib S) geo cal dlp tau legacy h :
  good_heap h ->
  (tau <> None -> l_alloc L (SObj KTau) = true) ->
  (forall x, In x [cD; cFSKY; cRHODOT; cRX; cRY; cRZ; cTAUPHASE; cTAUPOWER; cTAUV] ->
     l_alloc L (SArr KCsv x) = true) ->
  (forall u, csv_extract L geo cal dlp tau legacy h = UB u -> ~ memory_fault u) /\
  (forall p h1, csv_extract L geo cal dlp tau legacy h = Ok (p, h1) ->
     files h1 = files h /\ exists h2, csv_destroy csv_family p h1 = Ok (None, h2) /\ same_resources h h2).
Proof.
  intros G A B.
  destruct (csv_extract_own L (live h) h geo cal dlp tau legacy (owns_start h G) A B) as [M Q].
  split; [exact M|]. intros p h1 E. specialize (Q p h1 E). split; [exact (proj1 Q)|].
  destruct (csv_destroy_ok csv_family _ _ p h1 csv_family_format Q) as [h2 [E2 [O2 F2]]].
  exists h2. split; [exact E2|]. split; [exact (proj1 (owns_end _ _ O2))|exact F2].
Qed.
Lemma uranus_memory {S : scalar} (L : csvlib S) geo dlp tau rad h :
  good_heap h ->
  (tau <> None -> l_alloc L (SObj KTau) = true) ->
  (forall x, In x [cRX; cRY; cRZ; cTAUPHASE; cTAUPOWER; cTAUV] ->
     l_alloc L (SArr KUranusCsv x) = true) ->
  (forall u, uranus_csv_extract L geo dlp tau rad h = UB u -> ~ memory_fault u) /\
  (forall p h1, uranus_csv_extract L geo dlp tau rad h = Ok (p, h1) ->
     files h1 = files h /\ exists h2, csv_destroy uranus_family p h1 = Ok (None, h2) /\ same_resources h h2).
Proof.
  intros G A B.
  destruct (uranus_csv_extract_own L (live h) h geo dlp tau rad (owns_start h G) A B) as [M Q].
  split; [exact M|]. intros p h1 E. specialize (Q p h1 E). split; [exact (proj1 Q)|].
  destruct (csv_destroy_ok uranus_family _ _ p h1 uranus_family_format Q) as [h2 [E2 [O2 F2]]].
  exists h2. split; [exact E2|]. split; [exact (proj1 (owns_end _ _ O2))|exact F2].
Qed.

(** ** Consequences *)
Section Combined.
  Context {S : scalar}.
  Variable L : csvlib S.
  Lemma interp_zlen xs ys ps : interp_law L -> zlen (l_interp L xs ys ps) = zlen ps.
  Proof. intro IL. unfold zlen. rewrite IL. reflexivity. Qed.
  Lemma map2_zlen {A B C} (f : A -> B -> C) l m : zlen l = zlen m -> zlen (map2 f l m) = zlen l.
  Proof. intro E. unfold zlen. rewrite map2_length; [reflexivity|]. unfold zlen in E. lia. Qed.
  Lemma combined_lengths legacy reversed first geo cal dlp tau c :
    interp_law L -> combined L legacy reversed first geo cal dlp tau c ->
    forall x, In x ([cRHO; cRAWTAU; cTRET; cTSET; cTOET; cCPOLE; cCTIM; cRAWTHR; cPHASE; cB; cPHIRL; cPHIDEG; cPNORM;
                     cD; cRHODOT; cRX; cRY; cRZ; cFSKY] ++ match tau with Some _ => [cTAUPHASE; cTAUV; cTAUPOWER] | None => [] end) ->
    array (c_obj c) x (c_n c).
  Proof.
    intros IL C x I. rewrite (cb_n _ _ _ _ _ _ _ _ _ C).
    assert (ZC : forall t y, zlen (column L t dlp y) = zlen dlp) by (intros; apply column_len).
    assert (M : forall y vs, values_are (c_obj c) y vs -> zlen vs = zlen dlp -> array (c_obj c) y (zlen dlp)).
    { intros y vs A B. exact (array_values_are _ _ _ _ A B). }
    apply in_app_or in I as [I|I].
    - assert (P1 : In x [cRHO; cRAWTAU; cTRET; cTSET; cTOET; cCPOLE; cCTIM; cRAWTHR; cPHASE; cB; cPHIRL] \/
                  x = cPHIDEG \/ x = cPNORM \/ In x [cD; cRHODOT; cRX; cRY; cRZ] \/ x = cFSKY).
      { cbn in I |- *. intuition congruence. }
      destruct P1 as [P|[->|[->|[P| ->]]]].
      + apply (M _ _ (cb_same _ _ _ _ _ _ _ _ _ C x P)), ZC.
      + apply (M _ _ (cb_phi _ _ _ _ _ _ _ _ _ C)), ZC.
      + apply (M _ _ (cb_power _ _ _ _ _ _ _ _ _ C)). destruct legacy; [rewrite map2_zlen|]; rewrite ?ZC; reflexivity.
      + apply (M _ _ (cb_geo _ _ _ _ _ _ _ _ _ C x P)). rewrite interp_zlen by exact IL. apply ZC.
      + apply (M _ _ (cb_sky _ _ _ _ _ _ _ _ _ C)). rewrite interp_zlen by exact IL. apply ZC.
    - destruct tau as [rows|]; [|destruct I].
      destruct (cb_tau _ _ _ _ _ _ _ _ _ C rows eq_refl) as [T1 [T2 T3]].
      destruct I as [<-|[<-|[<-|[]]]].
      + apply (M _ _ T1). rewrite interp_zlen by exact IL. apply ZC.
      + apply (M _ _ T2). rewrite interp_zlen by exact IL. apply ZC.
      + apply (M _ _ T3). destruct legacy; [rewrite map2_zlen|]; rewrite ?interp_zlen, ?ZC by exact IL; reflexivity.
  Qed.
  Lemma holds_values (o : obj S) x vs i v : values_are o x vs -> holds_at o x i v -> entry vs i v.
  Proof.
    intros [id E] [id' [l [E' X]]]. rewrite E in E'. injection E' as _ <-.
    destruct X as [B X]. split; [exact B|]. rewrite nth_error_map in X.
    destruct (nth_error vs (Z.to_nat i)); [|discriminate]. cbn in X. congruence.
  Qed.
  Lemma values_holds (o : obj S) x vs i v : values_are o x vs -> entry vs i v -> holds_at o x i v.
  Proof. intros [id E] X. exists id, (map Some vs). split; [exact E|]. apply entry_map_some. exact X. Qed.
  Lemma combined_power reversed first geo cal dlp tau c :
    interp_law L -> combined L true reversed first geo cal dlp tau c ->
    c_err c = false /\
    (forall i t B, holds_at (c_obj c) cRAWTAU i t -> holds_at (c_obj c) cB i B ->
       holds_at (c_obj c) cPNORM i (l_exp L (- t / l_sind L (sabs B))%S)) /\
    (tau <> None -> forall i t B, holds_at (c_obj c) cTAUV i t -> holds_at (c_obj c) cB i B ->
       holds_at (c_obj c) cTAUPOWER i (l_exp L (- t / l_sind L (sabs B))%S)).
  Proof.
    intros IL C. split; [exact (cb_err _ _ _ _ _ _ _ _ _ C)|]. split.
    - intros i t B X Y.
      apply (values_holds _ _ _ _ _ (cb_power _ _ _ _ _ _ _ _ _ C)).
      apply (map2_entry (power L)).
      + exact (holds_values _ _ _ _ _ (cb_same _ _ _ _ _ _ _ _ _ C cRAWTAU ltac:(cbn; tauto)) X).
      + exact (holds_values _ _ _ _ _ (cb_same _ _ _ _ _ _ _ _ _ C cB ltac:(cbn; tauto)) Y).
    - intros N i t B X Y. destruct tau as [rows|]; [|congruence].
      destruct (cb_tau _ _ _ _ _ _ _ _ _ C rows eq_refl) as [_ [T2 T3]].
      apply (values_holds _ _ _ _ _ T3). apply (map2_entry (power L)).
      + exact (holds_values _ _ _ _ _ T2 X).
      + exact (holds_values _ _ _ _ _ (cb_same _ _ _ _ _ _ _ _ _ C cB ltac:(cbn; tauto)) Y).
  Qed.
End Combined.
Lemma power_formula (t B : R) : (Rabs B <= 180)%R ->
  exp (- t / sin (Rabs B * (PI / 180))) = exp (- t / Rabs (sin (B * (PI / 180)))).
Proof.
  intro H. f_equal. f_equal. pose proof PI_RGT_0 as P.
  assert (Q : (0 <= sin (Rabs B * (PI / 180)))%R).
  { apply sin_ge_0; [apply Rmult_le_pos; [apply Rabs_pos|lra]|].
    apply Rle_trans with (180 * (PI / 180))%R; [apply Rmult_le_compat_r; lra|lra]. }
  destruct (Rle_or_lt 0 B) as [X|X].
  - rewrite (Rabs_right B) in * by lra. rewrite Rabs_right by lra. reflexivity.
  - rewrite (Rabs_left B) in * by lra.
    replace (- B * (PI / 180))%R with (- (B * (PI / 180)))%R in * by lra.
    rewrite sin_neg in *. rewrite Rabs_left1 by lra. reflexivity.
Qed.

(** ** The error is reported exactly for chords *)
Lemma first_exists {A} (P : A -> Prop) (l : list A) : (forall x, P x \/ ~ P x) ->
  (exists x, In x l /\ P x) -> exists j, first_at P l j.
Proof.
  intro D. induction l as [|a l IH]; intros [x [I Px]]; [destruct I|].
  destruct (D a) as [Pa|Na].
  - exists 0. split; [exists a; split; [split; [lia|reflexivity]|exact Pa]|].
    intros i y [B _] Lt. lia.
  - destruct I as [->|I]; [contradiction|].
    destruct (IH (ex_intro _ x (conj I Px))) as [j [[y [[B E] Py]] M]].
    exists (j + 1). split.
    + exists y. split; [|exact Py]. split; [lia|].
      replace (Z.to_nat (j + 1)) with (Datatypes.S (Z.to_nat j)) by lia. exact E.
    + intros i z [Bi Ei] Lt. destruct (Z.eq_dec i 0) as [->|Ni].
      * cbn in Ei. injection Ei as <-. exact Na.
      * apply (M (i - 1)); [|lia]. split; [lia|].
        replace (Z.to_nat i) with (Datatypes.S (Z.to_nat (i - 1))) in Ei by lia. exact Ei.
Qed.
Lemma toward_dec rv x : toward rv x \/ ~ toward rv x.
Proof.
  destruct rv; cbn [toward].
  - destruct (dlt x z0) eqn:E; [left|right]; rewrite neg_lt; congruence.
  - destruct (dlt z0 x) eqn:E; [left|right]; rewrite pos_lt; congruence.
Qed.
Lemma cassini_error_iff (L : csvlib dbl_scalar) legacy geo cal dlp tau h :
  csv_laws L -> interp_law L -> all_allocs L -> good_heap h ->
  good_table (TGeo legacy) geo -> good_table TCal cal -> good_table (TDlp legacy) dlp ->
  good_tau legacy tau ->
  let V := speeds (column L (TDlp legacy) dlp cRHO) (column L (TDlp legacy) dlp cTSET) in
  let dots := column L (TGeo legacy) geo cRHODOT in
  numbers V -> numbers dots ->
  (forall reversed, direction reversed V -> exists v, In v dots /\ toward reversed v) ->
  exists c h1, csv_extract L (Some (table_text geo)) (Some (table_text cal)) (Some (table_text dlp))
                 (tau_file tau) legacy h = Ok (Some c, h1) /\ (c_err c = true <-> chord V).
Proof.
  intros LW IL AL G GG GC GD GT V dots NV ND SOME.
  assert (GO : forall rv, direction rv V -> exists c h1, csv_extract L (Some (table_text geo)) (Some (table_text cal))
      (Some (table_text dlp)) (tau_file tau) legacy h = Ok (Some c, h1) /\ c_err c = false).
  { intros rv DR. destruct (SOME rv DR) as [v [I T]].
    destruct (first_exists (toward rv) (if rv then rev dots else dots) (toward_dec rv)) as [j F].
    { exists v. split; [|exact T]. destruct rv; [apply in_rev; rewrite rev_involutive|]; exact I. }
    destruct (cassini_combined L LW IL AL legacy rv j geo cal dlp tau h G GG GC GD GT NV ND DR F) as [c [h1 [E C]]].
    exists c, h1. split; [exact E|exact (cb_err _ _ _ _ _ _ _ _ _ C)]. }
  destruct (directions V NV) as [X|[X|X]].
  - destruct (GO true X) as [c [h1 [E F]]]. exists c, h1. split; [exact E|].
    split; [congruence|]. intro Y. destruct (ingress_not_chord V X Y).
  - destruct (GO false X) as [c [h1 [E F]]]. exists c, h1. split; [exact E|].
    split; [congruence|]. intro Y. destruct (egress_not_chord V X Y).
  - destruct (cassini_chord L LW AL legacy geo cal dlp tau h G GG GC GD GT NV X) as [c [h1 [E F]]].
    exists c, h1. split; [exact E|tauto].
Qed.
