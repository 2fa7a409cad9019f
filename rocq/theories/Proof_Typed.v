(** * Proof_Typed: lemmas for C79. *)
From Coq Require Import String Ascii List ZArith Bool Reals Lia.
From Verif Require Import Base Model_Time Model_Frame Model_Typed Spec_Typed.
Import ListNotations.
Open Scope Z_scope.

(** Contents between opening brackets. *)
Fixpoint blocks (c : text) (cs : list text) : text := match cs with [] => "["%char :: c | d :: cs' => "["%char :: c ++ blocks d cs' end.
Fixpoint cuts (c : text) (cs : list text) : list text := match cs with [] => [firstn (length c - 1) c] | d :: cs' => firstn (length c - 3) c :: cuts d cs' end.
Lemma positions_app : forall c s k, ~ In "["%char c -> positions k (c ++ s) = positions (k + Z.of_nat (length c)) s.
Proof.
  induction c as [|a c IH]; intros s k N; cbn [app length]; [f_equal; lia|]. cbn [positions]. unfold opens. destruct (Ascii.eqb_spec a "["%char) as [->|_]; [exfalso; apply N; left; reflexivity|].
  rewrite IH by (intros H; apply N; right; exact H). f_equal. lia.
Qed.
Lemma slice_mid : forall p c r k, (k <= length c)%nat -> pyslice (p ++ c ++ r) (Z.of_nat (length p)) (Z.of_nat (length p + k)) = firstn k c.
Proof.
  intros p c r k K. unfold pyslice. rewrite !app_length. destruct (Z.ltb_spec (Z.of_nat (length p)) 0); [lia|]. destruct (Z.ltb_spec (Z.of_nat (length p + k)) 0); [lia|].
  rewrite !Z.min_l by lia. rewrite !Nat2Z.id. replace (length p + k - length p)%nat with k by lia.
  rewrite skipn_app, skipn_all, Nat.sub_diag. cbn [app skipn]. rewrite firstn_app. replace (k - length c)%nat with 0%nat by lia. cbn [firstn]. apply app_nil_r.
Qed.
Lemma slice_end : forall p c, (1 <= length c)%nat -> pyslice (p ++ c) (Z.of_nat (length p)) (-1) = firstn (length c - 1) c.
Proof.
  intros p c K. assert (H := slice_mid p c [] (length c - 1) ltac:(lia)). rewrite app_nil_r in H. rewrite <- H. unfold pyslice. rewrite !app_length.
  destruct (Z.ltb_spec (Z.of_nat (length p)) 0); [lia|]. destruct (Z.ltb_spec (Z.of_nat (length p + (length c - 1))) 0); [lia|]. destruct (Z.ltb_spec (-1) 0); [|lia].
  do 2 f_equal. lia.
Qed.
Lemma blocks_pos : forall c cs k, exists rest, positions k (blocks c cs) = k :: rest.
Proof. intros c [|d cs] k; cbn [blocks positions]; eexists; reflexivity. Qed.
Lemma read_blocks : forall fl cs c p, ~ In "["%char c -> (1 <= length c)%nat -> (cs <> [] -> 3 <= length c)%nat ->
  Forall (fun d => ~ In "["%char d /\ (3 <= length d)%nat) cs ->
  read_pairs fl (p ++ blocks c cs) (positions (Z.of_nat (length p)) (blocks c cs)) = each (read_pair fl) (cuts c cs).
Proof.
  intros fl. induction cs as [|d cs IH]; intros c p N L1 L3 F; cbn [blocks cuts each].
  - change (positions (Z.of_nat (length p)) ("["%char :: c)) with (Z.of_nat (length p) :: positions (Z.of_nat (length p) + 1) c). rewrite <- (app_nil_r c) at 2. rewrite positions_app by exact N. cbn [positions read_pairs].
    replace (p ++ "["%char :: c) with ((p ++ ["["%char]) ++ c) by (rewrite <- app_assoc; reflexivity). replace (Z.of_nat (length p) + 1) with (Z.of_nat (length (p ++ ["["%char]))) by (rewrite app_length; cbn [length]; lia).
    rewrite slice_end by exact L1. reflexivity.
  - inversion F as [|? ? [Nd Ld] F']; subst.
    change (positions (Z.of_nat (length p)) ("["%char :: c ++ blocks d cs)) with (Z.of_nat (length p) :: positions (Z.of_nat (length p) + 1) (c ++ blocks d cs)). rewrite positions_app by exact N.
    set (p' := p ++ "["%char :: c). assert (Lp : Z.of_nat (length p) + 1 + Z.of_nat (length c) = Z.of_nat (length p')) by (unfold p'; rewrite app_length; cbn [length]; lia). rewrite Lp.
    cbn [read_pairs]. specialize (IH d p' Nd ltac:(lia) ltac:(intros _; lia) F').
    replace (p ++ "["%char :: c ++ blocks d cs) with (p' ++ blocks d cs) by (unfold p'; rewrite <- app_assoc; reflexivity). rewrite IH.
    destruct (blocks_pos d cs (Z.of_nat (length p'))) as [rest E]. rewrite E.
    assert (K : pyslice (p' ++ blocks d cs) (Z.of_nat (length p) + 1) (Z.of_nat (length p') - 3) = firstn (length c - 3) c).
    { specialize (L3 ltac:(discriminate)). replace (p' ++ blocks d cs) with ((p ++ ["["%char]) ++ c ++ blocks d cs) by (unfold p'; rewrite <- !app_assoc; reflexivity).
      rewrite <- (slice_mid (p ++ ["["%char]) c (blocks d cs) (length c - 3)) by lia. f_equal; unfold p'; rewrite ?app_length; cbn [length]; lia. }
    rewrite K. reflexivity.
Qed.

(** The texts of the gaps as contents. *)
Definition content (g : text * text) : text := fst g ++ ","%char :: snd g ++ ["]"%char].
Fixpoint contents (g : text * text) (gs : list (text * (text * text))) : text * list text :=
  match gs with [] => (content g, []) | (sep, h) :: gs' => let '(d, ds) := contents h gs' in (content g ++ sep, d :: ds) end.
Lemma listed_blocks : forall gs g, listed g gs = blocks (fst (contents g gs)) (snd (contents g gs)).
Proof.
  induction gs as [|[sep h] gs IH]; intros g; cbn [listed contents]; [reflexivity|]. specialize (IH h). destruct (contents h gs) as [d ds]. cbn [fst snd] in *. rewrite IH.
  unfold written, content. cbn [blocks app]. rewrite <- !app_assoc. reflexivity.
Qed.
Lemma split_plain : forall a, ~ In ","%char a -> split a = [a].
Proof. induction a as [|c a IH]; intros N; cbn [split]; [reflexivity|]. destruct (Ascii.eqb_spec c ","%char) as [->|_]; [exfalso; apply N; left; reflexivity|]. rewrite IH; [reflexivity|intros H; apply N; right; exact H]. Qed.
Lemma split_pair : forall a b, ~ In ","%char a -> ~ In ","%char b -> split (a ++ ","%char :: b) = [a; b].
Proof.
  induction a as [|c a IH]; intros b N M; cbn [split app]; [rewrite split_plain by exact M; reflexivity|]. destruct (Ascii.eqb_spec c ","%char) as [->|_]; [exfalso; apply N; left; reflexivity|].
  rewrite IH; [reflexivity|intros H; apply N; right; exact H|exact M].
Qed.
Lemma read_plain : forall fl g x, plain_gap g -> reads fl g x -> read_pair fl (fst g ++ ","%char :: snd g) = Returns x.
Proof. intros fl [a b] [x y] [[_ A] [_ B]] [F1 F2]. cbn [fst snd] in *. unfold read_pair. rewrite split_pair by assumption. rewrite F1, F2. reflexivity. Qed.
Lemma content_in : forall g, plain_gap g -> ~ In "["%char (content g).
Proof.
  intros [a b] [[A _] [B _]] H. cbn [fst snd] in *. unfold content in H. apply in_app_or in H. destruct H as [H|[H|H]]; [auto|discriminate|]. apply in_app_or in H. destruct H as [H|[H|[]]]; [auto|discriminate].
Qed.
Lemma content_length : forall g, length (content g) = (length (fst g) + length (snd g) + 2)%nat.
Proof. intros [a b]. unfold content. cbn [fst snd]. rewrite app_length. cbn [length]. rewrite app_length. cbn [length]. lia. Qed.
Lemma last_cut : forall g, firstn (length (content g) - 1) (content g) = fst g ++ ","%char :: snd g.
Proof.
  intros [a b]. unfold content. cbn [fst snd]. replace (a ++ ","%char :: b ++ ["]"%char]) with ((a ++ ","%char :: b) ++ ["]"%char]) by (rewrite <- app_assoc; reflexivity).
  rewrite app_length. cbn [length]. rewrite Nat.add_sub, firstn_app, Nat.sub_diag, firstn_all. cbn [firstn]. apply app_nil_r.
Qed.
Lemma cut_two : forall g sep, length sep = 2%nat -> firstn (length (content g ++ sep) - 3) (content g ++ sep) = fst g ++ ","%char :: snd g.
Proof.
  intros g sep L. rewrite <- last_cut. assert (H := content_length g). rewrite app_length, L. replace (length (content g) + 2 - 3)%nat with (length (content g) - 1)%nat by lia.
  rewrite firstn_app. replace (length (content g) - 1 - length (content g))%nat with 0%nat by lia. cbn [firstn]. apply app_nil_r.
Qed.
Lemma cut_one : forall g sep, length sep = 1%nat -> snd g <> [] -> firstn (length (content g ++ sep) - 3) (content g ++ sep) = fst (shortened g) ++ ","%char :: snd (shortened g).
Proof.
  intros [a b] sep L N. cbn [fst snd shortened] in *. assert (H := content_length (a, b)). cbn [fst snd] in H. rewrite app_length, L. replace (length (content (a, b)) + 1 - 3)%nat with (length (content (a, b)) - 2)%nat by lia.
  rewrite firstn_app. replace (length (content (a, b)) - 2 - length (content (a, b)))%nat with 0%nat by lia. cbn [firstn]. rewrite app_nil_r.
  destruct (exists_last N) as (b' & c & ->). rewrite removelast_last. rewrite H. rewrite app_length. cbn [length]. unfold content. cbn [fst snd].
  replace (a ++ ","%char :: (b' ++ [c]) ++ ["]"%char]) with ((a ++ ","%char :: b') ++ [c; "]"%char]) by (rewrite <- !app_assoc; cbn [app]; rewrite <- ?app_assoc; reflexivity).
  rewrite firstn_app. rewrite app_length. cbn [length]. replace (length a + (length b' + 1) + 2 - 2)%nat with (length a + S (length b'))%nat by lia. rewrite Nat.sub_diag. cbn [firstn]. rewrite app_nil_r.
  apply firstn_all2. rewrite app_length. cbn [length]. lia.
Qed.
Lemma typed_slice : forall g gs, pyslice (typed g gs) 1 (-1) = listed g gs.
Proof.
  intros g gs. unfold typed. change ("["%char :: listed g gs ++ ["]"%char]) with (["["%char] ++ (listed g gs ++ ["]"%char])). change 1 with (Z.of_nat (length ["["%char])). rewrite slice_end by (rewrite app_length; cbn [length]; lia).
  rewrite app_length. cbn [length]. rewrite Nat.add_sub, firstn_app, Nat.sub_diag, firstn_all. cbn [firstn]. apply app_nil_r.
Qed.
Lemma typed_doubled : forall g gs, doubled "["%char (typed g gs) = true.
Proof. intros g [|[sep h] gs]; reflexivity. Qed.
Lemma typed_cuts : forall fl previous gs g, plain_gap g -> Forall (fun sh => plain_gap (snd sh) /\ ~ In "["%char (fst sh) /\ (1 <= length (fst sh))%nat) gs ->
  (forall sep h, In (sep, h) gs -> (length (fst h) + length (snd h) >= 1)%nat) ->
  new_gaps fl previous (typed g gs) = each (read_pair fl) (cuts (fst (contents g gs)) (snd (contents g gs))).
Proof.
  intros fl previous gs g G F E. unfold new_gaps. rewrite typed_doubled. cbn [negb andb]. rewrite typed_slice, listed_blocks. unfold extract_list_from_str.
  assert (C : forall gs g, plain_gap g -> Forall (fun sh => plain_gap (snd sh) /\ ~ In "["%char (fst sh) /\ (1 <= length (fst sh))%nat) gs -> (forall sep h, In (sep, h) gs -> (length (fst h) + length (snd h) >= 1)%nat) ->
    ~ In "["%char (fst (contents g gs)) /\ (2 <= length (fst (contents g gs)))%nat /\ (snd (contents g gs) <> [] -> 3 <= length (fst (contents g gs)))%nat /\
    (length (fst g) + length (snd g) >= 1 -> 3 <= length (fst (contents g gs)))%nat /\
    Forall (fun d => ~ In "["%char d /\ (3 <= length d)%nat) (snd (contents g gs))).
  { clear. induction gs as [|[sep h] gs IH]; intros g G F E; cbn [contents].
    - cbn [fst snd]. assert (H := content_length g). repeat split; [apply content_in, G|lia|congruence|lia|constructor].
    - inversion F as [|? ? (H1 & H2 & H3) F']; subst. cbn [fst snd] in *. specialize (IH h H1 F' ltac:(intros s k K; apply (E s k); right; exact K)). specialize (E sep h (or_introl eq_refl)).
      destruct (contents h gs) as [d ds]. cbn [fst snd] in *. destruct IH as (A & B & C & D & K). assert (H := content_length g).
      rewrite app_length. repeat split; try lia.
      + intros I. apply in_app_or in I. destruct I as [I|I]; [exact (content_in g G I)|auto].
      + constructor; [split; [exact A|lia]|exact K]. }
  destruct (C gs g G F E) as (A & B & D & _ & K). apply (read_blocks fl (snd (contents g gs)) (fst (contents g gs)) []); auto. lia.
Qed.
Lemma each_reads : forall fl ts xs, Forall2 (fun t x => read_pair fl t = Returns x) ts xs -> each (read_pair fl) ts = Returns xs.
Proof. intros fl ts xs H. induction H as [|t x ts xs E H IH]; cbn [each]; [reflexivity|]. rewrite E, IH. reflexivity. Qed.
Lemma typed_ok : forall fl previous g gs x xs, plain_gap g -> Forall (fun sh => plain_gap (snd sh) /\ length (fst sh) = 2%nat /\ ~ In "["%char (fst sh)) gs ->
  fl [] = None -> reads fl g x -> Forall2 (fun sh y => reads fl (snd sh) y) gs xs -> new_gaps fl previous (typed g gs) = Returns (x :: xs).
Proof.
  intros fl previous g gs x xs G F E0 Rg Rs. rewrite typed_cuts; [|exact G| |].
  - apply each_reads. clear E0. revert g x G Rg F. induction Rs as [|[sep h] y gs xs Rh Rs IH]; intros g x G Rg F; cbn [contents].
    + cbn [fst snd cuts]. constructor; [|constructor]. rewrite last_cut. apply read_plain; assumption.
    + inversion F as [|? ? (H1 & H2 & H3) F']; subst. cbn [fst snd] in *. specialize (IH h y H1 Rh F'). destruct (contents h gs) as [d ds]. cbn [fst snd cuts] in *. constructor; [|exact IH]. rewrite cut_two by exact H2. apply read_plain; assumption.
  - eapply Forall_impl; [|exact F]. intros [sep h] (A & B & C). cbn [fst snd] in *. repeat split; try apply A; auto. lia.
  - intros sep h I. clear - I Rs E0. induction Rs as [|sh y gs xs Rh Rs IH]; [destruct I|]. destruct I as [-> | I]; [|auto]. cbn [snd] in Rh. destruct h as [[|c a] b]; cbn [fst snd length] in *; [destruct Rh as [H _]; cbn [fst] in H; congruence|lia].
Qed.
(** All but the last gap. *)
Lemma close_ok : forall fl previous g gs x xs, plain_gap g -> snd g <> [] -> Forall (fun sh => plain_gap (snd sh) /\ snd (snd sh) <> [] /\ length (fst sh) = 1%nat /\ ~ In "["%char (fst sh)) gs ->
  gs <> [] -> reads fl (shortened g) x ->
  (exists ys y, xs = ys ++ [y] /\ Forall2 (fun sh z => reads fl (shortened (snd sh)) z) (removelast gs) ys /\ reads fl (snd (last gs ([], ([], [])))) y) ->
  new_gaps fl previous (typed g gs) = Returns (x :: xs).
Proof.
  intros fl previous g gs x xs G Gn F N Rg Rs. rewrite typed_cuts; [|exact G| |].
  - apply each_reads. revert g x xs G Gn Rg Rs. induction gs as [|[sep h] gs IH]; intros g x xs G Gn Rg Rs; [congruence|]. inversion F as [|? ? (H1 & H2 & H3 & H4) F']; subst. cbn [fst snd] in *. cbn [contents].
    assert (Pl : forall g, plain_gap g -> plain_gap (shortened g)).
    { clear. intros [a b] [A [B1 B2]]. cbn [fst snd] in *. split; [exact A|]. cbn [shortened snd]. assert (K : forall c, In c (removelast b) -> In c b).
      { intros c H. destruct b as [|b0 b1]; [destruct H|]. rewrite (app_removelast_last b0) by discriminate. apply in_or_app. left. exact H. }
      split; intros I; apply K in I; auto. }
    destruct gs as [|[sep' h'] gs'].
    + cbn [contents fst snd cuts]. destruct Rs as (ys & y & -> & Fy & Ry). cbn [removelast last snd] in Fy, Ry. inversion Fy; subst. cbn [app]. constructor; [rewrite cut_one by assumption; apply read_plain; [apply Pl, G|exact Rg]|]. constructor; [|constructor]. rewrite last_cut. apply read_plain; assumption.
    + destruct Rs as (ys & y & -> & Fy & Ry). change (removelast ((sep, h) :: (sep', h') :: gs')) with ((sep, h) :: removelast ((sep', h') :: gs')) in Fy. inversion Fy as [|? z ? zs Rz Fz]; subst. cbn [snd] in Rz.
      specialize (IH F' ltac:(discriminate) h z (zs ++ [y]) H1 H2 Rz ltac:(exists zs, y; auto)).
      destruct (contents h ((sep', h') :: gs')) as [d ds]. cbn [fst snd cuts app] in *. constructor; [|exact IH]. rewrite cut_one by assumption. apply read_plain; [apply Pl, G|exact Rg].
  - eapply Forall_impl; [|exact F]. intros [sep h] (A & B & C & D). cbn [fst snd] in *. repeat split; try apply A; auto. lia.
  - intros sep h I. rewrite Forall_forall in F. specialize (F _ I). cbn [fst snd] in F. destruct F as (_ & B & _). destruct (snd h); [congruence|cbn [length]; lia].
Qed.
Lemma doubled_false : forall c s, (forall a b, s <> a ++ c :: c :: b) -> doubled c s = false.
Proof.
  intros c. induction s as [|x [|y s] IH]; intros N; [reflexivity|reflexivity|]. change (doubled c (x :: y :: s)) with ((Ascii.eqb x c && Ascii.eqb y c) || doubled c (y :: s)).
  rewrite IH; [|intros a b H; apply (N (x :: a) b); rewrite H; reflexivity]. destruct (Ascii.eqb_spec x c) as [->|_]; [|reflexivity]. destruct (Ascii.eqb_spec y c) as [->|_]; [|reflexivity]. exfalso. apply (N [] s). reflexivity.
Qed.
Lemma refused_ok : forall fl previous s, (forall a b, s <> a ++ "["%char :: "["%char :: b) -> (forall a b, s <> a ++ "]"%char :: "]"%char :: b) -> new_gaps fl previous s = Returns previous.
Proof. intros fl previous s A B. unfold new_gaps. rewrite !doubled_false by assumption. reflexivity. Qed.
Lemma close_refuted : forall fl previous,
  (forall s x, In (s, x) [("10", 10); ("20", 20); ("2", 2); ("30", 30); ("40", 40)]%string%R -> fl (list_ascii_of_string s) = Some x) ->
  new_gaps fl previous (list_ascii_of_string "[[10,20],[30,40]]") = Returns [(10, 2); (30, 40)]%R.
Proof.
  intros fl previous H. set (l := list_ascii_of_string). apply (close_ok fl previous (l "10", l "20")%string [(l ",", (l "30", l "40"))]%string (10, 2)%R [(30, 40)]%R).
  - repeat split; cbn; intros K; repeat (destruct K as [K|K]; [discriminate|]); destruct K.
  - discriminate.
  - constructor; [|constructor]. cbn [fst snd]. repeat split; try discriminate; cbn; intros K; repeat (destruct K as [K|K]; [discriminate|]); destruct K.
  - discriminate.
  - split; [apply H; cbn; tauto|apply (H "2"%string); cbn; tauto].
  - exists [], (30, 40)%R. split; [reflexivity|]. split; [constructor|]. split; apply H; cbn; tauto.
Qed.
Lemma example_ok : forall fl previous, fl [] = None ->
  (forall s x, In (s, x) [("10", 10); (" 20", 20); ("30", 30); (" 40", 40)]%string%R -> fl (list_ascii_of_string s) = Some x) ->
  new_gaps fl previous (list_ascii_of_string "[[10, 20], [30, 40]]") = Returns [(10, 20); (30, 40)]%R.
Proof.
  intros fl previous E H. set (l := list_ascii_of_string). apply (typed_ok fl previous (l "10", l " 20")%string [(l ", ", (l "30", l " 40"))]%string (10, 20)%R [(30, 40)]%R).
  - repeat split; cbn; intros K; repeat (destruct K as [K|K]; [discriminate|]); destruct K.
  - constructor; [|constructor]. cbn [fst snd]. repeat split; cbn; intros K; repeat (destruct K as [K|K]; [discriminate|]); destruct K.
  - exact E.
  - split; apply H; cbn; tauto.
  - constructor; [|constructor]. split; apply H; cbn; tauto.
Qed.
