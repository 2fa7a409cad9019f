(** * Proof_Real3: free-space normalisation, forward kernels, mirror symmetry,
    Legendre series (C26-C28, C31, C32). *)
From Coq Require Import List ZArith Bool Reals String Lia Lra.
From Verif Require Import Base BaseFacts Dbl Scalar Model_TauRec Model_Transform
  Model_Interp Spec_Select Spec_Safety Spec_Real Proof_Linear Proof_Recon4 Proof_Real Proof_Real2.
Import ListNotations.
Open Scope Z_scope.

Section Free.
  Variable L : rlib.
  Hypothesis HT : trig_law L.
  Hypothesis HA : cabs_law L.
  Lemma sum_pairs_const (z : RC) c n el er : sum_pairs (fun _ => z) c n el er = rmul z (sum_weights n el er).
  Proof. unfold sum_pairs, sum_weights. rewrite <- csum_mul. apply csum_ext. intros k _. calg. Qed.
  Lemma sum_window_const (z : RC) off n e : sum_window (fun _ => z) off n e = rmul z (sum_all n e).
  Proof. unfold sum_window, sum_all. rewrite <- csum_mul. apply csum_ext. intros k _. calg. Qed.
  Lemma centre_const (z : RC) c n el er :
    radd z (sum_pairs (fun _ => z) c n el er) = rmul z (radd CI (sum_weights n el er)).
  Proof. rewrite sum_pairs_const. calg. Qed.

  Lemma fresnel_free (t : rtau) (z : RC) (F : R) (x w : @buffer real_scalar) (X W : Z -> R) c n :
    0 <= n -> recorded t (fun _ => z) (c - n) (c + n) -> at_sample t FKM c F -> holds x n X -> holds w n W -> F <> 0%R ->
    use_norm t = true ->
    radd CI (sum_weights n (fresnel_weight (use_fwd t) F X W) (fresnel_weight (use_fwd t) F X W)) <> CZ ->
    exists v, fresnel_transform L t x w c n = Ok v /\ modulus v = modulus z.
  Proof.
    intros Hn Hf HF Hx Hw F0 Hu HN. rewrite (fresnel_closed L HT HA t _ F x w X W c n Hn Hf HF Hx Hw F0). cbv zeta. rewrite Hu.
    eexists. split; [reflexivity|]. rewrite centre_const. apply normalised_one_i. exact HN.
  Qed.
  Lemma riemann_free (t : rtau) (z : RC) (K : Z -> RC) (w : @buffer real_scalar) (W : Z -> R) c m :
    0 <= m -> 2 * m + 1 < two64 -> recorded t (fun _ => z) (c - m) (c + m) -> holds w (2 * m + 1) W ->
    (forall k, 0 <= k < 2 * m -> fresnel_kernel L t c (c - m + k) = Ok (K k)) -> use_norm t = true ->
    sum_all (2 * m) (fun k => rscale (W k) (K k)) <> CZ ->
    exists v, newton_riemann L t w (2 * m + 1) c = Ok v /\ modulus v = modulus z.
  Proof.
    intros Hm H64 Hf Hw HK Hu HN. rewrite (riemann_closed L HA t _ K w W c m Hm H64 Hf Hw HK). cbv zeta. rewrite Hu.
    eexists. split; [reflexivity|]. rewrite sum_window_const. apply normalised_real. exact HN.
  Qed.
  Lemma filon_free (t : rtau) (z : RC) (w : @buffer real_scalar) (W wt psi : Z -> R) c m : filon_real L ->
    0 <= m -> 2 * m + 1 < two64 -> recorded t (fun _ => z) (c - m) (c + m) -> holds w (2 * m + 1) W ->
    weights_at L t c (c - m) (2 * m + 1) wt psi -> use_norm t = true ->
    (sum_all (2 * m) (fun k => t_rfilon01 L ((wt k * W k + wt (k + 1)%Z * W (k + 1)%Z) / 2)%R (psi k) (psi (k + 1)%Z) (dx t)) <> CZ ->
     exists v, newton_filon01 L t w (2 * m + 1) c = Ok v /\ modulus v = modulus z) /\
    (sum_all (2 * m) (fun k => t_rfilon11 L (wt k * W k)%R (wt (k + 1)%Z * W (k + 1)%Z)%R (psi k) (psi (k + 1)%Z) (dx t)) <> CZ ->
     exists v, newton_filon11 L t w (2 * m + 1) c = Ok v /\ modulus v = modulus z).
  Proof.
    intros [HR1 HR2] Hm H64 Hf Hw Hp Hu. split; intros HN.
    - rewrite (filon01_closed L HA t _ w W wt psi c m Hm H64 Hf Hw Hp), Hu. eexists. split; [reflexivity|].
      unfold sum_all in HN. erewrite (csum_ext (Z.to_nat (2 * m)) (fun k => t_filon01 L _ _ _ _)).
      2: { intros k _. match goal with |- t_filon01 L ?a _ _ _ = _ =>
             replace a with (rscale ((wt k * W k + wt (k + 1)%Z * W (k + 1)%Z) / 2)%R z) end; [apply HR1|].
           unfold midpoint. destruct z as [z1 z2]. unfold cscale, cadd, cre, cim. cbn [fst snd smul sadd real_scalar].
           apply f_equal2; req; field. }
      rewrite csum_mul. apply normalised_real. exact HN.
    - rewrite (filon11_closed L HA t _ w W wt psi c m Hm H64 Hf Hw Hp), Hu. eexists. split; [reflexivity|].
      unfold sum_all in HN. erewrite (csum_ext (Z.to_nat (2 * m)) (fun k => t_filon11 L _ _ _ _ _)).
      2: { intros k _. apply HR2. }
      rewrite csum_mul. apply normalised_real. exact HN.
  Qed.
  Lemma elliptical_free (t : rtau) (z : RC) (psi : Z -> R) (w : @buffer real_scalar) (W : Z -> R) c m :
    0 <= m -> recorded t (fun _ => z) (c - m) (c + m) -> holds w (2 * m + 1) W ->
    (forall k, 0 <= k < 2 * m + 1 -> elliptic_psi L t c (c - m + k) = Ok (psi k)) ->
    sum_all (2 * m + 1) (fun k => cis (W k) (- psi k)%R) <> CZ ->
    exists v, elliptical_newton L t w (2 * m + 1) c = Ok v /\ modulus v = modulus z.
  Proof.
    intros Hm Hf Hw Hp HN. rewrite (elliptical_closed L HT HA t _ psi w W c m Hm Hf Hw Hp). cbv zeta.
    eexists. split; [reflexivity|]. rewrite sum_window_const. apply normalised_one_i. exact HN.
  Qed.
  Lemma perturbed_free (t : rtau) (z : RC) (psi : Z -> R) (w : @buffer real_scalar) (W : Z -> R) c m :
    0 <= m -> recorded t (fun _ => z) (c - m) (c + m) -> holds w (2 * m + 1) W ->
    (forall k, 0 <= k < 2 * m + 1 -> perturbed_psi L t c (c - m + k) = Ok (psi k)) ->
    sum_all (2 * m + 1) (fun k => cis (W k) (- psi k)%R) <> CZ ->
    exists v, perturbed_newton L t w (2 * m + 1) c = Ok v /\ modulus v = modulus z.
  Proof.
    intros Hm Hf Hw Hp HN. rewrite (perturbed_closed L HT HA t _ psi w W c m Hm Hf Hw Hp). cbv zeta.
    eexists. split; [reflexivity|]. rewrite sum_window_const. apply normalised_one_i. exact HN.
  Qed.
  Lemma interp_free (t : rtau) (z : RC) (lo hi : list R) (x w : @buffer real_scalar) (X W : Z -> R) c n :
    0 <= n -> recorded t (fun _ => z) (c - n) (c + n) -> holds x n X -> holds w n W ->
    (node_phases L t 4 c (n / 4) = Ok (lo, hi) -> use_norm t = true ->
     (let cs := @interp_coeffs real_scalar C8 lo hi in
      let u := fun k => (X k / (8 * dx t * IZR (n / 4)))%R in
      radd CI (sum_weights n (fun k => cis (W k) (- fst (@interp_eval real_scalar cs (u k))))%R
                            (fun k => cis (W k) (- snd (@interp_eval real_scalar cs (u k))))%R)) <> CZ ->
     exists v, newton8 L t x w n c = Ok v /\ modulus v = modulus z) /\
    (node_phases L t 8 c (n / 8) = Ok (lo, hi) ->
     (let cs := @interp_coeffs real_scalar C16 lo hi in
      let u := fun k => (X k / (16 * dx t * IZR (n / 8)))%R in
      radd CI (sum_weights n (fun k => cis (W k) (- fst (@interp_eval real_scalar cs (u k))))%R
                            (fun k => cis (W k) (- snd (@interp_eval real_scalar cs (u k))))%R)) <> CZ ->
     exists v, newton16 L t x w n c = Ok v /\ modulus v = modulus z).
  Proof.
    intros Hn Hf Hx Hw. split.
    - intros Hp Hu HN. unfold newton8. rewrite (interp_sum_closed L HT (@C8 real_scalar) 4 t _ lo hi x w X W c n (n / 4) Hn Hf Hx Hw Hp).
      cbv zeta in *. cbn [bind]. rewrite Hu. eexists. split; [reflexivity|]. rewrite HA, centre_const.
      change (2 * 4) with 8. match goal with |- modulus (cmul (cmul z ?N) _) = _ => set (N0 := N) in * end.
      match goal with |- modulus (cmul ?a ?b) = _ => replace (cmul a b) with (rmul (one_plus_i (/ sqrt 2 / modulus N0)%R) (rmul z N0)) end.
      2: { cbn [srsqrttwo sdiv real_scalar]. unfold one_plus_i. generalize (/ sqrt 2 / modulus N0)%R. intros r. calg. }
      apply normalised_one_i. exact HN.
    - intros Hp HN. unfold newton16. rewrite (interp_sum_closed L HT (@C16 real_scalar) 8 t _ lo hi x w X W c n (n / 8) Hn Hf Hx Hw Hp).
      cbv zeta in *. cbn [bind]. eexists. split; [reflexivity|]. rewrite HA, centre_const.
      apply normalised_one_i. exact HN.
  Qed.
  Lemma legendre_free (t : rtau) (z : RC) (cs : list R) (D kc : R) (pl pr : Z -> R) (x w : @buffer real_scalar) (X W : Z -> R) c n :
    0 <= n -> recorded t (fun _ => z) (c - n) (c + n) -> holds x n X -> holds w n W ->
    at_sample t DKM c D -> at_sample t KV c kc ->
    radd CI (sum_weights n (fun k => cis (W k) (- pl k)%R) (fun k => cis (W k) (- pr k)%R)) <> CZ ->
    ((forall k, 0 <= k < n -> @legendre_odd_phases real_scalar cs (order t) (order t) (kc * D)%R (X k / D)%R = Ok (pl k, pr k)) ->
     exists v, legendre_odd_norm L t x w cs n c = Ok v /\ modulus v = modulus z) /\
    ((forall k, 0 <= k < n -> @legendre_even_phases real_scalar cs (order t) (kc * D)%R (X k / D)%R = Ok (pl k, pr k)) ->
     exists v, legendre_even_norm L t x w cs n c = Ok v /\ modulus v = modulus z).
  Proof.
    intros Hn Hf Hx Hw HD Hk HN. split; intros Hp.
    - unfold legendre_odd_norm. rewrite (legendre_sum_closed L HT t _ (fun kD : real_scalar => @legendre_odd_phases real_scalar cs (order t) (order t) kD) pl pr D kc x w X W c n Hn Hf Hx Hw HD Hk Hp).
      cbv zeta in *. cbn [bind fst snd]. eexists. split; [reflexivity|]. rewrite HA, centre_const.
      apply normalised_one_i. exact HN.
    - unfold legendre_even_norm. rewrite (legendre_sum_closed L HT t _ (fun kD : real_scalar => @legendre_even_phases real_scalar cs (order t) kD) pl pr D kc x w X W c n Hn Hf Hx Hw HD Hk Hp).
      cbv zeta in *. cbn [bind fst snd]. eexists. split; [reflexivity|]. rewrite HA, centre_const.
      apply normalised_one_i. exact HN.
  Qed.
End Free.

(** ** C28 *)
Section Forward.
  Context {S : scalar} (L : tmpl S).
  Hypothesis Hneg : forall x : S, (- - x)%S = x.
  Lemma kernel_forward (t : tau S) c o :
    fresnel_kernel L (set_use_fwd t true) c o = rmap cconj (fresnel_kernel L (set_use_fwd t false) o c).
  Proof.
    unfold fresnel_kernel. cbn [use_fwd set_use_fwd eps toler].
    change (rd (set_use_fwd t true)) with (rd t). change (rd (set_use_fwd t false)) with (rd t).
    change (geo_at (set_use_fwd t true)) with (geo_at t). change (geo_at (set_use_fwd t false)) with (geo_at t).
    destruct (rd t PHI c) as [p|]; cbn [bind rmap]; [|reflexivity].
    destruct (geo_at t c o p) as [g|]; cbn [bind rmap]; [|reflexivity].
    destruct (rd t KV c) as [k|]; cbn [bind rmap]; [|reflexivity].
    unfold rmap. cbn [bind]. f_equal. destruct (t_kernel L k g (eps t) (toler t)) as [a b]. unfold cconj, cre, cim. cbn [fst snd].
    rewrite Hneg. reflexivity.
  Qed.
  Lemma weight_forward (t : tau S) c o :
    phase_and_weight L (set_use_fwd t true) c o =
    rmap (fun p => (fst p, - snd p)%S) (phase_and_weight L (set_use_fwd t false) o c).
  Proof.
    unfold phase_and_weight. cbn [use_fwd set_use_fwd eps toler].
    change (rd (set_use_fwd t true)) with (rd t). change (rd (set_use_fwd t false)) with (rd t).
    change (geo_at (set_use_fwd t true)) with (geo_at t). change (geo_at (set_use_fwd t false)) with (geo_at t).
    destruct (rd t PHI c) as [p|]; cbn [bind rmap]; [|reflexivity].
    destruct (geo_at t c o p) as [g|]; cbn [bind rmap]; [|reflexivity].
    destruct (rd t KV c) as [k|]; cbn [bind rmap]; [|reflexivity].
    destruct (t_phasew L k g (eps t) (toler t)) as [[a b] d]. unfold rmap. cbn [bind fst snd]. rewrite Hneg. reflexivity.
  Qed.
  Lemma forward_ignored (t : tau S) b :
    (forall w n c, elliptical_newton L (set_use_fwd t b) w n c = elliptical_newton L t w n c) /\
    (forall w n c, perturbed_newton L (set_use_fwd t b) w n c = perturbed_newton L t w n c) /\
    (forall x w n c, newton8 L (set_use_fwd t b) x w n c = newton8 L t x w n c) /\
    (forall x w n c, newton16 L (set_use_fwd t b) x w n c = newton16 L t x w n c).
  Proof. repeat split. Qed.
End Forward.
Lemma csum_conj n f : csum n (fun k => cconj (f k)) = cconj (csum n f).
Proof. induction n; cbn [csum]; [calg|]. rewrite IHn. calg. Qed.
Lemma cis_conj r th : cis r (- th)%R = cconj (cis r th).
Proof. unfold cis, cconj, cre, cim. cbn [fst snd sneg real_scalar]. rewrite cos_neg, sin_neg. apply f_equal2; req; ring. Qed.
Lemma fresnel_weight_forward F X W k : fresnel_weight true F X W k = cconj (fresnel_weight false F X W k).
Proof. unfold fresnel_weight. rewrite <- cis_conj. f_equal. req. unfold Rdiv. ring. Qed.
Lemma fresnel_forward (L : rlib) : trig_law L -> cabs_law L -> forall (t t' : rtau) (f : Z -> RC) (F : R) (x w : @buffer real_scalar) (X W : Z -> R) c n,
  0 <= n -> recorded t f (c - n) (c + n) -> recorded t' (fun i => cconj (f i)) (c - n) (c + n) ->
  at_sample t FKM c F -> at_sample t' FKM c F -> holds x n X -> holds w n W -> F <> 0%R ->
  use_norm t' = use_norm t -> dx t' = dx t -> use_fwd t = false -> use_fwd t' = true ->
  exists v, fresnel_transform L t x w c n = Ok v /\ fresnel_transform L t' x w c n = Ok (rmul (0%R, 1%R) (cconj v)).
Proof.
  intros HT HA t t' f F x w X W c n Hn Hf Hf' HF HF' Hx Hw F0 Hu Hd Hi Hfw.
  rewrite (fresnel_closed L HT HA t f F x w X W c n Hn Hf HF Hx Hw F0).
  rewrite (fresnel_closed L HT HA t' _ F x w X W c n Hn Hf' HF' Hx Hw F0). cbv zeta. rewrite Hu, Hd, Hi, Hfw.
  eexists. split; [reflexivity|]. f_equal.
  set (e := fresnel_weight false F X W).
  assert (EP : sum_pairs (fun i => cconj (f i)) c n (fresnel_weight true F X W) (fresnel_weight true F X W) = cconj (sum_pairs f c n e e)).
  { unfold sum_pairs. rewrite <- csum_conj. apply csum_ext. intros k _. rewrite !fresnel_weight_forward. fold (e k). calg. }
  assert (EW : sum_weights n (fresnel_weight true F X W) (fresnel_weight true F X W) = cconj (sum_weights n e e)).
  { unfold sum_weights. rewrite <- csum_conj. apply csum_ext. intros k _. rewrite !fresnel_weight_forward. fold (e k). calg. }
  rewrite EP, EW.
  assert (EM : modulus (radd CI (cconj (sum_weights n e e))) = modulus (radd CI (sum_weights n e e))).
  { unfold modulus, cadd, cconj, cre, cim. cbn [fst snd sadd sneg real_scalar]. f_equal. ring. }
  rewrite EM. match goal with |- context [one_plus_i ?s] => generalize s end. intros s. unfold one_plus_i. calg.
Qed.

(** ** C32 *)
Section Mirror.
  Context {S : scalar} (L : tmpl S).
  Hypothesis Hcomm : forall x y : S, (x + y)%S = (y + x)%S.
  Lemma rdT_recorded (t : tau S) f lo hi i : recorded t f lo hi -> lo <= i <= hi -> rdT (T_in t) i = Ok (f i).
  Proof. intros (T & -> & H) Hi. unfold rdT. cbn [deref bind]. rewrite (entry_aread _ _ _ (H i Hi)). reflexivity. Qed.
  Lemma fresnel_mirror (t t' : tau S) x w c n :
    0 <= n -> mirrored t t' c n -> arr t' FKM = arr t FKM -> use_norm t' = use_norm t -> use_fwd t' = use_fwd t -> dx t' = dx t ->
    fresnel_transform L t' x w c n = fresnel_transform L t x w c n.
  Proof.
    intros Hn (f & Hf & Hf') HF Hu Hw Hd. unfold fresnel_transform.
    unfold rd. rewrite HF. apply bind_ext; intros F _. cbv zeta. rewrite Hu, Hw, Hd.
    rewrite (rdT_recorded _ _ _ _ c Hf), (rdT_recorded _ _ _ _ c Hf') by lia. cbn [bind].
    replace (2 * c - c) with c by lia.
    match goal with |- bind (for_range _ _ ?b1 ?s) _ = bind (for_range _ _ ?b2 ?s) _ =>
      rewrite (for_range_ext _ _ b1 b2) end; [reflexivity|].
    intros k [acc nm] Hk. unfold fresnel_body. apply bind_ext; intros xm _. cbv zeta. apply bind_ext; intros wm _.
    rewrite (rdT_recorded _ _ _ _ (c - (n - k)) Hf), (rdT_recorded _ _ _ _ (c - (n - k)) Hf') by lia.
    rewrite (rdT_recorded _ _ _ _ (c + (n - k)) Hf), (rdT_recorded _ _ _ _ (c + (n - k)) Hf') by lia. cbn [bind].
    rewrite Hu. replace (2 * c - (c - (n - k))) with (c + (n - k)) by lia. replace (2 * c - (c + (n - k))) with (c - (n - k)) by lia.
    do 3 f_equal. f_equal. unfold cadd. rewrite (Hcomm (cre _) (cre _)), (Hcomm (cim _) (cim _)). reflexivity.
  Qed.
End Mirror.
