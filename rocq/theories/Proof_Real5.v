(** * Proof_Real5: Legendre transforms, the linearity of a whole run, and
    commutativity of double addition (C25, C31, C32, C53). *)
From Coq Require Import List ZArith Bool Reals String Lia Lra.
From Flocq Require Import Core IEEE754.BinarySingleNaN.
From Verif Require Import Base BaseFacts Dbl Scalar Model_TauRec Model_Transform
  Model_Interp Model_Recon Spec_Select Spec_Safety Spec_Real Proof_Linear Proof_Linear2 Proof_Real Proof_Real4.
Import ListNotations.
Open Scope Z_scope.

Lemma dadd_comm (x y : double) : dadd x y = dadd y x.
Proof.
  unfold dadd, Bplus. destruct x as [[]|[]| |sx mx ex Hx], y as [[]|[]| |sy my ey Hy]; try reflexivity.
  cbv zeta. rewrite (Z.min_comm ey ex). f_equal. unfold Fplus_naive. apply Z.add_comm.
Qed.
Lemma radd_comm (x y : real_scalar) : (x + y)%S = (y + x)%S.
Proof. cbn. apply Rplus_comm. Qed.

Section Leg.
  Variable L : rlib.
  Hypothesis HT : trig_law L.
  Hypothesis HA : cabs_law L.
  Variables (t : rtau) (f : Z -> RC) (cs : list R) (F D kc : R) (x w : @buffer real_scalar) (X W : Z -> R) (c n : Z).
  Hypothesis Hn : 0 <= n.
  Hypothesis Hf : recorded t f (c - n) (c + n).
  Hypothesis Hx : holds x n X.
  Hypothesis Hw : holds w n W.
  Hypothesis HD : at_sample t DKM c D.
  Hypothesis Hk : at_sample t KV c kc.
  Hypothesis HL : zlen cs = order t.
  (** Weight of a sample at offset y from the centre. *)
  Let wgt (cs : list R) (k : Z) (y : R) : RC := cis (W k) (- series cs (kc * D) (y / D))%R.
  Let total (el er : Z -> RC) : RC := radd (f c) (sum_pairs f c n el er).
  Let nrm (el er : Z -> RC) : RC := one_plus_i (/ sqrt 2 / modulus (radd CI (sum_weights n el er)))%R.
  Let plain (F : R) : RC := one_plus_i (dx t / (2 * F))%R.
  Lemma opp_div (y : R) : (- (y / D))%R = (- y / D)%R.
  Proof. unfold Rdiv. ring. Qed.
  Lemma leg_even_norm : 3 <= order t -> order t mod 2 = 1 ->
    legendre_even_norm L t x w cs n c = Ok (
      let el k := wgt cs k (X k) in let er k := wgt cs k (- X k)%R in rmul (nrm el er) (total el er)).
  Proof.
    intros H3 Ho. unfold legendre_even_norm.
    rewrite (legendre_sum_closed L HT t f (fun kD : real_scalar => @legendre_even_phases real_scalar cs (order t) kD)
      (fun k => series cs (kc * D) (X k / D)%R) (fun k => series cs (kc * D) (- X k / D)%R) D kc x w X W c n Hn Hf Hx Hw HD Hk).
    - cbv zeta. cbn [bind fst snd]. f_equal. unfold nrm, total, wgt, one_plus_i. rewrite HA. reflexivity.
    - intros k _. rewrite <- opp_div. apply even_series; assumption.
  Qed.
  Lemma leg_odd_norm : 2 <= order t -> order t mod 2 = 0 ->
    legendre_odd_norm L t x w cs n c = Ok (
      let el k := wgt cs k (- X k)%R in let er k := wgt cs k (X k) in rmul (nrm el er) (total el er)).
  Proof.
    intros H3 Ho. unfold legendre_odd_norm.
    rewrite (legendre_sum_closed L HT t f (fun kD : real_scalar => @legendre_odd_phases real_scalar cs (order t) (order t) kD)
      (fun k => series cs (kc * D) (- X k / D)%R) (fun k => series cs (kc * D) (X k / D)%R) D kc x w X W c n Hn Hf Hx Hw HD Hk).
    - cbv zeta. cbn [bind fst snd]. f_equal. unfold nrm, total, wgt, one_plus_i. rewrite HA. reflexivity.
    - intros k _. rewrite <- opp_div. apply odd_norm_series; assumption.
  Qed.
  Hypothesis HF : at_sample t FKM c F.
  Hypothesis HF0 : F <> 0%R.
  Lemma plain_scale : @sdiv real_scalar (@smul real_scalar shalf (dx t)) F = (dx t / (2 * F))%R.
  Proof. unfold shalf. cbn [smul sdiv sfrac real_scalar]. req. field. exact HF0. Qed.
  Lemma leg_even : 3 <= order t -> order t mod 2 = 1 ->
    legendre_even L t x w cs n c = Ok (
      let el k := wgt cs k (X k) in let er k := wgt cs k (- X k)%R in rmul (plain F) (total el er)).
  Proof.
    intros H3 Ho. unfold legendre_even. rewrite (at_sample_rd _ _ _ _ HF). cbn [bind].
    rewrite (legendre_sum_closed L HT t f (fun kD : real_scalar => @legendre_even_phases real_scalar cs (order t) kD)
      (fun k => series cs (kc * D) (X k / D)%R) (fun k => series cs (kc * D) (- X k / D)%R) D kc x w X W c n Hn Hf Hx Hw HD Hk).
    - cbv zeta. cbn [bind fst snd]. f_equal. rewrite plain_scale. reflexivity.
    - intros k _. rewrite <- opp_div. apply even_series; assumption.
  Qed.
  (** The unnormalised odd form drops the first two coefficients from order 4 on. *)
  Lemma leg_odd : 2 <= order t -> order t mod 2 = 0 ->
    legendre_odd L t x w cs n c = Ok (
      let ds := if order t =? 2 then cs else skipn 2 cs in
      let el k := wgt ds k (- X k)%R in let er k := wgt ds k (X k) in rmul (plain F) (total el er)).
  Proof.
    intros H3 Ho. unfold legendre_odd. rewrite (at_sample_rd _ _ _ _ HF). cbn [bind]. set (ds := if order t =? 2 then cs else skipn 2 cs).
    rewrite (legendre_sum_closed L HT t f (fun kD : real_scalar => @legendre_odd_phases real_scalar cs (order t) (order t - 1) kD)
      (fun k => series ds (kc * D) (- X k / D)%R) (fun k => series ds (kc * D) (X k / D)%R) D kc x w X W c n Hn Hf Hx Hw HD Hk).
    - cbv zeta. cbn [bind fst snd]. f_equal. rewrite plain_scale. reflexivity.
    - intros k _. rewrite <- opp_div. unfold ds. destruct (Z.eqb_spec (order t) 2) as [E|E].
      + rewrite E in *. destruct cs as [|a [|b [|]]]; cbn in HL; try lia. apply odd2_series.
      + apply odd_series; try assumption. assert (order t = 2 * (order t / 2)) by (pose proof (Z.div_mod (order t) 2 ltac:(lia)); lia). lia.
  Qed.
End Leg.

(** ** C25 *)
Lemma run_linear (L : rlib) (a b : RC) : filon_linear L -> fourier_linear L ->
  forall sch (t t1 t2 : rtau) T1 T2 T3, T_out t = None -> T_fwd t = None -> superposed a b T1 T2 T3 ->
  reconstruction L sch (set_T_in t (Some T1)) = Ok t1 -> reconstruction L sch (set_T_in t (Some T2)) = Ok t2 ->
  exists t3, reconstruction L sch (set_T_in t (Some T3)) = Ok t3 /\
    superposed_ptr a b (T_in t1) (T_in t2) (T_in t3) /\
    superposed_ptr a b (T_out t1) (T_out t2) (T_out t3) /\ superposed_ptr a b (T_fwd t1) (T_fwd t2) (T_fwd t3) /\
    no_profiles t1 = no_profiles t3 /\ no_profiles t2 = no_profiles t3.
Proof.
  intros HF HR sch t t1 t2 T1 T2 T3 HO HW HS E1 E2.
  assert (P : forall T, set_T_in t (Some T) = put t (Some T) None None).
  { intros T. unfold put. rewrite <- HO at 1. rewrite <- HW at 1. destruct t; cbn in *; subst; reflexivity. }
  pose proof (lin_reconstruction L a b HF HR sch (set_T_in t (Some T1)) (set_T_in t (Some T2)) (set_T_in t (Some T3))) as H.
  assert (R : rt a b (set_T_in t (Some T1)) (set_T_in t (Some T2)) (set_T_in t (Some T3))).
  { rewrite !P. apply rt_put; [exact HS|exact I|exact I]. }
  specialize (H R). rewrite E1, E2 in H. unfold rel3 in H. destruct (reconstruction L sch (set_T_in t (Some T3))) as [t3|]; [|destruct H].
  exists t3. split; [reflexivity|].
  destruct H as (u & P1 & P2 & P3 & Q1 & Q2 & Q3 & W1 & W2 & W3 & -> & -> & -> & HP & HQ & HWs).
  split; [exact HP|]. split; [exact HQ|]. split; [exact HWs|]. split; reflexivity.
Qed.

(** ** C53: eight and sixteen points *)
Lemma newton8_sum (L : rlib) : trig_law L -> cabs_law L ->
  forall (t : rtau) (f : Z -> RC) (lo hi : list R) (x w : @buffer real_scalar) (X W : Z -> R) c n,
  0 <= n -> recorded t f (c - n) (c + n) -> holds x n X -> holds w n W ->
  node_phases L t 4 c (n / 4) = Ok (lo, hi) ->
  newton8 L t x w n c = Ok (
    let u := fun k => (X k / (8 * dx t * IZR (n / 4)))%R in
    let el := fun k => cis (W k) (- fst (phase8 lo hi (u k)))%R in
    let er := fun k => cis (W k) (- snd (phase8 lo hi (u k)))%R in
    let N := radd CI (sum_weights n el er) in
    rmul (if use_norm t then one_plus_i (/ sqrt 2 / modulus N)%R else CI) (radd (f c) (sum_pairs f c n el er))).
Proof.
  intros HT HA t f lo hi x w X W c n Hn Hf Hx Hw Hp. unfold newton8.
  rewrite (interp_sum_closed L HT (@C8 real_scalar) 4 t f lo hi x w X W c n (n / 4) Hn Hf Hx Hw Hp). cbv zeta. cbn [bind].
  rewrite HA. unfold phase8. change (2 * 4) with 8.
  assert (E1 : forall (A : RC) (r : R), rmul A (r, r) = rmul (one_plus_i r) A) by (intros [a1 a2] r; unfold one_plus_i; calg).
  assert (E2 : forall A : RC, A = rmul CI A) by (intros [a1 a2]; calg).
  destruct (use_norm t); f_equal; [exact (E1 _ _)|exact (E2 _)].
Qed.
Lemma newton16_sum (L : rlib) : trig_law L -> cabs_law L ->
  forall (t : rtau) (f : Z -> RC) (lo hi : list R) (x w : @buffer real_scalar) (X W : Z -> R) c n,
  0 <= n -> recorded t f (c - n) (c + n) -> holds x n X -> holds w n W ->
  node_phases L t 8 c (n / 8) = Ok (lo, hi) ->
  newton16 L t x w n c = Ok (
    let u := fun k => (X k / (16 * dx t * IZR (n / 8)))%R in
    let el := fun k => cis (W k) (- fst (phase16 lo hi (u k)))%R in
    let er := fun k => cis (W k) (- snd (phase16 lo hi (u k)))%R in
    let N := radd CI (sum_weights n el er) in
    rmul (one_plus_i (/ sqrt 2 / modulus N)%R) (radd (f c) (sum_pairs f c n el er))).
Proof.
  intros HT HA t f lo hi x w X W c n Hn Hf Hx Hw Hp. unfold newton16.
  rewrite (interp_sum_closed L HT (@C16 real_scalar) 8 t f lo hi x w X W c n (n / 8) Hn Hf Hx Hw Hp). cbv zeta. cbn [bind].
  rewrite HA. unfold phase16. reflexivity.
Qed.
