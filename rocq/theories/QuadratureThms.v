(** Proofs about Quadrature.h: Gauss-Legendre rules are exact for polynomials. *)
From Coq Require Import Reals Lra Lia ZArith QArith List.
From Verif Require Import Monad MonadFacts Scalar ScalarFacts Spec SpecFacts ModelQuadrature.
Import ListNotations.
Local Open Scope R_scope.

(** Polynomials in Horner form, lowest coefficient first. *)
Fixpoint horner (l : list R) (x : R) : R := match l with [] => 0 | a :: l => a + x * horner l x end.
Lemma horner_sum l x : horner l x = rsum (length l) (fun i => nth i l 0 * x ^ i).
Proof.
  induction l as [|a l IH]; [reflexivity|]. cbn [horner length]. rewrite rsum_shift. cbn [nth].
  rewrite IH, <- rsum_scal. rewrite pow_O, Rmult_1_r. apply f_equal. apply rsum_ext. intros i Hi. cbn [pow]. ring.
Qed.

Lemma horner_lin (a m h : R) (l : list R) : l <> [] -> exists l', length l' = S (length l) /\
  forall x, horner l' x = a + (m + h * x) * horner l x.
Proof.
  intros _. revert a. induction l as [|b l IH]; intros a.
  - exists [a]. split; [reflexivity|]. intros x. cbn. ring.
  - destruct (IH (h * b)) as (l' & E & H). exists ((a + m * b) :: l'). split; [cbn; lia|]. intros x.
    cbn [horner]. rewrite H. ring.
Qed.
Lemma horner_shift (m h : R) l : exists l', length l' = length l /\ forall x, horner l (m + h * x) = horner l' x.
Proof.
  induction l as [|a l (l' & E & H)].
  - exists []. split; reflexivity.
  - destruct l' as [|b l0].
    + exists [a]. split; [cbn in *; lia|]. intros x. cbn [horner]. rewrite H. cbn. ring.
    + destruct (horner_lin a m h (b :: l0)) as (l2 & E2 & H2); [discriminate|]. exists l2. split; [cbn in *; lia|].
      intros x. rewrite H2. cbn [horner]. rewrite H. cbn [horner]. ring.
Qed.

(** The antiderivative x |-> sum_k l_k x^(n+k+1)/(n+k+1). *)
Fixpoint antider (n : nat) (l : list R) (x : R) : R :=
  match l with [] => 0 | a :: l => a * (/ INR (S n) * x ^ S n) + antider (S n) l x end.
Lemma antider_deriv n l x : derivable_pt_lim (antider n l) x (x ^ n * horner l x).
Proof.
  revert n. induction l as [|a l IH]; intros n; cbn [antider horner].
  - rewrite Rmult_0_r. apply derivable_pt_lim_const.
  - replace (x ^ n * (a + x * horner l x)) with (a * (/ INR (S n) * (INR (S n) * x ^ n)) + x ^ S n * horner l x).
    + apply (derivable_pt_lim_plus (fun x => a * (/ INR (S n) * x ^ S n)) (antider (S n) l)); [|apply IH].
      apply (derivable_pt_lim_scal (fun x => / INR (S n) * x ^ S n)). apply (derivable_pt_lim_scal (fun x => x ^ S n)).
      apply derivable_pt_lim_pow.
    + assert (INR (S n) <> 0) by (apply not_0_INR; lia). cbn [pow]. field. exact H.
Qed.

Lemma same_deriv F G f : (forall x, derivable_pt_lim F x (f x)) -> (forall x, derivable_pt_lim G x (f x)) ->
  forall a b, F b - F a = G b - G a.
Proof.
  intros HF HG a b. destruct (Req_dec a b) as [-> | Hne]; [ring|].
  assert (HD : forall x, derivable_pt_lim (fun x => F x - G x) x 0).
  { intros x. replace 0 with (f x - f x) by ring. apply (derivable_pt_lim_minus F G); auto. }
  assert (HM : forall a b, a < b -> F b - F a = G b - G a).
  { clear a b Hne. intros a b Hab. destruct (MVT_cor2 (fun x => F x - G x) (fun _ => 0) a b Hab) as (c & E & _); [intros; apply HD|]. lra. }
  destruct (Rtotal_order a b) as [H|[H|H]]; [now apply HM|contradiction|]. specialize (HM b a H). lra.
Qed.

Lemma lin_deriv m h x : derivable_pt_lim (fun x => m + h * x) x h.
Proof.
  assert (D : derivable_pt_lim (fun x => m + h * x) x (0 + h * 1)).
  { apply (derivable_pt_lim_plus (fun _ => m) (fun x => h * x)); [apply derivable_pt_lim_const|].
    apply (derivable_pt_lim_scal (fun x => x)). apply derivable_pt_lim_id. }
  now replace (0 + h * 1) with h in D by ring.
Qed.

(** Change of variable to [-1,1]. *)
Lemma integral_shift l F t0 t1 : (forall t, derivable_pt_lim F t (horner l t)) ->
  exists l', length l' = length l /\ (forall x, horner l ((t0 + t1) / 2 + (t1 - t0) / 2 * x) = horner l' x) /\
    F t1 - F t0 = (t1 - t0) / 2 * (antider 0 l' 1 - antider 0 l' (-1)).
Proof.
  intros HF. destruct (horner_shift ((t0 + t1) / 2) ((t1 - t0) / 2) l) as (l' & E & H). exists l'. split; [exact E|]. split; [exact H|].
  set (m := (t0 + t1) / 2). set (h := (t1 - t0) / 2).
  assert (H1 : F (m + h * 1) - F (m + h * (-1)) = h * antider 0 l' 1 - h * antider 0 l' (-1)).
  { apply (same_deriv (fun x => F (m + h * x)) (fun x => h * antider 0 l' x) (fun x => h * horner l' x)).
    - intros x. rewrite <- H. fold m h. replace (h * horner l (m + h * x)) with (horner l (m + h * x) * h) by ring.
      apply (derivable_pt_lim_comp (fun x => m + h * x) F); [|apply HF].
      apply lin_deriv.
    - intros x. apply (derivable_pt_lim_scal (antider 0 l')). pose proof (antider_deriv 0 l' x) as Hd. rewrite pow_O, Rmult_1_l in Hd. exact Hd. }
  replace (m + h * 1) with t1 in H1 by (unfold m, h; field). replace (m + h * (-1)) with t0 in H1 by (unfold m, h; field). rewrite H1. ring.
Qed.

Lemma node_R t0 t1 x : node t0 t1 x = (t0 + t1) / 2 + (t1 - t0) / 2 * (x - 1).
Proof. unfold node. cbn [sadd ssub smul sdiv sofZ R_ops]. field. Qed.

Lemma horner_pad l k x : horner (l ++ repeat 0 k) x = horner l x.
Proof.
  induction l as [|a l IH]; cbn [app horner]; [|now rewrite IH].
  induction k as [|k IHk]; cbn [repeat horner]; [reflexivity|]. rewrite IHk. ring.
Qed.
Lemma short_list (l : list R) n : (length l <= n)%nat -> exists l', length l' = n /\ forall x, horner l x = horner l' x.
Proof.
  intros H. exists (l ++ repeat 0 (n - length l)). split; [rewrite app_length, repeat_length; lia|]. intros x. symmetry. apply horner_pad.
Qed.

Section Exact.
  Variables (coeffs : list R) (F : R -> R) (t0 t1 : R).
  Hypothesis HF : forall t, derivable_pt_lim F t (rsum (length coeffs) (fun i => nth i coeffs 0 * t ^ i)).
  Let f := fun t => Ok (rsum (length coeffs) (fun i => nth i coeffs 0 * t ^ i)) : res R.

  (** All that is used about F and the polynomial. *)
  Lemma prepared n : (length coeffs <= n)%nat -> exists l, length l = n /\
    (forall x, f ((t0 + t1) / 2 + (t1 - t0) / 2 * x) = Ok (horner l x)) /\
    F t1 - F t0 = (t1 - t0) / 2 * (antider 0 l 1 - antider 0 l (-1)).
  Proof.
    intros H. destruct (short_list coeffs n H) as (l1 & E1 & H1).
    destruct (integral_shift l1 F t0 t1) as (l & E & H2 & H3).
    { intros t. rewrite <- H1, horner_sum. apply HF. }
    exists l. split; [lia|]. split; [|exact H3]. intros x. unfold f. now rewrite <- horner_sum, H1, H2.
  Qed.

  Lemma gauss2 : (length coeffs <= 4)%nat -> quadrature2 f t0 t1 = Ok (F t1 - F t0).
  Proof.
    intros H. destruct (prepared 4 H) as (l & E & Hf & ->). unfold quadrature2. rewrite !node_R.
    cbn [sadd ssub smul sdiv sopp sofZ sofQ ssqrt R_ops Qnum Qden]. set (s := sqrt 3). assert (Hs : s * s = 3) by (apply sqrt_sqrt; lra).
    assert (Hs0 : s <> 0) by (intros E0; rewrite E0 in Hs; lra). set (r := 1 / s). assert (Hr : r * r = 1 / 3) by (unfold r; field_simplify_eq; [rewrite <- Hs; ring|exact Hs0]).
    replace (- (1) / s + 1 - 1) with (- r) by (unfold r; field; exact Hs0). replace (r + 1 - 1) with r by ring.
    rewrite !Hf, !bind_Ok. apply f_equal. destruct l as [|b0 [|b1 [|b2 [|b3 [|? ?]]]]]; try discriminate. cbn [horner antider INR pow].
    replace (b0 + - r * (b1 + - r * (b2 + - r * (b3 + - r * 0))) + (b0 + r * (b1 + r * (b2 + r * (b3 + r * 0))))) with (2 * b0 + 2 * b2 * (r * r)) by ring.
    rewrite Hr. field.
  Qed.

  Lemma gauss3 : (length coeffs <= 6)%nat -> quadrature3 f t0 t1 = Ok (F t1 - F t0).
  Proof.
    intros H. destruct (prepared 6 H) as (l & E & Hf & ->). unfold quadrature3. rewrite !node_R.
    cbn [sadd ssub smul sdiv sopp sofZ sofQ ssqrt R_ops Qnum Qden]. set (r := sqrt (6 / 10)). assert (Hr : r * r = 6 / 10).
    { unfold r. rewrite sqrt_sqrt; lra. }
    replace (1 / 2 * (t0 + t1)) with ((t0 + t1) / 2 + (t1 - t0) / 2 * 0) by field.
    replace (- r + 1 - 1) with (- r) by ring. replace (r + 1 - 1) with r by ring.
    rewrite !Hf, !bind_Ok. apply f_equal. destruct l as [|b0 [|b1 [|b2 [|b3 [|b4 [|b5 [|? ?]]]]]]]; try discriminate. cbn [horner antider INR pow].
    match goal with |- ?L = _ => replace L with ((b0 * (8 / 9) + (5 / 9) * (2 * b0 + 2 * b2 * (r * r) + 2 * b4 * (r * r) * (r * r))) * (t1 - t0) * (1 / 2)) by ring end.
    rewrite Hr. field.
  Qed.

  (** Even part of a polynomial of degree below 10. *)
  Lemma pair_sum b0 b1 b2 b3 b4 b5 b6 b7 b8 b9 r q : r * r = q ->
    horner [b0; b1; b2; b3; b4; b5; b6; b7; b8; b9] (- r) + horner [b0; b1; b2; b3; b4; b5; b6; b7; b8; b9] r =
    2 * (b0 + q * (b2 + q * (b4 + q * (b6 + q * b8)))).
  Proof. intros <-. cbn [horner]. ring. Qed.

  Lemma gauss4 : (length coeffs <= 8)%nat -> quadrature4 f t0 t1 = Ok (F t1 - F t0).
  Proof.
    intros H. destruct (prepared 8 H) as (l & E & Hf & ->). unfold quadrature4. rewrite !node_R.
    cbn [sadd ssub smul sdiv sopp sofZ sofQ ssqrt R_ops Qnum Qden].
    set (s := sqrt (12 / 10)). assert (Hs : s * s = 6 / 5) by (unfold s; rewrite sqrt_sqrt; lra).
    assert (Hs0 : 0 <= s) by apply sqrt_pos. assert (Hs1 : s <= 3 / 2) by nra.
    assert (E30 : sqrt 30 = 5 * s).
    { replace 30 with (Rsqr (5 * s)) by (unfold Rsqr; replace (5 * s * (5 * s)) with (25 * (s * s)) by ring; rewrite Hs; field). apply sqrt_Rsqr. lra. }
    rewrite E30. set (r0 := sqrt (3 / 7 - 2 / 7 * s)). set (r1 := sqrt (3 / 7 + 2 / 7 * s)).
    assert (H0 : r0 * r0 = 3 / 7 - 2 / 7 * s) by (apply sqrt_sqrt; lra). assert (H1 : r1 * r1 = 3 / 7 + 2 / 7 * s) by (apply sqrt_sqrt; lra).
    replace (- r0 + 1 - 1) with (- r0) by ring. replace (r0 + 1 - 1) with r0 by ring.
    replace (- r1 + 1 - 1) with (- r1) by ring. replace (r1 + 1 - 1) with r1 by ring.
    rewrite !Hf, !bind_Ok. apply f_equal. destruct l as [|b0 [|b1 [|b2 [|b3 [|b4 [|b5 [|b6 [|b7 [|? ?]]]]]]]]]; try discriminate.
    assert (P0 : horner [b0; b1; b2; b3; b4; b5; b6; b7] (- r0) + horner [b0; b1; b2; b3; b4; b5; b6; b7] r0 =
      2 * (b0 + r0 * r0 * (b2 + r0 * r0 * (b4 + r0 * r0 * b6)))) by (cbn [horner]; ring).
    assert (P1 : horner [b0; b1; b2; b3; b4; b5; b6; b7] (- r1) + horner [b0; b1; b2; b3; b4; b5; b6; b7] r1 =
      2 * (b0 + r1 * r1 * (b2 + r1 * r1 * (b4 + r1 * r1 * b6)))) by (cbn [horner]; ring).
    rewrite H0 in P0. rewrite H1 in P1.
    match goal with |- (?x * ?w0 + ?y * ?w0 + ?z * ?w1 + ?u * ?w1) * _ * _ = _ =>
      replace (x * w0 + y * w0 + z * w1 + u * w1) with ((x + y) * w0 + (z + u) * w1) by ring end.
    rewrite P0, P1. cbn [antider INR pow]. clear - Hs.
    assert (S2 : s ^ 2 = 6 / 5) by (rewrite <- Hs; ring). assert (S4 : s ^ 4 = 36 / 25) by (replace (s ^ 4) with (s ^ 2 * s ^ 2) by ring; rewrite S2; field).
    field_simplify. rewrite ?S4, ?S2. field.
  Qed.

  Lemma gauss5 : (length coeffs <= 10)%nat -> quadrature5 f t0 t1 = Ok (F t1 - F t0).
  Proof.
    intros H. destruct (prepared 10 H) as (l & E & Hf & ->). unfold quadrature5. rewrite !node_R.
    cbn [sadd ssub smul sdiv sopp sofZ sofQ ssqrt R_ops Qnum Qden].
    set (s := sqrt (10 / 7)). assert (Hs : s * s = 10 / 7) by (unfold s; rewrite sqrt_sqrt; lra).
    assert (Hs0 : 0 <= s) by apply sqrt_pos. assert (Hs1 : s <= 3 / 2) by nra.
    assert (E70 : sqrt 70 = 7 * s).
    { replace 70 with (Rsqr (7 * s)) by (unfold Rsqr; replace (7 * s * (7 * s)) with (49 * (s * s)) by ring; rewrite Hs; field). apply sqrt_Rsqr. lra. }
    rewrite E70. set (r0 := sqrt (5 - 2 * s) / 3). set (r1 := sqrt (5 + 2 * s) / 3).
    assert (H0 : r0 * r0 = (5 - 2 * s) / 9).
    { unfold r0. replace (sqrt (5 - 2 * s) / 3 * (sqrt (5 - 2 * s) / 3)) with (sqrt (5 - 2 * s) * sqrt (5 - 2 * s) / 9) by field. rewrite sqrt_sqrt; lra. }
    assert (H1 : r1 * r1 = (5 + 2 * s) / 9).
    { unfold r1. replace (sqrt (5 + 2 * s) / 3 * (sqrt (5 + 2 * s) / 3)) with (sqrt (5 + 2 * s) * sqrt (5 + 2 * s) / 9) by field. rewrite sqrt_sqrt; lra. }
    replace (1 / 2 * (t0 + t1)) with ((t0 + t1) / 2 + (t1 - t0) / 2 * 0) by field.
    replace (- r0 + 1 - 1) with (- r0) by ring. replace (r0 + 1 - 1) with r0 by ring.
    replace (- r1 + 1 - 1) with (- r1) by ring. replace (r1 + 1 - 1) with r1 by ring.
    rewrite !Hf, !bind_Ok. apply f_equal.
    destruct l as [|b0 [|b1 [|b2 [|b3 [|b4 [|b5 [|b6 [|b7 [|b8 [|b9 [|? ?]]]]]]]]]]]; try discriminate.
    pose proof (pair_sum b0 b1 b2 b3 b4 b5 b6 b7 b8 b9 r0 _ H0) as P0.
    pose proof (pair_sum b0 b1 b2 b3 b4 b5 b6 b7 b8 b9 r1 _ H1) as P1.
    match goal with |- (?c * ?w + ?x * ?w0 + ?y * ?w0 + ?z * ?w1 + ?u * ?w1) * _ * _ = _ =>
      replace (c * w + x * w0 + y * w0 + z * w1 + u * w1) with (c * w + (x + y) * w0 + (z + u) * w1) by ring end.
    rewrite P0, P1. cbn [antider INR pow horner]. clear - Hs.
    assert (S2 : s ^ 2 = 10 / 7) by (rewrite <- Hs; ring). assert (S4 : s ^ 4 = 100 / 49) by (replace (s ^ 4) with (s ^ 2 * s ^ 2) by ring; rewrite S2; field).
    field_simplify. rewrite ?S4, ?S2. field.
  Qed.
End Exact.
