(** The polynomials of internal/auto_*_RationalBezier.h: tools and ring identities per degree. *)
From Coq Require Import Reals Lra Lia ZArith List Bool.
From Verif Require Import Monad Scalar ScalarFacts Spec SpecFacts ModelRational RationalThms QuadratureThms AutoFacts ModelAuto ModelAutoRational.
Import ListNotations.
Local Open Scope R_scope.

Fixpoint zipm (l m : list R) : list R := match l, m with a :: l', b :: m' => a * b :: zipm l' m' | _, _ => [] end.
Ltac rexpand := cbv [horner bsum bsum_from hodo dlist binz length Nat.sub Z.of_nat Pos.of_succ_nat Pos.succ Z.add Pos.add Pos.add_carry
  sadd ssub smul sopp sofZ R_ops spow s1 zipm].

(** det of the rows (A, B, W), (A', B', W'), (A'', B'', W'') *)
Definition det3 (a b w a1 b1 w1 a2 b2 w2 : R) : R :=
  a * (b1 * w2 - b2 * w1) - b * (a1 * w2 - a2 * w1) + w * (a1 * b2 - a2 * b1).

Lemma rinfl_2_ok cx0 cy0 cx1 cy1 cx2 cy2 w0 w1 w2 t : let W := [w0; w1; w2] in let A := zipm W [cx0; cx1; cx2] in let B := zipm W [cy0; cy1; cy2] in
  horner (rinfl_2 cx0 cy0 cx1 cy1 cx2 cy2 w0 w1 w2) t = - (bsum W t ^ 2 * det3 (bsum A t) (bsum B t) (bsum W t) (bsum (hodo A) t) (bsum (hodo B) t) (bsum (hodo W) t) (bsum (hodo (hodo A)) t) (bsum (hodo (hodo B)) t) (bsum (hodo (hodo W)) t)).
Proof. unfold rinfl_2, det3. rexpand. ring. Qed.
Lemma rinfl_3_ok cx0 cy0 cx1 cy1 cx2 cy2 cx3 cy3 w0 w1 w2 w3 t : let W := [w0; w1; w2; w3] in let A := zipm W [cx0; cx1; cx2; cx3] in let B := zipm W [cy0; cy1; cy2; cy3] in
  horner (rinfl_3 cx0 cy0 cx1 cy1 cx2 cy2 cx3 cy3 w0 w1 w2 w3) t = - (bsum W t ^ 2 * det3 (bsum A t) (bsum B t) (bsum W t) (bsum (hodo A) t) (bsum (hodo B) t) (bsum (hodo W) t) (bsum (hodo (hodo A)) t) (bsum (hodo (hodo B)) t) (bsum (hodo (hodo W)) t)).
Proof. unfold rinfl_3, det3. rexpand. ring. Qed.
Lemma rsing_2_ok cx0 cy0 cx1 cy1 cx2 cy2 w0 w1 w2 t : let W := [w0; w1; w2] in let A := zipm W [cx0; cx1; cx2] in let B := zipm W [cy0; cy1; cy2] in
  horner (rsing_2 cx0 cy0 cx1 cy1 cx2 cy2 w0 w1 w2) t = (bsum (hodo A) t * bsum W t - bsum A t * bsum (hodo W) t) ^ 2 + (bsum (hodo B) t * bsum W t - bsum B t * bsum (hodo W) t) ^ 2.
Proof. unfold rsing_2. rexpand. ring. Qed.
Lemma rsing_3_ok cx0 cy0 cx1 cy1 cx2 cy2 cx3 cy3 w0 w1 w2 w3 t : let W := [w0; w1; w2; w3] in let A := zipm W [cx0; cx1; cx2; cx3] in let B := zipm W [cy0; cy1; cy2; cy3] in
  horner (rsing_3 cx0 cy0 cx1 cy1 cx2 cy2 cx3 cy3 w0 w1 w2 w3) t = (bsum (hodo A) t * bsum W t - bsum A t * bsum (hodo W) t) ^ 2 + (bsum (hodo B) t * bsum W t - bsum B t * bsum (hodo W) t) ^ 2.
Proof. unfold rsing_3. rexpand. ring. Qed.

Definition hom3 (A B W : list R) (t : R) : vec R 3 := (bsum A t, (bsum B t, (bsum W t, tt))).
Lemma hom3_deriv A B W t : (2 <= length A)%nat -> (2 <= length B)%nat -> (2 <= length W)%nat ->
  vderiv (hom3 A B W) t (hom3 (hodo A) (hodo B) (hodo W) t).
Proof. intros HA HB HW [|[|[|i]]] Hi; try lia; cbn; now apply bsum_deriv. Qed.
Lemma zipm_length l : forall m, length l = length m -> length (zipm l m) = length m.
Proof. induction l; intros [|b m] H; cbn in *; try lia. now rewrite IHl by lia. Qed.
Lemma zipm_nth l : forall m i, length l = length m -> nth i (zipm l m) 0 = nth i l 0 * nth i m 0.
Proof.
  induction l; intros [|b m] i H; cbn in *; try lia.
  - destruct i; ring.
  - destruct i; [reflexivity|]. apply IHl. lia.
Qed.

Lemma weight_sum_bsum ws t : ws <> [] -> weight_sum (length ws) (bezier_basis (length ws) t) ws = bsum ws t.
Proof.
  intros H. assert (0 < length ws)%nat by (destruct ws; cbn; [congruence|lia]).
  unfold weight_sum, bsum. rewrite bsum_from_rsum by lia. apply rsum_ext. intros i Hi. reflexivity.
Qed.
Lemma wmean_hom3 (pts : list (vec R 2)) ws t : pts <> [] -> length ws = length pts ->
  weighted_mean (length pts) (bezier_basis (length pts) t) ws pts =
  q0 (hom3 (zipm ws (map (coord 2 0) pts)) (zipm ws (map (coord 2 1) pts)) ws) t.
Proof.
  intros H HL. assert (0 < length pts)%nat by (destruct pts; cbn; [congruence|lia]).
  apply vec_ext. intros i Hi. unfold weighted_mean, q0. rewrite !coord_mul by assumption.
  assert (Hnw : ws <> []) by (destruct ws; [change (0 = length pts)%nat in HL; lia|congruence]).
  pose proof (weight_sum_bsum ws t Hnw) as Ew. rewrite HL in Ew. rewrite Ew. apply (f_equal (Rmult (/ bsum ws t))).
  rewrite coord_psum by assumption.
  transitivity (rsum (length pts) (fun k => bernstein (length pts - 1) k t * (nth k ws 0 * nth k (map (coord 2 i) pts) 0))).
  - apply rsum_ext. intros k Hk. rewrite coord_mul by assumption.
    replace (nth k (map (coord 2 i) pts) 0) with (coord 2 i (nth k pts p0)) by (rewrite <- (coord_0 (d := 2) i Hi); symmetry; apply map_nth).
    unfold bezier_basis. cbn [smul R_ops]. ring.
  - assert (E : forall l, length l = length pts -> bsum (zipm ws l) t = rsum (length pts) (fun k => bernstein (length pts - 1) k t * (nth k ws 0 * nth k l 0))).
    { intros l Hl. unfold bsum. assert (Lz : length (zipm ws l) = length pts) by (rewrite zipm_length; lia).
      rewrite bsum_from_rsum by lia. rewrite Lz. apply rsum_ext. intros k Hk. rewrite zipm_nth by lia. reflexivity. }
    destruct i as [|[|i]]; [| |lia]; symmetry; apply E; apply map_length.
Qed.

(** First and second derivative of a planar rational curve in terms of the homogeneous one. *)
Lemma rational_planar_derivs (pts : list (vec R 2)) ws : (3 <= length pts)%nat -> length ws = length pts ->
  let A := zipm ws (map (coord 2 0) pts) in let B := zipm ws (map (coord 2 1) pts) in
  let f1 := q1 (hom3 A B ws) (hom3 (hodo A) (hodo B) (hodo ws)) in
  let f2 := q2 (hom3 A B ws) (hom3 (hodo A) (hodo B) (hodo ws)) (hom3 (hodo (hodo A)) (hodo (hodo B)) (hodo (hodo ws))) in
  forall t, weight_sum (length pts) (bezier_basis (length pts) t) ws <> 0 ->
    vderiv (fun x => weighted_mean (length pts) (bezier_basis (length pts) x) ws pts) t (f1 t) /\ vderiv f1 t (f2 t) /\
    weight_sum (length pts) (bezier_basis (length pts) t) ws ^ 5 * (coord 2 1 (f1 t) * coord 2 0 (f2 t) - coord 2 0 (f1 t) * coord 2 1 (f2 t))
      = - (bsum ws t ^ 2 * det3 (bsum A t) (bsum B t) (bsum ws t) (bsum (hodo A) t) (bsum (hodo B) t) (bsum (hodo ws) t)
           (bsum (hodo (hodo A)) t) (bsum (hodo (hodo B)) t) (bsum (hodo (hodo ws)) t)) /\
    weight_sum (length pts) (bezier_basis (length pts) t) ws ^ 4 * (coord 2 0 (f1 t) * coord 2 0 (f1 t) + coord 2 1 (f1 t) * coord 2 1 (f1 t))
      = (bsum (hodo A) t * bsum ws t - bsum A t * bsum (hodo ws) t) ^ 2 + (bsum (hodo B) t * bsum ws t - bsum B t * bsum (hodo ws) t) ^ 2.
Proof.
  intros H HL A B f1 f2 t Hw. assert (Hne : pts <> []) by (destruct pts; [change (3 <= 0)%nat in H; lia|congruence]).
  assert (Hnw : ws <> []) by (destruct ws; [change (0 = length pts)%nat in HL; lia|congruence]).
  assert (LA : length A = length pts) by (unfold A; rewrite zipm_length; rewrite map_length; lia).
  assert (LB : length B = length pts) by (unfold B; rewrite zipm_length; rewrite map_length; lia).
  rewrite <- HL in Hw |- *. rewrite weight_sum_bsum in Hw |- * by exact Hnw.
  destruct (quotient_deriv (d := 2) (hom3 A B ws) (hom3 (hodo A) (hodo B) (hodo ws)) (hom3 (hodo (hodo A)) (hodo (hodo B)) (hodo (hodo ws))) t) as [D1 D2].
  - exact Hw.
  - apply hom3_deriv; lia.
  - apply hom3_deriv; rewrite hodo_length; lia.
  - split; [|split; [exact D2|split]].
    + intros i Hi. specialize (D1 i Hi). eapply derivable_pt_lim_ext; [|exact D1]. intros x. rewrite HL, wmean_hom3 by assumption. reflexivity.
    + unfold f1, f2, q2, q1, q0, det3. cbn. field. exact Hw.
    + unfold f1, f2, q2, q1, q0, det3. cbn. field. exact Hw.
Qed.
