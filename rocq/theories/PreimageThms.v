(** get_control_point_preimage of Bezier and B-spline patches: the control points of a patch whose control points depend linearly on
    their preimages. *)
From Coq Require Import Reals Lra Lia ZArith List Bool.
From Verif Require Import Monad MonadFacts LoopFacts Scalar ScalarFacts Spec SpecFacts Polar SpecPatch
  BSplineMath ModelCurve CurveFacts ModelBezier ModelBSpline BSplineFacts BSplineThms ModelPatchBase ModelPatch ModelInverse ModelInverse2
  TensorFacts PatchFacts BezierPatchThms BSplinePatchThms BSplinePatchThms2 PatchHull.
Import ListNotations.
Local Open Scope R_scope.

(** Averages of knots. *)
Definition avg (U : Z -> R) (p : nat) (j : Z) : R := rsum p (fun l => U (j + 1 + Z.of_nat l)%Z) / INR p.

Lemma tri_avg U p (k : Z) t lo hi : mono U lo hi -> U k < U (k + 1)%Z -> (lo <= k - Z.of_nat p)%Z -> (k + Z.of_nat p <= hi)%Z -> (1 <= p)%nat ->
  forall r j, (r <= p)%nat -> (k - Z.of_nat (p - r) <= j <= k)%Z ->
  INR p * tri (alU U p) (avg U p) (repeat t r) j = INR r * t + rsum (p - r) (fun l => U (j + 1 + Z.of_nat l)%Z).
Proof.
  intros Hm Hk Hlo Hhi Hp. induction r as [|r IH]; intros j Hr Hj.
  - cbn [repeat tri]. unfold avg. rewrite Nat.sub_0_r. simpl (INR 0). field. apply not_0_INR. lia.
  - cbn [repeat tri]. set (a := alU _ _ _ _ _).
    change (INR p * ((1 - a) * tri (alU U p) (avg U p) (repeat t r) (j - 1) + a * tri (alU U p) (avg U p) (repeat t r) j) =
      INR (S r) * t + rsum (p - S r) (fun l => U (j + 1 + Z.of_nat l)%Z)).
    replace (INR p * _) with ((1 - a) * (INR p * tri (alU U p) (avg U p) (repeat t r) (j - 1)) + a * (INR p * tri (alU U p) (avg U p) (repeat t r) j)) by ring.
    rewrite !IH by lia. replace (p - r)%nat with (S (p - S r)) by lia.
    rewrite (rsum_shift (p - S r)). rewrite (rsum_S (p - S r)).
    assert (E : rsum (p - S r) (fun i => U (j - 1 + 1 + Z.of_nat (S i))%Z) = rsum (p - S r) (fun l => U (j + 1 + Z.of_nat l)%Z)).
    { apply rsum_ext. intros i _. f_equal. lia. }
    rewrite E. replace (j - 1 + 1 + Z.of_nat 0)%Z with j by lia.
    assert (G : U j < U (j + 1 + Z.of_nat (p - S r))%Z).
    { assert (U j <= U k) by (apply Hm; lia). assert (U (k + 1)%Z <= U (j + 1 + Z.of_nat (p - S r))%Z) by (apply Hm; lia). lra. }
    assert (Ea : a = (t - U j) / (U (j + 1 + Z.of_nat (p - S r))%Z - U j)).
    { unfold a, alU. cbn [length]. rewrite repeat_length. do 3 f_equal. lia. }
    rewrite S_INR. set (x := rsum _ _). set (b := U (j + 1 + Z.of_nat (p - S r))%Z) in *. rewrite Ea. field. lra.
Qed.

Lemma cox_linear U p n tmax t k : mono U 0 (Z.of_nat n + Z.of_nat p) -> (Z.of_nat p <= k < Z.of_nat n)%Z -> in_span U tmax k t -> (1 <= p)%nat ->
  rsum n (fun i => cox U tmax p (Z.of_nat i) t * avg U p (Z.of_nat i)) = t.
Proof.
  intros Hm Hk Hs Hp. rewrite <- (tri_cox U p n tmax t k (avg U p) Hm Hk Hs).
  destruct (in_span_bounds _ _ _ _ Hs) as [_ Hlt].
  assert (H := tri_avg U p k t 0 (Z.of_nat n + Z.of_nat p) Hm Hlt ltac:(lia) ltac:(lia) Hp p k ltac:(lia) ltac:(lia)).
  rewrite Nat.sub_diag in H. unfold rsum in H. cbn [psum] in H.
  apply (Rmult_eq_reg_l (INR p)); [|apply not_0_INR; lia]. etransitivity; [exact H|]. simpl. ring.
Qed.

Lemma dir_linear p knots u : valid_dir p knots -> dir_lo p knots <= u <= dir_hi p knots ->
  (nth p knots 0 < nth (p + 1) knots 0 \/ dir_lo p knots < u) -> (1 <= p)%nat ->
  rsum (dir_count p knots) (fun i => bspline_basis (dir_count p knots) knots u i * avg (knot_of knots) p (Z.of_nat i)) = u.
Proof.
  intros Hv Hu Hs Hp. destruct (dir_span p knots Hv u Hu Hs) as (k & Hk & Hsp). pose proof (dir_len p knots Hv) as [L1 L2].
  pose proof (dir_mono p knots Hv) as Hm. set (n := dir_count p knots) in *.
  unfold bspline_basis. replace (length knots - n - 1)%nat with p by lia.
  exact (cox_linear _ p n _ u k Hm Hk Hsp Hp).
Qed.

Lemma bernstein_linear n t : rsum (S n) (fun i => bernstein n i t * INR i) = INR n * t.
Proof.
  induction n as [|n IH].
  - unfold rsum. simpl. ring.
  - rewrite bernstein_sum_step.
    rewrite (rsum_ext (S n) (fun i => bernstein n i t * INR (S i)) (fun i => bernstein n i t * INR i + bernstein n i t)) by (intros i _; rewrite S_INR; ring).
    rewrite rsum_plus, IH, bernstein_partition, S_INR. ring.
Qed.

(** The sum over a grid whose points are a + x_i b + y_j c. *)
Lemma tensor_linear {d} n m bu bv (x y : nat -> R) (a b c : vec R d) (g : list (vec R d)) u v :
  rsum n bu = 1 -> rsum m bv = 1 -> rsum n (fun i => bu i * x i) = u -> rsum m (fun j => bv j * y j) = v ->
  (forall i j, (i < n)%nat -> (j < m)%nat -> nth (i * m + j) g p0 = padd a (padd (pmul (x i) b) (pmul (y j) c))) ->
  tensor_sum n m bu bv g = padd a (padd (pmul u b) (pmul v c)).
Proof.
  intros Su Sv Lu Lv H. apply vec_ext. intros k Hk. rewrite tensor_coord by exact Hk. rewrite !coord_add, !coord_mul by exact Hk.
  rewrite (rsum_ext n _ (fun i => (coord d k a + coord d k c * v) * bu i + coord d k b * (bu i * x i))).
  - rewrite rsum_plus, !rsum_scal, Su, Lu. ring.
  - intros i Hi. rewrite (rsum_ext m _ (fun j => (bu i * (coord d k a + x i * coord d k b)) * bv j + bu i * coord d k c * (bv j * y j))).
    + rewrite rsum_plus, !rsum_scal, Sv, Lv. ring.
    + intros j Hj. rewrite H by assumption. rewrite !coord_add, !coord_mul by exact Hk. ring.
Qed.

Lemma greville_Ok knots p i : (1 <= p)%nat -> (i + p < length knots)%nat ->
  greville knots (Z.of_nat p) (Z.of_nat i) = Ok (avg (knot_of knots) p (Z.of_nat i)).
Proof.
  intros Hp Hi. unfold greville.
  destruct (for_up_inv (fun k sum => sum = rsum (Z.to_nat k) (fun l => knot_of knots (Z.of_nat i + 1 + Z.of_nat l)%Z)) 0 (Z.of_nat p)
    (fun k sum => do x <- get knots (1 + Z.of_nat i + k); Ok (sum + x)%S) 0) as (x & E & Hx); [lia|reflexivity| |].
  - intros k x Hk ->. rewrite (get_nth _ _ 0) by (unfold zlen; lia). eexists. split; [reflexivity|].
    replace (Z.to_nat (k + 1)) with (S (Z.to_nat k)) by lia. rewrite rsum_S. cbn [sadd R_ops]. f_equal. unfold knot_of. f_equal. lia.
  - cbn [s0 R_ops]. rewrite E. cbn [bind]. rewrite Nat2Z.id in Hx. rewrite Hx. rewrite ddiv_R.
    + unfold avg. cbn [sofZ R_ops]. now rewrite <- INR_IZR_INZ.
    + cbn [sofZ R_ops]. rewrite <- INR_IZR_INZ. apply not_0_INR. lia.
Qed.

Lemma sp_preimage_Ok {d} (s : spatch R (vec R d)) i j :
  let p := Z.to_nat (sp_degu s) in let q := Z.to_nat (sp_degv s) in
  (1 <= sp_degu s)%Z -> (1 <= sp_degv s)%Z -> (i + p < length (sp_ku s))%nat -> (j + q < length (sp_kv s))%nat ->
  sp_preimage s (Z.of_nat i) (Z.of_nat j) = Ok (avg (knot_of (sp_ku s)) p (Z.of_nat i), avg (knot_of (sp_kv s)) q (Z.of_nat j)).
Proof.
  intros p q Hp Hq Hi Hj. unfold sp_preimage, checked_degree.
  assert (E1 : (0 <=? sp_degu s)%Z = true) by lia. assert (E2 : (0 <=? sp_degv s)%Z = true) by lia.
  rewrite E1, E2. cbn [bind assert_].
  replace (sp_degu s) with (Z.of_nat p) by lia. replace (sp_degv s) with (Z.of_nat q) by lia.
  rewrite greville_Ok by lia. cbn [bind]. rewrite greville_Ok by lia. reflexivity.
Qed.

Lemma param_in per p knots u u' : valid_dir p knots -> dir_param per p knots u -> wraps per (dir_lo p knots) (dir_hi p knots) u u' ->
  dir_lo p knots <= u' <= dir_hi p knots /\ (nth p knots 0 < nth (p + 1) knots 0 \/ dir_lo p knots < u').
Proof.
  intros Hv [H1 H2] W. unfold wraps in W. destruct per.
  - destruct W as [W _]. split; [lra|]. destruct H2 as [H2|[E _]]; [now left|discriminate].
  - subst u'. split; [destruct H1 as [E|H1]; [discriminate|exact H1]|]. destruct H2 as [H2|[_ H2]]; auto.
Qed.

Lemma spatch_linear d (s : spatch R (vec R d)) (a b c : vec R d) u v :
  let p := Z.to_nat (sp_degu s) in let q := Z.to_nat (sp_degv s) in
  let n := dir_count p (sp_ku s) in let m := dir_count q (sp_kv s) in
  sp_initialize s = Ok s -> valid_dir p (sp_ku s) -> valid_dir q (sp_kv s) ->
  knots_apart (/ IZR (10 ^ 16)) (sp_ku s) -> knots_apart (/ IZR (10 ^ 16)) (sp_kv s) ->
  (1 <= sp_degu s)%Z -> (1 <= sp_degv s)%Z ->
  (forall i j, (i < n)%nat -> (j < m)%nat -> exists x y, sp_preimage s (Z.of_nat i) (Z.of_nat j) = Ok (x, y)) /\
  ((forall i j x y, (i < n)%nat -> (j < m)%nat -> sp_preimage s (Z.of_nat i) (Z.of_nat j) = Ok (x, y) ->
      nth (i * m + j) (sp_grid s) p0 = padd a (padd (pmul x b) (pmul y c))) ->
   dir_param (sp_peru s) p (sp_ku s) u -> dir_param (sp_perv s) q (sp_kv s) v ->
   exists u' v', wraps (sp_peru s) (dir_lo p (sp_ku s)) (dir_hi p (sp_ku s)) u u' /\
     wraps (sp_perv s) (dir_lo q (sp_kv s)) (dir_hi q (sp_kv s)) v v' /\
     sp_evaluate s u v = Ok (padd a (padd (pmul u' b) (pmul v' c)))).
Proof.
  intros p q n m Hi Vu Vv Au Av Hp Hq.
  pose proof (dir_len p _ Vu) as [L1 L2]. pose proof (dir_len q _ Vv) as [L3 L4]. fold n in L1, L2. fold m in L3, L4.
  assert (E : forall i j, (i < n)%nat -> (j < m)%nat -> sp_preimage s (Z.of_nat i) (Z.of_nat j) =
     Ok (avg (knot_of (sp_ku s)) p (Z.of_nat i), avg (knot_of (sp_kv s)) q (Z.of_nat j))).
  { intros i j Hi' Hj'. apply sp_preimage_Ok; try assumption; fold p q; lia. }
  split; [intros i j Hi' Hj'; eexists _, _; now apply E|].
  intros HP Pu Pv. destruct (spatch_evaluate d s u v Hi Vu Vv Au Av Pu Pv) as (u' & v' & Wu & Wv & Ee).
  exists u', v'. split; [exact Wu|]. split; [exact Wv|]. rewrite Ee. f_equal. fold p q n m.
  destruct (param_in _ _ _ _ _ Vu Pu Wu) as [Ru Su]. destruct (param_in _ _ _ _ _ Vv Pv Wv) as [Rv Sv].
  apply (tensor_linear n m _ _ (fun i => avg (knot_of (sp_ku s)) p (Z.of_nat i)) (fun j => avg (knot_of (sp_kv s)) q (Z.of_nat j))).
  - apply (dir_simplex p _ u' Vu Ru Su).
  - apply (dir_simplex q _ v' Vv Rv Sv).
  - apply dir_linear; try assumption. lia.
  - apply dir_linear; try assumption. lia.
  - intros i j Hi' Hj'. apply HP; [assumption..|]. now apply E.
Qed.

Lemma bp_preimage_Ok {d} (s : bpatch (vec R d)) i j : (1 <= bp_degu s)%Z -> (1 <= bp_degv s)%Z ->
  bp_preimage s (Z.of_nat i) (Z.of_nat j) = Ok (INR i / IZR (bp_degu s), INR j / IZR (bp_degv s)).
Proof.
  intros Hp Hq. unfold bp_preimage, checked_degree.
  assert (E1 : (0 <=? bp_degu s)%Z = true) by lia. assert (E2 : (0 <=? bp_degv s)%Z = true) by lia.
  rewrite E1, E2. cbn [bind assert_ sofZ R_ops]. rewrite !ddiv_R by (apply not_0_IZR; lia). cbn [bind]. now rewrite <- !INR_IZR_INZ.
Qed.

Lemma bezier_linear n t : (1 <= n)%nat -> rsum (S n) (fun i => bezier_basis (S n) t i * (INR i / INR n)) = t.
Proof.
  intros Hn. unfold bezier_basis. replace (S n - 1)%nat with n by lia. assert (INR n <> 0) by (apply not_0_INR; lia).
  rewrite (rsum_ext _ _ (fun i => / INR n * (bernstein n i t * INR i))) by (intros; field; assumption).
  rewrite rsum_scal, bernstein_linear. field. assumption.
Qed.

Lemma bpatch_linear d (s : bpatch (vec R d)) (a b c : vec R d) u v :
  bp_initialize s = Ok s ->
  (bp_tu s = -1 \/ bp_tu s = bp_degu s)%Z -> (bp_tv s = -1 \/ bp_tv s = bp_degv s)%Z ->
  (bp_peru s = true -> bp_tu s <> 1%Z) -> (bp_perv s = true -> bp_tv s <> 1%Z) ->
  (1 <= bp_degu s)%Z -> (1 <= bp_degv s)%Z ->
  let nu := S (Z.to_nat (bp_degu s)) in let nv := S (Z.to_nat (bp_degv s)) in
  (forall i j, (i < nu)%nat -> (j < nv)%nat -> exists x y, bp_preimage s (Z.of_nat i) (Z.of_nat j) = Ok (x, y) /\ 0 <= x <= 1 /\ 0 <= y <= 1) /\
  ((forall i j x y, (i < nu)%nat -> (j < nv)%nat -> bp_preimage s (Z.of_nat i) (Z.of_nat j) = Ok (x, y) ->
      nth (i * nv + j) (bp_grid s) p0 = padd a (padd (pmul x b) (pmul y c))) ->
   exists u' v', wraps (bp_peru s) 0 1 u u' /\ wraps (bp_perv s) 0 1 v v' /\
     bp_evaluate s u v = Ok (padd a (padd (pmul u' b) (pmul v' c)))).
Proof.
  intros Hi T1 T2 P1 P2 Hp Hq nu nv. split.
  - intros i j Hi' Hj'. rewrite bp_preimage_Ok by assumption. eexists _, _. split; [reflexivity|].
    assert (0 < IZR (bp_degu s)) by (apply IZR_lt; lia). assert (0 < IZR (bp_degv s)) by (apply IZR_lt; lia).
    assert (INR i <= IZR (bp_degu s)) by (rewrite INR_IZR_INZ; apply IZR_le; unfold nu in Hi'; lia).
    assert (INR j <= IZR (bp_degv s)) by (rewrite INR_IZR_INZ; apply IZR_le; unfold nv in Hj'; lia).
    pose proof (pos_INR i). pose proof (pos_INR j).
    assert (F : forall x y, 0 <= x -> 0 < y -> x <= y -> 0 <= x / y <= 1).
    { intros x y H5 H6 H7. split.
      - apply Rmult_le_pos; [exact H5|left; now apply Rinv_0_lt_compat].
      - apply (Rmult_le_reg_r y); [exact H6|]. unfold Rdiv. rewrite Rmult_assoc, Rinv_l by lra. lra. }
    auto.
  - intros HP. destruct (bpatch_evaluate d s u v Hi T1 T2 P1 P2) as (u' & v' & Wu & Wv & Ee).
    exists u', v'. split; [exact Wu|]. split; [exact Wv|]. rewrite Ee. f_equal. fold nu nv.
    assert (Eu : IZR (bp_degu s) = INR (Z.to_nat (bp_degu s))) by (rewrite INR_IZR_INZ; f_equal; lia).
    assert (Ev : IZR (bp_degv s) = INR (Z.to_nat (bp_degv s))) by (rewrite INR_IZR_INZ; f_equal; lia).
    apply (tensor_linear nu nv _ _ (fun i => INR i / IZR (bp_degu s)) (fun j => INR j / IZR (bp_degv s))).
    + unfold bezier_basis, nu. rewrite Nat.sub_succ, Nat.sub_0_r. apply bernstein_partition.
    + unfold bezier_basis, nv. rewrite Nat.sub_succ, Nat.sub_0_r. apply bernstein_partition.
    + rewrite Eu. apply bezier_linear. lia.
    + rewrite Ev. apply bezier_linear. lia.
    + intros i j Hi' Hj'. apply HP; [assumption..|]. now apply bp_preimage_Ok.
Qed.
