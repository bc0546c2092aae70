(** Rational patches: small weights, and witnesses for the claims that are false of the code. *)
From Coq Require Import Reals Lra Lia ZArith List Bool.
From Verif Require Import Monad MonadFacts LoopFacts Scalar ScalarFacts Spec SpecFacts Polar SpecPatch SpecPatch2 SpecPatchRational
  ModelCurve CurveFacts ModelBezier ModelBSpline ModelRational RationalFacts RationalThms ModelPatchBase ModelPatch ModelPatchRational
  ExampleFacts TensorFacts PatchFacts BezierPatchThms BSplinePatchThms BSplinePatchThms2 BSplinePatchRefute
  PatchRationalThms PatchRationalThms2 PatchRationalSplit.
Import ListNotations.
Local Open Scope R_scope.

Section Small.
  Context {d : nat}.
  Lemma small_2nd (p a c : vec R (S d)) su : vlast d p <= / IZR (2 ^ 52) -> hp_2nd p a c su = Ok p0.
  Proof. intros H. rewrite <- seps_R in H. unfold hp_2nd. cbn [sle R_ops]. now rewrite Rleb_true. Qed.
  Lemma small_mixed (p a b c : vec R (S d)) su sv : vlast d p <> 0 -> vlast d p <= / IZR (2 ^ 52) -> hp_mixed p a b c su sv = Ok p0.
  Proof. intros Hn H. rewrite <- seps_R in H. unfold hp_mixed. rewrite pdivs_ok by exact Hn. cbn [bind sle R_ops]. now rewrite Rleb_true. Qed.

  Lemma rpatch_small (s : rbpatch R d) u v u' v' : rp_ready s ->
    let nu := S (Z.to_nat (rp_degu s)) in let nv := S (Z.to_nat (rp_degv s)) in
    wraps (rp_peru s) 0 1 u u' -> wraps (rp_perv s) 0 1 v v' ->
    let w := tensor_weight nu nv (bezier_basis nu u') (bezier_basis nv v') (rp_weights s) in
    w <> 0 -> w <= / IZR (2 ^ 52) ->
    rp_evaluate_2nd_derivative_uu s u v = Ok p0 /\ rp_evaluate_2nd_derivative_vv s u v = Ok p0 /\
    rp_evaluate_2nd_derivative_uv s u v = Ok p0.
  Proof.
    intros Hr nu nv Wu Wv w Hn Hw. pose proof (rp_init_validate s (rr_init _ Hr)) as Hval.
    destruct (rp_hom_ready s Hr) as (Hi & T1 & T2 & P1 & P2 & D1 & D2 & F1 & F2 & G & L1 & L2).
    destruct (bpatch_derivatives (S d) (rp_hom s) Hi T1 T2 P1 P2) as (P & Pu & Pv & Puu & Pvv & Puv & HD & HE).
    destruct (HE u v) as (u1 & v1 & Wu1 & Wv1 & E0 & E1 & E2 & E3 & E4 & E5). rewrite F1 in Wu1. rewrite F2 in Wv1.
    rewrite (wraps_unique _ _ _ _ _ _ Wu1 Wu), (wraps_unique _ _ _ _ _ _ Wv1 Wv) in *.
    assert (Ew : vlast d (P u' v') = w).
    { destruct (bpatch_evaluate (S d) (rp_hom s) u v Hi T1 T2 P1 P2) as (u2 & v2 & Wu2 & Wv2 & E).
      rewrite F1 in Wu2. rewrite F2 in Wv2. rewrite D1, D2, G in E. fold nu nv in E, L2.
      rewrite (wraps_unique _ _ _ _ _ _ Wu2 Wu), (wraps_unique _ _ _ _ _ _ Wv2 Wv) in E.
      assert (EP : P u' v' = tensor_sum nu nv (bezier_basis nu u') (bezier_basis nv v') (hrows (rp_grid s) (rp_weights s))) by congruence.
      rewrite EP. apply tensor_last; assumption. }
    rewrite <- Ew in Hn, Hw. unfold rp_evaluate_2nd_derivative_uu, rp_evaluate_2nd_derivative_vv, rp_evaluate_2nd_derivative_uv.
    rewrite Hval, E0, E1, E2, E3, E4, E5. cbn [bind]. rewrite !small_2nd by exact Hw. rewrite small_mixed by assumption. auto.
  Qed.
End Small.

(** Degrees 2 x 0, control points 0, 0, 1, all weights 2^-53: the surface is u*u. *)
Definition tiny : R := / IZR (2 ^ 53).
Definition tiny_patch : rbpatch R 1 :=
  let g := [(0, tt); (0, tt); (1, tt)] : list (vec R 1) in
  {| rp_tu := -1; rp_tv := -1; rp_degu := 2; rp_degv := 0; rp_grid := g; rp_weights := [tiny; tiny; tiny];
     rp_peru := false; rp_perv := false;
     rp_hom := {| bp_tu := -1; bp_tv := -1; bp_degu := 2; bp_degv := 0; bp_grid := hrows g [tiny; tiny; tiny];
                  bp_peru := false; bp_perv := false |} |}.
Lemma tiny_pos : 0 < tiny.
Proof. apply Rinv_0_lt_compat, IZR_lt. reflexivity. Qed.
Lemma tiny_small : tiny <= / IZR (2 ^ 52).
Proof. apply Rinv_le_contravar; [apply IZR_lt; reflexivity|apply IZR_le; vm_compute; discriminate]. Qed.
Lemma tiny_ready : rp_ready tiny_patch.
Proof.
  split; try reflexivity.
  - left. reflexivity.
  - left. reflexivity.
  - discriminate.
  - discriminate.
Qed.
Lemma tiny_weight u v : tensor_weight 3 1 (bezier_basis 3 u) (bezier_basis 1 v) [tiny; tiny; tiny] = tiny.
Proof. unfold tensor_weight, bezier_basis, bernstein, C. cbn. field. Qed.
Lemma rpatch_2nd_refuted : exists s : rbpatch R 1, rp_ready s /\ Forall (fun w => 0 < w) (rp_weights s) /\
  forall u v, rp_evaluate s u v = Ok (u * u, tt) /\ rp_evaluate_2nd_derivative_uu s u v = Ok (0, tt).
Proof.
  exists tiny_patch. split; [exact tiny_ready|]. split; [repeat constructor; apply tiny_pos|]. intros u v.
  pose proof tiny_pos as Hp. pose proof tiny_small as Hs.
  destruct (rpatch_evaluate tiny_patch u v tiny_ready) as (u' & v' & Wu & Wv & E & _).
  cbn in Wu, Wv. subst u' v'.
  change (S (Z.to_nat (rp_degu tiny_patch))) with 3%nat in E. change (S (Z.to_nat (rp_degv tiny_patch))) with 1%nat in E.
  change (rp_weights tiny_patch) with [tiny; tiny; tiny] in E. rewrite tiny_weight in E. split.
  - rewrite E by lra. f_equal. unfold tensor_mean. rewrite tiny_weight. change (rp_grid tiny_patch) with [(0, tt); (0, tt); (1, tt)].
    unfold bezier_basis, bernstein, C. cbn. f_equal. field. lra.
  - apply (rpatch_small tiny_patch u v u v tiny_ready eq_refl eq_refl);
      change (tensor_weight _ _ _ _ _) with (tensor_weight 3 1 (bezier_basis 3 u) (bezier_basis 1 v) [tiny; tiny; tiny]);
      rewrite tiny_weight; lra.
Qed.

(** Rational patch x = 2u/(1+u), y = v, cut to [1/4,1/2] x [0,1]. *)
Definition ru_grid : list (vec R 2) := [(0, (0, tt)); (0, (1, tt)); (1, (0, tt)); (1, (1, tt))].
Definition ru_patch : rbpatch R 2 :=
  {| rp_tu := 1; rp_tv := 1; rp_degu := 1; rp_degv := 1; rp_grid := ru_grid; rp_weights := [1; 1; 2; 2];
     rp_peru := false; rp_perv := false;
     rp_hom := {| bp_tu := 1; bp_tv := 1; bp_degu := 1; bp_degv := 1; bp_grid := hrows ru_grid [1; 1; 2; 2];
                  bp_peru := false; bp_perv := false |} |}.
Lemma ru_static : rp_static ru_patch.
Proof. split; try reflexivity. repeat constructor; lra. Qed.
Lemma ru_ready : rp_ready ru_patch.
Proof. split; try reflexivity; [right; reflexivity|right; reflexivity|discriminate|discriminate]. Qed.
Lemma ru_eval u v : 0 <= u -> rp_evaluate ru_patch u v = Ok (2 * u / (1 + u), (v, tt)).
Proof.
  intros Hu. destruct (rpatch_evaluate ru_patch u v ru_ready) as (u' & v' & Wu & Wv & E & _). cbn in Wu, Wv. subst u' v'.
  change (S (Z.to_nat (rp_degu ru_patch))) with 2%nat in E. change (S (Z.to_nat (rp_degv ru_patch))) with 2%nat in E.
  change (rp_weights ru_patch) with [1; 1; 2; 2] in E. change (rp_grid ru_patch) with ru_grid in E.
  assert (Ew : tensor_weight 2 2 (bezier_basis 2 u) (bezier_basis 2 v) [1; 1; 2; 2] = 1 + u).
  { unfold tensor_weight, bezier_basis, bernstein, C. cbn. field. }
  rewrite Ew in E. rewrite E by lra. f_equal. unfold tensor_mean. rewrite Ew. unfold ru_grid, bezier_basis, bernstein, C. cbn.
  f_equal; [field; lra|f_equal; field; lra].
Qed.
Lemma rpatch_subpatch_refuted : exists (s a : rbpatch R 2), rp_static s /\ rp_peru s = false /\ rp_perv s = false /\
  rp_subpatch s (1/4) (1/2) 0 1 = Ok a /\
  rp_evaluate a 1 0 = Ok (10/13, (0, tt)) /\ rp_evaluate s (1/4 + (1/2 - 1/4) * 1) 0 = Ok (2/3, (0, tt)).
Proof.
  destruct (rpatch_subpatch_actual ru_patch (1/4) (1/2) 0 1 ru_static eq_refl eq_refl) as (a & E & _ & V); try lra.
  exists ru_patch, a. split; [exact ru_static|]. split; [reflexivity|]. split; [reflexivity|]. split; [exact E|].
  rewrite V, !ru_eval by lra. split; f_equal; f_equal; try lra; f_equal; lra.
Qed.
Lemma rpatch_subpatch_border d (s : rbpatch R d) u0 u1 v0 v1 :
  rp_static s -> rp_peru s = false -> rp_perv s = false ->
  0 <= u0 < u1 -> u1 <= 1 -> 0 <= v0 < v1 -> v1 <= 1 -> u0 = 0 \/ u1 = 1 -> v0 = 0 \/ v1 = 1 ->
  exists a, rp_subpatch s u0 u1 v0 v1 = Ok a /\ rp_static a /\
    forall x y, rp_evaluate a x y = rp_evaluate s (u0 + (u1 - u0) * x) (v0 + (v1 - v0) * y).
Proof.
  intros Hs P1 P2 Hu Hu1 Hv Hv1 Bu Bv.
  destruct (rpatch_subpatch_actual s u0 u1 v0 v1 Hs P1 P2 Hu Hu1 Hv Hv1) as (a & E & Sa & V).
  exists a. split; [exact E|]. split; [exact Sa|]. intros x y. rewrite V. f_equal.
  - destruct Bu as [-> | ->]; ring.
  - destruct Bv as [-> | ->]; ring.
Qed.

(** NURBS patch, degrees 1 x 1, all points 0, weights 1: the point (0,0) is moved. *)
Definition nk_raw : nupatch R 1 := np_make (-1) (-1) 1 1 [p0; p0; p0; p0] [1; 1; 1; 1] rk rk false false.
Definition nk : nupatch R 1 := match np_initialize nk_raw with Ok s => s | _ => nk_raw end.
Lemma nk_valid : np_valid nk.
Proof.
  split; [reflexivity|exact rk_valid|exact rk_valid|exact rk_apart|exact rk_apart].
Qed.
Lemma rk_basis1 : bspline_basis 2 rk (1/2) 1 = 1/2.
Proof.
  unfold bspline_basis, rk.
  change (length (map IZR [0; 0; 1; 1]%Z) - 2 - 1)%nat with 1%nat.
  cbn [cox]. unfold N0, frac0, knot_of.
  change (Z.of_nat 1 + Z.of_nat 1)%Z with 2%Z. change (Z.of_nat 1 + Z.of_nat 1 + 1)%Z with 3%Z.
  change (Z.of_nat 1 + 1)%Z with 2%Z. change (2 + 1)%Z with 3%Z.
  change (Z.to_nat (Z.of_nat 1)) with 1%nat. change (Z.to_nat 1) with 1%nat. change (Z.to_nat 2) with 2%nat. change (Z.to_nat 3) with 3%nat.
  change (Z.to_nat (Z.of_nat 2)) with 2%nat. cbn [nth map].
  repeat match goal with |- context [if ?c then _ else _] => destruct c; try (exfalso; lra) end; lra.
Qed.
Lemma nurbs_half (s : nupatch R 1) x : np_valid s -> np_degu s = 1%Z -> np_degv s = 1%Z -> np_ku s = rk -> np_kv s = rk ->
  np_peru s = false -> np_perv s = false -> np_weights s = [1; 1; 1; 1] -> np_grid s = [((x, tt) : vec R 1); p0; p0; p0] ->
  np_evaluate s (1/2) (1/2) = Ok (x / 4, tt).
Proof.
  intros Hv D1 D2 K1 K2 P1 P2 W G. pose proof (nupatch_evaluate s (1/2) (1/2) Hv) as E.
  rewrite D1, D2, K1, K2, P1, P2, W, G in E. destruct (E rk_half rk_half) as (u' & v' & Wu & Wv & E' & _). cbn in Wu, Wv. subst u' v'.
  change (dir_count (Z.to_nat 1) rk) with 2%nat in E'.
  assert (Ew : tensor_weight 2 2 (bspline_basis 2 rk (1/2)) (bspline_basis 2 rk (1/2)) [1; 1; 1; 1] = 1).
  { unfold tensor_weight, rsum. cbn [psum Nat.mul Nat.add nth]. rewrite rk_basis0, rk_basis1. cbn. lra. }
  rewrite Ew in E'. rewrite E' by lra. unfold tensor_mean. rewrite Ew. f_equal. cbn [psum Nat.mul Nat.add nth].
  rewrite rk_basis0, rk_basis1. cbn. f_equal. lra.
Qed.
Lemma nupatch_setter_refuted : exists (s s' s'' : nupatch R 1) a,
  np_valid s /\ np_set_control_point s 0 0 a = Ok s' /\ np_initialize s' = Ok s'' /\
  np_evaluate s' (1/2) (1/2) = Ok (0, tt) /\ np_evaluate s'' (1/2) (1/2) = Ok (1/4, tt).
Proof.
  destruct (nupatch_setters_init nk 0 0 nk_valid) as [H _]; [exact (Nat.lt_0_succ 1)|exact (Nat.lt_0_succ 1)|].
  destruct (H (1, tt)) as (s' & s'' & E1 & E2 & V & G & W & D1 & D2 & K1 & K2 & P1 & P2).
  exists nk, s', s'', (1, tt). split; [exact nk_valid|]. split; [exact E1|]. split; [exact E2|]. split.
  - rewrite (nupatch_point_stale _ _ _ _ _ _ _ E1). rewrite (nurbs_half nk 0 nk_valid); try reflexivity. f_equal. f_equal. lra.
  - rewrite (nurbs_half s'' 1 V); auto.
Qed.
