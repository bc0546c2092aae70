(** Patches stay in the convex hull of their control points. *)
From Coq Require Import Reals Lra Lia ZArith List Bool.
From Verif Require Import Monad MonadFacts LoopFacts Scalar ScalarFacts Spec SpecFacts Polar SpecPatch SpecPatch2 SpecPatchRational
  BSplineMath ModelCurve CurveFacts ModelBezier ModelBSpline BSplineFacts BSplineThms ModelRational RationalFacts RationalThms
  ModelPatchBase ModelPatch ModelPatchRational
  TensorFacts PatchFacts BezierPatchThms BSplinePatchThms BSplinePatchThms2 PatchRationalThms PatchRationalThms2.
Import ListNotations.
Local Open Scope R_scope.

(** Nonnegative weights with sum 1. *)
Definition simplex (n : nat) (b : nat -> R) : Prop := (forall i, (i < n)%nat -> 0 <= b i) /\ rsum n b = 1.

Lemma dir_simplex p knots u : valid_dir p knots -> dir_lo p knots <= u <= dir_hi p knots ->
  (nth p knots 0 < nth (p + 1) knots 0 \/ dir_lo p knots < u) ->
  simplex (dir_count p knots) (bspline_basis (dir_count p knots) knots u).
Proof.
  intros Hv Hu Hs. destruct (dir_span p knots Hv u Hu Hs) as (k & Hk & Hsp). pose proof (dir_len p knots Hv) as [L1 L2].
  pose proof (dir_mono p knots Hv) as Hm. set (n := dir_count p knots) in *.
  assert (E : (length knots - n - 1)%nat = p) by lia.
  split; unfold bspline_basis; rewrite E.
  - intros i Hi. apply (cox_nonneg _ 0 (Z.of_nat n + Z.of_nat p) Hm _ u k ltac:(lia) ltac:(lia) Hsp); lia.
  - exact (cox_partition_all _ p n _ u k Hm Hk Hsp).
Qed.

Lemma bezier_simplex n u : 0 <= u <= 1 -> simplex (S n) (bezier_basis (S n) u).
Proof.
  intros Hu. split; unfold bezier_basis; replace (S n - 1)%nat with n by lia.
  - intros i _. now apply bernstein_nonneg.
  - apply bernstein_partition.
Qed.

Lemma rsum_flat n m (f : nat -> R) : rsum (n * m) f = rsum n (fun i => rsum m (fun j => f (i * m + j)%nat)).
Proof.
  induction n as [|n IH]; [reflexivity|]. rewrite rsum_S, <- IH. replace (S n * m)%nat with (n * m + m)%nat by lia. apply rsum_app.
Qed.
Lemma psum_flat {d} n m (f : nat -> vec R d) : psum (n * m) f = psum n (fun i => psum m (fun j => f (i * m + j)%nat)).
Proof.
  apply vec_ext. intros k Hk. rewrite !coord_psum by exact Hk. rewrite rsum_flat. apply rsum_ext. intros i Hi.
  rewrite coord_psum by exact Hk. reflexivity.
Qed.
Lemma cell_div m i j : (j < m)%nat -> ((i * m + j) / m = i /\ (i * m + j) mod m = j)%nat.
Proof.
  intros H. split.
  - rewrite Nat.div_add_l by lia. rewrite Nat.div_small by exact H. lia.
  - rewrite Nat.add_comm, Nat.mod_add by lia. now apply Nat.mod_small.
Qed.

Lemma convex_cells {d} n m (W : nat -> nat -> R) (g : list (vec R d)) : length g = (n * m)%nat ->
  (forall i j, (i < n)%nat -> (j < m)%nat -> 0 <= W i j) -> rsum n (fun i => rsum m (W i)) = 1 ->
  convex_comb g (psum n (fun i => psum m (fun j => pmul (W i j) (nth (i * m + j) g p0)))).
Proof.
  intros Hl H0 H1. exists (fun k => W (k / m)%nat (k mod m)%nat). rewrite Hl. split; [|split].
  - intros k Hk. apply H0.
    + apply Nat.div_lt_upper_bound; nia.
    + apply Nat.mod_upper_bound. nia.
  - rewrite rsum_flat, <- H1. apply rsum_ext. intros i Hi. apply rsum_ext. intros j Hj. now destruct (cell_div m i j Hj) as [-> ->].
  - rewrite psum_flat. apply psum_ext. intros i Hi. apply psum_ext. intros j Hj. now destruct (cell_div m i j Hj) as [-> ->].
Qed.

Lemma tensor_convex {d} n m bu bv (g : list (vec R d)) : simplex n bu -> simplex m bv -> length g = (n * m)%nat ->
  convex_comb g (tensor_sum n m bu bv g).
Proof.
  intros [U0 U1] [V0 V1] Hl. apply convex_cells; [exact Hl| |].
  - intros i j Hi Hj. apply Rmult_le_pos; auto.
  - rewrite <- U1. apply rsum_ext. intros i Hi. rewrite rsum_scal, V1. ring.
Qed.

Lemma pos_lower (ws : list R) : Forall (fun w => 0 < w) ws -> exists e, 0 < e /\ Forall (fun w => e <= w) ws.
Proof.
  induction 1 as [|w ws Hw _ (e & He & IH)]; [exists 1; split; [lra|constructor]|].
  exists (Rmin e w). split; [apply Rmin_pos; assumption|]. constructor; [apply Rmin_r|].
  eapply Forall_impl; [|exact IH]. intros a Ha. apply Rle_trans with e; [apply Rmin_l|exact Ha].
Qed.
Lemma rsum_le n f g : (forall i, (i < n)%nat -> f i <= g i) -> rsum n f <= rsum n g.
Proof.
  intros H. assert (0 <= rsum n (fun i => g i - f i)) by (apply rsum_nonneg; intros i Hi; specialize (H i Hi); lra).
  rewrite rsum_minus in H0. lra.
Qed.
Lemma tensor_weight_pos n m bu bv ws : simplex n bu -> simplex m bv -> length ws = (n * m)%nat -> Forall (fun w => 0 < w) ws ->
  0 < tensor_weight n m bu bv ws.
Proof.
  intros [U0 U1] [V0 V1] Hl HF. destruct (pos_lower ws HF) as (e & He & HE).
  apply Rlt_le_trans with e; [exact He|]. unfold tensor_weight.
  replace e with (rsum n (fun i => rsum m (fun j => bu i * bv j * e))).
  - apply rsum_le. intros i Hi. apply rsum_le. intros j Hj. apply Rmult_le_compat_l; [apply Rmult_le_pos; auto|].
    rewrite Forall_forall in HE. apply HE, nth_In. nia.
  - transitivity (rsum n (fun i => e * bu i)); [|rewrite rsum_scal, U1; ring]. apply rsum_ext. intros i Hi.
    rewrite (rsum_ext m _ (fun j => (e * bu i) * bv j)) by (intros; ring). rewrite rsum_scal, V1. ring.
Qed.

Lemma mean_convex {d} n m bu bv ws (g : list (vec R d)) : simplex n bu -> simplex m bv -> length ws = (n * m)%nat ->
  length g = length ws -> Forall (fun w => 0 < w) ws -> convex_comb g (tensor_mean n m bu bv ws g).
Proof.
  intros Su Sv Hl Hg HF. pose proof (tensor_weight_pos n m bu bv ws Su Sv Hl HF) as Hw. set (w := tensor_weight n m bu bv ws) in *.
  replace (tensor_mean n m bu bv ws g) with
    (psum n (fun i => psum m (fun j => pmul (/ w * (bu i * bv j * nth (i * m + j) ws 0)) (nth (i * m + j) g p0)))).
  - apply convex_cells; [lia| |].
    + intros i j Hi Hj. destruct Su as [U0 _], Sv as [V0 _]. apply Rmult_le_pos; [left; now apply Rinv_0_lt_compat|].
      apply Rmult_le_pos; [apply Rmult_le_pos; auto|]. rewrite Forall_forall in HF. left. apply HF, nth_In. nia.
    + rewrite (rsum_ext n _ (fun i => / w * rsum m (fun j => bu i * bv j * nth (i * m + j) ws 0))) by (intros; apply rsum_scal).
      rewrite rsum_scal. change (/ w * w = 1). field. lra.
  - unfold tensor_mean. fold w. apply vec_ext. intros k Hk. rewrite coord_mul by exact Hk. rewrite !coord_psum by exact Hk.
    rewrite <- rsum_scal. apply rsum_ext. intros i Hi. rewrite !coord_psum by exact Hk.
    rewrite <- rsum_scal. apply rsum_ext. intros j Hj. rewrite !coord_mul by exact Hk. ring.
Qed.

Lemma wraps_01 per u u' : wraps per 0 1 u u' -> (per = true \/ 0 <= u <= 1) -> 0 <= u' <= 1.
Proof. destruct per; cbn. - intros [H _] _. lra. - intros -> [H|H]; [discriminate|exact H]. Qed.

Lemma bpatch_convex d (s : bpatch (vec R d)) u v :
  bp_initialize s = Ok s ->
  (bp_tu s = -1 \/ bp_tu s = bp_degu s)%Z -> (bp_tv s = -1 \/ bp_tv s = bp_degv s)%Z ->
  (bp_peru s = true -> bp_tu s <> 1%Z) -> (bp_perv s = true -> bp_tv s <> 1%Z) ->
  (bp_peru s = true \/ 0 <= u <= 1) -> (bp_perv s = true \/ 0 <= v <= 1) ->
  exists q, bp_evaluate s u v = Ok q /\ convex_comb (bp_grid s) q.
Proof.
  intros Hi T1 T2 P1 P2 Hu Hv. destruct (bpatch_evaluate d s u v Hi T1 T2 P1 P2) as (u' & v' & Wu & Wv & E).
  eexists. split; [exact E|]. apply tensor_convex.
  - apply bezier_simplex. eapply wraps_01; eauto.
  - apply bezier_simplex. eapply wraps_01; eauto.
  - unfold bp_initialize, checked_degree in Hi.
    destruct (Z.leb_spec 0 (bp_degu s)) as [H1|]; [|discriminate]. cbn [assert_ bind] in Hi.
    destruct (Z.leb_spec 0 (bp_degv s)) as [H2|]; [|discriminate]. cbn [assert_ bind] in Hi.
    destruct (_ || _) in Hi; [discriminate|].
    destruct (Z.eqb_spec (zlen (bp_grid s)) ((bp_degu s + 1) * (bp_degv s + 1))) as [Eg|]; [|discriminate].
    unfold zlen in Eg. nia.
Qed.

Lemma spatch_convex d (s : spatch R (vec R d)) u v :
  let p := Z.to_nat (sp_degu s) in let q := Z.to_nat (sp_degv s) in
  sp_initialize s = Ok s -> valid_dir p (sp_ku s) -> valid_dir q (sp_kv s) ->
  knots_apart (/ IZR (10 ^ 16)) (sp_ku s) -> knots_apart (/ IZR (10 ^ 16)) (sp_kv s) ->
  dir_param (sp_peru s) p (sp_ku s) u -> dir_param (sp_perv s) q (sp_kv s) v ->
  exists x, sp_evaluate s u v = Ok x /\ convex_comb (sp_grid s) x.
Proof.
  intros p q Hi Vu Vv Au Av Du Dv. destruct (spatch_evaluate d s u v Hi Vu Vv Au Av Du Dv) as (u' & v' & Wu & Wv & E).
  eexists. split; [exact E|].
  destruct (wraps_param _ _ _ _ _ Du Wu) as [Bu Su]. destruct (wraps_param _ _ _ _ _ Dv Wv) as [Bv Sv].
  apply tensor_convex; [now apply dir_simplex|now apply dir_simplex|].
  pose proof (sr_g _ _ _ (sfit_init s Hi Vu Vv)) as Hg. unfold zlen in Hg. fold p q in Hg |- *. nia.
Qed.

Lemma rpatch_convex d (s : rbpatch R d) u v : rp_ready s -> Forall (fun w => 0 < w) (rp_weights s) ->
  (rp_peru s = true \/ 0 <= u <= 1) -> (rp_perv s = true \/ 0 <= v <= 1) ->
  exists q, rp_evaluate s u v = Ok q /\ convex_comb (rp_grid s) q.
Proof.
  intros Hr HF Hu Hv. destruct (rpatch_evaluate s u v Hr) as (u' & v' & Wu & Wv & E & _).
  pose proof (rp_init_inv _ _ (rr_init _ Hr)) as (HL & H1 & H2 & Hg & _).
  assert (HN : length (rp_weights s) = (S (Z.to_nat (rp_degu s)) * S (Z.to_nat (rp_degv s)))%nat) by (unfold zlen in Hg; rewrite HL in Hg; nia).
  assert (Su : simplex (S (Z.to_nat (rp_degu s))) (bezier_basis (S (Z.to_nat (rp_degu s))) u')) by (apply bezier_simplex; eapply wraps_01; eauto).
  assert (Sv : simplex (S (Z.to_nat (rp_degv s))) (bezier_basis (S (Z.to_nat (rp_degv s))) v')) by (apply bezier_simplex; eapply wraps_01; eauto).
  eexists. split; [apply E, Rgt_not_eq, tensor_weight_pos; assumption|]. apply mean_convex; assumption.
Qed.

Lemma nupatch_convex d (s : nupatch R d) u v : np_valid s -> Forall (fun w => 0 < w) (np_weights s) ->
  dir_param (np_peru s) (Z.to_nat (np_degu s)) (np_ku s) u -> dir_param (np_perv s) (Z.to_nat (np_degv s)) (np_kv s) v ->
  exists q, np_evaluate s u v = Ok q /\ convex_comb (np_grid s) q.
Proof.
  intros Hr HF Du Dv. destruct (nupatch_evaluate s u v Hr Du Dv) as (u' & v' & Wu & Wv & E & _).
  destruct Hr as [Hi Vu Vv Au Av]. apply np_init_sync in Hi. pose proof (np_count s Hi Vu Vv) as HN.
  destruct (wraps_param _ _ _ _ _ Du Wu) as [Bu Su]. destruct (wraps_param _ _ _ _ _ Dv Wv) as [Bv Sv].
  pose proof (dir_simplex _ _ _ Vu Bu Su) as Xu. pose proof (dir_simplex _ _ _ Vv Bv Sv) as Xv.
  eexists. split; [apply E, Rgt_not_eq, tensor_weight_pos; assumption|]. apply mean_convex; try assumption. apply Hi.
Qed.
