(** The control points of split and elevated Bezier curves are convex combinations of the given ones. *)
From Coq Require Import Reals Lra Lia ZArith List Bool.
From Verif Require Import Monad MonadFacts LoopFacts Scalar ScalarFacts Spec SpecFacts Polar ModelCurve CurveFacts ModelBezier
  BezierFacts BezierMath BezierThms BSplineMath ModelBSpline BSplineFacts BSplineInsert3.
Import ListNotations.
Local Open Scope R_scope.

Lemma bezier_split_conv d (cv : bezier (vec R d)) t l r : bz_pts cv <> [] -> 0 < t < 1 ->
  bz_split cv t = Ok [mk_bezier l; mk_bezier r] -> conv_pres (bz_pts cv) l /\ conv_pres (bz_pts cv) r.
Proof.
  intros H Ht. destruct (nonempty_length _ H) as [n Hn].
  unfold bz_split, is_split_point_valid, bz_lower, bz_upper. simpl sle. cbn [s0 s1 R_ops].
  rewrite !Rleb_false by lra. cbn [orb negb].
  assert (Hd : bz_degree cv = Z.of_nat n) by (unfold bz_degree, zlen; lia). rewrite Hd.
  pose proof (arr_pts (bz_pts cv) n Hn) as Ha.
  destruct (bz_split_loop_correct (Z.of_nat n) t (bz_pts cv) _ _ Ha) as (c1 & c2 & E & H1 & H2); [lia|].
  rewrite E, bind_Ok. intros El. injection El as <- <-.
  split; intros Q HQ HF; [apply (arr_Forall Q _ _ _ H1)|apply (arr_Forall Q _ _ _ H2)]; intros i Hi; apply (proj1 (arr_Forall Q _ _ _ Ha)) in HF || idtac;
    pose proof (proj1 (arr_Forall Q _ _ _ Ha) HF) as HF'.
  all: refine (tri_convex Q albz _ t _ _ HQ _ _); [intros j Hj; apply HF'; lia|intros; unfold albz; lra].
Qed.

Lemma bezier_elevate_conv d (cv : bezier (vec R d)) l : bz_pts cv <> [] ->
  bz_elevate_degree cv = Ok {| bz_pts := l; bz_periodic := bz_periodic cv |} -> conv_pres (bz_pts cv) l.
Proof.
  intros H. destruct (nonempty_length _ H) as [n Hn].
  pose proof (arr_pts (bz_pts cv) n Hn) as Ha.
  destruct (bz_elevate_correct cv (Z.of_nat n) _ Ha) as (l' & E & Hl); [lia|].
  rewrite E. intros El. injection El as ->. intros Q HQ HF. pose proof (proj1 (arr_Forall Q _ _ _ Ha) HF) as HF'.
  apply (arr_Forall Q _ _ _ Hl). intros i Hi. cbv beta.
  destruct (Z.eqb_spec i 0); [apply HF'; lia|]. destruct (Z.eqb_spec i (Z.of_nat n + 1)); [apply HF'; lia|].
  apply HQ; [|apply HF'; lia|apply HF'; lia].
  assert (0 < IZR (Z.of_nat n + 1)) by (apply IZR_lt; lia). assert (0 <= IZR i) by (apply IZR_le; lia).
  assert (IZR i <= IZR (Z.of_nat n + 1)) by (apply IZR_le; lia).
  split; [apply Rmult_le_pos; [assumption|left; now apply Rinv_0_lt_compat]|].
  apply (Rmult_le_reg_r (IZR (Z.of_nat n + 1))); [assumption|]. unfold Rdiv. rewrite Rmult_assoc, Rinv_l by lra. lra.
Qed.
