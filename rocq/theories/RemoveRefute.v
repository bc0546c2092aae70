(** Counterexamples for knot removal: more copies than there are; NURBS weights that vanish. *)
From Coq Require Import Reals QArith Qreals Lra Lia ZArith List Bool.
From Verif Require Import Monad MonadFacts Scalar ScalarFacts Spec SpecGeom ModelCurve ModelBezier ModelBSpline ModelRational ModelRemove Transfer TransferBSpline
  TransferCombine BezierThms BSplineRefute ExampleFacts RemoveTol ElevateRefute.
Import ListNotations.
Local Open Scope R_scope.

(** Degree 1 through 0, 0, 1/2, 1, 3 at 0, 1, 2, 3, 4: the knot 2 is simple and superfluous, 1 and 3 are not. *)
Definition excess_pts : list (vec R 1) := map r1 [0; 0; 1/2; 1; 3].
Definition excess_knots : list R := map IZR [0; 0; 1; 2; 3; 4; 4]%Z.
Definition excess_q : bspline Q (vec Q 1) := mk_bspline [q1 (0#1); q1 (0#1); q1 (1#2); q1 (1#1); q1 (3#1)]%Q [0#1;0#1;1#1;2#1;3#1;4#1;4#1]%Q.

Lemma excess_eq : bsR excess_q = mk_bspline excess_pts excess_knots.
Proof.
  unfold bsR, excess_q, mk_bspline, excess_pts, excess_knots, q1, r1. cbn [bs_pts bs_knots bs_periodic map vR fst snd]. rewrite !Q2R_Z.
  replace (Q2R (1 # 2)) with (1/2) by (unfold Q2R; cbn; lra). reflexivity.
Qed.

Lemma excess_changes : exists (pts : list (vec R 1)) (knots : list R) c',
  valid_bspline pts knots /\ knots_apart (/ IZR (10 ^ 16)) knots /\ regular_start pts knots /\
  lower_of pts knots < 2 < upper_of pts knots /\ count_occ Req_EM_T knots 2 = 1%nat /\ (1 <= bspline_degree pts knots)%nat /\
  bs_remove_knot (mk_bspline pts knots) 2 2 0 = Ok (c', 2%Z) /\ ~ In 1 (bs_knots c') /\
  bs_evaluate (mk_bspline pts knots) 3 = Ok (r1 1) /\ bs_evaluate c' 3 = Ok (r1 0).
Proof.
  destruct (@bs_remove_knot Q (vec Q 1) Qn_ops (vecn_ops 1) excess_q 2%Q 2 0%Q) as [[c' r]| | |] eqn:E; [|vm_compute in E; discriminate..].
  exists excess_pts, excess_knots, (bsR c').
  split; [apply valid_of_Z; reflexivity|]. split; [apply apart_of_Z|]. split; [left; cbn; lra|].
  split; [cbn; lra|]. split; [exact (count_IZR [0; 0; 1; 2; 3; 4; 4]%Z 2%Z)|]. split; [cbn; lia|].
  rewrite <- excess_eq, <- (Q2R_Z 2), <- (Q2R_Z 3).
  assert (Hr : r = 2%Z) by (vm_compute in E; congruence). subst r.
  split; [exact (run_remove0_ok _ _ _ _ _ _ E)|]. 
  vm_compute in E. injection E as <-. split; [|split].
  - cbn [bsR bs_knots map]. unfold Q2R. cbn. lra.
  - rewrite (run_evaluate 1 excess_q (3#1) (q1 (1#1)) eq_refl); [|vm_compute; reflexivity]. unfold q1, r1. cbn [vR fst snd]. now rewrite Q2R_Z.
  - match goal with |- bs_evaluate (bsR ?x) _ = _ => rewrite (run_evaluate 1 x (3#1) (q1 (0#1)) eq_refl); [|vm_compute; reflexivity] end.
    unfold q1, r1. cbn [vR fst snd]. now rewrite Q2R_Z.
Qed.

(** A straight line over 0, 1, 2: a second copy of the only inner knot is looked for before the first row. *)
Definition line_q : bspline Q (vec Q 1) := mk_bspline [q1 (0#1); q1 (1#1); q1 (2#1)]%Q [0#1;0#1;1#1;2#1;2#1]%Q.
Lemma excess_crash : exists (pts : list (vec R 1)) (knots : list R),
  valid_bspline pts knots /\ knots_apart (/ IZR (10 ^ 16)) knots /\ regular_start pts knots /\
  lower_of pts knots < 1 < upper_of pts knots /\ count_occ Req_EM_T knots 1 = 1%nat /\ (1 <= bspline_degree pts knots)%nat /\
  bs_remove_knot (mk_bspline pts knots) 1 2 0 = Undef.
Proof.
  exists (map r1 (map IZR [0; 1; 2]%Z)), (map IZR [0; 0; 1; 2; 2]%Z).
  split; [apply valid_of_Z; reflexivity|]. split; [apply apart_of_Z|]. split; [left; cbn; lra|].
  split; [cbn; lra|]. split; [exact (count_IZR [0; 0; 1; 2; 2]%Z 1%Z)|]. split; [cbn; lia|].
  assert (E : mk_bspline (map r1 (map IZR [0; 1; 2]%Z)) (map IZR [0; 0; 1; 2; 2]%Z) = bsR line_q).
  { unfold bsR, line_q, mk_bspline, q1, r1. cbn [bs_pts bs_knots bs_periodic map vR fst snd]. now rewrite !Q2R_Z. }
  rewrite E, <- (Q2R_Z 1). apply run_remove0_undef. vm_compute. reflexivity.
Qed.

(** A rational quadratic with weights 1, 0, 1 after one insertion: all weights are positive, and removal divides by zero. *)
Definition rw_pts : list (vec R 1) := map r1 (map IZR [0; 2; 6; 4]%Z).
Definition rw_ws : list R := [1; 1/2; 1/2; 1].
Definition rw_knots : list R := map IZR [0; 0; 0; 1; 2; 2; 2]%Z.
Definition rw_hom : bspline Q (vec Q 2) :=
  mk_bspline [(0#1, (1#1, tt)); (1#1, (1#2, tt)); (3#1, (1#2, tt)); (4#1, (1#1, tt))] [0#1;0#1;0#1;1#1;2#1;2#1;2#1].

Lemma rw_remove : exists c, mk_nurbs rw_pts rw_knots rw_ws = Ok c /\ nb_remove_knot_any c 1 1 0 = NonFinite.
Proof.
  eexists. split; [reflexivity|]. unfold nb_remove_knot_any.
  match goal with |- context [nb_validate ?c] => set (cc := c) end.
  assert (E0 : nb_validate cc = Ok tt) by reflexivity. rewrite E0, bind_Ok.
  assert (Eh : nb_hom cc = bsR rw_hom).
  { unfold bsR, rw_hom, mk_bspline. cbn [bs_pts bs_knots bs_periodic map vR fst snd]. rewrite !Q2R_Z.
    unfold cc, rw_pts, rw_knots, rw_ws, r1. cbn. repeat (f_equal; try lra); unfold Q2R; cbn; lra. }
  rewrite Eh, remove_any_nonneg by lra.
  destruct (@bs_remove_knot Q (vec Q 2) Qn_ops (vecn_ops 2) rw_hom 1%Q 1 0%Q) as [[c' r]| | |] eqn:E; [|vm_compute in E; discriminate..].
  assert (E' := run_remove0_ok _ _ _ _ _ _ E). change 1%Q with (1#1) in E'. rewrite Q2R_Z in E'.
  rewrite E', bind_Ok. vm_compute in E. injection E as <- <-.
  unfold nb_set_homogeneous, bsR. cbn [bs_pts map]. unfold dehomogenize. cbn [mapM].
  assert (E1 : h_point (vR ((0%Q, (1%Q, tt)) : vec Q 2)) = Ok (r1 0)).
  { unfold h_point, pdivs. cbn [vlast vhead vR fst snd]. change 1%Q with (1#1). change 0%Q with (0#1). rewrite !Q2R_Z.
    replace (seq_ 1 s0) with false by (symmetry; apply Reqb_false; cbn; lra). unfold r1. cbn. do 2 f_equal. lra. }
  assert (E2 : h_point (vR ((2%Q, (0%Q, tt)) : vec Q 2)) = NonFinite).
  { unfold h_point, pdivs. cbn [vlast vhead vR fst snd]. change 0%Q with (0#1). rewrite !Q2R_Z.
    replace (seq_ 0 s0) with true by (symmetry; apply Reqb_true; reflexivity). reflexivity. }
  rewrite E1, E2. reflexivity.
Qed.

Lemma nurbs_remove_fails : exists (pts : list (vec R 1)) (knots ws : list R) c,
  valid_bspline pts knots /\ knots_apart (/ IZR (10 ^ 16)) knots /\
  nth (bspline_degree pts knots) knots 0 < nth (bspline_degree pts knots + 1) knots 0 /\
  lower_of pts knots < 1 < upper_of pts knots /\ count_occ Req_EM_T knots 1 = 1%nat /\ (1 <= bspline_degree pts knots)%nat /\
  Forall (fun w => 0 < w) ws /\ mk_nurbs pts knots ws = Ok c /\ nb_initialize c = Ok c /\ nb_remove_knot_any c 1 1 0 = NonFinite.
Proof.
  destruct rw_remove as (c & E1 & E2). exists rw_pts, rw_knots, rw_ws, c.
  split; [apply valid_of_Z; reflexivity|]. split; [apply apart_of_Z|]. split; [cbn; lra|]. split; [cbn; lra|].
  split; [exact (count_IZR [0; 0; 0; 1; 2; 2; 2]%Z 1%Z)|]. split; [cbn; lia|].
  split; [unfold rw_ws; repeat constructor; lra|]. split; [exact E1|]. split; [|exact E2].
  injection E1 as <-. reflexivity.
Qed.
