(** Property theorems: nearest points on lines, root finding, quadrature, arc length, sampling, intersections and OBJ export
    (C30, C39, C46-C49, C51, C74, C75, C97).  Statements only; the proofs are in LineThms.v, QuadratureThms.v, ArcLengthThms.v,
    IntersectThms.v, ExportThms.v and RootsThms.v.

    [edist] is the Euclidean distance; a curve or patch is given by its virtual functions ([curve_ops], [patch_ops]),
    which may be any functions unless a hypothesis says otherwise. *)
From Coq Require Import Reals Lra Lia ZArith QArith List Sorted.
From Verif Require Import Monad MonadFacts Scalar ScalarFacts Spec SpecGeom SpecPatch SpecObj ModelCurve ModelPatchBase ModelBezier ModelLine ModelRoots
  ModelQuadrature ModelIntersect ModelExport RationalThms CurveThms LineThms QuadratureThms ArcLengthThms IntersectThms ExportThms PropCurve SpecRoots RootsThms.
Import ListNotations.
Local Open Scope R_scope.

(** C39: the line from its location along its direction, over any range. *)
Theorem C39_line : forall d (c : line R (vec R d)) p lo hi level, ln_direction c <> p0 -> lo <= hi ->
  exists t, ln_approximate_inverse_evaluate c p lo hi level = Ok t /\ lo <= t <= hi /\
    forall x qt qx, lo <= x <= hi -> ln_evaluate c t = Ok qt -> ln_evaluate c x = Ok qx -> edist p qt <= edist p qx.
Proof. exact line_nearest. Qed.
Print Assumptions C39_line.
Theorem C39_line_domain : forall d (c : line R (vec R d)) p, ln_direction c <> p0 -> ln_lower c <= ln_upper c ->
  exists t, ln_inverse_evaluate c p = Ok t /\ ln_in_domain c t = true /\
    forall x qt qx, ln_in_domain c x = true -> ln_evaluate c t = Ok qt -> ln_evaluate c x = Ok qx -> edist p qt <= edist p qx.
Proof. exact line_nearest_domain. Qed.
Print Assumptions C39_line_domain.
Theorem C39_bezier1 : forall d (a b : vec R d) per p, a <> b ->
  let c := {| bz_pts := [a; b]; bz_periodic := per |} in
  exists t, bz1_inverse_evaluate c p = Ok t /\ 0 <= t <= 1 /\
    forall x qt qx, 0 <= x <= 1 -> bz1_evaluate c t = Ok qt -> bz1_evaluate c x = Ok qx -> edist p qt <= edist p qx.
Proof. exact bz1_nearest. Qed.
Print Assumptions C39_bezier1.
(** A line without direction: division by zero. *)
Theorem C39_degenerate : forall d (c : line R (vec R d)) p lo hi level, ln_direction c = p0 ->
  ln_approximate_inverse_evaluate c p lo hi level = NonFinite.
Proof. exact line_degenerate. Qed.
Print Assumptions C39_degenerate.

(** The line (1,0) + t (3,4) on [0,1], nearest to (5,3) at t = 24/25; nearest to (9,9) at the end. *)
Definition line_q : line Q (vec Q 2) := {| ln_location := ((1, (0, tt))%Q : vec Q 2); ln_direction := ((3, (4, tt))%Q : vec Q 2); ln_lower := 0%Q; ln_upper := 1%Q |}.
Example C39_run : (exists t, ln_inverse_evaluate line_q ((5, (3, tt))%Q : vec Q 2) = Ok t /\ (t == 24 # 25)%Q) /\
  ln_inverse_evaluate line_q ((9, (9, tt))%Q : vec Q 2) = Ok 1%Q.
Proof. split; [eexists; split; vm_compute; reflexivity|vm_compute; reflexivity]. Qed.
Definition line_r : line R (vec R 3) := {| ln_location := ((1, (0, (2, tt))) : vec R 3); ln_direction := ((3, (4, (-1, tt))) : vec R 3); ln_lower := 0; ln_upper := 1 |}.
Example C39_hyp : ln_direction line_r <> p0 /\ ln_lower line_r <= ln_upper line_r.
Proof. split; [intros E; apply (f_equal fst) in E; cbn in E; lra|cbn; lra]. Qed.

(** C30: roots appended to those already in the list.  Degree 1 and 2 with leading coefficient above the tolerance. *)
Theorem C30_linear : forall c0 c1 rest t0 t1 eps roots, 0 < eps -> eps <= Rabs c1 ->
  exists l, find_roots_1 (c0 :: c1 :: rest) roots t0 t1 eps = Ok (roots ++ l) /\
    (forall x, In x l <-> c0 + c1 * x = 0 /\ t0 <= x <= t1) /\ (length l <= 1)%nat.
Proof. exact roots1. Qed.
Print Assumptions C30_linear.
(** Missing: discriminants in (0, eps); see [C30_double_root_refuted]. *)
Theorem C30_quadratic_partial : forall c0 c1 c2 rest t0 t1 eps roots, 0 < eps -> eps <= Rabs c2 ->
  (c1 * c1 - 4 * c2 * c0 < 0 \/ c1 * c1 - 4 * c2 * c0 = 0 \/ eps <= c1 * c1 - 4 * c2 * c0) ->
  exists l, find_roots_2 (c0 :: c1 :: c2 :: rest) roots t0 t1 eps = Ok (roots ++ l) /\ NoDup l /\
    forall x, In x l <-> c0 + c1 * x + c2 * x ^ 2 = 0 /\ t0 <= x <= t1.
Proof. exact roots2. Qed.
Print Assumptions C30_quadratic_partial.
(** A leading coefficient below the tolerance is dropped. *)
Theorem C30_drop_quadratic : forall c0 c1 c2 rest t0 t1 eps roots, Rabs c2 < eps ->
  find_roots_2 (c0 :: c1 :: c2 :: rest) roots t0 t1 eps = find_roots_1 (c0 :: c1 :: c2 :: rest) roots t0 t1 eps.
Proof. exact roots2_drop. Qed.
Print Assumptions C30_drop_quadratic.
Theorem C30_drop_linear : forall c0 c1 rest t0 t1 eps roots, Rabs c1 < eps ->
  find_roots_1 (c0 :: c1 :: rest) roots t0 t1 eps = find_roots_0 (c0 :: c1 :: rest) roots t0 t1 eps.
Proof. exact roots1_drop. Qed.
Print Assumptions C30_drop_linear.
Theorem C30_constant : forall c0 rest t0 t1 eps roots,
  find_roots_0 (c0 :: rest) roots t0 t1 eps = if Rlt_dec (Rabs c0) eps then Throw infinite_root_error else Ok roots.
Proof. exact roots0. Qed.
Print Assumptions C30_constant.
(** Every degree, whatever the eigenvalue solver returns: only parameters of the interval are reported. *)
Theorem C30_range : forall eigen n coeffs t0 t1 eps roots l x, find_roots eigen n coeffs roots t0 t1 eps = Ok l ->
  In x l -> In x roots \/ t0 <= x <= t1.
Proof. exact roots_range. Qed.
Print Assumptions C30_range.
(** Two close roots are reported as one number in between, which is no root. *)
Theorem C30_double_root_refuted : exists c0 c1 c2, Rabs c2 >= 1 / 10 ^ 8 /\
  find_roots_2 [c0; c1; c2] [] (-1) 1 (1 / 10 ^ 8) = Ok [0] /\ c0 + c1 * 0 + c2 * 0 ^ 2 <> 0.
Proof. exact roots2_merge. Qed.
Print Assumptions C30_double_root_refuted.
(** x^2 - 3x + 2 and tolerance 1/100: discriminant 1. *)
Example C30_hyp : (0 < 1 / 100 /\ 1 / 100 <= Rabs 1 /\ 1 / 100 <= (-3) * (-3) - 4 * 1 * 2).
Proof. rewrite Rabs_R1. lra. Qed.
Example C30_run : find_roots_1 ([-1; 2]%Q) ([7]%Q) 0%Q 1%Q (1 # 100)%Q = Ok [7; (1 # 2)]%Q.
Proof. vm_compute. reflexivity. Qed.

(** C97: degree three and more.  [eigenvalue_solver Ok eigen]: Eigen lists exactly the complex eigenvalues of a matrix, when it succeeds.
    A value is reported exactly when it is the real part of a complex root whose modulus is within eps of it, in the interval. *)
Theorem C97_reported : forall eigen (n : nat) (coeffs roots : list R) (t0 t1 eps : R), (3 <= n)%nat -> (n < length coeffs)%nat -> t0 < t1 -> 0 < eps ->
  eps <= Rabs (nth n coeffs 0) -> forall l, eigenvalue_solver Ok eigen -> find_roots eigen n coeffs roots t0 t1 eps = Ok l ->
  forall x, In x l <-> In x roots \/ (t0 <= x <= t1 /\ exists y : R, cpoly n coeffs (x, y) = (0, 0) /\ sqrt (x * x + y * y) - Rabs x <= eps).
Proof. exact high_roots. Qed.
Print Assumptions C97_reported.
(** No real root in the interval is missed. *)
Theorem C97_complete : forall eigen (n : nat) (coeffs roots : list R) (t0 t1 eps : R), (3 <= n)%nat -> (n < length coeffs)%nat -> t0 < t1 -> 0 < eps ->
  eps <= Rabs (nth n coeffs 0) -> forall l, eigenvalue_solver Ok eigen -> find_roots eigen n coeffs roots t0 t1 eps = Ok l ->
  forall x, t0 <= x <= t1 -> rsum (S n) (fun i => nth i coeffs 0 * x ^ i) = 0 -> In x l.
Proof. exact high_complete. Qed.
Print Assumptions C97_complete.
(** Missing: complex roots close to the real axis; see [C97_near_real_refuted]. *)
Theorem C97_sound_partial : forall eigen (n : nat) (coeffs roots : list R) (t0 t1 eps : R), (3 <= n)%nat -> (n < length coeffs)%nat -> t0 < t1 -> 0 < eps ->
  eps <= Rabs (nth n coeffs 0) -> forall l, eigenvalue_solver Ok eigen ->
  (forall x y : R, cpoly n coeffs (x, y) = (0, 0) -> y <> 0 -> t0 <= x <= t1 -> eps < sqrt (x * x + y * y) - Rabs x) ->
  find_roots eigen n coeffs roots t0 t1 eps = Ok l ->
  forall x, In x l <-> In x roots \/ (t0 <= x <= t1 /\ rsum (S n) (fun i => nth i coeffs 0 * x ^ i) = 0).
Proof. exact high_real_roots. Qed.
Print Assumptions C97_sound_partial.
Theorem C97_drop : forall eigen (n : nat) (coeffs roots : list R) (t0 t1 eps : R), (3 <= n)%nat -> (n < length coeffs)%nat -> t0 < t1 ->
  Rabs (nth n coeffs 0) < eps -> find_roots eigen n coeffs roots t0 t1 eps = find_roots eigen (n - 1) coeffs roots t0 t1 eps.
Proof. exact high_drop. Qed.
Print Assumptions C97_drop.
(** Two complex roots 1/2 +- i/10^5, no real root in [0,1]: 1/2 is reported at tolerance 10^-8. *)
Theorem C97_near_real_refuted : exists (coeffs : list R) eigen (l : list R), 1 / 10 ^ 8 <= Rabs (nth 3 coeffs 0) /\ eigenvalue_solver Ok eigen /\
  find_roots eigen 3 coeffs [] 0 1 (1 / 10 ^ 8) = Ok l /\ In (1 / 2) l /\
  forall x, 0 <= x <= 1 -> rsum 4 (fun i => nth i coeffs 0 * x ^ i) <> 0.
Proof. exact near_real_refuted. Qed.
Print Assumptions C97_near_real_refuted.
(** (x-1)(x-2)(x-3) on [0, 5/2]: all hypotheses of the theorems above. *)
Example C97_hyp : exists eigen l, eigenvalue_solver Ok eigen /\ find_roots eigen 3 three_roots [] 0 (5 / 2) (1 / 10 ^ 8) = Ok l /\
  (forall x y : R, cpoly 3 three_roots (x, y) = (0, 0) -> y <> 0 -> 0 <= x <= 5 / 2 -> 1 / 10 ^ 8 < sqrt (x * x + y * y) - Rabs x) /\
  1 / 10 ^ 8 <= Rabs (nth 3 three_roots 0).
Proof. exact three_roots_case. Qed.

(** C48: the rules with 2, 3, 4 and 5 nodes; F is an antiderivative of the polynomial. *)
Theorem C48_rule2 : forall (coeffs : list R) F t0 t1, (forall t, derivable_pt_lim F t (rsum (length coeffs) (fun i => nth i coeffs 0 * t ^ i))) ->
  (length coeffs <= 4)%nat -> quadrature2 (fun t => Ok (rsum (length coeffs) (fun i => nth i coeffs 0 * t ^ i))) t0 t1 = Ok (F t1 - F t0).
Proof. exact gauss2. Qed.
Print Assumptions C48_rule2.
Theorem C48_rule3 : forall (coeffs : list R) F t0 t1, (forall t, derivable_pt_lim F t (rsum (length coeffs) (fun i => nth i coeffs 0 * t ^ i))) ->
  (length coeffs <= 6)%nat -> quadrature3 (fun t => Ok (rsum (length coeffs) (fun i => nth i coeffs 0 * t ^ i))) t0 t1 = Ok (F t1 - F t0).
Proof. exact gauss3. Qed.
Print Assumptions C48_rule3.
Theorem C48_rule4 : forall (coeffs : list R) F t0 t1, (forall t, derivable_pt_lim F t (rsum (length coeffs) (fun i => nth i coeffs 0 * t ^ i))) ->
  (length coeffs <= 8)%nat -> quadrature4 (fun t => Ok (rsum (length coeffs) (fun i => nth i coeffs 0 * t ^ i))) t0 t1 = Ok (F t1 - F t0).
Proof. exact gauss4. Qed.
Print Assumptions C48_rule4.
Theorem C48_rule5 : forall (coeffs : list R) F t0 t1, (forall t, derivable_pt_lim F t (rsum (length coeffs) (fun i => nth i coeffs 0 * t ^ i))) ->
  (length coeffs <= 10)%nat -> quadrature5 (fun t => Ok (rsum (length coeffs) (fun i => nth i coeffs 0 * t ^ i))) t0 t1 = Ok (F t1 - F t0).
Proof. exact gauss5. Qed.
Print Assumptions C48_rule5.
(** 3 + 2t with antiderivative 3t + t^2. *)
Example C48_hyp : let coeffs := [3; 2] in forall t, derivable_pt_lim (fun t => 3 * t + t * t) t (rsum (length coeffs) (fun i => nth i coeffs 0 * t ^ i)).
Proof.
  intros coeffs t. unfold rsum, coeffs. cbn [length psum nth padd p0 scal_point_ops sadd s0 R_ops pow].
  replace (0 + 3 * 1 + 2 * (t * 1)) with (3 * 1 + (1 * t + t * 1)) by ring.
  apply (derivable_pt_lim_plus (fun t => 3 * t) (fun t => t * t)); [apply derivable_pt_lim_scal, derivable_pt_lim_id|].
  apply (derivable_pt_lim_mult (fun t => t) (fun t => t)); apply derivable_pt_lim_id.
Qed.

(** C47: a straight curve of constant velocity v.  Missing: the length itself for level >= 1, which comes out too small
    for every tolerance ([C47_length_refuted]); and additivity when the tolerance can stop the refinement early. *)
Theorem C47_level0_partial : forall d (c : curve_ops R (vec R d)) v t0 t1 tol, (forall t, c_d1 c t = Ok v) ->
  arc_length c t0 t1 0 tol = Ok ((t1 - t0) * edist v p0).
Proof. exact arc_const_level0. Qed.
Print Assumptions C47_level0_partial.
Theorem C47_length_refuted : forall d (c : curve_ops R (vec R d)) v t0 t1 level tol, (forall t, c_d1 c t = Ok v) -> v <> p0 -> t0 < t1 -> (1 <= level)%Z ->
  exists r, arc_length c t0 t1 level tol = Ok r /\ r < (t1 - t0) * edist v p0.
Proof. exact arc_const_short. Qed.
Print Assumptions C47_length_refuted.
(** The defect is a factor that depends on the level only (if the tolerance never stops the refinement). *)
Theorem C47_proportional_partial : forall level, (0 <= level)%Z -> exists k, forall d (c : curve_ops R (vec R d)) v t0 t1 tol, (forall t, c_d1 c t = Ok v) -> tol <= 0 ->
  arc_length c t0 t1 level tol = Ok (k * ((t1 - t0) * edist v p0)).
Proof. exact arc_const_prop. Qed.
Print Assumptions C47_proportional_partial.
Theorem C47_additive_partial : forall d (c : curve_ops R (vec R d)) v a b e level tol, (forall t, c_d1 c t = Ok v) -> (0 <= level)%Z -> tol <= 0 ->
  exists x y, arc_length c a b level tol = Ok x /\ arc_length c b e level tol = Ok y /\ arc_length c a e level tol = Ok (x + y).
Proof. exact arc_const_add. Qed.
Print Assumptions C47_additive_partial.
Example C47_hyp : (forall t, c_d1 (ln_ops line_r) t = Ok ((3, (4, (-1, tt))) : vec R 3)) /\ ((3, (4, (-1, tt))) : vec R 3) <> p0.
Proof. split; [reflexivity|]. intros E; apply (f_equal fst) in E; cbn in E; lra. Qed.
(** The trapezoid rule for a curve of speed 1 on [0,1] with one halving: 1/3 in place of 1. *)
Example C47_run : exists r, romberg (fun _ => Ok 1%Q) 0%Q 1%Q 1 0%Q = Ok r /\ (r == 1 # 3)%Q.
Proof. eexists. split; [vm_compute; reflexivity|reflexivity]. Qed.

(** C46: sampling. *)
Theorem C46_uniform_domain : forall d fuel (c : curve_ops R (vec R d)) n a b, (2 <= n)%Z -> exists l,
  sample fuel c n a b UNIFORM_DOMAIN = Ok l /\ Z.of_nat (length l) = n /\
  (forall i, (i < length l)%nat -> nth i l 0 = a + (b - a) * (INR i / IZR (n - 1))) /\
  nth 0 l 0 = a /\ nth (length l - 1) l 0 = b /\ (a < b -> forall i j, (i < j < length l)%nat -> nth i l 0 < nth j l 0).
Proof. exact uniform_domain_full. Qed.
Print Assumptions C46_uniform_domain.
Theorem C46_adaptive : forall d fuel (c : curve_ops R (vec R d)) n a b l, a < b -> sample fuel c n a b ADAPTIVE = Ok l ->
  exists m, l = a :: m ++ [b] /\ StronglySorted Rlt l.
Proof. exact sample_adaptive. Qed.
Print Assumptions C46_adaptive.
(** By arc length: both ends and the requested number are there ... *)
Theorem C46_range_ends : forall d fuel (c : curve_ops R (vec R d)) n a b l, sample fuel c n a b UNIFORM_RANGE = Ok l ->
  exists m, l = a :: m ++ [b] /\ Z.of_nat (length l) = n.
Proof. exact sample_range_ends. Qed.
Print Assumptions C46_range_ends.
(** ... but on a part [1/2, 1] of the unit segment the sample between the ends lies outside that part. *)
Theorem C46_range_refuted : forall fuel, exists t, sample fuel (ln_ops unit_line) 3 (1 / 2) 1 UNIFORM_RANGE = Ok [1 / 2; t; 1] /\ t < 1 / 2.
Proof. exact range_refuted. Qed.
Print Assumptions C46_range_refuted.
Example C46_run : sample 5 (ln_ops line_q) 5 0%Q 1%Q UNIFORM_DOMAIN = Ok [0; (1 # 4); (1 # 2); (3 # 4); 1]%Q.
Proof. vm_compute. reflexivity. Qed.
(** On a curve that claims to stand still one interval is enough, so the hypothesis of [C46_adaptive] can be met. *)
Example C46_hyp : exists l, sample 1 {| c_lower := 0; c_upper := 1; c_eval := fun t => Ok ((t, tt) : vec R 1); c_d1 := fun _ => Ok ((0, tt) : vec R 1); c_d2 := fun _ => Ok ((0, tt) : vec R 1) |}
    4 0 1 ADAPTIVE = Ok l.
Proof.
  set (c := {| c_lower := _ |}). destruct (arc_const 1 c ((0, tt) : vec R 1) 0 1 default_level default_tol) as (i & _ & _ & E); [reflexivity|unfold default_level; lia|].
  assert (E0 : edist ((0, tt) : vec R 1) p0 = 0) by (change ((0, tt) : vec R 1) with (p0 : vec R 1); unfold edist; rewrite <- sqrt_0; f_equal; unfold rsum; cbn; ring).
  rewrite E0, table_scale in E. replace ((1 - 0) * 0 * table 1 i i) with 0 in E by ring. eexists. unfold sample.
  change (1 <? 4)%Z with true. cbn [assert_]. rewrite bind_Ok, E, bind_Ok. rewrite !ddiv_nz by (cbn [sofZ R_ops]; lra). rewrite bind_Ok, ddiv_nz by (cbn [sofZ R_ops]; lra). rewrite bind_Ok.
  cbn [adaptive_sample]. rewrite E, bind_Ok. cbn [c_eval c]. rewrite !bind_Ok. cbv zeta. rewrite edist_0_norm. cbn [slt ssub sofZ R_ops].
  rewrite Rltb_false; [rewrite bind_Ok; reflexivity|]. match goal with |- _ - edist ?x ?y <= _ => pose proof (edist_pos 1 x y) end. lra.
Qed.

(** C49: what is reported as converged. *)
Theorem C49_curve_plane : forall (c : curve_ops R (vec R 3)) pl t0 n tol t, intersect_curve_plane c pl t0 n tol = Ok (t, true) ->
  exists x y z, c_eval c t = Ok ((x, (y, (z, tt))) : vec R 3) /\ Rabs (pl_a pl * x + pl_b pl * y + pl_c pl * z + pl_d pl) < tol.
Proof. exact curve_plane_sound. Qed.
Print Assumptions C49_curve_plane.
(** Missing: p and q (almost) equal; see [C49_degenerate_refuted]. *)
Theorem C49_patch_plane_partial : forall (s : patch_ops R (vec R 3)) pu pv qu qv pl u0 v0 n tol u v,
  (/ 10 ^ 12 <= Rabs (pu - qu) \/ / 10 ^ 12 <= Rabs (pv - qv)) ->
  intersect_patch_plane s pu pv qu qv pl u0 v0 n tol = Ok (u, v, true) ->
  exists k x y z, u = pu + k * (qu - pu) /\ v = pv + k * (qv - pv) /\
    s_eval s u v = Ok ((x, (y, (z, tt))) : vec R 3) /\ Rabs (pl_a pl * x + pl_b pl * y + pl_c pl * z + pl_d pl) < tol.
Proof. exact patch_plane_sound. Qed.
Print Assumptions C49_patch_plane_partial.
(** The patch z = h below the plane z = 0, at whatever distance, and a segment of length zero: "converged". *)
Theorem C49_degenerate_refuted : forall h tol u v n, 0 < tol -> h < 0 ->
  intersect_patch_plane (flat h) u v u v {| pl_a := 0; pl_b := 0; pl_c := 1; pl_d := 0 |} u v n tol = Ok (u, v, true).
Proof. exact patch_plane_degenerate. Qed.
Print Assumptions C49_degenerate_refuted.
Theorem C49_curve_patch : forall (c : curve_ops R (vec R 3)) s t0 u0 v0 n tol t u v, 0 <= tol ->
  intersect_curve_patch c s t0 u0 v0 n tol = Ok (t, u, v, true) ->
  exists a b, c_eval c t = Ok a /\ s_eval s u v = Ok b /\ edist a b < tol.
Proof. exact curve_patch_sound. Qed.
Print Assumptions C49_curve_patch.
(** The vertical line through (1,2) against the patch z = 3 and against the plane x + z = 4. *)
Definition vertical_q : line Q (vec Q 3) := {| ln_location := ((1, (2, (0, tt)))%Q : vec Q 3); ln_direction := ((0, (0, (1, tt)))%Q : vec Q 3); ln_lower := 0%Q; ln_upper := 9%Q |}.
Definition flat_q (h : Q) : patch_ops Q (vec Q 3) :=
  {| s_ulo := 0%Q; s_uhi := 1%Q; s_vlo := 0%Q; s_vhi := 1%Q; s_eval := fun u v => Ok ((u, (v, (h, tt))) : vec Q 3);
     s_du := fun _ _ => Ok ((1, (0, (0, tt)))%Q : vec Q 3); s_dv := fun _ _ => Ok ((0, (1, (0, tt)))%Q : vec Q 3);
     s_duu := fun _ _ => Ok p0; s_dvv := fun _ _ => Ok p0; s_duv := fun _ _ => Ok p0 |}.
Example C49_run :
  (exists t u v, intersect_curve_patch (ln_ops vertical_q) (flat_q 3) 0%Q 0%Q 0%Q 10 (1 # 1000)%Q = Ok (t, u, v, true) /\ (t == 3)%Q /\ (u == 1)%Q /\ (v == 2)%Q) /\
  (exists t, intersect_curve_plane (ln_ops vertical_q) {| pl_a := 1%Q; pl_b := 0%Q; pl_c := 1%Q; pl_d := (-4)%Q |} 0%Q 10 (1 # 1000)%Q = Ok (t, true) /\ (t == 3)%Q).
Proof. split; [do 3 eexists; split; [vm_compute; reflexivity|repeat split]|eexists; split; [vm_compute; reflexivity|reflexivity]]. Qed.

(** C75: the start value and the Newton steps. *)
Theorem C75_curve_plane_start : forall (c : curve_ops R (vec R 3)) pl t0 n tol x y z, (1 <= n)%Z ->
  c_eval c t0 = Ok ((x, (y, (z, tt))) : vec R 3) -> Rabs (pl_a pl * x + pl_b pl * y + pl_c pl * z + pl_d pl) < tol ->
  intersect_curve_plane c pl t0 n tol = Ok (t0, true).
Proof. exact curve_plane_start. Qed.
Print Assumptions C75_curve_plane_start.
Theorem C75_line_plane : forall (l : line R (vec R 3)) pl t0 n tol px py pz dx dy dz, (2 <= n)%Z -> 0 < tol ->
  ln_location l = ((px, (py, (pz, tt))) : vec R 3) -> ln_direction l = ((dx, (dy, (dz, tt))) : vec R 3) ->
  pl_a pl * dx + pl_b pl * dy + pl_c pl * dz <> 0 ->
  Rabs (pl_a pl * (px + t0 * dx) + pl_b pl * (py + t0 * dy) + pl_c pl * (pz + t0 * dz) + pl_d pl) <= snummax ->
  exists t, intersect_curve_plane (ln_ops l) pl t0 n tol = Ok (t, true).
Proof. exact line_plane_converges. Qed.
Print Assumptions C75_line_plane.
(** Patch against plane: the first end p of the segment is on the plane x = 0, the start value is p, and the first iterate is
    the other end. *)
Theorem C75_patch_plane_start_refuted : forall tol, 0 < tol <= 1 ->
  exists u v, intersect_patch_plane (flat 0) 0 0 1 0 {| pl_a := 1; pl_b := 0; pl_c := 0; pl_d := 0 |} 0 0 1 tol = Ok (u, v, false).
Proof. exact patch_plane_start. Qed.
Print Assumptions C75_patch_plane_start_refuted.
(** An affine patch with different plane values at the two ends of the segment, any start value on the segment: converges in two iterations. *)
Theorem C75_affine_patch_plane : forall (s : patch_ops R (vec R 3)) (pu pv qu qv : R) pl (k : R) n (tol : R) (ox oy oz ax ay az bx by_ bz : R),
  (2 <= n)%Z -> 0 < tol -> / 10 ^ 12 <= Rabs (pu - qu) \/ / 10 ^ 12 <= Rabs (pv - qv) ->
  (forall u v, s_eval s u v = Ok ((ox + u * ax + v * bx, (oy + u * ay + v * by_, (oz + u * az + v * bz, tt))) : vec R 3)) ->
  (forall u v, s_du s u v = Ok ((ax, (ay, (az, tt))) : vec R 3)) -> (forall u v, s_dv s u v = Ok ((bx, (by_, (bz, tt))) : vec R 3)) ->
  let value u v := pl_a pl * (ox + u * ax + v * bx) + pl_b pl * (oy + u * ay + v * by_) + pl_c pl * (oz + u * az + v * bz) + pl_d pl in
  value pu pv <> value qu qv -> Rabs (value pu pv) <= snummax -> Rabs (value qu qv) <= snummax -> 0 <= k <= 1 ->
  exists u v, intersect_patch_plane s pu pv qu qv pl (pu + k * (qu - pu)) (pv + k * (qv - pv)) n tol = Ok (u, v, true).
Proof. exact affine_patch_plane. Qed.
Print Assumptions C75_affine_patch_plane.
(** The patch (u,v,0), the plane x = 1/2 and the segment from (0,0) to (1,0). *)
Example C75_hyp_affine : (forall u v, s_eval (flat 0) u v = Ok ((0 + u * 1 + v * 0, (0 + u * 0 + v * 1, (0 + u * 0 + v * 0, tt))) : vec R 3)) /\
  / 10 ^ 12 <= Rabs (0 - 1) /\ 1 * (0 + 0 * 1 + 0 * 0) + - (1 / 2) <> 1 * (0 + 1 * 1 + 0 * 0) + - (1 / 2) /\
  Rabs (1 * (0 + 0 * 1 + 0 * 0) + - (1 / 2)) <= snummax /\ Rabs (1 * (0 + 1 * 1 + 0 * 0) + - (1 / 2)) <= snummax.
Proof.
  split; [intros u v; cbn [flat s_eval]; repeat f_equal; ring|]. pose proof snummax_big. split; [rewrite Rabs_left by lra; apply Rmult_le_reg_l with (10 ^ 12); lra|].
  split; [lra|]. split; apply Rabs_le; lra.
Qed.
(** Curve against patch: gradient and Hessian of half the squared distance, and the linear system solved with them. *)
Theorem C75_newton_system : forall (c : curve_ops R (vec R 3)) (s : patch_ops R (vec R 3)) (C C1 C2 : R -> vec R 3) (S Su Sv Suu Svv Suv : R -> R -> vec R 3)
    (f g1 g2 g3 : R -> R -> R -> R) (m : R -> R -> R -> mat3 R),
  (forall t, c_eval c t = Ok (C t) /\ c_d1 c t = Ok (C1 t) /\ c_d2 c t = Ok (C2 t) /\ vderiv C t (C1 t) /\ vderiv C1 t (C2 t)) ->
  (forall u v, s_eval s u v = Ok (S u v) /\ s_du s u v = Ok (Su u v) /\ s_dv s u v = Ok (Sv u v) /\ s_duu s u v = Ok (Suu u v) /\
    s_dvv s u v = Ok (Svv u v) /\ s_duv s u v = Ok (Suv u v) /\ partials S Su Sv Suu Svv Suv u v) ->
  (forall t u v, objective c s t u v = Ok (f t u v, (g1 t u v, g2 t u v, g3 t u v), m t u v)) ->
  forall t u v,
    f t u v = edist (C t) (S u v) ^ 2 /\
    (derivable_pt_lim (fun x => f x u v / 2) t (g1 t u v) /\ derivable_pt_lim (fun x => f t x v / 2) u (g2 t u v) /\
     derivable_pt_lim (fun x => f t u x / 2) v (g3 t u v)) /\
    (derivable_pt_lim (fun x => g1 x u v) t (m00 (m t u v)) /\ derivable_pt_lim (fun x => g1 t x v) u (m01 (m t u v)) /\
     derivable_pt_lim (fun x => g1 t u x) v (m02 (m t u v))) /\
    (derivable_pt_lim (fun x => g2 x u v) t (m10 (m t u v)) /\ derivable_pt_lim (fun x => g2 t x v) u (m11 (m t u v)) /\
     derivable_pt_lim (fun x => g2 t u x) v (m12 (m t u v))) /\
    (derivable_pt_lim (fun x => g3 x u v) t (m20 (m t u v)) /\ derivable_pt_lim (fun x => g3 t x v) u (m21 (m t u v)) /\
     derivable_pt_lim (fun x => g3 t u x) v (m22 (m t u v))).
Proof. exact newton_system. Qed.
Print Assumptions C75_newton_system.
Theorem C75_newton_step : forall (m : mat3 R) x y z a b c,
  det3 m <> 0 -> inverse_times m x y z = (a, b, c) ->
  m00 m * a + m01 m * b + m02 m * c = x /\ m10 m * a + m11 m * b + m12 m * c = y /\ m20 m * a + m21 m * b + m22 m * c = z.
Proof. exact inverse_times_solves. Qed.
Print Assumptions C75_newton_step.
(** The line against the patch z = 1: the hypotheses on curve and patch. *)
Example C75_hyp : exists (C C1 C2 : R -> vec R 3) (S Su Sv Suu Svv Suv : R -> R -> vec R 3),
  (forall t, c_eval (ln_ops line_r) t = Ok (C t) /\ c_d1 (ln_ops line_r) t = Ok (C1 t) /\ c_d2 (ln_ops line_r) t = Ok (C2 t) /\ vderiv C t (C1 t) /\ vderiv C1 t (C2 t)) /\
  (forall u v, s_eval (flat 1) u v = Ok (S u v) /\ s_du (flat 1) u v = Ok (Su u v) /\ s_dv (flat 1) u v = Ok (Sv u v) /\ s_duu (flat 1) u v = Ok (Suu u v) /\
    s_dvv (flat 1) u v = Ok (Svv u v) /\ s_duv (flat 1) u v = Ok (Suv u v) /\ partials S Su Sv Suu Svv Suv u v) /\
  forall t u v, exists f g1 g2 g3 m, objective (ln_ops line_r) (flat 1) t u v = Ok (f, (g1, g2, g3), m).
Proof.
  assert (Lin : forall a b x, derivable_pt_lim (fun x => a + x * b) x b).
  { intros a b x. apply (RationalThms.derivable_pt_lim_val _ _ (0 + (1 * b + x * 0))); [|ring]. apply (derivable_pt_lim_plus (fun _ => a) (fun x => x * b)); [apply derivable_pt_lim_const|].
    apply (derivable_pt_lim_mult (fun x => x) (fun _ => b)); [apply derivable_pt_lim_id|apply derivable_pt_lim_const]. }
  exists (fun t => (1 + t * 3, (0 + t * 4, (2 + t * -1, tt)))), (fun _ => (3, (4, (-1, tt)))), (fun _ => p0),
    (fun u v => (u, (v, (1, tt)))), (fun _ _ => (1, (0, (0, tt)))), (fun _ _ => (0, (1, (0, tt)))), (fun _ _ => p0), (fun _ _ => p0), (fun _ _ => p0).
  split; [|split].
  - intros t. do 3 (split; [reflexivity|]). split; intros i Hi; (destruct i as [|[|[|i]]]; [| | |lia]); cbn; auto; apply derivable_pt_lim_const.
  - intros u v. do 6 (split; [reflexivity|]). repeat split; intros i Hi; (destruct i as [|[|[|i]]]; [| | |lia]); cbn;
      first [apply derivable_pt_lim_const|apply derivable_pt_lim_id].
  - intros t u v. do 5 eexists. reflexivity.
Qed.

Example C75_hyp_line : ln_location line_r = ((1, (0, (2, tt))) : vec R 3) /\ ln_direction line_r = ((3, (4, (-1, tt))) : vec R 3) /\ 1 * 3 + 1 * 4 + 1 * -1 <> 0 /\
  Rabs (1 * (1 + 0 * 3) + 1 * (0 + 0 * 4) + 1 * (2 + 0 * -1) + -2) <= snummax.
Proof. split; [reflexivity|]. split; [reflexivity|]. split; [lra|]. replace (1 * (1 + 0 * 3) + 1 * (0 + 0 * 4) + 1 * (2 + 0 * -1) + -2) with 1 by ring. rewrite Rabs_R1. exact snummax_big. Qed.
Example C75_hyp_step : det3 {| m00 := 2; m01 := 1; m02 := 0; m10 := 1; m11 := 3; m12 := 1; m20 := 0; m21 := 1; m22 := 4 |} <> 0.
Proof. unfold det3. cbn. lra. Qed.

(** C51: OBJ files.  One or two curves (or a patch): each line element joins consecutive points written for its own curve. *)
Theorem C51_one_curve : forall P (c : curve_ops R P) file, save_obj_curve c = Ok file ->
  Forall2 (fun k p => c_eval c (IZR (Z.of_nat k) / 100) = Ok p) (seq 0 100) (obj_points file) /\ obj_segments file = chain 1 99 /\ obj_faces file = [].
Proof. exact @save_curve_ok. Qed.
Print Assumptions C51_one_curve.
Theorem C51_two_curves_partial : forall P (c1 c2 : curve_ops R P) file, save_obj_curves [c1; c2] = Ok file ->
  (exists l1 l2, obj_points file = l1 ++ l2 /\
    Forall2 (fun k p => c_eval c1 (IZR (Z.of_nat k) / 100) = Ok p) (seq 0 100) l1 /\
    Forall2 (fun k p => c_eval c2 (IZR (Z.of_nat k) / 100) = Ok p) (seq 0 100) l2) /\
  obj_segments file = chain 1 99 ++ chain 101 99.
Proof. exact @save_two_curves. Qed.
Print Assumptions C51_two_curves_partial.
(** Three curves or more: some line element refers to a point that the file does not contain. *)
Theorem C51_three_curves_refuted : forall P (cs : list (curve_ops R P)) file, save_obj_curves cs = Ok file -> (3 <= length cs)%nat ->
  exists i j, In (i, j) (obj_segments file) /\ (Z.of_nat (length (obj_points file)) < j)%Z.
Proof. exact @save_curves_bad. Qed.
Print Assumptions C51_three_curves_refuted.
Theorem C51_three_patches_refuted : forall P (ss : list (patch_ops R P)) file, save_patches_obj ss = Ok file -> (3 <= length ss)%nat ->
  exists a b c d, In (a, b, c, d) (obj_faces file) /\ (Z.of_nat (length (obj_points file)) < c)%Z.
Proof. exact @save_patches_bad. Qed.
Print Assumptions C51_three_patches_refuted.
(** A patch: point number i nv + j + 1 is grid point (i, j) of the whole domain and the faces are the cells of the grid, each once. *)
Theorem C51_patch : forall P (s : patch_ops R P) nu nv file, (2 <= nu)%Z -> (2 <= nv)%Z -> save_patch_obj s nu nv = Ok file ->
  length (obj_points file) = (Z.to_nat nu * Z.to_nat nv)%nat /\
  (forall i j, (i < Z.to_nat nu)%nat -> (j < Z.to_nat nv)%nat -> exists p, nth_error (obj_points file) (i * Z.to_nat nv + j) = Some p /\
     s_eval s (s_ulo s + (s_uhi s - s_ulo s) * (IZR (Z.of_nat i) / IZR (nu - 1))) (s_vlo s + (s_vhi s - s_vlo s) * (IZR (Z.of_nat j) / IZR (nv - 1))) = Ok p) /\
  (forall a b c d, In (a, b, c, d) (obj_faces file) <-> exists i j, (0 <= i < nu - 1)%Z /\ (0 <= j < nv - 1)%Z /\
      a = (1 + i * nv + j)%Z /\ b = (a + nv)%Z /\ c = (a + nv + 1)%Z /\ d = (a + 1)%Z) /\
  length (obj_faces file) = (Z.to_nat (nu - 1) * Z.to_nat (nv - 1))%nat.
Proof. exact @save_patch_ok. Qed.
Print Assumptions C51_patch.
Example C51_hyp : exists f1 f3 fp, save_obj_curve (ln_ops line_q) = Ok f1 /\ save_obj_curves [ln_ops line_q; ln_ops line_q; ln_ops line_q] = Ok f3 /\
  save_patch_obj (flat_q 3) 2 3 = Ok fp /\ length (obj_segments f3) = 297%nat /\ nth 296 (obj_segments f3) (0, 0)%Z = (399, 400)%Z /\ length (obj_points f3) = 300%nat /\
  obj_faces fp = [(1, 4, 5, 2); (2, 5, 6, 3)]%Z.
Proof. do 3 eexists. split; [vm_compute; reflexivity|]. split; [vm_compute; reflexivity|]. split; [vm_compute; reflexivity|]. repeat split; vm_compute; reflexivity. Qed.

(** C74: the part of the domain exported. *)
Theorem C74_curve_refuted : forall P (c : curve_ops R P) file, save_obj_curve c = Ok file ->
  forall p, In p (obj_points file) -> exists t, 0 <= t < 1 /\ c_eval c t = Ok p.
Proof. exact @save_curve_range. Qed.
Print Assumptions C74_curve_refuted.
(** On the segment from (2,0) to (3,0), with domain [2,3], no exported point is on the segment. *)
Theorem C74_curve_domain_refuted : exists (c : line R (vec R 2)) file, ln_lower c = 2 /\ ln_upper c = 3 /\ save_obj_curve (ln_ops c) = Ok file /\
  forall p t, In p (obj_points file) -> ln_in_domain c t = true -> ln_evaluate c t <> Ok p.
Proof. exact save_curve_off. Qed.
Print Assumptions C74_curve_domain_refuted.
Theorem C74_patch_corners : forall P (s : patch_ops R P) nu nv file, (2 <= nu)%Z -> (2 <= nv)%Z -> save_patch_obj s nu nv = Ok file ->
  exists p00 p01 p10 p11, s_eval s (s_ulo s) (s_vlo s) = Ok p00 /\ s_eval s (s_ulo s) (s_vhi s) = Ok p01 /\
    s_eval s (s_uhi s) (s_vlo s) = Ok p10 /\ s_eval s (s_uhi s) (s_vhi s) = Ok p11 /\
    In p00 (obj_points file) /\ In p01 (obj_points file) /\ In p10 (obj_points file) /\ In p11 (obj_points file).
Proof. exact @save_patch_corners. Qed.
Print Assumptions C74_patch_corners.
