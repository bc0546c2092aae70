(** Counterexamples and examples for least squares fitting and deformation. *)
From Coq Require Import Reals Lra Lia List ZArith Bool.
From Verif Require Import Monad MonadFacts LoopFacts Scalar ScalarFacts Spec SpecFacts SpecGeom SpecPatch SpecFit TensorFacts.
From Verif Require Import PrimitiveFacts PatchFacts ModelCurve CurveFacts ModelBezier BezierFacts BezierThms ModelBSpline BSplineFacts.
From Verif Require Import BSplineThms ModelPatchBase ModelPatch BezierPatchThms BSplinePatchThms BSplinePatchThms2 ModelFit SpecFit2.
From Verif Require Import FitThms FitThms2 FitThms3 BSplinePatchRefute ExampleFacts.
Import ListNotations.
Local Open Scope R_scope.

Notation p1 x := ((x, tt) : vec R 1).

Ltac pts1 := repeat match goal with
  | |- Ok _ = Ok _ => apply f_equal
  | |- _ :: _ = _ :: _ => apply f_equal2
  | |- (_, tt) = (_, tt) => apply f_equal2; [try lra|reflexivity]
  | |- [] = [] => reflexivity
  end.

Lemma edist1 a b : edist (p1 a) (p1 b) ^ 2 = (a - b) ^ 2.
Proof.
  unfold edist. rewrite <- Rsqr_pow2, Rsqr_sqrt by (apply rsum_nonneg; intros; apply pow2_ge_0).
  rewrite rsum_S. change (rsum 0 _) with 0. cbn [coord fst]. ring.
Qed.

Lemma len2 {X} (l : list X) : length l = 2%nat -> exists a b, l = [a; b].
Proof. destruct l as [|a [|b [|c l]]]; cbn; intros H; try lia. eauto. Qed.
Lemma len4 {X} (l : list X) : length l = 4%nat -> exists a b c e, l = [a; b; c; e].
Proof. destruct l as [|a [|b [|c [|e [|x l]]]]]; cbn; intros H; try lia. do 4 eexists. reflexivity. Qed.

Lemma binom_1_0 : C 1 0 = 1. Proof. unfold C. simpl. field. Qed.
Lemma binom_1_1 : C 1 1 = 1. Proof. unfold C. simpl. field. Qed.

Lemma basis1_0 t : bezier_basis 2 t 0 = 1 - t.
Proof. unfold bezier_basis, bernstein. cbn [Nat.sub pow]. rewrite binom_1_0. ring. Qed.
Lemma basis1_1 t : bezier_basis 2 t 1 = t.
Proof. unfold bezier_basis, bernstein. cbn [Nat.sub pow]. rewrite binom_1_1. ring. Qed.

Lemma lin2_line t a b : lin 2 (bezier_basis 2 t) [p1 a; p1 b] = p1 ((1 - t) * a + t * b).
Proof.
  unfold lin. cbn [psum nth]. rewrite basis1_0, basis1_1. cbn. f_equal. ring.
Qed.

(** A periodic curve deformed at a parameter outside [0,1): the basis functions are evaluated there, the curve
    is evaluated at the wrapped parameter. *)
Lemma deform_wrapped_refuted :
  exists (c : bezier (vec R 1)) (params : list R) (changes olds : list (vec R 1)),
    length (bz_pts c) = 2%nat /\ bz_periodic c = true /\ length params = length changes /\
    mapM (bz_evaluate c) params = Ok olds /\
    (exists c'', length (bz_pts c'') = 2%nat /\ bz_periodic c'' = true /\
       mapM (bz_evaluate c'') params = Ok (add_points olds changes)) /\
    let M := basis_matrix 2 (bezier_basis 2) params in
    forall solve : list (list R) -> list (vec R 1) -> list (vec R 1), least_squares 2 M changes (solve M changes) ->
      exists c' news, bz_deform solve 1 c params changes = Ok c' /\ mapM (bz_evaluate c') params = Ok news /\
        news <> add_points olds changes.
Proof.
  set (params := [5 / 4; 0]). set (changes := [p1 1; p1 0]).
  assert (Hw : forall a b, mapM (bz_evaluate {| bz_pts := [p1 a; p1 b]; bz_periodic := true |}) params =
    Ok [p1 (3 / 4 * a + / 4 * b); p1 a]).
  { intros a b. set (c := {| bz_pts := [p1 a; p1 b]; bz_periodic := true |}).
    assert (E1 : bz_evaluate c (5 / 4) = bz_evaluate c (1 / 4)).
    { pose proof (bezier_periodic_shift 1 [p1 a; p1 b] (1 / 4) 1) as (E & _). replace (1 / 4 + 1) with (5 / 4) in E by lra. exact E. }
    unfold params. cbn [mapM]. rewrite E1. rewrite (bz_basis 1 1 c (1 / 4)) by (try reflexivity; intros; lra).
    rewrite (bz_basis 1 1 c 0) by (try reflexivity; intros; lra). cbn [bind bz_pts c]. rewrite !lin2_line.
    pts1. }
  exists {| bz_pts := [p1 0; p1 0]; bz_periodic := true |}, params, changes, [p1 0; p1 0].
  split; [reflexivity|]. split; [reflexivity|]. split; [reflexivity|].
  split. { rewrite Hw. pts1. }
  split. { exists {| bz_pts := [p1 0; p1 4]; bz_periodic := true |}. split; [reflexivity|]. split; [reflexivity|].
    rewrite Hw. unfold add_points, changes. cbn. pts1. }
  intros M solve Hls.
  destruct (bezier_fit 1 solve 1 params changes eq_refl Hls) as (f & xs & Ef & Lf & Pf & Exs & Hbest).
  assert (Hn : forall a b, mapM (bz_evaluate (mk_bezier [p1 a; p1 b])) params = Ok [p1 (- / 4 * a + 5 / 4 * b); p1 a]).
  { intros a b. unfold params. cbn [mapM].
    rewrite !(bz_basis 1 1 (mk_bezier [p1 a; p1 b])) by (try reflexivity; discriminate). cbn [bind bz_pts mk_bezier].
    rewrite !lin2_line. pts1. }
  destruct (Hbest (mk_bezier [p1 0; p1 (4 / 5)]) [p1 1; p1 0]) as [_ Hex]; try reflexivity.
  { rewrite Hn. pts1. }
  specialize (Hex eq_refl). subst xs.
  destruct f as [fp fper]. cbn [bz_pts bz_periodic] in *. subst fper.
  destruct (len2 fp Lf) as ([a []] & [b []] & ->).
  change {| bz_pts := [p1 a; p1 b]; bz_periodic := false |} with (mk_bezier [p1 a; p1 b]) in *. rewrite Hn in Exs.
  apply Ok_inj in Exs. unfold changes in Exs. injection Exs as H1 H2.
  exists {| bz_pts := [p1 (0 + a); p1 (0 + b)]; bz_periodic := true |}. eexists. split.
  { unfold bz_deform. change 1%Z with (Z.of_nat 1). rewrite Ef. reflexivity. }
  split; [apply Hw|]. unfold add_points, changes. cbn. intros E. injection E as E1 E2. lra.
Qed.

(** Dynamic degrees. *)
Lemma bspline_dynamic_deform d (solve : list (list R) -> list (vec R d) -> list (vec R d)) (c : bspline R (vec R d)) params changes :
  valid_bspline (bs_pts c) (bs_knots c) -> bs_deform solve (-1) c params changes = Undef.
Proof.
  intros Hv. unfold bs_deform, bs_fit, bs_lsq_matrix. destruct (zlen params =? zlen changes)%Z; [|reflexivity].
  cbn [assert_ bind]. destruct (Z.eqb_spec (zlen (bs_knots c)) (zlen (bs_pts c) + -1 + 1)) as [E|]; [|reflexivity].
  exfalso. destruct Hv as [H _ _ _]. unfold zlen in E. lia.
Qed.

Lemma bezier_dynamic_deform d (solve : list (list R) -> list (vec R d) -> list (vec R d)) (c : bezier (vec R d)) params changes :
  bz_pts c <> [] -> bz_deform solve (-1) c params changes = Undef /\
  forall f t, bz_fit solve (-1) params changes = Ok f -> bz_evaluate f t = Undef.
Proof.
  intros Hc.
  assert (H : forall f, bz_fit solve (-1) params changes = Ok f -> f = mk_bezier []).
  { intros f E. unfold bz_fit in E. apply bind_inv in E. destruct E as (u & _ & E). apply bind_inv in E. destruct E as (m & _ & E).
    apply bind_inv in E. destruct E as (u' & E' & E). apply Ok_inj in E. subst f. f_equal.
    destruct (Z.eqb_spec (zlen (solve m changes)) (-1 + 1)) as [E|]; [|discriminate].
    destruct (solve m changes); [reflexivity|]. rewrite zlen_cons in E. pose proof (zlen_nonneg l). lia. }
  split.
  - unfold bz_deform. destruct (bz_fit solve (-1) params changes) as [f|e| |] eqn:E; cbn [bind].
    + rewrite (H f eq_refl). cbn [bz_pts mk_bezier]. destruct (bz_pts c); [contradiction|reflexivity].
    + exfalso. unfold bz_fit, bz_lsq_matrix, lsq_matrix in E. destruct (zlen params =? zlen changes)%Z; [|discriminate].
      cbn [assert_ bind] in E. change (zrange (-1 + 1)) with (@nil Z) in E. change (-1 + 1)%Z with 0%Z in E.
      change (alloc ((s0, tt) : vec R 1) 0) with (Ok (@nil (vec R 1))) in E. change (alloc (s0 : R) 0) with (Ok (@nil R)) in E.
      cbn [bind] in E. destruct (arr_alloc (@nil R) (zlen params) (zlen_nonneg params)) as (l & El & _). rewrite El in E.
      cbn [bind lsq_columns] in E. destruct (zlen (solve l changes) =? 0)%Z; discriminate.
    + reflexivity.
    + exfalso. unfold bz_fit, bz_lsq_matrix, lsq_matrix in E. destruct (zlen params =? zlen changes)%Z; [|discriminate].
      cbn [assert_ bind] in E. change (zrange (-1 + 1)) with (@nil Z) in E. change (-1 + 1)%Z with 0%Z in E.
      change (alloc ((s0, tt) : vec R 1) 0) with (Ok (@nil (vec R 1))) in E. change (alloc (s0 : R) 0) with (Ok (@nil R)) in E.
      cbn [bind] in E. destruct (arr_alloc (@nil R) (zlen params) (zlen_nonneg params)) as (l & El & _). rewrite El in E.
      cbn [bind lsq_columns] in E. destruct (zlen (solve l changes) =? 0)%Z; discriminate.
  - intros f t E. rewrite (H f E). reflexivity.
Qed.

Lemma bpatch_dynamic_fit d (solve : list (list R) -> list (vec R d) -> list (vec R d)) params values :
  bp_fit solve (-1) (-1) params values = Undef.
Proof.
  unfold bp_fit. destruct (zlen params =? zlen values)%Z; [|reflexivity]. cbn [assert_ bind].
  unfold bp_lsq_matrix, lsq_matrix. change ((-1 + 1) * (-1 + 1))%Z with 0%Z. change (grid_order (-1 + 1) (-1 + 1)) with (@nil Z).
  change (alloc ((s0, tt) : vec R 1) 0) with (Ok (@nil (vec R 1))). change (alloc (s0 : R) 0) with (Ok (@nil R)).
  cbn [bind]. destruct (arr_alloc (@nil R) (zlen params) (zlen_nonneg params)) as (l & El & _). rewrite El.
  cbn [bind lsq_columns]. destruct (zlen (solve l values) =? 0)%Z; reflexivity.
Qed.

Lemma spatch_dynamic_fit d (solve : list (list R) -> list (vec R d) -> list (vec R d)) params values nu nv ku kv :
  (1 <= nu)%nat -> (1 <= nv)%nat -> params <> [] ->
  sp_fit solve (-1) (-1) params values (Z.of_nat nu) (Z.of_nat nv) ku kv = Undef.
Proof.
  intros Hu Hv Hp. unfold sp_fit. destruct (zlen params =? zlen values)%Z; [|reflexivity]. cbn [assert_ bind].
  unfold sp_lsq_matrix, lsq_matrix. rewrite <- Nat2Z.inj_mul. set (N := (nu * nv)%nat).
  assert (HN : (1 <= N)%nat) by (unfold N; nia).
  destruct (arr_alloc ((s0, tt) : vec R 1) (Z.of_nat N) (Nat2Z.is_nonneg N)) as (l1 & E1 & H1). rewrite E1, bind_Ok.
  destruct (arr_alloc (s0 : R) (Z.of_nat N) (Nat2Z.is_nonneg N)) as (l2 & E2 & H2). rewrite E2, bind_Ok.
  destruct (arr_alloc l2 (zlen params) (zlen_nonneg params)) as (l3 & E3 & H3). rewrite E3, bind_Ok.
  destruct (grid_order (Z.of_nat nu) (Z.of_nat nv)) as [|j order] eqn:Eo.
  { exfalso. assert (H0 : In 0%Z (grid_order (Z.of_nat nu) (Z.of_nat nv))) by (apply grid_order_in; lia). rewrite Eo in H0. exact H0. }
  assert (Hj : (0 <= j < Z.of_nat N)%Z) by (apply grid_order_in; rewrite Eo; now left).
  cbn [lsq_columns]. unfold lsq_column. destruct (arr_set l1 _ _ j (s1, tt) H1 Hj) as (l1' & Es & _). rewrite Es, bind_Ok.
  assert (Hz : (0 < zlen params)%Z) by (destruct params; [contradiction|rewrite zlen_cons; pose proof (zlen_nonneg params); lia]).
  assert (Ef : for_up 0 (zlen params) (fun (i : Z) (mat : list (list R)) =>
     do t <- get params i;
     do x <- (do s <- sp_initialize (sp_make (-1) (-1) (-1) (-1) l1' ku kv false false); sp_evaluate s (fst t) (snd t));
     do row <- get mat i; do row0 <- set row j (fst x); set mat i row0) l3 = Undef).
  { unfold for_up. replace (Z.to_nat (zlen params - 0)) with (S (Z.to_nat (zlen params - 1))) by lia. cbn [for_nat].
    destruct (get_in_range params 0 ltac:(lia)) as (a & ->). reflexivity. }
  rewrite Ef. reflexivity.
Qed.

(** * Examples: an overdetermined line through (0,0), (1,1), (1,3), and the bilinear counterpart. *)
Definition line_like (b : R -> nat -> R) : Prop := forall t, t = 0 \/ t = 1 -> b t 0%nat = 1 - t /\ b t 1%nat = t.

Lemma ex_line b : line_like b ->
  least_squares 2 (basis_matrix 2 b [0; 1; 1]) [p1 0; p1 1; p1 3] [p1 0; p1 2].
Proof.
  intros Hb. split; [reflexivity|]. intros y Hy. destruct (len2 y Hy) as ([y0 []] & [y1 []] & ->).
  rewrite !apply_matrix. destruct (Hb 0 (or_introl eq_refl)) as [B0 B1]. destruct (Hb 1 (or_intror eq_refl)) as [B2 B3].
  assert (L : forall t u v, t = 0 \/ t = 1 -> lin 2 (b t) [p1 u; p1 v] = p1 ((1 - t) * u + t * v)).
  { intros t u v Ht. unfold lin. cbn [psum nth]. destruct (Hb t Ht) as [-> ->]. cbn. apply f_equal2; [ring|reflexivity]. }
  cbn [map]. rewrite !L by auto. cbn [sqerr]. rewrite !edist1.
  pose proof (pow2_ge_0 y0). pose proof (pow2_ge_0 (y1 - 2)).
  match goal with |- ?a <= ?b => replace b with (y0 ^ 2 + 2 * (y1 - 2) ^ 2 + 2) by ring; replace a with 2 by ring end. lra.
Qed.

Lemma bezier_line_like : line_like (bezier_basis 2).
Proof. intros t _. split; [apply basis1_0|apply basis1_1]. Qed.

Lemma bspline_line_like : line_like (bspline_basis 2 [0; 0; 1; 1]).
Proof.
  intros t [->| ->]; unfold bspline_basis; cbn [length Nat.sub cox]; unfold N0, frac0, knot_of;
    cbn [Z.of_nat Z.to_nat Z.add Pos.of_succ_nat Pos.add Pos.succ];
    change (Pos.to_nat 1) with 1%nat; change (Pos.to_nat 2) with 2%nat; change (Pos.to_nat 3) with 3%nat; cbn [nth];
    repeat match goal with
    | |- context [Req_EM_T ?a ?b] => destruct (Req_EM_T a b); try (exfalso; lra)
    | |- context [Rlt_dec ?a ?b] => destruct (Rlt_dec a b); try (exfalso; lra)
    | |- context [Rle_dec ?a ?b] => destruct (Rle_dec a b); try (exfalso; lra)
    end; split; try lra; try (field; lra).
Qed.

Definition corners : list (R * R) := [(0, 0); (0, 1); (1, 0); (1, 1); (1, 1)].
Definition corner_values : list (vec R 1) := [p1 5; p1 7; p1 0; p1 1; p1 3].

Lemma ex_grid b : line_like b ->
  least_squares 4 (basis_matrix 4 (fun uv => tensor_basis 2 (b (fst uv)) (b (snd uv))) corners) corner_values
    [p1 5; p1 7; p1 0; p1 2].
Proof.
  intros Hb. split; [reflexivity|]. intros y Hy. destruct (len4 y Hy) as ([y0 []] & [y1 []] & [y2 []] & [y3 []] & ->).
  rewrite !apply_matrix.
  assert (L : forall uv x0 x1 x2 x3, (fst uv = 0 \/ fst uv = 1) -> (snd uv = 0 \/ snd uv = 1) ->
    lin 4 (tensor_basis 2 (b (fst uv)) (b (snd uv))) [p1 x0; p1 x1; p1 x2; p1 x3] =
    p1 ((1 - fst uv) * (1 - snd uv) * x0 + (1 - fst uv) * snd uv * x1 + fst uv * (1 - snd uv) * x2 + fst uv * snd uv * x3)).
  { intros [u v] x0 x1 x2 x3 Hu Hv. cbn [fst snd] in *. unfold lin, tensor_basis. cbn [psum nth].
    cbn [Nat.div Nat.modulo Nat.divmod fst snd Nat.sub].
    destruct (Hb u Hu) as [-> ->]. destruct (Hb v Hv) as [-> ->]. cbn. apply f_equal2; [ring|reflexivity]. }
  unfold corners. cbn [map]. rewrite !L by (cbn; auto). unfold corner_values. cbn [sqerr fst snd]. rewrite !edist1.
  pose proof (pow2_ge_0 (y0 - 5)). pose proof (pow2_ge_0 (y1 - 7)). pose proof (pow2_ge_0 y2). pose proof (pow2_ge_0 (y3 - 2)).
  match goal with |- ?a <= ?b =>
    replace b with ((y0 - 5) ^ 2 + (y1 - 7) ^ 2 + y2 ^ 2 + 2 * (y3 - 2) ^ 2 + 2) by ring; replace a with 2 by ring end. lra.
Qed.

Lemma ex_dir_0011 : good_dir 1 [0; 0; 1; 1].
Proof.
  split.
  - apply (valid_dir_of_Z 1 [0; 0; 1; 1]%Z); reflexivity.
  - apply (apart_of_Z [0; 0; 1; 1]%Z).
Qed.

Lemma ex_param_0011 t : t = 0 \/ t = 1 -> dir_param false 1 [0; 0; 1; 1] t.
Proof. intros H. split; [right|left]; unfold dir_lo, dir_hi; cbn; lra. Qed.

Lemma ex_params_0011 : Forall (dir_param false 1 [0; 0; 1; 1]) [0; 1; 1].
Proof. apply Forall_forall. intros t H. apply ex_param_0011. cbn in H. intuition. Qed.

Lemma ex_corners_0011 : Forall (fun uv => dir_param false 1 [0; 0; 1; 1] (fst uv) /\ dir_param false 1 [0; 0; 1; 1] (snd uv)) corners.
Proof.
  apply Forall_forall. intros uv H. unfold corners in H. cbn [In] in H.
  destruct H as [<-|[<-|[<-|[<-|[<-|[]]]]]]; split; apply ex_param_0011; cbn; auto.
Qed.

Lemma ex_deform_patch : exists s : spatch R (vec R 1),
  sp_like 1 1 [0; 0; 1; 1] [0; 0; 1; 1] (sp_peru s) (sp_perv s) s /\ good_dir 1 (sp_ku s) /\ sp_peru s = false /\
  Forall (sp_own false false 1 1 [0; 0; 1; 1] [0; 0; 1; 1]) corners /\
  bp_like 1 1 false false (bp_set_grid (bp_new 1 1) [p1 1; p1 2; p1 3; p1 5]).
Proof.
  destruct (sp_build 1 1 1 [0; 0; 1; 1] [0; 0; 1; 1] false false 1 1 1 1 [p1 1; p1 2; p1 3; p1 5] [] []
    ex_dir_0011 ex_dir_0011 eq_refl eq_refl eq_refl eq_refl eq_refl) as (s & E & K & Eg).
  exists s. pose proof K as (K1 & K2 & K3 & K4 & K5 & K6 & K7 & K8 & K9). rewrite K8, K9, K6.
  split; [exact K|]. split; [exact ex_dir_0011|]. split; [reflexivity|]. split.
  - apply (Forall_impl _ (param_own 1 1 [0; 0; 1; 1] [0; 0; 1; 1]) ex_corners_0011).
  - apply bp_make; reflexivity.
Qed.
