(** Least squares fitting and deformation (C94, C95, C96). *)
From Coq Require Import Reals Lra Lia List ZArith Bool QArith.
From Verif Require Import Monad Scalar Spec SpecGeom SpecPatch SpecFit ModelCurve ModelBezier ModelBSpline ModelPatch.
From Verif Require Import ModelFit SpecFit2 ExampleFacts BSplinePatchRefute FitThms2 FitThms3 FitRefute.
Import ListNotations.
Local Open Scope R_scope.

(** C94: fit.  [solve] is the linear solver; it is only assumed to return a least squares solution for the
    matrix of the values of the basis functions.  No curve of the class is closer to the values, and values that
    a curve of the class takes are interpolated. *)
Theorem C94_bezier_fit : forall d (solve : list (list R) -> list (vec R d) -> list (vec R d)) (n : nat)
    (params : list R) (values : list (vec R d)),
  let M := basis_matrix (S n) (bezier_basis (S n)) params in
  length params = length values -> least_squares (S n) M values (solve M values) ->
  exists c xs, bz_fit solve (Z.of_nat n) params values = Ok c /\
    length (bz_pts c) = S n /\ bz_periodic c = false /\ mapM (bz_evaluate c) params = Ok xs /\
    forall c' xs', length (bz_pts c') = S n -> bz_periodic c' = false -> mapM (bz_evaluate c') params = Ok xs' ->
      sqerr xs values <= sqerr xs' values /\ (xs' = values -> xs = values).
Proof. exact bezier_fit. Qed.
Print Assumptions C94_bezier_fit.

Example C94_bezier_hyp : let values := [p1 0; p1 1; p1 3] in
  let M := basis_matrix 2 (bezier_basis 2) [0; 1; 1] in
  length [0; 1; 1] = length values /\ least_squares 2 M values ((fun _ _ => [p1 0; p1 2]) M values).
Proof. split; [reflexivity|exact (ex_line _ bezier_line_like)]. Qed.
Example C94_bezier_run : bz_lsq_matrix 2 [0; 1 # 2; 1; 2]%Q =
  Ok [[1; 0; 0]; [1 # 4; 1 # 2; 1 # 4]; [0; 0; 1]; [1; -4 # 1; 4]]%Q.
Proof. vm_compute. reflexivity. Qed.

Theorem C94_bspline_fit : forall d (solve : list (list R) -> list (vec R d) -> list (vec R d)) (p : nat)
    (knots params : list R) (values : list (vec R d)),
  let n := dir_count p knots in
  let M := basis_matrix n (bspline_basis n knots) params in
  valid_dir p knots -> knots_apart (/ IZR (10 ^ 16)) knots -> Forall (dir_param false p knots) params ->
  length params = length values -> least_squares n M values (solve M values) ->
  exists c xs, bs_fit solve (Z.of_nat p) params values (Z.of_nat n) knots = Ok c /\
    bs_knots c = knots /\ length (bs_pts c) = n /\ bs_periodic c = false /\ mapM (bs_evaluate c) params = Ok xs /\
    forall c' xs', bs_knots c' = knots -> length (bs_pts c') = n -> bs_periodic c' = false ->
      mapM (bs_evaluate c') params = Ok xs' ->
      sqerr xs values <= sqerr xs' values /\ (xs' = values -> xs = values).
Proof. exact bspline_fit. Qed.
Print Assumptions C94_bspline_fit.

Example C94_bspline_hyp : let knots := [0; 0; 1; 1] in let values := [p1 0; p1 1; p1 3] in
  let M := basis_matrix 2 (bspline_basis 2 knots) [0; 1; 1] in
  good_dir 1 knots /\ Forall (dir_param false 1 knots) [0; 1; 1] /\
  least_squares 2 M values ((fun _ _ => [p1 0; p1 2]) M values).
Proof.
  split; [exact ex_dir_0011|]. split; [exact ex_params_0011|exact (ex_line _ bspline_line_like)].
Qed.
Example C94_bspline_run : bs_lsq_matrix 2 4 [0; 0; 0; 1; 2; 2; 2]%Q [0; 1 # 2; 1; 2]%Q =
  Ok [[1; 0; 0; 0]; [1 # 4; 5 # 8; 1 # 8; 0]; [0; 1 # 2; 1 # 2; 0]; [0; 0; 0; 1]]%Q.
Proof. vm_compute. reflexivity. Qed.

(** The patch classes; [bp_like], [sp_like] are the initialised patches of the class, [bp_at], [sp_at] their
    values, [bpB], [spB] the products of the basis functions (SpecFit2.v). *)
Theorem C94_bezier_patch_fit : forall d (solve : list (list R) -> list (vec R d) -> list (vec R d)) (n m : nat)
    (params : list (R * R)) (values : list (vec R d)),
  let N := (S n * S m)%nat in
  let M := basis_matrix N (bpB n m) params in
  length params = length values -> least_squares N M values (solve M values) ->
  exists s xs, bp_fit solve (Z.of_nat n) (Z.of_nat m) params values = Ok s /\
    bp_like n m false false s /\ mapM (bp_at s) params = Ok xs /\
    forall s' xs', bp_like n m false false s' -> mapM (bp_at s') params = Ok xs' ->
      sqerr xs values <= sqerr xs' values /\ (xs' = values -> xs = values).
Proof. exact bpatch_fit. Qed.
Print Assumptions C94_bezier_patch_fit.

Example C94_bezier_patch_hyp : let M := basis_matrix 4 (bpB 1 1) corners in
  length corners = length corner_values /\
  least_squares 4 M corner_values ((fun _ _ => [p1 5; p1 7; p1 0; p1 2]) M corner_values).
Proof. split; [reflexivity|exact (ex_grid _ bezier_line_like)]. Qed.
Example C94_bezier_patch_run : bp_lsq_matrix 2 1 [(1 # 2, 1 # 3); (0, 2)]%Q =
  Ok [[1 # 6; 1 # 12; 1 # 3; 1 # 6; 1 # 6; 1 # 12]; [-1 # 1; 2; 0; 0; 0; 0]]%Q.
Proof. vm_compute. reflexivity. Qed.

Theorem C94_bspline_patch_fit : forall d (solve : list (list R) -> list (vec R d) -> list (vec R d)) (p q : nat)
    (ku kv : list R) (params : list (R * R)) (values : list (vec R d)),
  let n := dir_count p ku in let m := dir_count q kv in
  let N := (n * m)%nat in
  let M := basis_matrix N (spB p q ku kv) params in
  good_dir p ku -> good_dir q kv ->
  Forall (fun uv => dir_param false p ku (fst uv) /\ dir_param false q kv (snd uv)) params ->
  length params = length values -> least_squares N M values (solve M values) ->
  exists s xs, sp_fit solve (Z.of_nat p) (Z.of_nat q) params values (Z.of_nat n) (Z.of_nat m) ku kv = Ok s /\
    sp_like p q ku kv false false s /\ mapM (sp_at s) params = Ok xs /\
    forall s' xs', sp_like p q ku kv false false s' -> mapM (sp_at s') params = Ok xs' ->
      sqerr xs values <= sqerr xs' values /\ (xs' = values -> xs = values).
Proof. exact spatch_fit. Qed.
Print Assumptions C94_bspline_patch_fit.

Example C94_bspline_patch_hyp : let k := [0; 0; 1; 1] in let M := basis_matrix 4 (spB 1 1 k k) corners in
  good_dir 1 k /\ Forall (fun uv => dir_param false 1 k (fst uv) /\ dir_param false 1 k (snd uv)) corners /\
  least_squares 4 M corner_values ((fun _ _ => [p1 5; p1 7; p1 0; p1 2]) M corner_values).
Proof. split; [exact ex_dir_0011|]. split; [exact ex_corners_0011|exact (ex_grid _ bspline_line_like)]. Qed.
Example C94_bspline_patch_run : sp_lsq_matrix 1 1 3 2 [0; 0; 1; 2; 2]%Q [0; 0; 1; 1]%Q [(3 # 2, 1 # 4)]%Q =
  Ok [[0; 0; 3 # 8; 1 # 8; 3 # 8; 1 # 8]]%Q.
Proof. vm_compute. reflexivity. Qed.

(** C95: deform.  At parameters inside the domain the deformed curve is the old one plus the fitted curve of
    changes; among all curves of the class (same knots and periodicity) it comes closest to the old values plus
    the changes, and attains them if any curve does. *)
Theorem C95_bezier_deform : forall d (solve : list (list R) -> list (vec R d) -> list (vec R d)) (n : nat)
    (c : bezier (vec R d)) (params : list R) (changes : list (vec R d)),
  let M := basis_matrix (S n) (bezier_basis (S n)) params in
  length (bz_pts c) = S n -> length params = length changes -> least_squares (S n) M changes (solve M changes) ->
  (bz_periodic c = true -> Forall (fun t => 0 <= t < 1) params) ->
  exists c' f olds news, bz_deform solve (Z.of_nat n) c params changes = Ok c' /\
    bz_fit solve (Z.of_nat n) params changes = Ok f /\
    length (bz_pts c') = S n /\ bz_periodic c' = bz_periodic c /\
    (forall t, (bz_periodic c = true -> 0 <= t < 1) -> exists a b, bz_evaluate c t = Ok a /\ bz_evaluate f t = Ok b /\
       bz_evaluate c' t = Ok (padd a b)) /\
    mapM (bz_evaluate c) params = Ok olds /\ mapM (bz_evaluate c') params = Ok news /\
    forall c'' xs, length (bz_pts c'') = S n -> bz_periodic c'' = bz_periodic c -> mapM (bz_evaluate c'') params = Ok xs ->
      sqerr news (add_points olds changes) <= sqerr xs (add_points olds changes) /\
      (xs = add_points olds changes -> news = add_points olds changes).
Proof. exact bezier_deform. Qed.
Print Assumptions C95_bezier_deform.

Theorem C95_bspline_deform : forall d (solve : list (list R) -> list (vec R d) -> list (vec R d)) (p : nat)
    (c : bspline R (vec R d)) (params : list R) (changes : list (vec R d)),
  let knots := bs_knots c in let n := dir_count p knots in
  let M := basis_matrix n (bspline_basis n knots) params in
  valid_dir p knots -> knots_apart (/ IZR (10 ^ 16)) knots -> length (bs_pts c) = n ->
  length params = length changes -> least_squares n M changes (solve M changes) ->
  Forall (own_param (bs_periodic c) p knots) params ->
  exists c' f olds news, bs_deform solve (Z.of_nat p) c params changes = Ok c' /\
    bs_fit solve (Z.of_nat p) params changes (Z.of_nat n) knots = Ok f /\
    bs_knots c' = knots /\ length (bs_pts c') = n /\ bs_periodic c' = bs_periodic c /\
    (forall t, own_param (bs_periodic c) p knots t -> exists a b, bs_evaluate c t = Ok a /\ bs_evaluate f t = Ok b /\
       bs_evaluate c' t = Ok (padd a b)) /\
    mapM (bs_evaluate c) params = Ok olds /\ mapM (bs_evaluate c') params = Ok news /\
    forall c'' xs, bs_knots c'' = knots -> length (bs_pts c'') = n -> bs_periodic c'' = bs_periodic c ->
      mapM (bs_evaluate c'') params = Ok xs ->
      sqerr news (add_points olds changes) <= sqerr xs (add_points olds changes) /\
      (xs = add_points olds changes -> news = add_points olds changes).
Proof. exact bspline_deform. Qed.
Print Assumptions C95_bspline_deform.

Theorem C95_bezier_patch_deform : forall d (solve : list (list R) -> list (vec R d) -> list (vec R d)) (n m : nat)
    (s : bpatch (vec R d)) (params : list (R * R)) (changes : list (vec R d)),
  let N := (S n * S m)%nat in
  let M := basis_matrix N (bpB n m) params in
  let pu := bp_peru s in let pv := bp_perv s in
  let own uv := (pu = true -> n <> 1%nat /\ 0 <= fst uv < 1) /\ (pv = true -> m <> 1%nat /\ 0 <= snd uv < 1) in
  bp_like n m pu pv s -> length params = length changes -> least_squares N M changes (solve M changes) ->
  Forall own params ->
  exists s' f olds news, bp_deform solve s params changes = Ok s' /\
    bp_fit solve (Z.of_nat n) (Z.of_nat m) params changes = Ok f /\ bp_like n m pu pv s' /\
    (forall uv, own uv -> exists a b, bp_at s uv = Ok a /\ bp_at f uv = Ok b /\ bp_at s' uv = Ok (padd a b)) /\
    mapM (bp_at s) params = Ok olds /\ mapM (bp_at s') params = Ok news /\
    forall s'' xs, bp_like n m pu pv s'' -> mapM (bp_at s'') params = Ok xs ->
      sqerr news (add_points olds changes) <= sqerr xs (add_points olds changes) /\
      (xs = add_points olds changes -> news = add_points olds changes).
Proof. exact bpatch_deform. Qed.
Print Assumptions C95_bezier_patch_deform.

Theorem C95_bspline_patch_deform : forall d (solve : list (list R) -> list (vec R d) -> list (vec R d)) (p q : nat)
    (s : spatch R (vec R d)) (params : list (R * R)) (changes : list (vec R d)),
  let ku := sp_ku s in let kv := sp_kv s in
  let n := dir_count p ku in let m := dir_count q kv in
  let N := (n * m)%nat in
  let M := basis_matrix N (spB p q ku kv) params in
  let pu := sp_peru s in let pv := sp_perv s in
  good_dir p ku -> good_dir q kv ->
  sp_like p q ku kv pu pv s -> length params = length changes -> least_squares N M changes (solve M changes) ->
  Forall (sp_own pu pv p q ku kv) params ->
  exists s' f olds news, sp_deform solve s params changes = Ok s' /\
    sp_fit solve (Z.of_nat p) (Z.of_nat q) params changes (Z.of_nat n) (Z.of_nat m) ku kv = Ok f /\
    sp_like p q ku kv pu pv s' /\
    (forall uv, sp_own pu pv p q ku kv uv -> exists a b, sp_at s uv = Ok a /\ sp_at f uv = Ok b /\ sp_at s' uv = Ok (padd a b)) /\
    mapM (sp_at s) params = Ok olds /\ mapM (sp_at s') params = Ok news /\
    forall s'' xs, sp_like p q ku kv pu pv s'' -> mapM (sp_at s'') params = Ok xs ->
      sqerr news (add_points olds changes) <= sqerr xs (add_points olds changes) /\
      (xs = add_points olds changes -> news = add_points olds changes).
Proof. exact spatch_deform. Qed.
Print Assumptions C95_bspline_patch_deform.

Example C95_hyp : let changes := [p1 0; p1 1; p1 3] in
  let c := mk_bezier [p1 4; p1 6] in let M := basis_matrix 2 (bezier_basis 2) [0; 1; 1] in
  length (bz_pts c) = 2%nat /\ length [0; 1; 1] = length changes /\
  least_squares 2 M changes ((fun _ _ => [p1 0; p1 2]) M changes) /\
  (bz_periodic c = true -> Forall (fun t => 0 <= t < 1) [0; 1; 1]).
Proof. repeat split; try reflexivity; [apply (ex_line _ bezier_line_like)|discriminate]. Qed.
Example C95_patch_hyp : exists s : spatch R (vec R 1),
  sp_like 1 1 [0; 0; 1; 1] [0; 0; 1; 1] (sp_peru s) (sp_perv s) s /\ good_dir 1 (sp_ku s) /\ sp_peru s = false /\
  Forall (sp_own false false 1 1 [0; 0; 1; 1] [0; 0; 1; 1]) corners /\
  bp_like 1 1 false false (bp_set_grid (bp_new 1 1) [p1 1; p1 2; p1 3; p1 5]).
Proof. exact ex_deform_patch. Qed.
Example C95_run : let solve := fun (_ : list (list Q)) (_ : list (vec Q 1)) => [(1, tt); (2, tt); (-1 # 1, tt)]%Q in
  (do c <- bz_deform solve 2 {| bz_pts := [(0, tt); (4, tt); (0, tt)]%Q; bz_periodic := true |} [0; 1 # 2]%Q
     [(1, tt); (1, tt)]%Q; bz_evaluate c (3 # 2)%Q) = Ok (3, tt)%Q.
Proof. vm_compute. reflexivity. Qed.

(** False for periodic curves and parameters outside the domain: the basis functions are evaluated there, the
    curve at the wrapped parameter. *)
Theorem C95_wrapped_refuted :
  exists (c : bezier (vec R 1)) (params : list R) (changes olds : list (vec R 1)),
    length (bz_pts c) = 2%nat /\ bz_periodic c = true /\ length params = length changes /\
    mapM (bz_evaluate c) params = Ok olds /\
    (exists c'', length (bz_pts c'') = 2%nat /\ bz_periodic c'' = true /\
       mapM (bz_evaluate c'') params = Ok (add_points olds changes)) /\
    let M := basis_matrix 2 (bezier_basis 2) params in
    forall solve : list (list R) -> list (vec R 1) -> list (vec R 1), least_squares 2 M changes (solve M changes) ->
      exists c' news, bz_deform solve 1 c params changes = Ok c' /\ mapM (bz_evaluate c') params = Ok news /\
        news <> add_points olds changes.
Proof. exact deform_wrapped_refuted. Qed.
Print Assumptions C95_wrapped_refuted.

(** C96: false of the code.  The classes of dynamic degree (template argument -1): fit and deform use the template
    argument as the degree. *)
Theorem C96_bspline_deform_refuted : forall d (solve : list (list R) -> list (vec R d) -> list (vec R d))
    (c : bspline R (vec R d)) (params : list R) (changes : list (vec R d)),
  valid_bspline (bs_pts c) (bs_knots c) -> bs_deform solve (-1) c params changes = Undef.
Proof. exact bspline_dynamic_deform. Qed.
Print Assumptions C96_bspline_deform_refuted.

Theorem C96_bezier_deform_refuted : forall d (solve : list (list R) -> list (vec R d) -> list (vec R d))
    (c : bezier (vec R d)) (params : list R) (changes : list (vec R d)),
  bz_pts c <> [] -> bz_deform solve (-1) c params changes = Undef /\
  forall f t, bz_fit solve (-1) params changes = Ok f -> bz_evaluate f t = Undef.
Proof. exact bezier_dynamic_deform. Qed.
Print Assumptions C96_bezier_deform_refuted.

Theorem C96_bezier_patch_fit_refuted : forall d (solve : list (list R) -> list (vec R d) -> list (vec R d))
    (params : list (R * R)) (values : list (vec R d)),
  bp_fit solve (-1) (-1) params values = Undef.
Proof. exact bpatch_dynamic_fit. Qed.
Print Assumptions C96_bezier_patch_fit_refuted.

Theorem C96_bspline_patch_fit_refuted : forall d (solve : list (list R) -> list (vec R d) -> list (vec R d))
    (params : list (R * R)) (values : list (vec R d)) (nu nv : nat) (ku kv : list R),
  (1 <= nu)%nat -> (1 <= nv)%nat -> params <> [] ->
  sp_fit solve (-1) (-1) params values (Z.of_nat nu) (Z.of_nat nv) ku kv = Undef.
Proof. exact spatch_dynamic_fit. Qed.
Print Assumptions C96_bspline_patch_fit_refuted.

Example C96_hyp : valid_bspline [p1 1; p1 4; p1 2; p1 0] (map IZR [0; 0; 0; 1; 3; 3; 4]%Z) /\ [p1 1] <> [].
Proof. split; [apply valid_of_Z; reflexivity|discriminate]. Qed.
