(** Property theorems: Bezier simplices (C44, C45, C84, C85).
    Statements only; the proofs are in SimplexThms.v and SimplexFit.v. *)
From Coq Require Import Reals Lra Lia List Arith Sorted.
From Verif Require Import Monad Scalar ScalarFacts Spec SpecSimplex ModelSimplex SimplexThms SimplexFit.
Import ListNotations.
Local Open Scope R_scope.

(** * C44: enumeration and weights *)
Theorem C44_indices : forall n d, exists l, multi_indices n d = Ok l /\ enumerates n d l /\ StronglySorted lex_before l /\ INR (length l) = C (n + d) d.
Proof. exact indices_thm. Qed.
Print Assumptions C44_indices.
Theorem C44_partition : forall n d (b : list R), length b = (n + 1)%nat -> sumR b = 1 ->
  exists l ws, multi_indices n d = Ok l /\ mapM (fun a => evaluate_bernstein n d a b) l = Ok ws /\ sumR ws = 1 /\
    ((forall x, In x b -> 0 <= x) -> forall w, In w ws -> 0 <= w).
Proof. exact partition_thm. Qed.
Print Assumptions C44_partition.
Theorem C44_weight : forall n d a (b : list R), multi_index n d a -> length b = (n + 1)%nat -> evaluate_bernstein n d a b = Ok (bern_weight d a b).
Proof. exact weight_thm. Qed.
Print Assumptions C44_weight.

(** * C45: evaluation, elevation, derivative *)
Theorem C45_evaluate : forall m (s : simplex (vec R m)) o l b, (0 < sx_cols s)%nat -> multi_indices (sx_dim s) (sx_degree s) = Ok l -> sx_ordinates s = map o l ->
  length b = (sx_dim s + 1)%nat ->
  exists q, sx_evaluate s b = Ok q /\ q = casteljau (sx_dim s) (sx_degree s) o b /\
    forall l', enumerates (sx_dim s) (sx_degree s) l' -> q = psumL (fun a => pmul (bern_weight (sx_degree s) a b) (o a)) l'.
Proof. exact evaluate_thm. Qed.
Print Assumptions C45_evaluate.
(** Every list of ordinates of the right length has the form used above. *)
Theorem C45_ordinates : forall m n d (os : list (vec R m)) l, multi_indices n d = Ok l -> length os = length l -> exists o, os = map o l.
Proof. exact ordinates_thm. Qed.
Print Assumptions C45_ordinates.
Theorem C45_hull : forall m (s : simplex (vec R m)) b, (0 < sx_cols s)%nat -> length (sx_ordinates s) = num_control_points (sx_dim s) (sx_degree s) ->
  length b = (sx_dim s + 1)%nat -> sumR b = 1 -> (forall x, In x b -> 0 <= x) -> exists q, sx_evaluate s b = Ok q /\ convex_comb (sx_ordinates s) q.
Proof. exact evaluate_hull. Qed.
Print Assumptions C45_hull.
Theorem C45_elevate : forall m (s : simplex (vec R m)), (0 < sx_cols s)%nat -> length (sx_ordinates s) = num_control_points (sx_dim s) (sx_degree s) ->
  exists s', sx_elevate_degree s = Ok s' /\ sx_dim s' = sx_dim s /\ sx_degree s' = (sx_degree s + 1)%nat /\
    forall b, length b = (sx_dim s + 1)%nat -> sumR b = 1 -> exists q, sx_evaluate s b = Ok q /\ sx_evaluate s' b = Ok q.
Proof. exact elevate_thm. Qed.
Print Assumptions C45_elevate.
Theorem C45_derivative : forall m (s : simplex (vec R m)) b dir, (0 < sx_cols s)%nat -> length (sx_ordinates s) = num_control_points (sx_dim s) (sx_degree s) ->
  length b = (sx_dim s + 1)%nat -> length dir = (sx_dim s + 1)%nat ->
  exists f q, (forall t, sx_evaluate s (move b dir t) = Ok (f t)) /\ sx_evaluate_directional_derivative s b dir = Ok q /\ vderiv f 0 q.
Proof. exact derivative_thm. Qed.
Print Assumptions C45_derivative.
Theorem C45_unset : forall m (s : simplex (vec R m)) b dir, length (sx_ordinates s) <> num_control_points (sx_dim s) (sx_degree s) \/ sx_cols s = 0%nat ->
  sx_evaluate s b = Throw runtime_error /\ sx_evaluate_directional_derivative s b dir = Throw runtime_error.
Proof. exact unset_thm. Qed.
Print Assumptions C45_unset.

(** * C84: interpolation *)
Theorem C84_invertible : forall n d, exists M N, sx_coeff_matrix n d = Ok M /\ square (length M) M /\ right_inverse (length M) M N.
Proof. exact invertible_thm. Qed.
Print Assumptions C84_invertible.
Theorem C84_fit : forall m (inverse : list (list R) -> list (list R)) (s : simplex (vec R m)) samples M, (0 < sx_cols s)%nat ->
  sx_coeff_matrix (sx_dim s) (sx_degree s) = Ok M -> right_inverse (length M) M (inverse M) -> length samples = length M ->
  exists s' pts, sx_fit inverse s samples = Ok s' /\ sx_dim s' = sx_dim s /\ sx_degree s' = sx_degree s /\
    sx_control_points (sx_dim s) (sx_degree s) = Ok pts /\ length pts = length samples /\
    forall i, (i < length samples)%nat -> sx_evaluate s' (nth i pts []) = Ok (nth i samples p0).
Proof. intros m. exact fit_thm. Qed.
Print Assumptions C84_fit.

(** * C85: control points *)
Theorem C85_control_points_partial : forall n d, (0 < d)%nat -> exists l (pts : list (list R)), multi_indices n d = Ok l /\ sx_control_points n d = Ok pts /\
  pts = map (map (fun k => INR k / INR d)) l /\ forall p, In p pts -> length p = (n + 1)%nat /\ sumR p = 1 /\ forall x, In x p -> 0 <= x <= 1.
Proof. exact control_points_thm. Qed.
Print Assumptions C85_control_points_partial.
(** At degree 0 the "control point" is the zero vector, which is not a barycentric coordinate. *)
Theorem C85_degree_zero_refuted : exists p : list R, sx_control_points 2 0 = Ok [p] /\ sumR p = 0.
Proof. exact control_points_refuted. Qed.
Print Assumptions C85_degree_zero_refuted.

(** * The hypotheses are met: a quadratic triangle with plane ordinates *)
Definition tri : simplex (vec R 2) := {| sx_dim := 2; sx_degree := 2; sx_cols := 2;
  sx_ordinates := [(0, (0, tt)); (1, (0, tt)); (0, (1, tt)); (2, (0, tt)); (1, (2, tt)); (0, (3, tt))] |}.
Example C45_hyp : (0 < sx_cols tri)%nat /\ length (sx_ordinates tri) = num_control_points (sx_dim tri) (sx_degree tri) /\
  (forall l, multi_indices (sx_dim tri) (sx_degree tri) = Ok l -> exists o, sx_ordinates tri = map o l) /\
  length [1 / 2; 1 / 3; 1 / 6] = (sx_dim tri + 1)%nat /\ sumR [1 / 2; 1 / 3; 1 / 6] = 1.
Proof.
  split; [cbn; lia|]. split; [reflexivity|]. split; [|split; [reflexivity|cbn; lra]]. intros l El. apply (ordinates_thm 2 2 2); [exact El|]. cbv in El. injection El as <-. reflexivity.
Qed.
Example C84_hyp : exists M N, sx_coeff_matrix (sx_dim tri) (sx_degree tri) = Ok M /\ right_inverse (length M) M N /\ length (sx_ordinates tri) = length M.
Proof.
  destruct (invertible_thm 2 2) as (M & N & E & _ & H). exists M, N. split; [exact E|]. split; [exact H|]. rewrite coeff_matrix_ok in E. injection E as <-. reflexivity.
Qed.
Example C44_hyp : enumerates 1 2 [[2; 0]; [1; 1]; [0; 2]]%nat.
Proof. exact (idx_enumerates 1 2). Qed.
