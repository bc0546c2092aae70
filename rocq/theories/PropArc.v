(** Property theorems: arc length from the start of the domain, arc length on patches (C47) and the inverse of the arc
    length (C93).  Statements only; the proofs are in ArcInverse.v.

    [edist] is the Euclidean distance; a curve or patch is given by its virtual functions ([curve_ops], [patch_ops]),
    which may be any functions unless a hypothesis says otherwise. *)
From Coq Require Import Reals Lra Lia ZArith QArith List.
From Verif Require Import Monad MonadFacts Scalar ScalarFacts Spec SpecGeom ModelCurve ModelPatchBase ModelLine ModelPrimitive
  ModelQuadrature CurveThms LineThms ArcLengthThms ArcInverse.
Import ListNotations.
Local Open Scope R_scope.

(** C47: the length up to [t] counts from the start of the domain. *)
Theorem C47_from_start_partial : forall d (c : curve_ops R (vec R d)) v t tol, (forall u, c_d1 c u = Ok v) ->
  arc_length_to c t 0 tol = Ok ((t - c_lower c) * edist v p0).
Proof. exact arc_to_level0. Qed.
Print Assumptions C47_from_start_partial.
(** On every curve and at every level and tolerance nothing lies between a parameter and itself. *)
Theorem C47_empty_range : forall d (c : curve_ops R (vec R d)) t v level tol, (0 <= level)%Z -> c_d1 c t = Ok v -> arc_length c t t level tol = Ok 0.
Proof. exact arc_empty. Qed.
Print Assumptions C47_empty_range.
Theorem C47_start : forall d (c : curve_ops R (vec R d)) v level tol, (0 <= level)%Z -> c_d1 c (c_lower c) = Ok v -> arc_length_to c (c_lower c) level tol = Ok 0.
Proof. exact arc_to_start. Qed.
Print Assumptions C47_start.
(** Along a segment from (u0, v0) to (u1, v1) of a flat patch with derivatives [x] and [y]: as for curves, exact at
    level 0 only. *)
Theorem C47_patch_level0_partial : forall d (s : patch_ops R (vec R d)) x y u0 v0 u1 v1 tol, (forall u v, s_du s u v = Ok x) -> (forall u v, s_dv s u v = Ok y) ->
  patch_arc_length s u0 v0 u1 v1 0 tol = Ok (edist (padd (pmul (u1 - u0) x) (pmul (v1 - v0) y)) p0).
Proof. exact patch_arc_level0. Qed.
Print Assumptions C47_patch_level0_partial.
Theorem C47_patch_length_refuted : forall d (s : patch_ops R (vec R d)) x y u0 v0 u1 v1 level tol, (forall u v, s_du s u v = Ok x) -> (forall u v, s_dv s u v = Ok y) ->
  (padd (pmul (u1 - u0) x) (pmul (v1 - v0) y) : vec R d) <> p0 -> (1 <= level)%Z ->
  exists r, patch_arc_length s u0 v0 u1 v1 level tol = Ok r /\ r < edist (padd (pmul (u1 - u0) x) (pmul (v1 - v0) y)) p0.
Proof. exact patch_arc_short. Qed.
Print Assumptions C47_patch_length_refuted.

(** C93: the parameter returned for a length.  On every curve: if one more iteration does not change the result, the
    computed length up to it is the requested one up to 1e-12 of the whole length (the tolerance of the code). *)
Theorem C93_stable_partial : forall d (c : curve_ops R (vec R d)) l n t, (0 <= n)%Z -> inverse_arc_length c l n = Ok t -> inverse_arc_length c l (n + 1) = Ok t ->
  exists L a, arc_length_to c (c_upper c) default_level default_tol = Ok L /\ arc_length_to c t default_level default_tol = Ok a /\
    (Rabs (a - l) < L * default_tol \/ a = l).
Proof. exact inverse_stable. Qed.
Print Assumptions C93_stable_partial.
(** Length 0 gives the start of the domain if that is 0 and the curve has a positive length. *)
Theorem C93_start_partial : forall d (c : curve_ops R (vec R d)) v L n, c_lower c = 0 -> c_d1 c 0 = Ok v ->
  arc_length_to c (c_upper c) default_level default_tol = Ok L -> 0 < L -> (0 <= n)%Z -> inverse_arc_length c 0 n = Ok 0.
Proof. exact inverse_start. Qed.
Print Assumptions C93_start_partial.
(** If the domain starts after 0, length 0 gives a parameter before the start, however many iterations are made: the first guess
    l / L leaves out the start of the domain. *)
Theorem C93_offset_refuted : forall d (c : curve_ops R (vec R d)) v n, (forall t, c_d1 c t = Ok v) -> v <> p0 -> 0 < c_lower c < c_upper c -> (0 <= n)%Z ->
  exists t, inverse_arc_length c 0 n = Ok t /\ t < c_lower c.
Proof. exact inverse_offset. Qed.
Print Assumptions C93_offset_refuted.
(** On every constant speed curve over [0, 1], for every positive length and number of iterations, the point returned lies too far
    along the curve (because of [C47_length_refuted]). *)
Theorem C93_too_far_refuted : forall d (c : curve_ops R (vec R d)) v l n, (forall t, c_d1 c t = Ok v) -> v <> p0 -> c_lower c = 0 -> c_upper c = 1 -> 0 < l -> (0 <= n)%Z ->
  exists t, inverse_arc_length c l n = Ok t /\ l < (t - c_lower c) * edist v p0.
Proof. exact inverse_long. Qed.
Print Assumptions C93_too_far_refuted.
(** The same for a segment on a patch. *)
Theorem C93_patch_stable_partial : forall d (s : patch_ops R (vec R d)) u0 v0 u1 v1 l n p, (0 <= n)%Z -> (u1 <> u0 \/ v1 <> v0) ->
  patch_inverse_arc_length s u0 v0 u1 v1 l n = Ok p -> patch_inverse_arc_length s u0 v0 u1 v1 l (n + 1) = Ok p ->
  exists L a, patch_arc_length s u0 v0 u1 v1 default_level default_tol = Ok L /\ patch_arc_length s u0 v0 (fst p) (snd p) default_level default_tol = Ok a /\
    (Rabs (a - l) < L * default_tol \/ a = l).
Proof. exact patch_inverse_stable. Qed.
Print Assumptions C93_patch_stable_partial.
Theorem C93_patch_too_far_refuted : forall d (c : patch_ops R (vec R d)) x y u0 v0 u1 v1 l n, (forall u v, s_du c u v = Ok x) -> (forall u v, s_dv c u v = Ok y) ->
  (padd (pmul (u1 - u0) x) (pmul (v1 - v0) y) : vec R d) <> p0 -> 0 < l -> (0 <= n)%Z ->
  exists u v, patch_inverse_arc_length c u0 v0 u1 v1 l n = Ok (u, v) /\ l < edist (padd (pmul (u - u0) x) (pmul (v - v0) y)) p0.
Proof. exact patch_inverse_long. Qed.
Print Assumptions C93_patch_too_far_refuted.
(** Length 0 gives the first end, on every patch. *)
Theorem C93_patch_start : forall d (c : patch_ops R (vec R d)) x y L u0 v0 u1 v1 n, s_du c u0 v0 = Ok x -> s_dv c u0 v0 = Ok y ->
  patch_arc_length c u0 v0 u1 v1 default_level default_tol = Ok L -> 0 < L -> (0 <= n)%Z -> patch_inverse_arc_length c u0 v0 u1 v1 0 n = Ok (u0, v0).
Proof. exact patch_inverse_start. Qed.
Print Assumptions C93_patch_start.

(** Lines over [0, 1] and [1, 2] and a plane meet the hypotheses. *)
Definition line01 : line R (vec R 3) := {| ln_location := ((2, (0, (1, tt))) : vec R 3); ln_direction := ((3, (4, (-1, tt))) : vec R 3); ln_lower := 0; ln_upper := 1 |}.
Definition line12 : line R (vec R 3) := {| ln_location := ((2, (0, (1, tt))) : vec R 3); ln_direction := ((3, (4, (-1, tt))) : vec R 3); ln_lower := 1; ln_upper := 2 |}.
Definition plane_r : plane R (vec R 3) :=
  {| pl_location := ((0, (0, (1, tt))) : vec R 3); pl_x := ((1, (2, (0, tt))) : vec R 3); pl_y := ((0, (1, (1, tt))) : vec R 3);
     pl_bounds := {| b_ulo := 0; b_uhi := 1; b_vlo := 0; b_vhi := 1 |}; pl_periodic_u := false; pl_periodic_v := false |}.
Lemma dir_nz : ((3, (4, (-1, tt))) : vec R 3) <> p0.
Proof. intros E; apply (f_equal fst) in E; cbn in E; lra. Qed.
Example C93_hyp01 : (forall t, c_d1 (ln_ops line01) t = Ok ((3, (4, (-1, tt))) : vec R 3)) /\ c_lower (ln_ops line01) = 0 /\ c_upper (ln_ops line01) = 1.
Proof. repeat split. Qed.
Example C93_hyp12 : (forall t, c_d1 (ln_ops line12) t = Ok ((3, (4, (-1, tt))) : vec R 3)) /\ 0 < c_lower (ln_ops line12) < c_upper (ln_ops line12).
Proof. split; [reflexivity|cbn; lra]. Qed.
Example C93_hyp_start : exists L, arc_length_to (ln_ops line01) (c_upper (ln_ops line01)) default_level default_tol = Ok L /\ 0 < L.
Proof.
  destruct (arc_default 3 (ln_ops line01) _ 0 1 (proj1 C93_hyp01)) as (k & Hk & E). exists (k * ((1 - 0) * edist ((3, (4, (-1, tt))) : vec R 3) p0)). split; [exact E|].
  pose proof (edist_pos_lt 3 _ dir_nz). apply Rmult_lt_0_compat; lra.
Qed.
Example C93_hyp_stable : inverse_arc_length (ln_ops line01) 0 5 = Ok 0 /\ inverse_arc_length (ln_ops line01) 0 (5 + 1) = Ok 0.
Proof.
  destruct C93_hyp_start as (L & E & HL). split; (eapply C93_start_partial; [reflexivity|reflexivity|exact E|exact HL|lia]).
Qed.
Lemma dirs_nz : (padd (pmul (1 - 0) ((1, (2, (0, tt))) : vec R 3)) (pmul (1 / 2 - 0) ((0, (1, (1, tt))) : vec R 3)) : vec R 3) <> p0.
Proof. intros E; apply (f_equal fst) in E; cbn in E; lra. Qed.
Example C93_hyp_patch : (forall u v, s_du (pl_ops plane_r) u v = Ok ((1, (2, (0, tt))) : vec R 3)) /\ (forall u v, s_dv (pl_ops plane_r) u v = Ok ((0, (1, (1, tt))) : vec R 3)) /\
  exists L, patch_arc_length (pl_ops plane_r) 0 0 1 (1 / 2) default_level default_tol = Ok L /\ 0 < L.
Proof.
  assert (H1 : forall u v, s_du (pl_ops plane_r) u v = Ok ((1, (2, (0, tt))) : vec R 3)) by reflexivity.
  assert (H2 : forall u v, s_dv (pl_ops plane_r) u v = Ok ((0, (1, (1, tt))) : vec R 3)) by reflexivity.
  split; [exact H1|]. split; [exact H2|]. destruct (patch_arc_default 3 (pl_ops plane_r) _ _ 0 0 1 (1 / 2) H1 H2) as (k & Hk & E). eexists. split; [exact E|].
  pose proof (edist_pos_lt 3 _ dirs_nz). apply Rmult_lt_0_compat; [lra|assumption].
Qed.
Example C93_hyp_patch_stable : patch_inverse_arc_length (pl_ops plane_r) 0 0 1 (1 / 2) 0 5 = Ok (0, 0) /\ patch_inverse_arc_length (pl_ops plane_r) 0 0 1 (1 / 2) 0 (5 + 1) = Ok (0, 0).
Proof. destruct C93_hyp_patch as (_ & _ & L & E & HL). split; (eapply C93_patch_start; [reflexivity|reflexivity|exact E|exact HL|lia]). Qed.
