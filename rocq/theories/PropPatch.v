(** Property theorems: Bezier patches (C31-C34, C65).  Statements only; the proofs are in
    BezierPatchThms.v and BezierPatchSplit.v.

    [bp_initialize s = Ok s] says that the patch passes the checks of initialize().  [bp_tu], [bp_tv] are
    the template arguments degree_u, degree_v (-1 = dynamic), [bp_degu], [bp_degv] the run time degrees.
    A periodic direction with template degree 1 is excluded: there the iso curves are Bezier<_,_,1>, which
    ignore the flag (C11). *)
From Coq Require Import Reals Lra Lia ZArith QArith List.
From Verif Require Import Monad Scalar Spec SpecPatch ModelCurve ModelBezier ModelPatchBase ModelPatch
  BezierPatchThms BezierPatchSplit.
Import ListNotations.
Local Open Scope R_scope.

(** A patch of degrees 2 x 1 in space; once with dynamic template degrees and periodic in u, once static. *)
Definition ex_bp_grid : list (vec R 3) :=
  [(0, (0, (1, tt))); (0, (1, (0, tt))); (1, (0, (2, tt))); (1, (2, (0, tt))); (3, (0, (0, tt))); (2, (1, (1, tt)))].
Definition ex_bp (tu tv : Z) (pu pv : bool) : bpatch (vec R 3) :=
  {| bp_tu := tu; bp_tv := tv; bp_degu := 2; bp_degv := 1; bp_grid := ex_bp_grid; bp_peru := pu; bp_perv := pv |}.
Definition exq_bp_grid : list (vec Q 3) :=
  [(0, (0, (1, tt))); (0, (1, (0, tt))); (1, (0, (2, tt))); (1, (2, (0, tt))); (3, (0, (0, tt))); (2, (1, (1, tt)))]%Q.
Definition exq_bp (tu tv : Z) (pu pv : bool) : bpatch (vec Q 3) :=
  {| bp_tu := tu; bp_tv := tv; bp_degu := 2; bp_degv := 1; bp_grid := exq_bp_grid; bp_peru := pu; bp_perv := pv |}.

Example ex_bp_hyp :
  let s := ex_bp (-1) (-1) true false in
  bp_initialize s = Ok s /\ (bp_tu s = -1 \/ bp_tu s = bp_degu s)%Z /\ (bp_tv s = -1 \/ bp_tv s = bp_degv s)%Z /\
  (bp_peru s = true -> bp_tu s <> 1%Z) /\ (bp_perv s = true -> bp_tv s <> 1%Z).
Proof. repeat split; auto; discriminate. Qed.
Example ex_bp_hyp_static :
  let s := ex_bp 2 1 true false in
  bp_initialize s = Ok s /\ bp_tu s = bp_degu s /\ bp_tv s = bp_degv s /\
  (bp_peru s = true -> bp_tu s <> 1%Z) /\ (bp_perv s = true -> bp_tv s <> 1%Z).
Proof. repeat split; auto; discriminate. Qed.

(** C31 *)
Theorem C31_evaluate : forall d (s : bpatch (vec R d)) u v,
  bp_initialize s = Ok s ->
  (bp_tu s = -1 \/ bp_tu s = bp_degu s)%Z -> (bp_tv s = -1 \/ bp_tv s = bp_degv s)%Z ->
  (bp_peru s = true -> bp_tu s <> 1%Z) -> (bp_perv s = true -> bp_tv s <> 1%Z) ->
  let nu := S (Z.to_nat (bp_degu s)) in
  let nv := S (Z.to_nat (bp_degv s)) in
  exists u' v', wraps (bp_peru s) 0 1 u u' /\ wraps (bp_perv s) 0 1 v v' /\
    bp_evaluate s u v = Ok (tensor_sum nu nv (bezier_basis nu u') (bezier_basis nv v') (bp_grid s)).
Proof. exact bpatch_evaluate. Qed.
Print Assumptions C31_evaluate.

Example C31_run :
  bp_evaluate (exq_bp (-1) (-1) true false) (5#4) (1#2) = bp_evaluate (exq_bp 2 1 false false) (1#4) (1#2) /\
  bp_evaluate (exq_bp 2 1 false false) 0%Q 1%Q = Ok (0, (1, (0, tt)))%Q /\
  bp_evaluate (exq_bp 2 1 false false) (1#2) 0%Q = Ok (5#4, (0, (5#4, tt)))%Q.
Proof. vm_compute. auto. Qed.

(** C32 *)
Theorem C32_derivatives : forall d (s : bpatch (vec R d)),
  bp_initialize s = Ok s ->
  (bp_tu s = -1 \/ bp_tu s = bp_degu s)%Z -> (bp_tv s = -1 \/ bp_tv s = bp_degv s)%Z ->
  (bp_peru s = true -> bp_tu s <> 1%Z) -> (bp_perv s = true -> bp_tv s <> 1%Z) ->
  exists f fu fv fuu fvv fuv : R -> R -> vec R d,
    (forall u v, partials f fu fv fuu fvv fuv u v) /\
    forall u v, exists u' v', wraps (bp_peru s) 0 1 u u' /\ wraps (bp_perv s) 0 1 v v' /\
      bp_evaluate s u v = Ok (f u' v') /\
      bp_evaluate_derivative_u s u v = Ok (fu u' v') /\ bp_evaluate_derivative_v s u v = Ok (fv u' v') /\
      bp_evaluate_2nd_derivative_uu s u v = Ok (fuu u' v') /\ bp_evaluate_2nd_derivative_vv s u v = Ok (fvv u' v') /\
      bp_evaluate_2nd_derivative_uv s u v = Ok (fuv u' v').
Proof. exact bpatch_derivatives. Qed.
Print Assumptions C32_derivatives.

(** C33: pieces of a patch whose template degrees are its degrees.  The pieces are not periodic; they are
    compared with the polynomial patch, i.e. with the flags off. *)
Theorem C33_split_u : forall d (s : bpatch (vec R d)) u,
  bp_initialize s = Ok s -> bp_tu s = bp_degu s -> bp_tv s = bp_degv s -> 0 < u < 1 ->
  exists a b, bp_split_u s u = Ok [a; b] /\ bp_initialize a = Ok a /\ bp_initialize b = Ok b /\
    forall x y, bp_evaluate a x y = bp_evaluate (bp_set_periodic s false false) (u * x) y /\
                bp_evaluate b x y = bp_evaluate (bp_set_periodic s false false) (u + (1 - u) * x) y.
Proof. exact bpatch_split_u. Qed.
Print Assumptions C33_split_u.

Theorem C33_split_v : forall d (s : bpatch (vec R d)) v,
  bp_initialize s = Ok s -> bp_tu s = bp_degu s -> bp_tv s = bp_degv s -> 0 < v < 1 ->
  exists a b, bp_split_v s v = Ok [a; b] /\ bp_initialize a = Ok a /\ bp_initialize b = Ok b /\
    forall x y, bp_evaluate a x y = bp_evaluate (bp_set_periodic s false false) x (v * y) /\
                bp_evaluate b x y = bp_evaluate (bp_set_periodic s false false) x (v + (1 - v) * y).
Proof. exact bpatch_split_v. Qed.
Print Assumptions C33_split_v.

Theorem C33_split : forall d (s : bpatch (vec R d)) u v,
  bp_initialize s = Ok s -> bp_tu s = bp_degu s -> bp_tv s = bp_degv s -> 0 < u < 1 -> 0 < v < 1 ->
  exists a b c e, bp_split s u v = Ok [a; b; c; e] /\
    bp_initialize a = Ok a /\ bp_initialize b = Ok b /\ bp_initialize c = Ok c /\ bp_initialize e = Ok e /\
    forall x y, let f := bp_evaluate (bp_set_periodic s false false) in
      bp_evaluate a x y = f (u * x) (v * y) /\ bp_evaluate b x y = f (u * x) (v + (1 - v) * y) /\
      bp_evaluate c x y = f (u + (1 - u) * x) (v * y) /\ bp_evaluate e x y = f (u + (1 - u) * x) (v + (1 - v) * y).
Proof. exact bpatch_split. Qed.
Print Assumptions C33_split.

(** Splitting on the border returns the patch itself (or splits in the other direction only); outside the
    domain it throws. *)
Theorem C33_split_border : forall d (s : bpatch (vec R d)) u v,
  (u = 0 \/ u = 1 -> bp_split_u s u = Ok [s] /\ (v = 0 \/ v = 1 -> bp_split s u v = Ok [s]) /\
     (0 < v < 1 -> bp_split s u v = bp_split_v s v)) /\
  (v = 0 \/ v = 1 -> bp_split_v s v = Ok [s] /\ (0 < u < 1 -> bp_split s u v = bp_split_u s u)) /\
  (u < - / IZR (2 ^ 52) \/ 1 + / IZR (2 ^ 52) < u -> bp_split_u s u = Throw invalid_setting_error) /\
  (v < - / IZR (2 ^ 52) \/ 1 + / IZR (2 ^ 52) < v -> bp_split_v s v = Throw invalid_setting_error).
Proof. exact bpatch_split_border. Qed.
Print Assumptions C33_split_border.

Example C33_run :
  (do l <- bp_split (exq_bp 2 1 true false) (1#4) (1#3); do a <- get l 2; bp_evaluate a (1#2) (1#2)) =
  bp_evaluate (exq_bp 2 1 false false) (5#8) (1#6).
Proof. vm_compute. reflexivity. Qed.

(** C34: false of the code, BezierPatch.h subpatch splits at u_max after the split at u_min without
    rescaling it. *)
Theorem C34_subpatch_refuted :
  exists (s : bpatch (vec R 2)) p, bp_initialize s = Ok s /\ bp_tu s = bp_degu s /\ bp_tv s = bp_degv s /\
    bp_peru s = false /\ bp_perv s = false /\
    bp_subpatch s (1/4) (1/2) 0 1 = Ok p /\
    bp_evaluate p 1 0 = Ok (5/8, (0, tt)) /\ bp_evaluate s (1/2) 0 = Ok (1/2, (0, tt)) /\
    bp_evaluate p 1 0 <> bp_evaluate s (1/4 + (1/2 - 1/4) * 1) 0.
Proof. exact bpatch_subpatch_wrong. Qed.
Print Assumptions C34_subpatch_refuted.

(** What it does return. *)
Theorem C34_subpatch_actual : forall d (s : bpatch (vec R d)) u_min u_max v_min v_max,
  bp_initialize s = Ok s -> bp_tu s = bp_degu s -> bp_tv s = bp_degv s ->
  bp_peru s = false -> bp_perv s = false ->
  0 <= u_min < u_max -> u_max <= 1 -> 0 <= v_min < v_max -> v_max <= 1 ->
  exists p, bp_subpatch s u_min u_max v_min v_max = Ok p /\
    forall x y, bp_evaluate p x y =
      bp_evaluate s (u_min + (1 - u_min) * u_max * x) (v_min + (1 - v_min) * v_max * y).
Proof. exact bpatch_subpatch_actual. Qed.
Print Assumptions C34_subpatch_actual.

(** The claim, for rectangles that touch a border of the domain in each direction; missing: the others,
    where it is false. *)
Theorem C34_subpatch_partial : forall d (s : bpatch (vec R d)) u_min u_max v_min v_max,
  bp_initialize s = Ok s -> bp_tu s = bp_degu s -> bp_tv s = bp_degv s ->
  bp_peru s = false -> bp_perv s = false ->
  0 <= u_min < u_max -> u_max <= 1 -> 0 <= v_min < v_max -> v_max <= 1 ->
  u_min = 0 \/ u_max = 1 -> v_min = 0 \/ v_max = 1 ->
  exists p, bp_subpatch s u_min u_max v_min v_max = Ok p /\
    forall x y, bp_evaluate p x y = bp_evaluate s (u_min + (u_max - u_min) * x) (v_min + (v_max - v_min) * y).
Proof. exact bpatch_subpatch_border. Qed.
Print Assumptions C34_subpatch_partial.

Example C34_run :
  (do p <- bp_subpatch (exq_bp 2 1 false false) (1#4) 1%Q 0%Q (1#2); bp_evaluate p (1#2) (1#2)) =
  bp_evaluate (exq_bp 2 1 false false) (5#8) (1#4).
Proof. vm_compute. reflexivity. Qed.

(** C65: with dynamic template degrees the pieces have degree -1 and cannot be evaluated. *)
Theorem C65_split_dynamic_refuted : forall d (s : bpatch (vec R d)) u,
  bp_initialize s = Ok s -> (bp_tu s = -1)%Z -> 0 < u < 1 ->
  exists a b, bp_split_u s u = Ok [a; b] /\ forall x y, bp_evaluate a x y = Undef /\ bp_evaluate b x y = Undef.
Proof. exact bpatch_split_dynamic. Qed.
Print Assumptions C65_split_dynamic_refuted.

Example C65_hyp : let s := ex_bp (-1) (-1) false false in bp_initialize s = Ok s /\ (bp_tu s = -1)%Z /\ (0 < 1/2 < 1)%R.
Proof. cbn. repeat split; lra. Qed.
