(** Statement-level predicates about B-spline patches of the model (nothing here comes from the C++ code). *)
From Coq Require Import Reals List ZArith.
From Verif Require Import Monad Scalar Spec SpecPatch ModelCurve ModelBezier ModelBSpline ModelPatchBase ModelPatch.
Import ListNotations.
Local Open Scope R_scope.

(** An initialized patch with regular directions.  The last clause relates the template degrees (-1 for dynamic)
    to the degrees: in C++ they agree by construction. *)
Record ready {d} (s : spatch R (vec R d)) : Prop := {
  rdy_init : sp_initialize s = Ok s;
  rdy_u : regular_dir (Z.to_nat (sp_degu s)) (sp_ku s);
  rdy_v : regular_dir (Z.to_nat (sp_degv s)) (sp_kv s);
  rdy_t : (sp_tu s < 0 \/ sp_tv s < 0 \/ (sp_tu s = sp_degu s /\ sp_tv s = sp_degv s))%Z;
}.

(** [a] is the part of the surface [s] over [u0,u1] x [v0,v1]; its control points lie in every convex set that
    contains those of [s]. *)
Record part_of {d} (s a : spatch R (vec R d)) (u0 u1 v0 v1 : R) : Prop := {
  po_ready : ready a;
  po_degu : sp_degu a = sp_degu s;
  po_degv : sp_degv a = sp_degv s;
  po_ulo : dir_lo (Z.to_nat (sp_degu a)) (sp_ku a) = u0;
  po_uhi : dir_hi (Z.to_nat (sp_degu a)) (sp_ku a) = u1;
  po_vlo : dir_lo (Z.to_nat (sp_degv a)) (sp_kv a) = v0;
  po_vhi : dir_hi (Z.to_nat (sp_degv a)) (sp_kv a) = v1;
  po_t : sp_tu a = sp_tu s /\ sp_tv a = sp_tv s;
  po_hull : forall Q : vec R d -> Prop,
    (forall w x y, 0 <= w <= 1 -> Q x -> Q y -> Q (padd (pmul (1 - w) x) (pmul w y))) ->
    Forall Q (sp_grid s) -> Forall Q (sp_grid a);
  po_val : forall x y,
    part_param (sp_peru s) (Z.to_nat (sp_degu s)) (sp_ku s) u0 u1 x ->
    part_param (sp_perv s) (Z.to_nat (sp_degv s)) (sp_kv s) v0 v1 y ->
    exists w, sp_evaluate s x y = Ok w /\ sp_evaluate a x y = Ok w;
}.
