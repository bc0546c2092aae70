(** Statement-level predicates about rational patches of the model (nothing here comes from the C++ code). *)
From Coq Require Import Reals List ZArith.
From Verif Require Import Monad Scalar Spec SpecPatch ModelCurve ModelBezier ModelBSpline ModelRational ModelPatchBase ModelPatch
  ModelPatchRational.
Import ListNotations.
Local Open Scope R_scope.

(** sum_ij bu_i bv_j w_ij and (sum_ij bu_i bv_j w_ij P_ij) / (sum_ij bu_i bv_j w_ij), grids stored row by row. *)
Definition tensor_weight (nu nv : nat) (bu bv : nat -> R) (ws : list R) : R :=
  rsum nu (fun i => rsum nv (fun j => bu i * bv j * nth (i * nv + j) ws 0)).
Definition tensor_mean {d} (nu nv : nat) (bu bv : nat -> R) (ws : list R) (grid : list (vec R d)) : vec R d :=
  pmul (/ tensor_weight nu nv bu bv ws)
    (psum nu (fun i => psum nv (fun j => pmul (bu i * bv j * nth (i * nv + j) ws 0) (nth (i * nv + j) grid p0)))).

(** An initialized rational Bezier patch.  The template degrees (-1 = dynamic) of the patch and of its homogeneous
    patch are the same type arguments, and a static one is the degree.  A periodic direction with template degree 1
    is excluded (C11). *)
Record rp_ready {d} (s : rbpatch R d) : Prop := {
  rr_init : rp_initialize s = Ok s;
  rr_hu : bp_tu (rp_hom s) = rp_tu s;
  rr_hv : bp_tv (rp_hom s) = rp_tv s;
  rr_tu : (rp_tu s = -1 \/ rp_tu s = rp_degu s)%Z;
  rr_tv : (rp_tv s = -1 \/ rp_tv s = rp_degv s)%Z;
  rr_pu : rp_peru s = true -> rp_tu s <> 1%Z;
  rr_pv : rp_perv s = true -> rp_tv s <> 1%Z;
}.

(** An initialized NURBS patch with valid knots in both directions. *)
Record np_valid {d} (s : nupatch R d) : Prop := {
  nv_init : np_initialize s = Ok s;
  nv_u : valid_dir (Z.to_nat (np_degu s)) (np_ku s);
  nv_v : valid_dir (Z.to_nat (np_degv s)) (np_kv s);
  nv_au : knots_apart (/ IZR (10 ^ 16)) (np_ku s);
  nv_av : knots_apart (/ IZR (10 ^ 16)) (np_kv s);
}.
(** ... and one the split theorems are about: first spans not empty, positive weights. *)
Record np_ready {d} (s : nupatch R d) : Prop := {
  nr_init : np_initialize s = Ok s;
  nr_u : regular_dir (Z.to_nat (np_degu s)) (np_ku s);
  nr_v : regular_dir (Z.to_nat (np_degv s)) (np_kv s);
  nr_hu : sp_tu (np_hom s) = np_tu s;
  nr_hv : sp_tv (np_hom s) = np_tv s;
  nr_t : (np_tu s < 0 \/ np_tv s < 0 \/ (np_tu s = np_degu s /\ np_tv s = np_degv s))%Z;
  nr_w : Forall (fun w => 0 < w) (np_weights s);
}.

(** [a] is the part of the surface [s] over [u0,u1] x [v0,v1]. *)
Record np_part_of {d} (s a : nupatch R d) (u0 u1 v0 v1 : R) : Prop := {
  npo_ready : np_ready a;
  npo_degu : np_degu a = np_degu s;
  npo_degv : np_degv a = np_degv s;
  npo_ulo : dir_lo (Z.to_nat (np_degu a)) (np_ku a) = u0;
  npo_uhi : dir_hi (Z.to_nat (np_degu a)) (np_ku a) = u1;
  npo_vlo : dir_lo (Z.to_nat (np_degv a)) (np_kv a) = v0;
  npo_vhi : dir_hi (Z.to_nat (np_degv a)) (np_kv a) = v1;
  npo_val : forall x y,
    part_param (np_peru s) (Z.to_nat (np_degu s)) (np_ku s) u0 u1 x ->
    part_param (np_perv s) (Z.to_nat (np_degv s)) (np_kv s) v0 v1 y ->
    exists w, np_evaluate s x y = Ok w /\ np_evaluate a x y = Ok w;
}.

(** Calls of the element setters of a rational Bezier patch, and the grid and weights they leave. *)
Inductive rp_call (d : nat) :=
| CellPoint (i j : nat) (p : vec R d)
| CellWeight (i j : nat) (w : R).
Arguments CellPoint {d}. Arguments CellWeight {d}.
Definition rp_cell {d} (k : rp_call d) : nat * nat :=
  match k with CellPoint i j _ | CellWeight i j _ => (i, j) end.
Definition rp_step {d} (s : rbpatch R d) (k : rp_call d) : res (rbpatch R d) :=
  match k with
  | CellPoint i j p => rp_set_control_point s (Z.of_nat i) (Z.of_nat j) p
  | CellWeight i j w => rp_set_weight s (Z.of_nat i) (Z.of_nat j) w
  end.
Fixpoint rp_run {d} (ks : list (rp_call d)) (s : rbpatch R d) : res (rbpatch R d) :=
  match ks with [] => Ok s | k :: ks => do s' <- rp_step s k; rp_run ks s' end.
(** Cell (x, y) of the grid after the calls, when it was [p] before: the last call for the cell wins. *)
Fixpoint point_after {d} (ks : list (rp_call d)) (x y : nat) (p : vec R d) : vec R d :=
  match ks with
  | [] => p
  | CellPoint i j q :: ks => point_after ks x y (if (Nat.eqb i x && Nat.eqb j y)%bool then q else p)
  | _ :: ks => point_after ks x y p
  end.
Fixpoint weight_after {d} (ks : list (rp_call d)) (x y : nat) (w : R) : R :=
  match ks with
  | [] => w
  | CellWeight i j q :: ks => weight_after ks x y (if (Nat.eqb i x && Nat.eqb j y)%bool then q else w)
  | _ :: ks => weight_after ks x y w
  end.

(** A rational Bezier patch with static degrees and positive weights, and [s0] the same patch made non-periodic. *)
Record rp_static {d} (s : rbpatch R d) : Prop := {
  rst_init : rp_initialize s = Ok s;
  rst_hu : bp_tu (rp_hom s) = rp_tu s;
  rst_hv : bp_tv (rp_hom s) = rp_tv s;
  rst_tu : rp_tu s = rp_degu s;
  rst_tv : rp_tv s = rp_degv s;
  rst_w : Forall (fun w => 0 < w) (rp_weights s);
}.
Definition rp_flat {d} (s s0 : rbpatch R d) : Prop := rp_initialize (rp_set_periodic s false false) = Ok s0.
