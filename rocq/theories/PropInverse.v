(** C38 for the patch classes that override approximate_inverse_evaluate. *)
From Coq Require Import Reals ZArith List QArith.
From Verif Require Import Monad Scalar Spec SpecPatch ModelCurve ModelBezier ModelBSpline ModelPatchBase ModelPatch ModelRational
  ModelPatchRational ModelInverse ModelInverse2 BSplinePatchRefute PatchInverse.
Import ListNotations.
Local Open Scope R_scope.

(** The parameters found by BSplinePatch::approximate_inverse_evaluate lie in the given range, at every level of the
    bisection.  No assumption on the distance of the knots. *)
Theorem C38_bspline_patch_approx : forall (d : nat) (p : vec R d) (nsu nsv : Z) (level : nat), (0 < nsu)%Z -> (0 < nsv)%Z ->
  forall (s : spatch R (vec R d)) (a b c e : R) (r : R * R),
  sp_initialize s = Ok s ->
  valid_dir (Z.to_nat (sp_degu s)) (sp_ku s) -> valid_dir (Z.to_nat (sp_degv s)) (sp_kv s) ->
  (sp_tu s < 0 \/ sp_tv s < 0 \/ (sp_tu s = sp_degu s /\ sp_tv s = sp_degv s))%Z ->
  a <= b -> c <= e ->
  sp_approx_inverse s p nsu nsv a b c e level = Ok r -> (a <= fst r <= b) /\ (c <= snd r <= e).
Proof. exact spatch_approx_range. Qed.
Print Assumptions C38_bspline_patch_approx.

(** The same for NURBSPatch. *)
Theorem C38_nurbs_patch_approx : forall (d : nat) (p : vec R d) (nsu nsv : Z) (level : nat), (0 < nsu)%Z -> (0 < nsv)%Z ->
  forall (s : nupatch R d) (a b c e : R) (r : R * R),
  np_initialize s = Ok s ->
  valid_dir (Z.to_nat (np_degu s)) (np_ku s) -> valid_dir (Z.to_nat (np_degv s)) (np_kv s) ->
  (sp_tu (np_hom s) < 0 \/ sp_tv (np_hom s) < 0 \/ (sp_tu (np_hom s) = np_degu s /\ sp_tv (np_hom s) = np_degv s))%Z ->
  a <= b -> c <= e ->
  np_approx_inverse s p nsu nsv a b c e level = Ok r -> (a <= fst r <= b) /\ (c <= snd r <= e).
Proof. exact npatch_approx_range. Qed.
Print Assumptions C38_nurbs_patch_approx.

(** The same for RationalBezierPatch. *)
Theorem C38_rational_patch_approx : forall (d : nat) (p : vec R d) (nsu nsv : Z) (level : nat), (0 < nsu)%Z -> (0 < nsv)%Z ->
  forall (s : rbpatch R d) (a b c e : R) (r : R * R), a <= b -> c <= e ->
  rp_approx_inverse s p nsu nsv a b c e level = Ok r -> (a <= fst r <= b) /\ (c <= snd r <= e).
Proof. exact rpatch_inverse_range. Qed.
Print Assumptions C38_rational_patch_approx.

(** Runs: bicubic graphs x = u, y = v with 5 by 4 control points (one interior knot in u).  The bisection narrows the
    range and returns parameters inside it. *)
Definition exq_grid (nu nv : nat) : list (vec Q 3) :=
  flat_map (fun i : nat => map (fun j : nat => (Z.of_nat i # 4, (Z.of_nat j # 3, ((Z.of_nat (i * j) # 1), tt)))%Q) (seq 0 nv)) (seq 0 nu).
Definition exq_ku : list Q := [0; 0; 0; 0; 1 # 2; 1; 1; 1; 1]%Q.
Definition exq_kv : list Q := [0; 0; 0; 0; 1; 1; 1; 1]%Q.
Definition inside (r : res (Q * Q)) : bool :=
  match r with
  | Ok uv => Qle_bool 0 (fst uv) && Qle_bool (fst uv) (3 # 4) && Qle_bool (1 # 4) (snd uv) && Qle_bool (snd uv) 1
  | _ => false
  end.
Definition exq_point : vec Q 3 := ((1 # 4), ((1 # 2), (1, tt)))%Q.
Example C38_bspline_patch_run :
  inside (do s <- sp_initialize (sp_make (-1) (-1) 3 3 (exq_grid 5 4) exq_ku exq_kv false false);
          sp_approx_inverse s exq_point 8 8 0%Q (3 # 4)%Q (1 # 4)%Q 1%Q 2) = true.
Proof. vm_compute. reflexivity. Qed.
Example C38_nurbs_patch_run :
  inside (do s <- np_initialize (np_make (-1) (-1) 3 3 (exq_grid 5 4) (repeat (2 # 1) 20) exq_ku exq_kv false false);
          np_approx_inverse s exq_point 8 8 0%Q (3 # 4)%Q (1 # 4)%Q 1%Q 2) = true.
Proof. vm_compute. reflexivity. Qed.
Example C38_rational_patch_run :
  inside (do s <- rp_initialize (rp_set_weights (rp_set_grid (rp_new 3 3) (exq_grid 4 4)) (repeat (2 # 1) 16));
          rp_approx_inverse s exq_point 8 8 0%Q (3 # 4)%Q (1 # 4)%Q 1%Q 2) = true.
Proof. vm_compute. reflexivity. Qed.

(** The same B-spline and NURBS patches over the reals meet the hypotheses. *)
Definition ex_grid (nu nv : nat) : list (vec R 3) :=
  flat_map (fun i : nat => map (fun j : nat => (INR i / 4, (INR j / 3, (INR (i * j), tt)))) (seq 0 nv)) (seq 0 nu).
Definition ex_raw : spatch R (vec R 3) :=
  sp_make (-1) (-1) 3 3 (ex_grid 5 4) (map IZR [0; 0; 0; 0; 1; 2; 2; 2; 2]%Z) (map IZR [0; 0; 0; 0; 1; 1; 1; 1]%Z) false false.
Definition ex_patch : spatch R (vec R 3) := match sp_initialize ex_raw with Ok s => s | _ => ex_raw end.
Definition ex_nraw : nupatch R 3 :=
  np_make (-1) (-1) 3 3 (ex_grid 5 4) (repeat 2 20) (map IZR [0; 0; 0; 0; 1; 2; 2; 2; 2]%Z) (map IZR [0; 0; 0; 0; 1; 1; 1; 1]%Z) false false.
Definition ex_npatch : nupatch R 3 := match np_initialize ex_nraw with Ok s => s | _ => ex_nraw end.
Example C38_bspline_patch_hyp : sp_initialize ex_patch = Ok ex_patch /\ sp_isou ex_patch <> [] /\
  valid_dir (Z.to_nat (sp_degu ex_patch)) (sp_ku ex_patch) /\ valid_dir (Z.to_nat (sp_degv ex_patch)) (sp_kv ex_patch) /\
  (sp_tu ex_patch < 0)%Z.
Proof.
  split; [reflexivity|]. split; [discriminate|].
  split; [apply (valid_dir_of_Z 3); reflexivity|]. split; [apply (valid_dir_of_Z 3); reflexivity|reflexivity].
Qed.
Example C38_nurbs_patch_hyp : np_initialize ex_npatch = Ok ex_npatch /\ sp_isou (np_hom ex_npatch) <> [] /\
  valid_dir (Z.to_nat (np_degu ex_npatch)) (np_ku ex_npatch) /\ valid_dir (Z.to_nat (np_degv ex_npatch)) (np_kv ex_npatch) /\
  (sp_tu (np_hom ex_npatch) < 0)%Z.
Proof.
  split; [reflexivity|]. split; [discriminate|].
  split; [apply (valid_dir_of_Z 3); reflexivity|]. split; [apply (valid_dir_of_Z 3); reflexivity|reflexivity].
Qed.
