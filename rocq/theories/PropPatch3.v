(** Property theorems: splitting B-spline patches and taking subpatches (C67, C68).  Statements only; the proofs
    are in BSplinePatchSplit.v and BSplinePatchSplit2.v.

    [ready], [part_of] (SpecPatch2.v), [regular_dir], [apart_from], [part_param] (SpecPatch.v) say which patches
    are meant and what "[a] is the part of [s] over a rectangle" means. *)
From Coq Require Import Reals Lra Lia ZArith QArith List.
From Verif Require Import Monad Scalar Spec SpecPatch SpecPatch2 ModelCurve ModelBezier ModelBSpline ModelPatchBase ModelPatch
  ExampleFacts BSplinePatchRefute BSplinePatchSplit2 BSplinePatchRefute2 PropPatch2.
Import ListNotations.
Local Open Scope R_scope.

Example ex_sp_ready : ready (ex_sp false true).
Proof.
  split; [reflexivity| | |]; change (sp_degu (ex_sp false true)) with 2%Z; change (sp_degv (ex_sp false true)) with 1%Z;
    change (sp_ku (ex_sp false true)) with (map IZR [0; 0; 0; 1; 2; 2; 2]%Z); change (sp_kv (ex_sp false true)) with (map IZR [0; 1; 3; 4; 6]%Z);
    change (Z.to_nat 2) with 2%nat; change (Z.to_nat 1) with 1%nat.
  - split; [apply (valid_dir_of_Z 2); reflexivity|apply apart_of_Z|cbn; lra].
  - split; [apply (valid_dir_of_Z 1); reflexivity|apply apart_of_Z|cbn; lra].
  - left. reflexivity.
Qed.

(** C67: split_u and split_v. *)
Theorem C67_split_u : forall d (s : spatch R (vec R d)), ready s ->
  let p := Z.to_nat (sp_degu s) in let q := Z.to_nat (sp_degv s) in
  let ulo := dir_lo p (sp_ku s) in let uhi := dir_hi p (sp_ku s) in
  let vlo := dir_lo q (sp_kv s) in let vhi := dir_hi q (sp_kv s) in
  forall u, (1 <= p)%nat -> ulo < u < uhi -> apart_from (sp_ku s) u ->
  exists a b, sp_split_u s u = Ok [a; b] /\
    (sp_peru a = false /\ sp_perv a = false) /\ (sp_peru b = false /\ sp_perv b = false) /\
    part_of s a ulo u vlo vhi /\ part_of s b u uhi vlo vhi.
Proof. exact @spatch_split_u. Qed.
Print Assumptions C67_split_u.

Theorem C67_split_v : forall d (s : spatch R (vec R d)), ready s ->
  let p := Z.to_nat (sp_degu s) in let q := Z.to_nat (sp_degv s) in
  let ulo := dir_lo p (sp_ku s) in let uhi := dir_hi p (sp_ku s) in
  let vlo := dir_lo q (sp_kv s) in let vhi := dir_hi q (sp_kv s) in
  forall v, (1 <= q)%nat -> vlo < v < vhi -> apart_from (sp_kv s) v ->
  exists a b, sp_split_v s v = Ok [a; b] /\
    (sp_peru a = false /\ sp_perv a = false) /\ (sp_peru b = false /\ sp_perv b = false) /\
    part_of s a ulo uhi vlo v /\ part_of s b ulo uhi v vhi.
Proof. exact @spatch_split_v. Qed.
Print Assumptions C67_split_v.

(** The split into four, in the order of the picture in the source. *)
Theorem C67_split : forall d (s : spatch R (vec R d)), ready s ->
  let p := Z.to_nat (sp_degu s) in let q := Z.to_nat (sp_degv s) in
  let ulo := dir_lo p (sp_ku s) in let uhi := dir_hi p (sp_ku s) in
  let vlo := dir_lo q (sp_kv s) in let vhi := dir_hi q (sp_kv s) in
  forall u v, (1 <= p)%nat -> (1 <= q)%nat -> ulo < u < uhi -> apart_from (sp_ku s) u ->
  vlo < v < vhi -> apart_from (sp_kv s) v ->
  exists a b c e, sp_split s u v = Ok [a; b; c; e] /\
    part_of s a ulo u vlo v /\ part_of s b ulo u v vhi /\ part_of s c u uhi vlo v /\ part_of s e u uhi v vhi.
Proof. exact @spatch_split. Qed.
Print Assumptions C67_split.

Theorem C67_split_ends : forall d (s : spatch R (vec R d)), ready s ->
  let p := Z.to_nat (sp_degu s) in let q := Z.to_nat (sp_degv s) in
  let ulo := dir_lo p (sp_ku s) in let uhi := dir_hi p (sp_ku s) in
  let vlo := dir_lo q (sp_kv s) in let vhi := dir_hi q (sp_kv s) in
  forall u v,
  ((u = ulo \/ u = uhi) -> sp_split_u s u = Ok [s]) /\
  ((v = vlo \/ v = vhi) -> sp_split_v s v = Ok [s]) /\
  ((u = ulo \/ u = uhi) -> (v = vlo \/ v = vhi) -> sp_split s u v = Ok [s]) /\
  ((u = ulo \/ u = uhi) -> vlo < v < vhi -> sp_split s u v = sp_split_v s v) /\
  (ulo < u < uhi -> (v = vlo \/ v = vhi) -> sp_split s u v = sp_split_u s u).
Proof. exact @spatch_split_ends. Qed.
Print Assumptions C67_split_ends.

(** Outside the domain all three fail, split_u too: its own test lacks the [throw], the split of an iso curve does
    throw. *)
Theorem C67_split_outside : forall d (s : spatch R (vec R d)), ready s ->
  let p := Z.to_nat (sp_degu s) in let q := Z.to_nat (sp_degv s) in
  let ulo := dir_lo p (sp_ku s) in let uhi := dir_hi p (sp_ku s) in
  let vlo := dir_lo q (sp_kv s) in let vhi := dir_hi q (sp_kv s) in
  forall u v,
  let out_u := u < ulo - / IZR (2 ^ 52) \/ uhi + / IZR (2 ^ 52) < u in
  let out_v := v < vlo - / IZR (2 ^ 52) \/ vhi + / IZR (2 ^ 52) < v in
  (out_u -> sp_split_u s u = Throw invalid_setting_error) /\
  (out_v -> sp_split_v s v = Throw invalid_setting_error) /\
  (out_u \/ out_v -> sp_split s u v = Throw invalid_setting_error).
Proof. exact @spatch_split_outside. Qed.
Print Assumptions C67_split_outside.

(** C68: subpatch. *)
Theorem C68_subpatch_partial : forall d (s : spatch R (vec R d)), ready s ->
  let p := Z.to_nat (sp_degu s) in let q := Z.to_nat (sp_degv s) in
  let ulo := dir_lo p (sp_ku s) in let uhi := dir_hi p (sp_ku s) in
  let vlo := dir_lo q (sp_kv s) in let vhi := dir_hi q (sp_kv s) in
  forall u0 u1 v0 v1, (1 <= p)%nat -> (1 <= q)%nat ->
  ulo <= u0 -> u0 + / IZR (10 ^ 16) < u1 -> u1 <= uhi -> apart_from (sp_ku s) u0 -> apart_from (sp_ku s) u1 ->
  vlo <= v0 -> v0 + / IZR (10 ^ 16) < v1 -> v1 <= vhi -> apart_from (sp_kv s) v0 -> apart_from (sp_kv s) v1 ->
  exists a, sp_subpatch s u0 u1 v0 v1 = Ok a /\ part_of s a u0 u1 v0 v1.
Proof. exact @spatch_subpatch. Qed.
Print Assumptions C68_subpatch_partial.

Theorem C68_subpatch_bad_range : forall d (s : spatch R (vec R d)), ready s ->
  let p := Z.to_nat (sp_degu s) in let q := Z.to_nat (sp_degv s) in
  let ulo := dir_lo p (sp_ku s) in let uhi := dir_hi p (sp_ku s) in
  let vlo := dir_lo q (sp_kv s) in let vhi := dir_hi q (sp_kv s) in
  forall u0 u1 v0 v1, let e := / IZR (2 ^ 52) in
  (u1 < u0 \/ v1 < v0 \/ u0 < ulo - e \/ uhi + e < u0 \/ u1 < ulo - e \/ uhi + e < u1 \/
   v0 < vlo - e \/ vhi + e < v0 \/ v1 < vlo - e \/ vhi + e < v1) ->
  sp_subpatch s u0 u1 v0 v1 = Throw invalid_setting_error.
Proof. exact @spatch_subpatch_bad. Qed.
Print Assumptions C68_subpatch_bad_range.

(** With equal bounds (accepted by the checks) the result is the whole part above the bound. *)
Theorem C68_subpatch_equal_bounds : forall d (s : spatch R (vec R d)), ready s ->
  let p := Z.to_nat (sp_degu s) in let q := Z.to_nat (sp_degv s) in
  let ulo := dir_lo p (sp_ku s) in let uhi := dir_hi p (sp_ku s) in
  let vlo := dir_lo q (sp_kv s) in let vhi := dir_hi q (sp_kv s) in
  forall u, (1 <= p)%nat -> ulo < u < uhi -> apart_from (sp_ku s) u ->
  exists a, sp_subpatch s u u vlo vhi = Ok a /\ part_of s a u uhi vlo vhi.
Proof. exact @spatch_subpatch_equal. Qed.
Print Assumptions C68_subpatch_equal_bounds.

(** So the claim for equal bounds (a part reduced to a line) is false. *)
Theorem C68_subpatch_equal_refuted : exists (s a : spatch R (vec R 1)) u,
  ready s /\ dir_lo (Z.to_nat (sp_degu s)) (sp_ku s) < u < dir_hi (Z.to_nat (sp_degu s)) (sp_ku s) /\
  sp_subpatch s u u (dir_lo (Z.to_nat (sp_degv s)) (sp_kv s)) (dir_hi (Z.to_nat (sp_degv s)) (sp_kv s)) = Ok a /\
  u < dir_hi (Z.to_nat (sp_degu a)) (sp_ku a).
Proof. exact subpatch_equal_refuted. Qed.
Print Assumptions C68_subpatch_equal_refuted.

Example C67_hyp : let s := ex_sp false true in
  dir_lo 2 (sp_ku s) < 1 < dir_hi 2 (sp_ku s) /\ apart_from (sp_ku s) (IZR 1) /\
  dir_lo 1 (sp_kv s) < 2 < dir_hi 1 (sp_kv s) /\ apart_from (sp_kv s) (IZR 2) /\
  part_param (sp_peru s) 2 (sp_ku s) 0 1 1 /\ part_param (sp_perv s) 1 (sp_kv s) 2 4 3.
Proof.
  unfold dir_lo, dir_hi.
  change (sp_ku (ex_sp false true)) with (map IZR [0; 0; 0; 1; 2; 2; 2]%Z).
  change (sp_kv (ex_sp false true)) with (map IZR [0; 1; 3; 4; 6]%Z).
  split; [cbn; lra|]. split; [intros w; apply In_IZR_apart|]. split; [cbn; lra|]. split; [intros w; apply In_IZR_apart|]. split.
  - split; [lra|]. right. split; [reflexivity|]. right. split; [unfold dir_hi; cbn; lra|].
    change 1 with (IZR 1). rewrite count_IZR. vm_compute. lia.
  - split; [lra|]. left. lra.
Qed.
(** Over the rationals: knots of the four pieces at (1/2, 2), a common value, and subpatch with equal bounds. *)
Example C67_run :
  match sp_split (exq_sp false true) (1#2) 2%Q with
  | Ok [a; b; c; e] => (map Qred (sp_ku a), map Qred (sp_kv a), map Qred (sp_ku e), map Qred (sp_kv e),
                        sp_evaluate e 1%Q 3%Q)
  | _ => ([], [], [], [], Undef) end
  = ([0; 0; 0; 1#2; 1#2; 1#2]%Q, [0; 1; 2; 2]%Q, [1#2; 1#2; 1#2; 1; 2; 2; 2]%Q, [2; 2; 3; 4; 6]%Q,
     sp_evaluate (exq_sp false true) 1%Q 3%Q).
Proof. vm_compute. reflexivity. Qed.
Example C68_run :
  match sp_subpatch (exq_sp false false) (1#2) (1#2) 1%Q 4%Q with
  | Ok a => (map Qred (sp_ku a), map Qred (sp_kv a))
  | _ => ([], []) end = ([1#2; 1#2; 1#2; 1; 2; 2; 2]%Q, [0; 1; 3; 4; 6]%Q).
Proof. vm_compute. reflexivity. Qed.
