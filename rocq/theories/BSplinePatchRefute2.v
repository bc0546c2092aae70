(** subpatch with equal bounds (BSplinePatch.h:583-619). *)
From Coq Require Import Reals Lra Lia ZArith List.
From Verif Require Import Monad Scalar Spec SpecPatch SpecPatch2 ModelCurve ModelBezier ModelBSpline ModelPatchBase ModelPatch
  BSplinePatchRefute BSplinePatchSplit2.
Import ListNotations.
Local Open Scope R_scope.

Lemma rk_regular : regular_dir 1 rk.
Proof. split; [exact rk_valid|exact rk_apart|cbn; lra]. Qed.
Lemma rs_ready : ready rs.
Proof. split; [exact rs_init|exact rk_regular|exact rk_regular|now left]. Qed.
Lemma rk_far : apart_from rk (1/2).
Proof.
  assert (/ IZR (10 ^ 16) < / 2).
  { apply Rinv_lt_contravar; [apply Rmult_lt_0_compat|]; apply IZR_lt; reflexivity. }
  intros w [<-|[<-|[<-|[<-|[]]]]]; right; [rewrite Rabs_left by lra|rewrite Rabs_left by lra|rewrite Rabs_right by lra|rewrite Rabs_right by lra]; lra.
Qed.
Lemma subpatch_equal_refuted : exists (s a : spatch R (vec R 1)) u,
  ready s /\ dir_lo (Z.to_nat (sp_degu s)) (sp_ku s) < u < dir_hi (Z.to_nat (sp_degu s)) (sp_ku s) /\
  sp_subpatch s u u (dir_lo (Z.to_nat (sp_degv s)) (sp_kv s)) (dir_hi (Z.to_nat (sp_degv s)) (sp_kv s)) = Ok a /\
  u < dir_hi (Z.to_nat (sp_degu a)) (sp_ku a).
Proof.
  assert (Hd : dir_lo 1 rk < 1/2 < dir_hi 1 rk) by (unfold dir_lo, dir_hi, rk; cbn; lra).
  destruct (spatch_subpatch_equal rs rs_ready (1/2) (le_n 1) Hd rk_far) as (a & E & H).
  exists rs, a, (1/2). split; [exact rs_ready|]. split; [exact Hd|]. split; [exact E|]. rewrite (po_uhi _ _ _ _ _ _ H). apply Hd.
Qed.
