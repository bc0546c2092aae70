(** C107: control point preimages.  A patch whose control points are an affine function of their preimages is that function.  Statements
    only; the proofs are in PreimageThms.v. *)
From Coq Require Import Reals Lra Lia ZArith QArith List.
From Verif Require Import Monad Scalar Spec SpecPatch ModelCurve ModelBezier ModelBSpline ModelPatchBase ModelPatch ModelInverse ModelInverse2
  ExampleFacts BSplinePatchRefute SpecFacts ScalarFacts PreimageThms.
Import ListNotations.
Local Open Scope R_scope.

Theorem C107_bspline_patch : forall (d : nat) (s : spatch R (vec R d)) (a b c : vec R d) (u v : R),
  let p := Z.to_nat (sp_degu s) in let q := Z.to_nat (sp_degv s) in
  let n := dir_count p (sp_ku s) in let m := dir_count q (sp_kv s) in
  sp_initialize s = Ok s -> valid_dir p (sp_ku s) -> valid_dir q (sp_kv s) ->
  knots_apart (/ IZR (10 ^ 16)) (sp_ku s) -> knots_apart (/ IZR (10 ^ 16)) (sp_kv s) ->
  (1 <= sp_degu s)%Z -> (1 <= sp_degv s)%Z ->
  (forall i j, (i < n)%nat -> (j < m)%nat -> exists x y, sp_preimage s (Z.of_nat i) (Z.of_nat j) = Ok (x, y)) /\
  ((forall i j x y, (i < n)%nat -> (j < m)%nat -> sp_preimage s (Z.of_nat i) (Z.of_nat j) = Ok (x, y) ->
      nth (i * m + j) (sp_grid s) p0 = padd a (padd (pmul x b) (pmul y c))) ->
   dir_param (sp_peru s) p (sp_ku s) u -> dir_param (sp_perv s) q (sp_kv s) v ->
   exists u' v', wraps (sp_peru s) (dir_lo p (sp_ku s)) (dir_hi p (sp_ku s)) u u' /\
     wraps (sp_perv s) (dir_lo q (sp_kv s)) (dir_hi q (sp_kv s)) v v' /\
     sp_evaluate s u v = Ok (padd a (padd (pmul u' b) (pmul v' c)))).
Proof. exact spatch_linear. Qed.
Print Assumptions C107_bspline_patch.

Theorem C107_bezier_patch : forall (d : nat) (s : bpatch (vec R d)) (a b c : vec R d) (u v : R),
  bp_initialize s = Ok s ->
  (bp_tu s = -1 \/ bp_tu s = bp_degu s)%Z -> (bp_tv s = -1 \/ bp_tv s = bp_degv s)%Z ->
  (bp_peru s = true -> bp_tu s <> 1%Z) -> (bp_perv s = true -> bp_tv s <> 1%Z) ->
  (1 <= bp_degu s)%Z -> (1 <= bp_degv s)%Z ->
  let nu := S (Z.to_nat (bp_degu s)) in let nv := S (Z.to_nat (bp_degv s)) in
  (forall i j, (i < nu)%nat -> (j < nv)%nat -> exists x y, bp_preimage s (Z.of_nat i) (Z.of_nat j) = Ok (x, y) /\ 0 <= x <= 1 /\ 0 <= y <= 1) /\
  ((forall i j x y, (i < nu)%nat -> (j < nv)%nat -> bp_preimage s (Z.of_nat i) (Z.of_nat j) = Ok (x, y) ->
      nth (i * nv + j) (bp_grid s) p0 = padd a (padd (pmul x b) (pmul y c))) ->
   exists u' v', wraps (bp_peru s) 0 1 u u' /\ wraps (bp_perv s) 0 1 v v' /\
     bp_evaluate s u v = Ok (padd a (padd (pmul u' b) (pmul v' c)))).
Proof. exact bpatch_linear. Qed.
Print Assumptions C107_bezier_patch.

(** A patch of degrees 2 x 1 with uneven knots whose control points are their preimages (a = 0, b and c the unit vectors). *)
Definition pre_grid : list (vec R 2) :=
  flat_map (fun x => map (fun y => (x, (y, tt))) [1; 3; 4]) [0; 1 / 2; 3 / 2; 2].
Definition pre_patch : spatch R (vec R 2) :=
  match sp_initialize (sp_make (-1) (-1) 2 1 pre_grid (map IZR [0; 0; 0; 1; 2; 2; 2]%Z) (map IZR [0; 1; 3; 4; 6]%Z) false false) with
  | Ok s => s | _ => sp_make (-1) (-1) 2 1 [] [] [] false false end.
Example C107_hyp :
  let s := pre_patch in
  sp_initialize s = Ok s /\ sp_degu s = 2%Z /\ sp_degv s = 1%Z /\ valid_dir 2 (sp_ku s) /\ valid_dir 1 (sp_kv s) /\
  knots_apart (/ IZR (10 ^ 16)) (sp_ku s) /\ knots_apart (/ IZR (10 ^ 16)) (sp_kv s) /\
  (forall i j x y, (i < 4)%nat -> (j < 3)%nat -> sp_preimage s (Z.of_nat i) (Z.of_nat j) = Ok (x, y) ->
      nth (i * 3 + j) (sp_grid s) p0 = padd p0 (padd (pmul x ((1, (0, tt)) : vec R 2)) (pmul y ((0, (1, tt)) : vec R 2)))) /\
  dir_param (sp_peru s) 2 (sp_ku s) (3/2) /\ dir_param (sp_perv s) 1 (sp_kv s) 2.
Proof.
  split; [reflexivity|]. split; [reflexivity|]. split; [reflexivity|].
  split; [apply valid_dir_of_Z; reflexivity|]. split; [apply valid_dir_of_Z; reflexivity|].
  split; [apply apart_of_Z|]. split; [apply apart_of_Z|]. split.
  - intros i j x y Hi Hj E.
    assert (L : sp_ku pre_patch = map IZR [0; 0; 0; 1; 2; 2; 2]%Z /\ sp_kv pre_patch = map IZR [0; 1; 3; 4; 6]%Z /\ sp_degu pre_patch = 2%Z /\ sp_degv pre_patch = 1%Z /\ sp_grid pre_patch = pre_grid)
      by (repeat split; reflexivity).
    destruct L as (L1 & L2 & L3 & L4 & L5).
    pose proof (sp_preimage_Ok pre_patch i j) as F. rewrite L1, L2, L3, L4 in F. cbn [map length Z.to_nat] in F.
    specialize (F ltac:(lia) ltac:(lia) ltac:(change (Pos.to_nat 2) with 2%nat; lia) ltac:(change (Pos.to_nat 1) with 1%nat; lia)).
    rewrite F in E. clear F. injection E as <- <-. rewrite L5. clear - Hi Hj.
    change (Pos.to_nat 2) with 2%nat. change (Pos.to_nat 1) with 1%nat.
    destruct i as [|[|[|[|i]]]]; [| | | |lia]; (destruct j as [|[|[|j]]]; [| | |lia]); unfold avg, rsum, pre_grid;
      apply (@vec_ext 2); intros [|[|k]] Hk; try lia; cbn; unfold Pos.to_nat; cbn; lra.
  - change (sp_ku pre_patch) with (map IZR [0; 0; 0; 1; 2; 2; 2]%Z). change (sp_kv pre_patch) with (map IZR [0; 1; 3; 4; 6]%Z).
    split; unfold dir_param, dir_lo, dir_hi; cbn; (split; [right; lra|left; lra]).
Qed.
Definition preq_patch : spatch Q (vec Q 2) :=
  match sp_initialize (sp_make (-1) (-1) 2 1 (flat_map (fun x : Q => map (fun y : Q => (x, (y, tt)) : vec Q 2) [1; 3; 4]%Q) [0; 1 # 2; 3 # 2; 2]%Q)
    [0; 0; 0; 1; 2; 2; 2]%Q [0; 1; 3; 4; 6]%Q false false) with Ok s => s | _ => sp_make (-1) (-1) 2 1 [] [] [] false false end.
Example C107_run_preimage : (do xy <- sp_preimage preq_patch 1 2; Ok (Qred (fst xy), Qred (snd xy))) = Ok (1 # 2, 4)%Q.
Proof. vm_compute. reflexivity. Qed.
Example C107_run : (do p <- sp_evaluate preq_patch (7 # 5) (11 # 5); Ok (Qred (coord 2 0 p), Qred (coord 2 1 p))) = Ok (7 # 5, 11 # 5)%Q.
Proof. vm_compute. reflexivity. Qed.
