(** Rational patches in IEEE arithmetic.  As in ModelFloatRational.v, Eigen divides each entry, and a division by zero
    gives an infinity or NaN instead of stopping. *)
From Coq Require Import ZArith QArith Bool List.
From Flocq Require Import Core.Zaux Core.FLX IEEE754.BinarySingleNaN.
From Verif Require Import Monad Scalar ModelCurve ModelBezier ModelBSpline ModelRational ModelPatchBase ModelPatch ModelPatchRational
  ModelFloat ModelFloatWrap ModelFloatRational.
Import ListNotations.
Local Open Scope Z_scope.

Section Patch.
  Context (prec emax : Z) {Hprec : Prec_gt_0 prec} {Hmax : Prec_lt_emax prec emax}.
  Notation num := (binary_float prec emax).
  Local Instance FOq : ScalarOps num := ieee_ops prec emax.

  (** RationalBezierPatch.h:47-52 evaluate.  Simplified: [bp_evaluate] reduces a periodic parameter with the exact
      reduction of Scalar.v, so this is faithful for patches without periodic directions only. *)
  Definition f_rp_evaluate {d : nat} (s : rbpatch num d) (u v : num) : res (vec num d) :=
    do _ <- rp_validate s;
    do p <- bp_evaluate (rp_hom s) u v;
    Ok (f_h_point prec emax p).

  (** NURBSPatch.h:49-54 evaluate.  Simplified in the same way. *)
  Definition f_np_evaluate {d : nat} (s : nupatch num d) (u v : num) : res (vec num d) :=
    do _ <- np_validate s;
    do p <- sp_evaluate (np_hom s) u v;
    Ok (f_h_point prec emax p).
End Patch.
