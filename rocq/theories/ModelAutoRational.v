(** The coefficient polynomials of internal/auto_*_RationalBezier.h, as in ModelAuto.v. *)
From Verif Require Import Monad Scalar.

Section Auto.
  Context {T : Type} {SO : ScalarOps T}.
  (* The operations of [SO], written out so that the long terms below elaborate quickly. *)
  Local Notation "x + y" := (@sadd T SO x y).
  Local Notation "x - y" := (@ssub T SO x y).
  Local Notation "x * y" := (@smul T SO x y).
  Local Notation "- x" := (@sopp T SO x).
  Local Notation sofZ := (@sofZ T SO).

  (** std::pow with a small integer exponent *)
  Fixpoint spow (x : T) (n : nat) : T := match n with 0%nat => @s1 T SO | 1%nat => x | S m => x * spow x m end.

  (** internal/auto_inflection_RationalBezier.h:18-36 compute_RationalBezier_degree_2_inflections *)
  Definition rinfl_2 (cx0 cy0 cx1 cy1 cx2 cy2 w0 w1 w2 : T) : list T :=
    [- sofZ 4 * cx0 * cy1 * spow w0 3%nat * w1 * w2 + sofZ 4 * cx0 * cy2 * spow w0 3%nat * w1 * w2 + sofZ 4 * cx1 * cy0 * spow w0 3%nat * w1 * w2 - sofZ 4 * cx1 * cy2 * spow w0 3%nat * w1 * w2 - sofZ 4 * cx2 * cy0 * spow w0 3%nat * w1 * w2 + sofZ 4 * cx2 * cy1 * spow w0 3%nat * w1 * w2;
     sofZ 16 * cx0 * cy1 * spow w0 3%nat * w1 * w2 - sofZ 16 * cx0 * cy1 * spow w0 2%nat * spow w1 2%nat * w2 - sofZ 16 * cx0 * cy2 * spow w0 3%nat * w1 * w2 + sofZ 16 * cx0 * cy2 * spow w0 2%nat * spow w1 2%nat * w2 - sofZ 16 * cx1 * cy0 * spow w0 3%nat * w1 * w2 + sofZ 16 * cx1 * cy0 * spow w0 2%nat * spow w1 2%nat * w2 + sofZ 16 * cx1 * cy2 * spow w0 3%nat * w1 * w2 - sofZ 16 * cx1 * cy2 * spow w0 2%nat * spow w1 2%nat * w2 + sofZ 16 * cx2 * cy0 * spow w0 3%nat * w1 * w2 - sofZ 16 * cx2 * cy0 * spow w0 2%nat * spow w1 2%nat * w2 - sofZ 16 * cx2 * cy1 * spow w0 3%nat * w1 * w2 + sofZ 16 * cx2 * cy1 * spow w0 2%nat * spow w1 2%nat * w2;
     - sofZ 24 * cx0 * cy1 * spow w0 3%nat * w1 * w2 + sofZ 48 * cx0 * cy1 * spow w0 2%nat * spow w1 2%nat * w2 - sofZ 8 * cx0 * cy1 * spow w0 2%nat * w1 * spow w2 2%nat - sofZ 16 * cx0 * cy1 * w0 * spow w1 3%nat * w2 + sofZ 24 * cx0 * cy2 * spow w0 3%nat * w1 * w2 - sofZ 48 * cx0 * cy2 * spow w0 2%nat * spow w1 2%nat * w2 + sofZ 8 * cx0 * cy2 * spow w0 2%nat * w1 * spow w2 2%nat + sofZ 16 * cx0 * cy2 * w0 * spow w1 3%nat * w2 + sofZ 24 * cx1 * cy0 * spow w0 3%nat * w1 * w2 - sofZ 48 * cx1 * cy0 * spow w0 2%nat * spow w1 2%nat * w2 + sofZ 8 * cx1 * cy0 * spow w0 2%nat * w1 * spow w2 2%nat + sofZ 16 * cx1 * cy0 * w0 * spow w1 3%nat * w2 - sofZ 24 * cx1 * cy2 * spow w0 3%nat * w1 * w2 + sofZ 48 * cx1 * cy2 * spow w0 2%nat * spow w1 2%nat * w2 - sofZ 8 * cx1 * cy2 * spow w0 2%nat * w1 * spow w2 2%nat - sofZ 16 * cx1 * cy2 * w0 * spow w1 3%nat * w2 - sofZ 24 * cx2 * cy0 * spow w0 3%nat * w1 * w2 + sofZ 48 * cx2 * cy0 * spow w0 2%nat * spow w1 2%nat * w2 - sofZ 8 * cx2 * cy0 * spow w0 2%nat * w1 * spow w2 2%nat - sofZ 16 * cx2 * cy0 * w0 * spow w1 3%nat * w2 + sofZ 24 * cx2 * cy1 * spow w0 3%nat * w1 * w2 - sofZ 48 * cx2 * cy1 * spow w0 2%nat * spow w1 2%nat * w2 + sofZ 8 * cx2 * cy1 * spow w0 2%nat * w1 * spow w2 2%nat + sofZ 16 * cx2 * cy1 * w0 * spow w1 3%nat * w2;
     sofZ 16 * cx0 * cy1 * spow w0 3%nat * w1 * w2 - sofZ 48 * cx0 * cy1 * spow w0 2%nat * spow w1 2%nat * w2 + sofZ 16 * cx0 * cy1 * spow w0 2%nat * w1 * spow w2 2%nat + sofZ 32 * cx0 * cy1 * w0 * spow w1 3%nat * w2 - sofZ 16 * cx0 * cy1 * w0 * spow w1 2%nat * spow w2 2%nat - sofZ 16 * cx0 * cy2 * spow w0 3%nat * w1 * w2 + sofZ 48 * cx0 * cy2 * spow w0 2%nat * spow w1 2%nat * w2 - sofZ 16 * cx0 * cy2 * spow w0 2%nat * w1 * spow w2 2%nat - sofZ 32 * cx0 * cy2 * w0 * spow w1 3%nat * w2 + sofZ 16 * cx0 * cy2 * w0 * spow w1 2%nat * spow w2 2%nat - sofZ 16 * cx1 * cy0 * spow w0 3%nat * w1 * w2 + sofZ 48 * cx1 * cy0 * spow w0 2%nat * spow w1 2%nat * w2 - sofZ 16 * cx1 * cy0 * spow w0 2%nat * w1 * spow w2 2%nat - sofZ 32 * cx1 * cy0 * w0 * spow w1 3%nat * w2 + sofZ 16 * cx1 * cy0 * w0 * spow w1 2%nat * spow w2 2%nat + sofZ 16 * cx1 * cy2 * spow w0 3%nat * w1 * w2 - sofZ 48 * cx1 * cy2 * spow w0 2%nat * spow w1 2%nat * w2 + sofZ 16 * cx1 * cy2 * spow w0 2%nat * w1 * spow w2 2%nat + sofZ 32 * cx1 * cy2 * w0 * spow w1 3%nat * w2 - sofZ 16 * cx1 * cy2 * w0 * spow w1 2%nat * spow w2 2%nat + sofZ 16 * cx2 * cy0 * spow w0 3%nat * w1 * w2 - sofZ 48 * cx2 * cy0 * spow w0 2%nat * spow w1 2%nat * w2 + sofZ 16 * cx2 * cy0 * spow w0 2%nat * w1 * spow w2 2%nat + sofZ 32 * cx2 * cy0 * w0 * spow w1 3%nat * w2 - sofZ 16 * cx2 * cy0 * w0 * spow w1 2%nat * spow w2 2%nat - sofZ 16 * cx2 * cy1 * spow w0 3%nat * w1 * w2 + sofZ 48 * cx2 * cy1 * spow w0 2%nat * spow w1 2%nat * w2 - sofZ 16 * cx2 * cy1 * spow w0 2%nat * w1 * spow w2 2%nat - sofZ 32 * cx2 * cy1 * w0 * spow w1 3%nat * w2 + sofZ 16 * cx2 * cy1 * w0 * spow w1 2%nat * spow w2 2%nat;
     - sofZ 4 * cx0 * cy1 * spow w0 3%nat * w1 * w2 + sofZ 16 * cx0 * cy1 * spow w0 2%nat * spow w1 2%nat * w2 - sofZ 8 * cx0 * cy1 * spow w0 2%nat * w1 * spow w2 2%nat - sofZ 16 * cx0 * cy1 * w0 * spow w1 3%nat * w2 + sofZ 16 * cx0 * cy1 * w0 * spow w1 2%nat * spow w2 2%nat - sofZ 4 * cx0 * cy1 * w0 * w1 * spow w2 3%nat + sofZ 4 * cx0 * cy2 * spow w0 3%nat * w1 * w2 - sofZ 16 * cx0 * cy2 * spow w0 2%nat * spow w1 2%nat * w2 + sofZ 8 * cx0 * cy2 * spow w0 2%nat * w1 * spow w2 2%nat + sofZ 16 * cx0 * cy2 * w0 * spow w1 3%nat * w2 - sofZ 16 * cx0 * cy2 * w0 * spow w1 2%nat * spow w2 2%nat + sofZ 4 * cx0 * cy2 * w0 * w1 * spow w2 3%nat + sofZ 4 * cx1 * cy0 * spow w0 3%nat * w1 * w2 - sofZ 16 * cx1 * cy0 * spow w0 2%nat * spow w1 2%nat * w2 + sofZ 8 * cx1 * cy0 * spow w0 2%nat * w1 * spow w2 2%nat + sofZ 16 * cx1 * cy0 * w0 * spow w1 3%nat * w2 - sofZ 16 * cx1 * cy0 * w0 * spow w1 2%nat * spow w2 2%nat + sofZ 4 * cx1 * cy0 * w0 * w1 * spow w2 3%nat - sofZ 4 * cx1 * cy2 * spow w0 3%nat * w1 * w2 + sofZ 16 * cx1 * cy2 * spow w0 2%nat * spow w1 2%nat * w2 - sofZ 8 * cx1 * cy2 * spow w0 2%nat * w1 * spow w2 2%nat - sofZ 16 * cx1 * cy2 * w0 * spow w1 3%nat * w2 + sofZ 16 * cx1 * cy2 * w0 * spow w1 2%nat * spow w2 2%nat - sofZ 4 * cx1 * cy2 * w0 * w1 * spow w2 3%nat - sofZ 4 * cx2 * cy0 * spow w0 3%nat * w1 * w2 + sofZ 16 * cx2 * cy0 * spow w0 2%nat * spow w1 2%nat * w2 - sofZ 8 * cx2 * cy0 * spow w0 2%nat * w1 * spow w2 2%nat - sofZ 16 * cx2 * cy0 * w0 * spow w1 3%nat * w2 + sofZ 16 * cx2 * cy0 * w0 * spow w1 2%nat * spow w2 2%nat - sofZ 4 * cx2 * cy0 * w0 * w1 * spow w2 3%nat + sofZ 4 * cx2 * cy1 * spow w0 3%nat * w1 * w2 - sofZ 16 * cx2 * cy1 * spow w0 2%nat * spow w1 2%nat * w2 + sofZ 8 * cx2 * cy1 * spow w0 2%nat * w1 * spow w2 2%nat + sofZ 16 * cx2 * cy1 * w0 * spow w1 3%nat * w2 - sofZ 16 * cx2 * cy1 * w0 * spow w1 2%nat * spow w2 2%nat + sofZ 4 * cx2 * cy1 * w0 * w1 * spow w2 3%nat].

  (** internal/auto_inflection_RationalBezier.h:40-63 compute_RationalBezier_degree_3_inflections *)
  Definition rinfl_3 (cx0 cy0 cx1 cy1 cx2 cy2 cx3 cy3 w0 w1 w2 w3 : T) : list T :=
    [- sofZ 18 * cx0 * cy1 * spow w0 3%nat * w1 * w2 + sofZ 18 * cx0 * cy2 * spow w0 3%nat * w1 * w2 + sofZ 18 * cx1 * cy0 * spow w0 3%nat * w1 * w2 - sofZ 18 * cx1 * cy2 * spow w0 3%nat * w1 * w2 - sofZ 18 * cx2 * cy0 * spow w0 3%nat * w1 * w2 + sofZ 18 * cx2 * cy1 * spow w0 3%nat * w1 * w2;
     sofZ 162 * cx0 * cy1 * spow w0 3%nat * w1 * w2 - sofZ 18 * cx0 * cy1 * spow w0 3%nat * w1 * w3 - sofZ 108 * cx0 * cy1 * spow w0 2%nat * spow w1 2%nat * w2 - sofZ 162 * cx0 * cy2 * spow w0 3%nat * w1 * w2 + sofZ 108 * cx0 * cy2 * spow w0 2%nat * spow w1 2%nat * w2 + sofZ 18 * cx0 * cy3 * spow w0 3%nat * w1 * w3 - sofZ 162 * cx1 * cy0 * spow w0 3%nat * w1 * w2 + sofZ 18 * cx1 * cy0 * spow w0 3%nat * w1 * w3 + sofZ 108 * cx1 * cy0 * spow w0 2%nat * spow w1 2%nat * w2 + sofZ 162 * cx1 * cy2 * spow w0 3%nat * w1 * w2 - sofZ 108 * cx1 * cy2 * spow w0 2%nat * spow w1 2%nat * w2 - sofZ 18 * cx1 * cy3 * spow w0 3%nat * w1 * w3 + sofZ 162 * cx2 * cy0 * spow w0 3%nat * w1 * w2 - sofZ 108 * cx2 * cy0 * spow w0 2%nat * spow w1 2%nat * w2 - sofZ 162 * cx2 * cy1 * spow w0 3%nat * w1 * w2 + sofZ 108 * cx2 * cy1 * spow w0 2%nat * spow w1 2%nat * w2 - sofZ 18 * cx3 * cy0 * spow w0 3%nat * w1 * w3 + sofZ 18 * cx3 * cy1 * spow w0 3%nat * w1 * w3;
     - sofZ 648 * cx0 * cy1 * spow w0 3%nat * w1 * w2 + sofZ 144 * cx0 * cy1 * spow w0 3%nat * w1 * w3 + sofZ 864 * cx0 * cy1 * spow w0 2%nat * spow w1 2%nat * w2 - sofZ 108 * cx0 * cy1 * spow w0 2%nat * spow w1 2%nat * w3 - sofZ 108 * cx0 * cy1 * spow w0 2%nat * w1 * spow w2 2%nat - sofZ 162 * cx0 * cy1 * w0 * spow w1 3%nat * w2 + sofZ 648 * cx0 * cy2 * spow w0 3%nat * w1 * w2 - sofZ 18 * cx0 * cy2 * spow w0 3%nat * w2 * w3 - sofZ 864 * cx0 * cy2 * spow w0 2%nat * spow w1 2%nat * w2 + sofZ 108 * cx0 * cy2 * spow w0 2%nat * w1 * spow w2 2%nat + sofZ 162 * cx0 * cy2 * w0 * spow w1 3%nat * w2 - sofZ 144 * cx0 * cy3 * spow w0 3%nat * w1 * w3 + sofZ 18 * cx0 * cy3 * spow w0 3%nat * w2 * w3 + sofZ 108 * cx0 * cy3 * spow w0 2%nat * spow w1 2%nat * w3 + sofZ 648 * cx1 * cy0 * spow w0 3%nat * w1 * w2 - sofZ 144 * cx1 * cy0 * spow w0 3%nat * w1 * w3 - sofZ 864 * cx1 * cy0 * spow w0 2%nat * spow w1 2%nat * w2 + sofZ 108 * cx1 * cy0 * spow w0 2%nat * spow w1 2%nat * w3 + sofZ 108 * cx1 * cy0 * spow w0 2%nat * w1 * spow w2 2%nat + sofZ 162 * cx1 * cy0 * w0 * spow w1 3%nat * w2 - sofZ 648 * cx1 * cy2 * spow w0 3%nat * w1 * w2 + sofZ 864 * cx1 * cy2 * spow w0 2%nat * spow w1 2%nat * w2 - sofZ 108 * cx1 * cy2 * spow w0 2%nat * w1 * spow w2 2%nat - sofZ 162 * cx1 * cy2 * w0 * spow w1 3%nat * w2 + sofZ 144 * cx1 * cy3 * spow w0 3%nat * w1 * w3 - sofZ 108 * cx1 * cy3 * spow w0 2%nat * spow w1 2%nat * w3 - sofZ 648 * cx2 * cy0 * spow w0 3%nat * w1 * w2 + sofZ 18 * cx2 * cy0 * spow w0 3%nat * w2 * w3 + sofZ 864 * cx2 * cy0 * spow w0 2%nat * spow w1 2%nat * w2 - sofZ 108 * cx2 * cy0 * spow w0 2%nat * w1 * spow w2 2%nat - sofZ 162 * cx2 * cy0 * w0 * spow w1 3%nat * w2 + sofZ 648 * cx2 * cy1 * spow w0 3%nat * w1 * w2 - sofZ 864 * cx2 * cy1 * spow w0 2%nat * spow w1 2%nat * w2 + sofZ 108 * cx2 * cy1 * spow w0 2%nat * w1 * spow w2 2%nat + sofZ 162 * cx2 * cy1 * w0 * spow w1 3%nat * w2 - sofZ 18 * cx2 * cy3 * spow w0 3%nat * w2 * w3 + sofZ 144 * cx3 * cy0 * spow w0 3%nat * w1 * w3 - sofZ 18 * cx3 * cy0 * spow w0 3%nat * w2 * w3 - sofZ 108 * cx3 * cy0 * spow w0 2%nat * spow w1 2%nat * w3 - sofZ 144 * cx3 * cy1 * spow w0 3%nat * w1 * w3 + sofZ 108 * cx3 * cy1 * spow w0 2%nat * spow w1 2%nat * w3 + sofZ 18 * cx3 * cy2 * spow w0 3%nat * w2 * w3;
     sofZ 1512 * cx0 * cy1 * spow w0 3%nat * w1 * w2 - sofZ 504 * cx0 * cy1 * spow w0 3%nat * w1 * w3 - sofZ 3024 * cx0 * cy1 * spow w0 2%nat * spow w1 2%nat * w2 + sofZ 756 * cx0 * cy1 * spow w0 2%nat * spow w1 2%nat * w3 + sofZ 756 * cx0 * cy1 * spow w0 2%nat * w1 * spow w2 2%nat - sofZ 144 * cx0 * cy1 * spow w0 2%nat * w1 * w2 * w3 + sofZ 1134 * cx0 * cy1 * w0 * spow w1 3%nat * w2 - sofZ 162 * cx0 * cy1 * w0 * spow w1 3%nat * w3 - sofZ 324 * cx0 * cy1 * w0 * spow w1 2%nat * spow w2 2%nat - sofZ 1512 * cx0 * cy2 * spow w0 3%nat * w1 * w2 + sofZ 126 * cx0 * cy2 * spow w0 3%nat * w2 * w3 + sofZ 3024 * cx0 * cy2 * spow w0 2%nat * spow w1 2%nat * w2 - sofZ 756 * cx0 * cy2 * spow w0 2%nat * w1 * spow w2 2%nat - sofZ 72 * cx0 * cy2 * spow w0 2%nat * w1 * w2 * w3 - sofZ 1134 * cx0 * cy2 * w0 * spow w1 3%nat * w2 + sofZ 324 * cx0 * cy2 * w0 * spow w1 2%nat * spow w2 2%nat + sofZ 504 * cx0 * cy3 * spow w0 3%nat * w1 * w3 - sofZ 126 * cx0 * cy3 * spow w0 3%nat * w2 * w3 - sofZ 756 * cx0 * cy3 * spow w0 2%nat * spow w1 2%nat * w3 + sofZ 216 * cx0 * cy3 * spow w0 2%nat * w1 * w2 * w3 + sofZ 162 * cx0 * cy3 * w0 * spow w1 3%nat * w3 - sofZ 1512 * cx1 * cy0 * spow w0 3%nat * w1 * w2 + sofZ 504 * cx1 * cy0 * spow w0 3%nat * w1 * w3 + sofZ 3024 * cx1 * cy0 * spow w0 2%nat * spow w1 2%nat * w2 - sofZ 756 * cx1 * cy0 * spow w0 2%nat * spow w1 2%nat * w3 - sofZ 756 * cx1 * cy0 * spow w0 2%nat * w1 * spow w2 2%nat + sofZ 144 * cx1 * cy0 * spow w0 2%nat * w1 * w2 * w3 - sofZ 1134 * cx1 * cy0 * w0 * spow w1 3%nat * w2 + sofZ 162 * cx1 * cy0 * w0 * spow w1 3%nat * w3 + sofZ 324 * cx1 * cy0 * w0 * spow w1 2%nat * spow w2 2%nat + sofZ 1512 * cx1 * cy2 * spow w0 3%nat * w1 * w2 - sofZ 3024 * cx1 * cy2 * spow w0 2%nat * spow w1 2%nat * w2 + sofZ 756 * cx1 * cy2 * spow w0 2%nat * w1 * spow w2 2%nat - sofZ 54 * cx1 * cy2 * spow w0 2%nat * w1 * w2 * w3 + sofZ 1134 * cx1 * cy2 * w0 * spow w1 3%nat * w2 - sofZ 324 * cx1 * cy2 * w0 * spow w1 2%nat * spow w2 2%nat - sofZ 504 * cx1 * cy3 * spow w0 3%nat * w1 * w3 + sofZ 756 * cx1 * cy3 * spow w0 2%nat * spow w1 2%nat * w3 - sofZ 90 * cx1 * cy3 * spow w0 2%nat * w1 * w2 * w3 - sofZ 162 * cx1 * cy3 * w0 * spow w1 3%nat * w3 + sofZ 1512 * cx2 * cy0 * spow w0 3%nat * w1 * w2 - sofZ 126 * cx2 * cy0 * spow w0 3%nat * w2 * w3 - sofZ 3024 * cx2 * cy0 * spow w0 2%nat * spow w1 2%nat * w2 + sofZ 756 * cx2 * cy0 * spow w0 2%nat * w1 * spow w2 2%nat + sofZ 72 * cx2 * cy0 * spow w0 2%nat * w1 * w2 * w3 + sofZ 1134 * cx2 * cy0 * w0 * spow w1 3%nat * w2 - sofZ 324 * cx2 * cy0 * w0 * spow w1 2%nat * spow w2 2%nat - sofZ 1512 * cx2 * cy1 * spow w0 3%nat * w1 * w2 + sofZ 3024 * cx2 * cy1 * spow w0 2%nat * spow w1 2%nat * w2 - sofZ 756 * cx2 * cy1 * spow w0 2%nat * w1 * spow w2 2%nat + sofZ 54 * cx2 * cy1 * spow w0 2%nat * w1 * w2 * w3 - sofZ 1134 * cx2 * cy1 * w0 * spow w1 3%nat * w2 + sofZ 324 * cx2 * cy1 * w0 * spow w1 2%nat * spow w2 2%nat + sofZ 126 * cx2 * cy3 * spow w0 3%nat * w2 * w3 - sofZ 126 * cx2 * cy3 * spow w0 2%nat * w1 * w2 * w3 - sofZ 504 * cx3 * cy0 * spow w0 3%nat * w1 * w3 + sofZ 126 * cx3 * cy0 * spow w0 3%nat * w2 * w3 + sofZ 756 * cx3 * cy0 * spow w0 2%nat * spow w1 2%nat * w3 - sofZ 216 * cx3 * cy0 * spow w0 2%nat * w1 * w2 * w3 - sofZ 162 * cx3 * cy0 * w0 * spow w1 3%nat * w3 + sofZ 504 * cx3 * cy1 * spow w0 3%nat * w1 * w3 - sofZ 756 * cx3 * cy1 * spow w0 2%nat * spow w1 2%nat * w3 + sofZ 90 * cx3 * cy1 * spow w0 2%nat * w1 * w2 * w3 + sofZ 162 * cx3 * cy1 * w0 * spow w1 3%nat * w3 - sofZ 126 * cx3 * cy2 * spow w0 3%nat * w2 * w3 + sofZ 126 * cx3 * cy2 * spow w0 2%nat * w1 * w2 * w3;
     - sofZ 2268 * cx0 * cy1 * spow w0 3%nat * w1 * w2 + sofZ 1008 * cx0 * cy1 * spow w0 3%nat * w1 * w3 + sofZ 6048 * cx0 * cy1 * spow w0 2%nat * spow w1 2%nat * w2 - sofZ 2268 * cx0 * cy1 * spow w0 2%nat * spow w1 2%nat * w3 - sofZ 2268 * cx0 * cy1 * spow w0 2%nat * w1 * spow w2 2%nat + sofZ 864 * cx0 * cy1 * spow w0 2%nat * w1 * w2 * w3 - sofZ 36 * cx0 * cy1 * spow w0 2%nat * w1 * spow w3 2%nat - sofZ 3402 * cx0 * cy1 * w0 * spow w1 3%nat * w2 + sofZ 972 * cx0 * cy1 * w0 * spow w1 3%nat * w3 + sofZ 1944 * cx0 * cy1 * w0 * spow w1 2%nat * spow w2 2%nat - sofZ 432 * cx0 * cy1 * w0 * spow w1 2%nat * w2 * w3 - sofZ 162 * cx0 * cy1 * w0 * w1 * spow w2 3%nat + sofZ 2268 * cx0 * cy2 * spow w0 3%nat * w1 * w2 - sofZ 378 * cx0 * cy2 * spow w0 3%nat * w2 * w3 - sofZ 6048 * cx0 * cy2 * spow w0 2%nat * spow w1 2%nat * w2 + sofZ 2268 * cx0 * cy2 * spow w0 2%nat * w1 * spow w2 2%nat + sofZ 432 * cx0 * cy2 * spow w0 2%nat * w1 * w2 * w3 - sofZ 108 * cx0 * cy2 * spow w0 2%nat * spow w2 2%nat * w3 + sofZ 3402 * cx0 * cy2 * w0 * spow w1 3%nat * w2 - sofZ 1944 * cx0 * cy2 * w0 * spow w1 2%nat * spow w2 2%nat - sofZ 54 * cx0 * cy2 * w0 * spow w1 2%nat * w2 * w3 + sofZ 162 * cx0 * cy2 * w0 * w1 * spow w2 3%nat - sofZ 1008 * cx0 * cy3 * spow w0 3%nat * w1 * w3 + sofZ 378 * cx0 * cy3 * spow w0 3%nat * w2 * w3 + sofZ 2268 * cx0 * cy3 * spow w0 2%nat * spow w1 2%nat * w3 - sofZ 1296 * cx0 * cy3 * spow w0 2%nat * w1 * w2 * w3 + sofZ 36 * cx0 * cy3 * spow w0 2%nat * w1 * spow w3 2%nat + sofZ 108 * cx0 * cy3 * spow w0 2%nat * spow w2 2%nat * w3 - sofZ 972 * cx0 * cy3 * w0 * spow w1 3%nat * w3 + sofZ 486 * cx0 * cy3 * w0 * spow w1 2%nat * w2 * w3 + sofZ 2268 * cx1 * cy0 * spow w0 3%nat * w1 * w2 - sofZ 1008 * cx1 * cy0 * spow w0 3%nat * w1 * w3 - sofZ 6048 * cx1 * cy0 * spow w0 2%nat * spow w1 2%nat * w2 + sofZ 2268 * cx1 * cy0 * spow w0 2%nat * spow w1 2%nat * w3 + sofZ 2268 * cx1 * cy0 * spow w0 2%nat * w1 * spow w2 2%nat - sofZ 864 * cx1 * cy0 * spow w0 2%nat * w1 * w2 * w3 + sofZ 36 * cx1 * cy0 * spow w0 2%nat * w1 * spow w3 2%nat + sofZ 3402 * cx1 * cy0 * w0 * spow w1 3%nat * w2 - sofZ 972 * cx1 * cy0 * w0 * spow w1 3%nat * w3 - sofZ 1944 * cx1 * cy0 * w0 * spow w1 2%nat * spow w2 2%nat + sofZ 432 * cx1 * cy0 * w0 * spow w1 2%nat * w2 * w3 + sofZ 162 * cx1 * cy0 * w0 * w1 * spow w2 3%nat - sofZ 2268 * cx1 * cy2 * spow w0 3%nat * w1 * w2 + sofZ 6048 * cx1 * cy2 * spow w0 2%nat * spow w1 2%nat * w2 - sofZ 2268 * cx1 * cy2 * spow w0 2%nat * w1 * spow w2 2%nat + sofZ 324 * cx1 * cy2 * spow w0 2%nat * w1 * w2 * w3 - sofZ 3402 * cx1 * cy2 * w0 * spow w1 3%nat * w2 + sofZ 1944 * cx1 * cy2 * w0 * spow w1 2%nat * spow w2 2%nat - sofZ 216 * cx1 * cy2 * w0 * spow w1 2%nat * w2 * w3 - sofZ 162 * cx1 * cy2 * w0 * w1 * spow w2 3%nat + sofZ 1008 * cx1 * cy3 * spow w0 3%nat * w1 * w3 - sofZ 2268 * cx1 * cy3 * spow w0 2%nat * spow w1 2%nat * w3 + sofZ 540 * cx1 * cy3 * spow w0 2%nat * w1 * w2 * w3 - sofZ 36 * cx1 * cy3 * spow w0 2%nat * w1 * spow w3 2%nat + sofZ 972 * cx1 * cy3 * w0 * spow w1 3%nat * w3 - sofZ 216 * cx1 * cy3 * w0 * spow w1 2%nat * w2 * w3 - sofZ 2268 * cx2 * cy0 * spow w0 3%nat * w1 * w2 + sofZ 378 * cx2 * cy0 * spow w0 3%nat * w2 * w3 + sofZ 6048 * cx2 * cy0 * spow w0 2%nat * spow w1 2%nat * w2 - sofZ 2268 * cx2 * cy0 * spow w0 2%nat * w1 * spow w2 2%nat - sofZ 432 * cx2 * cy0 * spow w0 2%nat * w1 * w2 * w3 + sofZ 108 * cx2 * cy0 * spow w0 2%nat * spow w2 2%nat * w3 - sofZ 3402 * cx2 * cy0 * w0 * spow w1 3%nat * w2 + sofZ 1944 * cx2 * cy0 * w0 * spow w1 2%nat * spow w2 2%nat + sofZ 54 * cx2 * cy0 * w0 * spow w1 2%nat * w2 * w3 - sofZ 162 * cx2 * cy0 * w0 * w1 * spow w2 3%nat + sofZ 2268 * cx2 * cy1 * spow w0 3%nat * w1 * w2 - sofZ 6048 * cx2 * cy1 * spow w0 2%nat * spow w1 2%nat * w2 + sofZ 2268 * cx2 * cy1 * spow w0 2%nat * w1 * spow w2 2%nat - sofZ 324 * cx2 * cy1 * spow w0 2%nat * w1 * w2 * w3 + sofZ 3402 * cx2 * cy1 * w0 * spow w1 3%nat * w2 - sofZ 1944 * cx2 * cy1 * w0 * spow w1 2%nat * spow w2 2%nat + sofZ 216 * cx2 * cy1 * w0 * spow w1 2%nat * w2 * w3 + sofZ 162 * cx2 * cy1 * w0 * w1 * spow w2 3%nat - sofZ 378 * cx2 * cy3 * spow w0 3%nat * w2 * w3 + sofZ 756 * cx2 * cy3 * spow w0 2%nat * w1 * w2 * w3 - sofZ 108 * cx2 * cy3 * spow w0 2%nat * spow w2 2%nat * w3 - sofZ 270 * cx2 * cy3 * w0 * spow w1 2%nat * w2 * w3 + sofZ 1008 * cx3 * cy0 * spow w0 3%nat * w1 * w3 - sofZ 378 * cx3 * cy0 * spow w0 3%nat * w2 * w3 - sofZ 2268 * cx3 * cy0 * spow w0 2%nat * spow w1 2%nat * w3 + sofZ 1296 * cx3 * cy0 * spow w0 2%nat * w1 * w2 * w3 - sofZ 36 * cx3 * cy0 * spow w0 2%nat * w1 * spow w3 2%nat - sofZ 108 * cx3 * cy0 * spow w0 2%nat * spow w2 2%nat * w3 + sofZ 972 * cx3 * cy0 * w0 * spow w1 3%nat * w3 - sofZ 486 * cx3 * cy0 * w0 * spow w1 2%nat * w2 * w3 - sofZ 1008 * cx3 * cy1 * spow w0 3%nat * w1 * w3 + sofZ 2268 * cx3 * cy1 * spow w0 2%nat * spow w1 2%nat * w3 - sofZ 540 * cx3 * cy1 * spow w0 2%nat * w1 * w2 * w3 + sofZ 36 * cx3 * cy1 * spow w0 2%nat * w1 * spow w3 2%nat - sofZ 972 * cx3 * cy1 * w0 * spow w1 3%nat * w3 + sofZ 216 * cx3 * cy1 * w0 * spow w1 2%nat * w2 * w3 + sofZ 378 * cx3 * cy2 * spow w0 3%nat * w2 * w3 - sofZ 756 * cx3 * cy2 * spow w0 2%nat * w1 * w2 * w3 + sofZ 108 * cx3 * cy2 * spow w0 2%nat * spow w2 2%nat * w3 + sofZ 270 * cx3 * cy2 * w0 * spow w1 2%nat * w2 * w3;
     sofZ 2268 * cx0 * cy1 * spow w0 3%nat * w1 * w2 - sofZ 1260 * cx0 * cy1 * spow w0 3%nat * w1 * w3 - sofZ 7560 * cx0 * cy1 * spow w0 2%nat * spow w1 2%nat * w2 + sofZ 3780 * cx0 * cy1 * spow w0 2%nat * spow w1 2%nat * w3 + sofZ 3780 * cx0 * cy1 * spow w0 2%nat * w1 * spow w2 2%nat - sofZ 2160 * cx0 * cy1 * spow w0 2%nat * w1 * w2 * w3 + sofZ 180 * cx0 * cy1 * spow w0 2%nat * w1 * spow w3 2%nat + sofZ 5670 * cx0 * cy1 * w0 * spow w1 3%nat * w2 - sofZ 2430 * cx0 * cy1 * w0 * spow w1 3%nat * w3 - sofZ 4860 * cx0 * cy1 * w0 * spow w1 2%nat * spow w2 2%nat + sofZ 2160 * cx0 * cy1 * w0 * spow w1 2%nat * w2 * w3 - sofZ 108 * cx0 * cy1 * w0 * spow w1 2%nat * spow w3 2%nat + sofZ 810 * cx0 * cy1 * w0 * w1 * spow w2 3%nat - sofZ 270 * cx0 * cy1 * w0 * w1 * spow w2 2%nat * w3 - sofZ 2268 * cx0 * cy2 * spow w0 3%nat * w1 * w2 + sofZ 630 * cx0 * cy2 * spow w0 3%nat * w2 * w3 + sofZ 7560 * cx0 * cy2 * spow w0 2%nat * spow w1 2%nat * w2 - sofZ 3780 * cx0 * cy2 * spow w0 2%nat * w1 * spow w2 2%nat - sofZ 1080 * cx0 * cy2 * spow w0 2%nat * w1 * w2 * w3 + sofZ 540 * cx0 * cy2 * spow w0 2%nat * spow w2 2%nat * w3 - sofZ 36 * cx0 * cy2 * spow w0 2%nat * w2 * spow w3 2%nat - sofZ 5670 * cx0 * cy2 * w0 * spow w1 3%nat * w2 + sofZ 4860 * cx0 * cy2 * w0 * spow w1 2%nat * spow w2 2%nat + sofZ 270 * cx0 * cy2 * w0 * spow w1 2%nat * w2 * w3 - sofZ 810 * cx0 * cy2 * w0 * w1 * spow w2 3%nat - sofZ 216 * cx0 * cy2 * w0 * w1 * spow w2 2%nat * w3 + sofZ 1260 * cx0 * cy3 * spow w0 3%nat * w1 * w3 - sofZ 630 * cx0 * cy3 * spow w0 3%nat * w2 * w3 - sofZ 3780 * cx0 * cy3 * spow w0 2%nat * spow w1 2%nat * w3 + sofZ 3240 * cx0 * cy3 * spow w0 2%nat * w1 * w2 * w3 - sofZ 180 * cx0 * cy3 * spow w0 2%nat * w1 * spow w3 2%nat - sofZ 540 * cx0 * cy3 * spow w0 2%nat * spow w2 2%nat * w3 + sofZ 36 * cx0 * cy3 * spow w0 2%nat * w2 * spow w3 2%nat + sofZ 2430 * cx0 * cy3 * w0 * spow w1 3%nat * w3 - sofZ 2430 * cx0 * cy3 * w0 * spow w1 2%nat * w2 * w3 + sofZ 108 * cx0 * cy3 * w0 * spow w1 2%nat * spow w3 2%nat + sofZ 486 * cx0 * cy3 * w0 * w1 * spow w2 2%nat * w3 - sofZ 2268 * cx1 * cy0 * spow w0 3%nat * w1 * w2 + sofZ 1260 * cx1 * cy0 * spow w0 3%nat * w1 * w3 + sofZ 7560 * cx1 * cy0 * spow w0 2%nat * spow w1 2%nat * w2 - sofZ 3780 * cx1 * cy0 * spow w0 2%nat * spow w1 2%nat * w3 - sofZ 3780 * cx1 * cy0 * spow w0 2%nat * w1 * spow w2 2%nat + sofZ 2160 * cx1 * cy0 * spow w0 2%nat * w1 * w2 * w3 - sofZ 180 * cx1 * cy0 * spow w0 2%nat * w1 * spow w3 2%nat - sofZ 5670 * cx1 * cy0 * w0 * spow w1 3%nat * w2 + sofZ 2430 * cx1 * cy0 * w0 * spow w1 3%nat * w3 + sofZ 4860 * cx1 * cy0 * w0 * spow w1 2%nat * spow w2 2%nat - sofZ 2160 * cx1 * cy0 * w0 * spow w1 2%nat * w2 * w3 + sofZ 108 * cx1 * cy0 * w0 * spow w1 2%nat * spow w3 2%nat - sofZ 810 * cx1 * cy0 * w0 * w1 * spow w2 3%nat + sofZ 270 * cx1 * cy0 * w0 * w1 * spow w2 2%nat * w3 + sofZ 2268 * cx1 * cy2 * spow w0 3%nat * w1 * w2 - sofZ 7560 * cx1 * cy2 * spow w0 2%nat * spow w1 2%nat * w2 + sofZ 3780 * cx1 * cy2 * spow w0 2%nat * w1 * spow w2 2%nat - sofZ 810 * cx1 * cy2 * spow w0 2%nat * w1 * w2 * w3 + sofZ 5670 * cx1 * cy2 * w0 * spow w1 3%nat * w2 - sofZ 4860 * cx1 * cy2 * w0 * spow w1 2%nat * spow w2 2%nat + sofZ 1080 * cx1 * cy2 * w0 * spow w1 2%nat * w2 * w3 + sofZ 810 * cx1 * cy2 * w0 * w1 * spow w2 3%nat - sofZ 216 * cx1 * cy2 * w0 * w1 * spow w2 2%nat * w3 - sofZ 162 * cx1 * cy2 * spow w1 3%nat * w2 * w3 - sofZ 1260 * cx1 * cy3 * spow w0 3%nat * w1 * w3 + sofZ 3780 * cx1 * cy3 * spow w0 2%nat * spow w1 2%nat * w3 - sofZ 1350 * cx1 * cy3 * spow w0 2%nat * w1 * w2 * w3 + sofZ 180 * cx1 * cy3 * spow w0 2%nat * w1 * spow w3 2%nat - sofZ 2430 * cx1 * cy3 * w0 * spow w1 3%nat * w3 + sofZ 1080 * cx1 * cy3 * w0 * spow w1 2%nat * w2 * w3 - sofZ 108 * cx1 * cy3 * w0 * spow w1 2%nat * spow w3 2%nat - sofZ 54 * cx1 * cy3 * w0 * w1 * spow w2 2%nat * w3 + sofZ 162 * cx1 * cy3 * spow w1 3%nat * w2 * w3 + sofZ 2268 * cx2 * cy0 * spow w0 3%nat * w1 * w2 - sofZ 630 * cx2 * cy0 * spow w0 3%nat * w2 * w3 - sofZ 7560 * cx2 * cy0 * spow w0 2%nat * spow w1 2%nat * w2 + sofZ 3780 * cx2 * cy0 * spow w0 2%nat * w1 * spow w2 2%nat + sofZ 1080 * cx2 * cy0 * spow w0 2%nat * w1 * w2 * w3 - sofZ 540 * cx2 * cy0 * spow w0 2%nat * spow w2 2%nat * w3 + sofZ 36 * cx2 * cy0 * spow w0 2%nat * w2 * spow w3 2%nat + sofZ 5670 * cx2 * cy0 * w0 * spow w1 3%nat * w2 - sofZ 4860 * cx2 * cy0 * w0 * spow w1 2%nat * spow w2 2%nat - sofZ 270 * cx2 * cy0 * w0 * spow w1 2%nat * w2 * w3 + sofZ 810 * cx2 * cy0 * w0 * w1 * spow w2 3%nat + sofZ 216 * cx2 * cy0 * w0 * w1 * spow w2 2%nat * w3 - sofZ 2268 * cx2 * cy1 * spow w0 3%nat * w1 * w2 + sofZ 7560 * cx2 * cy1 * spow w0 2%nat * spow w1 2%nat * w2 - sofZ 3780 * cx2 * cy1 * spow w0 2%nat * w1 * spow w2 2%nat + sofZ 810 * cx2 * cy1 * spow w0 2%nat * w1 * w2 * w3 - sofZ 5670 * cx2 * cy1 * w0 * spow w1 3%nat * w2 + sofZ 4860 * cx2 * cy1 * w0 * spow w1 2%nat * spow w2 2%nat - sofZ 1080 * cx2 * cy1 * w0 * spow w1 2%nat * w2 * w3 - sofZ 810 * cx2 * cy1 * w0 * w1 * spow w2 3%nat + sofZ 216 * cx2 * cy1 * w0 * w1 * spow w2 2%nat * w3 + sofZ 162 * cx2 * cy1 * spow w1 3%nat * w2 * w3 + sofZ 630 * cx2 * cy3 * spow w0 3%nat * w2 * w3 - sofZ 1890 * cx2 * cy3 * spow w0 2%nat * w1 * w2 * w3 + sofZ 540 * cx2 * cy3 * spow w0 2%nat * spow w2 2%nat * w3 - sofZ 36 * cx2 * cy3 * spow w0 2%nat * w2 * spow w3 2%nat + sofZ 1350 * cx2 * cy3 * w0 * spow w1 2%nat * w2 * w3 - sofZ 432 * cx2 * cy3 * w0 * w1 * spow w2 2%nat * w3 - sofZ 162 * cx2 * cy3 * spow w1 3%nat * w2 * w3 - sofZ 1260 * cx3 * cy0 * spow w0 3%nat * w1 * w3 + sofZ 630 * cx3 * cy0 * spow w0 3%nat * w2 * w3 + sofZ 3780 * cx3 * cy0 * spow w0 2%nat * spow w1 2%nat * w3 - sofZ 3240 * cx3 * cy0 * spow w0 2%nat * w1 * w2 * w3 + sofZ 180 * cx3 * cy0 * spow w0 2%nat * w1 * spow w3 2%nat + sofZ 540 * cx3 * cy0 * spow w0 2%nat * spow w2 2%nat * w3 - sofZ 36 * cx3 * cy0 * spow w0 2%nat * w2 * spow w3 2%nat - sofZ 2430 * cx3 * cy0 * w0 * spow w1 3%nat * w3 + sofZ 2430 * cx3 * cy0 * w0 * spow w1 2%nat * w2 * w3 - sofZ 108 * cx3 * cy0 * w0 * spow w1 2%nat * spow w3 2%nat - sofZ 486 * cx3 * cy0 * w0 * w1 * spow w2 2%nat * w3 + sofZ 1260 * cx3 * cy1 * spow w0 3%nat * w1 * w3 - sofZ 3780 * cx3 * cy1 * spow w0 2%nat * spow w1 2%nat * w3 + sofZ 1350 * cx3 * cy1 * spow w0 2%nat * w1 * w2 * w3 - sofZ 180 * cx3 * cy1 * spow w0 2%nat * w1 * spow w3 2%nat + sofZ 2430 * cx3 * cy1 * w0 * spow w1 3%nat * w3 - sofZ 1080 * cx3 * cy1 * w0 * spow w1 2%nat * w2 * w3 + sofZ 108 * cx3 * cy1 * w0 * spow w1 2%nat * spow w3 2%nat + sofZ 54 * cx3 * cy1 * w0 * w1 * spow w2 2%nat * w3 - sofZ 162 * cx3 * cy1 * spow w1 3%nat * w2 * w3 - sofZ 630 * cx3 * cy2 * spow w0 3%nat * w2 * w3 + sofZ 1890 * cx3 * cy2 * spow w0 2%nat * w1 * w2 * w3 - sofZ 540 * cx3 * cy2 * spow w0 2%nat * spow w2 2%nat * w3 + sofZ 36 * cx3 * cy2 * spow w0 2%nat * w2 * spow w3 2%nat - sofZ 1350 * cx3 * cy2 * w0 * spow w1 2%nat * w2 * w3 + sofZ 432 * cx3 * cy2 * w0 * w1 * spow w2 2%nat * w3 + sofZ 162 * cx3 * cy2 * spow w1 3%nat * w2 * w3;
     - sofZ 1512 * cx0 * cy1 * spow w0 3%nat * w1 * w2 + sofZ 1008 * cx0 * cy1 * spow w0 3%nat * w1 * w3 + sofZ 6048 * cx0 * cy1 * spow w0 2%nat * spow w1 2%nat * w2 - sofZ 3780 * cx0 * cy1 * spow w0 2%nat * spow w1 2%nat * w3 - sofZ 3780 * cx0 * cy1 * spow w0 2%nat * w1 * spow w2 2%nat + sofZ 2880 * cx0 * cy1 * spow w0 2%nat * w1 * w2 * w3 - sofZ 360 * cx0 * cy1 * spow w0 2%nat * w1 * spow w3 2%nat - sofZ 5670 * cx0 * cy1 * w0 * spow w1 3%nat * w2 + sofZ 3240 * cx0 * cy1 * w0 * spow w1 3%nat * w3 + sofZ 6480 * cx0 * cy1 * w0 * spow w1 2%nat * spow w2 2%nat - sofZ 4320 * cx0 * cy1 * w0 * spow w1 2%nat * w2 * w3 + sofZ 432 * cx0 * cy1 * w0 * spow w1 2%nat * spow w3 2%nat - sofZ 1620 * cx0 * cy1 * w0 * w1 * spow w2 3%nat + sofZ 1080 * cx0 * cy1 * w0 * w1 * spow w2 2%nat * w3 - sofZ 126 * cx0 * cy1 * w0 * w1 * w2 * spow w3 2%nat + sofZ 1512 * cx0 * cy2 * spow w0 3%nat * w1 * w2 - sofZ 630 * cx0 * cy2 * spow w0 3%nat * w2 * w3 - sofZ 6048 * cx0 * cy2 * spow w0 2%nat * spow w1 2%nat * w2 + sofZ 3780 * cx0 * cy2 * spow w0 2%nat * w1 * spow w2 2%nat + sofZ 1440 * cx0 * cy2 * spow w0 2%nat * w1 * w2 * w3 - sofZ 1080 * cx0 * cy2 * spow w0 2%nat * spow w2 2%nat * w3 + sofZ 144 * cx0 * cy2 * spow w0 2%nat * w2 * spow w3 2%nat + sofZ 5670 * cx0 * cy2 * w0 * spow w1 3%nat * w2 - sofZ 6480 * cx0 * cy2 * w0 * spow w1 2%nat * spow w2 2%nat - sofZ 540 * cx0 * cy2 * w0 * spow w1 2%nat * w2 * w3 + sofZ 1620 * cx0 * cy2 * w0 * w1 * spow w2 3%nat + sofZ 864 * cx0 * cy2 * w0 * w1 * spow w2 2%nat * w3 - sofZ 90 * cx0 * cy2 * w0 * w1 * w2 * spow w3 2%nat - sofZ 162 * cx0 * cy2 * w0 * spow w2 3%nat * w3 - sofZ 1008 * cx0 * cy3 * spow w0 3%nat * w1 * w3 + sofZ 630 * cx0 * cy3 * spow w0 3%nat * w2 * w3 + sofZ 3780 * cx0 * cy3 * spow w0 2%nat * spow w1 2%nat * w3 - sofZ 4320 * cx0 * cy3 * spow w0 2%nat * w1 * w2 * w3 + sofZ 360 * cx0 * cy3 * spow w0 2%nat * w1 * spow w3 2%nat + sofZ 1080 * cx0 * cy3 * spow w0 2%nat * spow w2 2%nat * w3 - sofZ 144 * cx0 * cy3 * spow w0 2%nat * w2 * spow w3 2%nat - sofZ 3240 * cx0 * cy3 * w0 * spow w1 3%nat * w3 + sofZ 4860 * cx0 * cy3 * w0 * spow w1 2%nat * w2 * w3 - sofZ 432 * cx0 * cy3 * w0 * spow w1 2%nat * spow w3 2%nat - sofZ 1944 * cx0 * cy3 * w0 * w1 * spow w2 2%nat * w3 + sofZ 216 * cx0 * cy3 * w0 * w1 * w2 * spow w3 2%nat + sofZ 162 * cx0 * cy3 * w0 * spow w2 3%nat * w3 + sofZ 1512 * cx1 * cy0 * spow w0 3%nat * w1 * w2 - sofZ 1008 * cx1 * cy0 * spow w0 3%nat * w1 * w3 - sofZ 6048 * cx1 * cy0 * spow w0 2%nat * spow w1 2%nat * w2 + sofZ 3780 * cx1 * cy0 * spow w0 2%nat * spow w1 2%nat * w3 + sofZ 3780 * cx1 * cy0 * spow w0 2%nat * w1 * spow w2 2%nat - sofZ 2880 * cx1 * cy0 * spow w0 2%nat * w1 * w2 * w3 + sofZ 360 * cx1 * cy0 * spow w0 2%nat * w1 * spow w3 2%nat + sofZ 5670 * cx1 * cy0 * w0 * spow w1 3%nat * w2 - sofZ 3240 * cx1 * cy0 * w0 * spow w1 3%nat * w3 - sofZ 6480 * cx1 * cy0 * w0 * spow w1 2%nat * spow w2 2%nat + sofZ 4320 * cx1 * cy0 * w0 * spow w1 2%nat * w2 * w3 - sofZ 432 * cx1 * cy0 * w0 * spow w1 2%nat * spow w3 2%nat + sofZ 1620 * cx1 * cy0 * w0 * w1 * spow w2 3%nat - sofZ 1080 * cx1 * cy0 * w0 * w1 * spow w2 2%nat * w3 + sofZ 126 * cx1 * cy0 * w0 * w1 * w2 * spow w3 2%nat - sofZ 1512 * cx1 * cy2 * spow w0 3%nat * w1 * w2 + sofZ 6048 * cx1 * cy2 * spow w0 2%nat * spow w1 2%nat * w2 - sofZ 3780 * cx1 * cy2 * spow w0 2%nat * w1 * spow w2 2%nat + sofZ 1080 * cx1 * cy2 * spow w0 2%nat * w1 * w2 * w3 - sofZ 5670 * cx1 * cy2 * w0 * spow w1 3%nat * w2 + sofZ 6480 * cx1 * cy2 * w0 * spow w1 2%nat * spow w2 2%nat - sofZ 2160 * cx1 * cy2 * w0 * spow w1 2%nat * w2 * w3 - sofZ 1620 * cx1 * cy2 * w0 * w1 * spow w2 3%nat + sofZ 864 * cx1 * cy2 * w0 * w1 * spow w2 2%nat * w3 - sofZ 54 * cx1 * cy2 * w0 * w1 * w2 * spow w3 2%nat + sofZ 648 * cx1 * cy2 * spow w1 3%nat * w2 * w3 - sofZ 324 * cx1 * cy2 * spow w1 2%nat * spow w2 2%nat * w3 + sofZ 1008 * cx1 * cy3 * spow w0 3%nat * w1 * w3 - sofZ 3780 * cx1 * cy3 * spow w0 2%nat * spow w1 2%nat * w3 + sofZ 1800 * cx1 * cy3 * spow w0 2%nat * w1 * w2 * w3 - sofZ 360 * cx1 * cy3 * spow w0 2%nat * w1 * spow w3 2%nat + sofZ 3240 * cx1 * cy3 * w0 * spow w1 3%nat * w3 - sofZ 2160 * cx1 * cy3 * w0 * spow w1 2%nat * w2 * w3 + sofZ 432 * cx1 * cy3 * w0 * spow w1 2%nat * spow w3 2%nat + sofZ 216 * cx1 * cy3 * w0 * w1 * spow w2 2%nat * w3 - sofZ 72 * cx1 * cy3 * w0 * w1 * w2 * spow w3 2%nat - sofZ 648 * cx1 * cy3 * spow w1 3%nat * w2 * w3 + sofZ 324 * cx1 * cy3 * spow w1 2%nat * spow w2 2%nat * w3 - sofZ 1512 * cx2 * cy0 * spow w0 3%nat * w1 * w2 + sofZ 630 * cx2 * cy0 * spow w0 3%nat * w2 * w3 + sofZ 6048 * cx2 * cy0 * spow w0 2%nat * spow w1 2%nat * w2 - sofZ 3780 * cx2 * cy0 * spow w0 2%nat * w1 * spow w2 2%nat - sofZ 1440 * cx2 * cy0 * spow w0 2%nat * w1 * w2 * w3 + sofZ 1080 * cx2 * cy0 * spow w0 2%nat * spow w2 2%nat * w3 - sofZ 144 * cx2 * cy0 * spow w0 2%nat * w2 * spow w3 2%nat - sofZ 5670 * cx2 * cy0 * w0 * spow w1 3%nat * w2 + sofZ 6480 * cx2 * cy0 * w0 * spow w1 2%nat * spow w2 2%nat + sofZ 540 * cx2 * cy0 * w0 * spow w1 2%nat * w2 * w3 - sofZ 1620 * cx2 * cy0 * w0 * w1 * spow w2 3%nat - sofZ 864 * cx2 * cy0 * w0 * w1 * spow w2 2%nat * w3 + sofZ 90 * cx2 * cy0 * w0 * w1 * w2 * spow w3 2%nat + sofZ 162 * cx2 * cy0 * w0 * spow w2 3%nat * w3 + sofZ 1512 * cx2 * cy1 * spow w0 3%nat * w1 * w2 - sofZ 6048 * cx2 * cy1 * spow w0 2%nat * spow w1 2%nat * w2 + sofZ 3780 * cx2 * cy1 * spow w0 2%nat * w1 * spow w2 2%nat - sofZ 1080 * cx2 * cy1 * spow w0 2%nat * w1 * w2 * w3 + sofZ 5670 * cx2 * cy1 * w0 * spow w1 3%nat * w2 - sofZ 6480 * cx2 * cy1 * w0 * spow w1 2%nat * spow w2 2%nat + sofZ 2160 * cx2 * cy1 * w0 * spow w1 2%nat * w2 * w3 + sofZ 1620 * cx2 * cy1 * w0 * w1 * spow w2 3%nat - sofZ 864 * cx2 * cy1 * w0 * w1 * spow w2 2%nat * w3 + sofZ 54 * cx2 * cy1 * w0 * w1 * w2 * spow w3 2%nat - sofZ 648 * cx2 * cy1 * spow w1 3%nat * w2 * w3 + sofZ 324 * cx2 * cy1 * spow w1 2%nat * spow w2 2%nat * w3 - sofZ 630 * cx2 * cy3 * spow w0 3%nat * w2 * w3 + sofZ 2520 * cx2 * cy3 * spow w0 2%nat * w1 * w2 * w3 - sofZ 1080 * cx2 * cy3 * spow w0 2%nat * spow w2 2%nat * w3 + sofZ 144 * cx2 * cy3 * spow w0 2%nat * w2 * spow w3 2%nat - sofZ 2700 * cx2 * cy3 * w0 * spow w1 2%nat * w2 * w3 + sofZ 1728 * cx2 * cy3 * w0 * w1 * spow w2 2%nat * w3 - sofZ 144 * cx2 * cy3 * w0 * w1 * w2 * spow w3 2%nat - sofZ 162 * cx2 * cy3 * w0 * spow w2 3%nat * w3 + sofZ 648 * cx2 * cy3 * spow w1 3%nat * w2 * w3 - sofZ 324 * cx2 * cy3 * spow w1 2%nat * spow w2 2%nat * w3 + sofZ 1008 * cx3 * cy0 * spow w0 3%nat * w1 * w3 - sofZ 630 * cx3 * cy0 * spow w0 3%nat * w2 * w3 - sofZ 3780 * cx3 * cy0 * spow w0 2%nat * spow w1 2%nat * w3 + sofZ 4320 * cx3 * cy0 * spow w0 2%nat * w1 * w2 * w3 - sofZ 360 * cx3 * cy0 * spow w0 2%nat * w1 * spow w3 2%nat - sofZ 1080 * cx3 * cy0 * spow w0 2%nat * spow w2 2%nat * w3 + sofZ 144 * cx3 * cy0 * spow w0 2%nat * w2 * spow w3 2%nat + sofZ 3240 * cx3 * cy0 * w0 * spow w1 3%nat * w3 - sofZ 4860 * cx3 * cy0 * w0 * spow w1 2%nat * w2 * w3 + sofZ 432 * cx3 * cy0 * w0 * spow w1 2%nat * spow w3 2%nat + sofZ 1944 * cx3 * cy0 * w0 * w1 * spow w2 2%nat * w3 - sofZ 216 * cx3 * cy0 * w0 * w1 * w2 * spow w3 2%nat - sofZ 162 * cx3 * cy0 * w0 * spow w2 3%nat * w3 - sofZ 1008 * cx3 * cy1 * spow w0 3%nat * w1 * w3 + sofZ 3780 * cx3 * cy1 * spow w0 2%nat * spow w1 2%nat * w3 - sofZ 1800 * cx3 * cy1 * spow w0 2%nat * w1 * w2 * w3 + sofZ 360 * cx3 * cy1 * spow w0 2%nat * w1 * spow w3 2%nat - sofZ 3240 * cx3 * cy1 * w0 * spow w1 3%nat * w3 + sofZ 2160 * cx3 * cy1 * w0 * spow w1 2%nat * w2 * w3 - sofZ 432 * cx3 * cy1 * w0 * spow w1 2%nat * spow w3 2%nat - sofZ 216 * cx3 * cy1 * w0 * w1 * spow w2 2%nat * w3 + sofZ 72 * cx3 * cy1 * w0 * w1 * w2 * spow w3 2%nat + sofZ 648 * cx3 * cy1 * spow w1 3%nat * w2 * w3 - sofZ 324 * cx3 * cy1 * spow w1 2%nat * spow w2 2%nat * w3 + sofZ 630 * cx3 * cy2 * spow w0 3%nat * w2 * w3 - sofZ 2520 * cx3 * cy2 * spow w0 2%nat * w1 * w2 * w3 + sofZ 1080 * cx3 * cy2 * spow w0 2%nat * spow w2 2%nat * w3 - sofZ 144 * cx3 * cy2 * spow w0 2%nat * w2 * spow w3 2%nat + sofZ 2700 * cx3 * cy2 * w0 * spow w1 2%nat * w2 * w3 - sofZ 1728 * cx3 * cy2 * w0 * w1 * spow w2 2%nat * w3 + sofZ 144 * cx3 * cy2 * w0 * w1 * w2 * spow w3 2%nat + sofZ 162 * cx3 * cy2 * w0 * spow w2 3%nat * w3 - sofZ 648 * cx3 * cy2 * spow w1 3%nat * w2 * w3 + sofZ 324 * cx3 * cy2 * spow w1 2%nat * spow w2 2%nat * w3;
     sofZ 648 * cx0 * cy1 * spow w0 3%nat * w1 * w2 - sofZ 504 * cx0 * cy1 * spow w0 3%nat * w1 * w3 - sofZ 3024 * cx0 * cy1 * spow w0 2%nat * spow w1 2%nat * w2 + sofZ 2268 * cx0 * cy1 * spow w0 2%nat * spow w1 2%nat * w3 + sofZ 2268 * cx0 * cy1 * spow w0 2%nat * w1 * spow w2 2%nat - sofZ 2160 * cx0 * cy1 * spow w0 2%nat * w1 * w2 * w3 + sofZ 360 * cx0 * cy1 * spow w0 2%nat * w1 * spow w3 2%nat + sofZ 3402 * cx0 * cy1 * w0 * spow w1 3%nat * w2 - sofZ 2430 * cx0 * cy1 * w0 * spow w1 3%nat * w3 - sofZ 4860 * cx0 * cy1 * w0 * spow w1 2%nat * spow w2 2%nat + sofZ 4320 * cx0 * cy1 * w0 * spow w1 2%nat * w2 * w3 - sofZ 648 * cx0 * cy1 * w0 * spow w1 2%nat * spow w3 2%nat + sofZ 1620 * cx0 * cy1 * w0 * w1 * spow w2 3%nat - sofZ 1620 * cx0 * cy1 * w0 * w1 * spow w2 2%nat * w3 + sofZ 378 * cx0 * cy1 * w0 * w1 * w2 * spow w3 2%nat - sofZ 18 * cx0 * cy1 * w0 * w1 * spow w3 3%nat - sofZ 648 * cx0 * cy2 * spow w0 3%nat * w1 * w2 + sofZ 378 * cx0 * cy2 * spow w0 3%nat * w2 * w3 + sofZ 3024 * cx0 * cy2 * spow w0 2%nat * spow w1 2%nat * w2 - sofZ 2268 * cx0 * cy2 * spow w0 2%nat * w1 * spow w2 2%nat - sofZ 1080 * cx0 * cy2 * spow w0 2%nat * w1 * w2 * w3 + sofZ 1080 * cx0 * cy2 * spow w0 2%nat * spow w2 2%nat * w3 - sofZ 216 * cx0 * cy2 * spow w0 2%nat * w2 * spow w3 2%nat - sofZ 3402 * cx0 * cy2 * w0 * spow w1 3%nat * w2 + sofZ 4860 * cx0 * cy2 * w0 * spow w1 2%nat * spow w2 2%nat + sofZ 540 * cx0 * cy2 * w0 * spow w1 2%nat * w2 * w3 - sofZ 1620 * cx0 * cy2 * w0 * w1 * spow w2 3%nat - sofZ 1296 * cx0 * cy2 * w0 * w1 * spow w2 2%nat * w3 + sofZ 270 * cx0 * cy2 * w0 * w1 * w2 * spow w3 2%nat + sofZ 486 * cx0 * cy2 * w0 * spow w2 3%nat * w3 - sofZ 108 * cx0 * cy2 * w0 * spow w2 2%nat * spow w3 2%nat + sofZ 504 * cx0 * cy3 * spow w0 3%nat * w1 * w3 - sofZ 378 * cx0 * cy3 * spow w0 3%nat * w2 * w3 - sofZ 2268 * cx0 * cy3 * spow w0 2%nat * spow w1 2%nat * w3 + sofZ 3240 * cx0 * cy3 * spow w0 2%nat * w1 * w2 * w3 - sofZ 360 * cx0 * cy3 * spow w0 2%nat * w1 * spow w3 2%nat - sofZ 1080 * cx0 * cy3 * spow w0 2%nat * spow w2 2%nat * w3 + sofZ 216 * cx0 * cy3 * spow w0 2%nat * w2 * spow w3 2%nat + sofZ 2430 * cx0 * cy3 * w0 * spow w1 3%nat * w3 - sofZ 4860 * cx0 * cy3 * w0 * spow w1 2%nat * w2 * w3 + sofZ 648 * cx0 * cy3 * w0 * spow w1 2%nat * spow w3 2%nat + sofZ 2916 * cx0 * cy3 * w0 * w1 * spow w2 2%nat * w3 - sofZ 648 * cx0 * cy3 * w0 * w1 * w2 * spow w3 2%nat + sofZ 18 * cx0 * cy3 * w0 * w1 * spow w3 3%nat - sofZ 486 * cx0 * cy3 * w0 * spow w2 3%nat * w3 + sofZ 108 * cx0 * cy3 * w0 * spow w2 2%nat * spow w3 2%nat - sofZ 648 * cx1 * cy0 * spow w0 3%nat * w1 * w2 + sofZ 504 * cx1 * cy0 * spow w0 3%nat * w1 * w3 + sofZ 3024 * cx1 * cy0 * spow w0 2%nat * spow w1 2%nat * w2 - sofZ 2268 * cx1 * cy0 * spow w0 2%nat * spow w1 2%nat * w3 - sofZ 2268 * cx1 * cy0 * spow w0 2%nat * w1 * spow w2 2%nat + sofZ 2160 * cx1 * cy0 * spow w0 2%nat * w1 * w2 * w3 - sofZ 360 * cx1 * cy0 * spow w0 2%nat * w1 * spow w3 2%nat - sofZ 3402 * cx1 * cy0 * w0 * spow w1 3%nat * w2 + sofZ 2430 * cx1 * cy0 * w0 * spow w1 3%nat * w3 + sofZ 4860 * cx1 * cy0 * w0 * spow w1 2%nat * spow w2 2%nat - sofZ 4320 * cx1 * cy0 * w0 * spow w1 2%nat * w2 * w3 + sofZ 648 * cx1 * cy0 * w0 * spow w1 2%nat * spow w3 2%nat - sofZ 1620 * cx1 * cy0 * w0 * w1 * spow w2 3%nat + sofZ 1620 * cx1 * cy0 * w0 * w1 * spow w2 2%nat * w3 - sofZ 378 * cx1 * cy0 * w0 * w1 * w2 * spow w3 2%nat + sofZ 18 * cx1 * cy0 * w0 * w1 * spow w3 3%nat + sofZ 648 * cx1 * cy2 * spow w0 3%nat * w1 * w2 - sofZ 3024 * cx1 * cy2 * spow w0 2%nat * spow w1 2%nat * w2 + sofZ 2268 * cx1 * cy2 * spow w0 2%nat * w1 * spow w2 2%nat - sofZ 810 * cx1 * cy2 * spow w0 2%nat * w1 * w2 * w3 + sofZ 3402 * cx1 * cy2 * w0 * spow w1 3%nat * w2 - sofZ 4860 * cx1 * cy2 * w0 * spow w1 2%nat * spow w2 2%nat + sofZ 2160 * cx1 * cy2 * w0 * spow w1 2%nat * w2 * w3 + sofZ 1620 * cx1 * cy2 * w0 * w1 * spow w2 3%nat - sofZ 1296 * cx1 * cy2 * w0 * w1 * spow w2 2%nat * w3 + sofZ 162 * cx1 * cy2 * w0 * w1 * w2 * spow w3 2%nat - sofZ 972 * cx1 * cy2 * spow w1 3%nat * w2 * w3 + sofZ 972 * cx1 * cy2 * spow w1 2%nat * spow w2 2%nat * w3 - sofZ 108 * cx1 * cy2 * spow w1 2%nat * w2 * spow w3 2%nat - sofZ 162 * cx1 * cy2 * w1 * spow w2 3%nat * w3 - sofZ 504 * cx1 * cy3 * spow w0 3%nat * w1 * w3 + sofZ 2268 * cx1 * cy3 * spow w0 2%nat * spow w1 2%nat * w3 - sofZ 1350 * cx1 * cy3 * spow w0 2%nat * w1 * w2 * w3 + sofZ 360 * cx1 * cy3 * spow w0 2%nat * w1 * spow w3 2%nat - sofZ 2430 * cx1 * cy3 * w0 * spow w1 3%nat * w3 + sofZ 2160 * cx1 * cy3 * w0 * spow w1 2%nat * w2 * w3 - sofZ 648 * cx1 * cy3 * w0 * spow w1 2%nat * spow w3 2%nat - sofZ 324 * cx1 * cy3 * w0 * w1 * spow w2 2%nat * w3 + sofZ 216 * cx1 * cy3 * w0 * w1 * w2 * spow w3 2%nat - sofZ 18 * cx1 * cy3 * w0 * w1 * spow w3 3%nat + sofZ 972 * cx1 * cy3 * spow w1 3%nat * w2 * w3 - sofZ 972 * cx1 * cy3 * spow w1 2%nat * spow w2 2%nat * w3 + sofZ 108 * cx1 * cy3 * spow w1 2%nat * w2 * spow w3 2%nat + sofZ 162 * cx1 * cy3 * w1 * spow w2 3%nat * w3 + sofZ 648 * cx2 * cy0 * spow w0 3%nat * w1 * w2 - sofZ 378 * cx2 * cy0 * spow w0 3%nat * w2 * w3 - sofZ 3024 * cx2 * cy0 * spow w0 2%nat * spow w1 2%nat * w2 + sofZ 2268 * cx2 * cy0 * spow w0 2%nat * w1 * spow w2 2%nat + sofZ 1080 * cx2 * cy0 * spow w0 2%nat * w1 * w2 * w3 - sofZ 1080 * cx2 * cy0 * spow w0 2%nat * spow w2 2%nat * w3 + sofZ 216 * cx2 * cy0 * spow w0 2%nat * w2 * spow w3 2%nat + sofZ 3402 * cx2 * cy0 * w0 * spow w1 3%nat * w2 - sofZ 4860 * cx2 * cy0 * w0 * spow w1 2%nat * spow w2 2%nat - sofZ 540 * cx2 * cy0 * w0 * spow w1 2%nat * w2 * w3 + sofZ 1620 * cx2 * cy0 * w0 * w1 * spow w2 3%nat + sofZ 1296 * cx2 * cy0 * w0 * w1 * spow w2 2%nat * w3 - sofZ 270 * cx2 * cy0 * w0 * w1 * w2 * spow w3 2%nat - sofZ 486 * cx2 * cy0 * w0 * spow w2 3%nat * w3 + sofZ 108 * cx2 * cy0 * w0 * spow w2 2%nat * spow w3 2%nat - sofZ 648 * cx2 * cy1 * spow w0 3%nat * w1 * w2 + sofZ 3024 * cx2 * cy1 * spow w0 2%nat * spow w1 2%nat * w2 - sofZ 2268 * cx2 * cy1 * spow w0 2%nat * w1 * spow w2 2%nat + sofZ 810 * cx2 * cy1 * spow w0 2%nat * w1 * w2 * w3 - sofZ 3402 * cx2 * cy1 * w0 * spow w1 3%nat * w2 + sofZ 4860 * cx2 * cy1 * w0 * spow w1 2%nat * spow w2 2%nat - sofZ 2160 * cx2 * cy1 * w0 * spow w1 2%nat * w2 * w3 - sofZ 1620 * cx2 * cy1 * w0 * w1 * spow w2 3%nat + sofZ 1296 * cx2 * cy1 * w0 * w1 * spow w2 2%nat * w3 - sofZ 162 * cx2 * cy1 * w0 * w1 * w2 * spow w3 2%nat + sofZ 972 * cx2 * cy1 * spow w1 3%nat * w2 * w3 - sofZ 972 * cx2 * cy1 * spow w1 2%nat * spow w2 2%nat * w3 + sofZ 108 * cx2 * cy1 * spow w1 2%nat * w2 * spow w3 2%nat + sofZ 162 * cx2 * cy1 * w1 * spow w2 3%nat * w3 + sofZ 378 * cx2 * cy3 * spow w0 3%nat * w2 * w3 - sofZ 1890 * cx2 * cy3 * spow w0 2%nat * w1 * w2 * w3 + sofZ 1080 * cx2 * cy3 * spow w0 2%nat * spow w2 2%nat * w3 - sofZ 216 * cx2 * cy3 * spow w0 2%nat * w2 * spow w3 2%nat + sofZ 2700 * cx2 * cy3 * w0 * spow w1 2%nat * w2 * w3 - sofZ 2592 * cx2 * cy3 * w0 * w1 * spow w2 2%nat * w3 + sofZ 432 * cx2 * cy3 * w0 * w1 * w2 * spow w3 2%nat + sofZ 486 * cx2 * cy3 * w0 * spow w2 3%nat * w3 - sofZ 108 * cx2 * cy3 * w0 * spow w2 2%nat * spow w3 2%nat - sofZ 972 * cx2 * cy3 * spow w1 3%nat * w2 * w3 + sofZ 972 * cx2 * cy3 * spow w1 2%nat * spow w2 2%nat * w3 - sofZ 108 * cx2 * cy3 * spow w1 2%nat * w2 * spow w3 2%nat - sofZ 162 * cx2 * cy3 * w1 * spow w2 3%nat * w3 - sofZ 504 * cx3 * cy0 * spow w0 3%nat * w1 * w3 + sofZ 378 * cx3 * cy0 * spow w0 3%nat * w2 * w3 + sofZ 2268 * cx3 * cy0 * spow w0 2%nat * spow w1 2%nat * w3 - sofZ 3240 * cx3 * cy0 * spow w0 2%nat * w1 * w2 * w3 + sofZ 360 * cx3 * cy0 * spow w0 2%nat * w1 * spow w3 2%nat + sofZ 1080 * cx3 * cy0 * spow w0 2%nat * spow w2 2%nat * w3 - sofZ 216 * cx3 * cy0 * spow w0 2%nat * w2 * spow w3 2%nat - sofZ 2430 * cx3 * cy0 * w0 * spow w1 3%nat * w3 + sofZ 4860 * cx3 * cy0 * w0 * spow w1 2%nat * w2 * w3 - sofZ 648 * cx3 * cy0 * w0 * spow w1 2%nat * spow w3 2%nat - sofZ 2916 * cx3 * cy0 * w0 * w1 * spow w2 2%nat * w3 + sofZ 648 * cx3 * cy0 * w0 * w1 * w2 * spow w3 2%nat - sofZ 18 * cx3 * cy0 * w0 * w1 * spow w3 3%nat + sofZ 486 * cx3 * cy0 * w0 * spow w2 3%nat * w3 - sofZ 108 * cx3 * cy0 * w0 * spow w2 2%nat * spow w3 2%nat + sofZ 504 * cx3 * cy1 * spow w0 3%nat * w1 * w3 - sofZ 2268 * cx3 * cy1 * spow w0 2%nat * spow w1 2%nat * w3 + sofZ 1350 * cx3 * cy1 * spow w0 2%nat * w1 * w2 * w3 - sofZ 360 * cx3 * cy1 * spow w0 2%nat * w1 * spow w3 2%nat + sofZ 2430 * cx3 * cy1 * w0 * spow w1 3%nat * w3 - sofZ 2160 * cx3 * cy1 * w0 * spow w1 2%nat * w2 * w3 + sofZ 648 * cx3 * cy1 * w0 * spow w1 2%nat * spow w3 2%nat + sofZ 324 * cx3 * cy1 * w0 * w1 * spow w2 2%nat * w3 - sofZ 216 * cx3 * cy1 * w0 * w1 * w2 * spow w3 2%nat + sofZ 18 * cx3 * cy1 * w0 * w1 * spow w3 3%nat - sofZ 972 * cx3 * cy1 * spow w1 3%nat * w2 * w3 + sofZ 972 * cx3 * cy1 * spow w1 2%nat * spow w2 2%nat * w3 - sofZ 108 * cx3 * cy1 * spow w1 2%nat * w2 * spow w3 2%nat - sofZ 162 * cx3 * cy1 * w1 * spow w2 3%nat * w3 - sofZ 378 * cx3 * cy2 * spow w0 3%nat * w2 * w3 + sofZ 1890 * cx3 * cy2 * spow w0 2%nat * w1 * w2 * w3 - sofZ 1080 * cx3 * cy2 * spow w0 2%nat * spow w2 2%nat * w3 + sofZ 216 * cx3 * cy2 * spow w0 2%nat * w2 * spow w3 2%nat - sofZ 2700 * cx3 * cy2 * w0 * spow w1 2%nat * w2 * w3 + sofZ 2592 * cx3 * cy2 * w0 * w1 * spow w2 2%nat * w3 - sofZ 432 * cx3 * cy2 * w0 * w1 * w2 * spow w3 2%nat - sofZ 486 * cx3 * cy2 * w0 * spow w2 3%nat * w3 + sofZ 108 * cx3 * cy2 * w0 * spow w2 2%nat * spow w3 2%nat + sofZ 972 * cx3 * cy2 * spow w1 3%nat * w2 * w3 - sofZ 972 * cx3 * cy2 * spow w1 2%nat * spow w2 2%nat * w3 + sofZ 108 * cx3 * cy2 * spow w1 2%nat * w2 * spow w3 2%nat + sofZ 162 * cx3 * cy2 * w1 * spow w2 3%nat * w3;
     - sofZ 162 * cx0 * cy1 * spow w0 3%nat * w1 * w2 + sofZ 144 * cx0 * cy1 * spow w0 3%nat * w1 * w3 + sofZ 864 * cx0 * cy1 * spow w0 2%nat * spow w1 2%nat * w2 - sofZ 756 * cx0 * cy1 * spow w0 2%nat * spow w1 2%nat * w3 - sofZ 756 * cx0 * cy1 * spow w0 2%nat * w1 * spow w2 2%nat + sofZ 864 * cx0 * cy1 * spow w0 2%nat * w1 * w2 * w3 - sofZ 180 * cx0 * cy1 * spow w0 2%nat * w1 * spow w3 2%nat - sofZ 1134 * cx0 * cy1 * w0 * spow w1 3%nat * w2 + sofZ 972 * cx0 * cy1 * w0 * spow w1 3%nat * w3 + sofZ 1944 * cx0 * cy1 * w0 * spow w1 2%nat * spow w2 2%nat - sofZ 2160 * cx0 * cy1 * w0 * spow w1 2%nat * w2 * w3 + sofZ 432 * cx0 * cy1 * w0 * spow w1 2%nat * spow w3 2%nat - sofZ 810 * cx0 * cy1 * w0 * w1 * spow w2 3%nat + sofZ 1080 * cx0 * cy1 * w0 * w1 * spow w2 2%nat * w3 - sofZ 378 * cx0 * cy1 * w0 * w1 * w2 * spow w3 2%nat + sofZ 36 * cx0 * cy1 * w0 * w1 * spow w3 3%nat + sofZ 162 * cx0 * cy2 * spow w0 3%nat * w1 * w2 - sofZ 126 * cx0 * cy2 * spow w0 3%nat * w2 * w3 - sofZ 864 * cx0 * cy2 * spow w0 2%nat * spow w1 2%nat * w2 + sofZ 756 * cx0 * cy2 * spow w0 2%nat * w1 * spow w2 2%nat + sofZ 432 * cx0 * cy2 * spow w0 2%nat * w1 * w2 * w3 - sofZ 540 * cx0 * cy2 * spow w0 2%nat * spow w2 2%nat * w3 + sofZ 144 * cx0 * cy2 * spow w0 2%nat * w2 * spow w3 2%nat + sofZ 1134 * cx0 * cy2 * w0 * spow w1 3%nat * w2 - sofZ 1944 * cx0 * cy2 * w0 * spow w1 2%nat * spow w2 2%nat - sofZ 270 * cx0 * cy2 * w0 * spow w1 2%nat * w2 * w3 + sofZ 810 * cx0 * cy2 * w0 * w1 * spow w2 3%nat + sofZ 864 * cx0 * cy2 * w0 * w1 * spow w2 2%nat * w3 - sofZ 270 * cx0 * cy2 * w0 * w1 * w2 * spow w3 2%nat - sofZ 486 * cx0 * cy2 * w0 * spow w2 3%nat * w3 + sofZ 216 * cx0 * cy2 * w0 * spow w2 2%nat * spow w3 2%nat - sofZ 18 * cx0 * cy2 * w0 * w2 * spow w3 3%nat - sofZ 144 * cx0 * cy3 * spow w0 3%nat * w1 * w3 + sofZ 126 * cx0 * cy3 * spow w0 3%nat * w2 * w3 + sofZ 756 * cx0 * cy3 * spow w0 2%nat * spow w1 2%nat * w3 - sofZ 1296 * cx0 * cy3 * spow w0 2%nat * w1 * w2 * w3 + sofZ 180 * cx0 * cy3 * spow w0 2%nat * w1 * spow w3 2%nat + sofZ 540 * cx0 * cy3 * spow w0 2%nat * spow w2 2%nat * w3 - sofZ 144 * cx0 * cy3 * spow w0 2%nat * w2 * spow w3 2%nat - sofZ 972 * cx0 * cy3 * w0 * spow w1 3%nat * w3 + sofZ 2430 * cx0 * cy3 * w0 * spow w1 2%nat * w2 * w3 - sofZ 432 * cx0 * cy3 * w0 * spow w1 2%nat * spow w3 2%nat - sofZ 1944 * cx0 * cy3 * w0 * w1 * spow w2 2%nat * w3 + sofZ 648 * cx0 * cy3 * w0 * w1 * w2 * spow w3 2%nat - sofZ 36 * cx0 * cy3 * w0 * w1 * spow w3 3%nat + sofZ 486 * cx0 * cy3 * w0 * spow w2 3%nat * w3 - sofZ 216 * cx0 * cy3 * w0 * spow w2 2%nat * spow w3 2%nat + sofZ 18 * cx0 * cy3 * w0 * w2 * spow w3 3%nat + sofZ 162 * cx1 * cy0 * spow w0 3%nat * w1 * w2 - sofZ 144 * cx1 * cy0 * spow w0 3%nat * w1 * w3 - sofZ 864 * cx1 * cy0 * spow w0 2%nat * spow w1 2%nat * w2 + sofZ 756 * cx1 * cy0 * spow w0 2%nat * spow w1 2%nat * w3 + sofZ 756 * cx1 * cy0 * spow w0 2%nat * w1 * spow w2 2%nat - sofZ 864 * cx1 * cy0 * spow w0 2%nat * w1 * w2 * w3 + sofZ 180 * cx1 * cy0 * spow w0 2%nat * w1 * spow w3 2%nat + sofZ 1134 * cx1 * cy0 * w0 * spow w1 3%nat * w2 - sofZ 972 * cx1 * cy0 * w0 * spow w1 3%nat * w3 - sofZ 1944 * cx1 * cy0 * w0 * spow w1 2%nat * spow w2 2%nat + sofZ 2160 * cx1 * cy0 * w0 * spow w1 2%nat * w2 * w3 - sofZ 432 * cx1 * cy0 * w0 * spow w1 2%nat * spow w3 2%nat + sofZ 810 * cx1 * cy0 * w0 * w1 * spow w2 3%nat - sofZ 1080 * cx1 * cy0 * w0 * w1 * spow w2 2%nat * w3 + sofZ 378 * cx1 * cy0 * w0 * w1 * w2 * spow w3 2%nat - sofZ 36 * cx1 * cy0 * w0 * w1 * spow w3 3%nat - sofZ 162 * cx1 * cy2 * spow w0 3%nat * w1 * w2 + sofZ 864 * cx1 * cy2 * spow w0 2%nat * spow w1 2%nat * w2 - sofZ 756 * cx1 * cy2 * spow w0 2%nat * w1 * spow w2 2%nat + sofZ 324 * cx1 * cy2 * spow w0 2%nat * w1 * w2 * w3 - sofZ 1134 * cx1 * cy2 * w0 * spow w1 3%nat * w2 + sofZ 1944 * cx1 * cy2 * w0 * spow w1 2%nat * spow w2 2%nat - sofZ 1080 * cx1 * cy2 * w0 * spow w1 2%nat * w2 * w3 - sofZ 810 * cx1 * cy2 * w0 * w1 * spow w2 3%nat + sofZ 864 * cx1 * cy2 * w0 * w1 * spow w2 2%nat * w3 - sofZ 162 * cx1 * cy2 * w0 * w1 * w2 * spow w3 2%nat + sofZ 648 * cx1 * cy2 * spow w1 3%nat * w2 * w3 - sofZ 972 * cx1 * cy2 * spow w1 2%nat * spow w2 2%nat * w3 + sofZ 216 * cx1 * cy2 * spow w1 2%nat * w2 * spow w3 2%nat + sofZ 324 * cx1 * cy2 * w1 * spow w2 3%nat * w3 - sofZ 108 * cx1 * cy2 * w1 * spow w2 2%nat * spow w3 2%nat + sofZ 144 * cx1 * cy3 * spow w0 3%nat * w1 * w3 - sofZ 756 * cx1 * cy3 * spow w0 2%nat * spow w1 2%nat * w3 + sofZ 540 * cx1 * cy3 * spow w0 2%nat * w1 * w2 * w3 - sofZ 180 * cx1 * cy3 * spow w0 2%nat * w1 * spow w3 2%nat + sofZ 972 * cx1 * cy3 * w0 * spow w1 3%nat * w3 - sofZ 1080 * cx1 * cy3 * w0 * spow w1 2%nat * w2 * w3 + sofZ 432 * cx1 * cy3 * w0 * spow w1 2%nat * spow w3 2%nat + sofZ 216 * cx1 * cy3 * w0 * w1 * spow w2 2%nat * w3 - sofZ 216 * cx1 * cy3 * w0 * w1 * w2 * spow w3 2%nat + sofZ 36 * cx1 * cy3 * w0 * w1 * spow w3 3%nat - sofZ 648 * cx1 * cy3 * spow w1 3%nat * w2 * w3 + sofZ 972 * cx1 * cy3 * spow w1 2%nat * spow w2 2%nat * w3 - sofZ 216 * cx1 * cy3 * spow w1 2%nat * w2 * spow w3 2%nat - sofZ 324 * cx1 * cy3 * w1 * spow w2 3%nat * w3 + sofZ 108 * cx1 * cy3 * w1 * spow w2 2%nat * spow w3 2%nat - sofZ 162 * cx2 * cy0 * spow w0 3%nat * w1 * w2 + sofZ 126 * cx2 * cy0 * spow w0 3%nat * w2 * w3 + sofZ 864 * cx2 * cy0 * spow w0 2%nat * spow w1 2%nat * w2 - sofZ 756 * cx2 * cy0 * spow w0 2%nat * w1 * spow w2 2%nat - sofZ 432 * cx2 * cy0 * spow w0 2%nat * w1 * w2 * w3 + sofZ 540 * cx2 * cy0 * spow w0 2%nat * spow w2 2%nat * w3 - sofZ 144 * cx2 * cy0 * spow w0 2%nat * w2 * spow w3 2%nat - sofZ 1134 * cx2 * cy0 * w0 * spow w1 3%nat * w2 + sofZ 1944 * cx2 * cy0 * w0 * spow w1 2%nat * spow w2 2%nat + sofZ 270 * cx2 * cy0 * w0 * spow w1 2%nat * w2 * w3 - sofZ 810 * cx2 * cy0 * w0 * w1 * spow w2 3%nat - sofZ 864 * cx2 * cy0 * w0 * w1 * spow w2 2%nat * w3 + sofZ 270 * cx2 * cy0 * w0 * w1 * w2 * spow w3 2%nat + sofZ 486 * cx2 * cy0 * w0 * spow w2 3%nat * w3 - sofZ 216 * cx2 * cy0 * w0 * spow w2 2%nat * spow w3 2%nat + sofZ 18 * cx2 * cy0 * w0 * w2 * spow w3 3%nat + sofZ 162 * cx2 * cy1 * spow w0 3%nat * w1 * w2 - sofZ 864 * cx2 * cy1 * spow w0 2%nat * spow w1 2%nat * w2 + sofZ 756 * cx2 * cy1 * spow w0 2%nat * w1 * spow w2 2%nat - sofZ 324 * cx2 * cy1 * spow w0 2%nat * w1 * w2 * w3 + sofZ 1134 * cx2 * cy1 * w0 * spow w1 3%nat * w2 - sofZ 1944 * cx2 * cy1 * w0 * spow w1 2%nat * spow w2 2%nat + sofZ 1080 * cx2 * cy1 * w0 * spow w1 2%nat * w2 * w3 + sofZ 810 * cx2 * cy1 * w0 * w1 * spow w2 3%nat - sofZ 864 * cx2 * cy1 * w0 * w1 * spow w2 2%nat * w3 + sofZ 162 * cx2 * cy1 * w0 * w1 * w2 * spow w3 2%nat - sofZ 648 * cx2 * cy1 * spow w1 3%nat * w2 * w3 + sofZ 972 * cx2 * cy1 * spow w1 2%nat * spow w2 2%nat * w3 - sofZ 216 * cx2 * cy1 * spow w1 2%nat * w2 * spow w3 2%nat - sofZ 324 * cx2 * cy1 * w1 * spow w2 3%nat * w3 + sofZ 108 * cx2 * cy1 * w1 * spow w2 2%nat * spow w3 2%nat - sofZ 126 * cx2 * cy3 * spow w0 3%nat * w2 * w3 + sofZ 756 * cx2 * cy3 * spow w0 2%nat * w1 * w2 * w3 - sofZ 540 * cx2 * cy3 * spow w0 2%nat * spow w2 2%nat * w3 + sofZ 144 * cx2 * cy3 * spow w0 2%nat * w2 * spow w3 2%nat - sofZ 1350 * cx2 * cy3 * w0 * spow w1 2%nat * w2 * w3 + sofZ 1728 * cx2 * cy3 * w0 * w1 * spow w2 2%nat * w3 - sofZ 432 * cx2 * cy3 * w0 * w1 * w2 * spow w3 2%nat - sofZ 486 * cx2 * cy3 * w0 * spow w2 3%nat * w3 + sofZ 216 * cx2 * cy3 * w0 * spow w2 2%nat * spow w3 2%nat - sofZ 18 * cx2 * cy3 * w0 * w2 * spow w3 3%nat + sofZ 648 * cx2 * cy3 * spow w1 3%nat * w2 * w3 - sofZ 972 * cx2 * cy3 * spow w1 2%nat * spow w2 2%nat * w3 + sofZ 216 * cx2 * cy3 * spow w1 2%nat * w2 * spow w3 2%nat + sofZ 324 * cx2 * cy3 * w1 * spow w2 3%nat * w3 - sofZ 108 * cx2 * cy3 * w1 * spow w2 2%nat * spow w3 2%nat + sofZ 144 * cx3 * cy0 * spow w0 3%nat * w1 * w3 - sofZ 126 * cx3 * cy0 * spow w0 3%nat * w2 * w3 - sofZ 756 * cx3 * cy0 * spow w0 2%nat * spow w1 2%nat * w3 + sofZ 1296 * cx3 * cy0 * spow w0 2%nat * w1 * w2 * w3 - sofZ 180 * cx3 * cy0 * spow w0 2%nat * w1 * spow w3 2%nat - sofZ 540 * cx3 * cy0 * spow w0 2%nat * spow w2 2%nat * w3 + sofZ 144 * cx3 * cy0 * spow w0 2%nat * w2 * spow w3 2%nat + sofZ 972 * cx3 * cy0 * w0 * spow w1 3%nat * w3 - sofZ 2430 * cx3 * cy0 * w0 * spow w1 2%nat * w2 * w3 + sofZ 432 * cx3 * cy0 * w0 * spow w1 2%nat * spow w3 2%nat + sofZ 1944 * cx3 * cy0 * w0 * w1 * spow w2 2%nat * w3 - sofZ 648 * cx3 * cy0 * w0 * w1 * w2 * spow w3 2%nat + sofZ 36 * cx3 * cy0 * w0 * w1 * spow w3 3%nat - sofZ 486 * cx3 * cy0 * w0 * spow w2 3%nat * w3 + sofZ 216 * cx3 * cy0 * w0 * spow w2 2%nat * spow w3 2%nat - sofZ 18 * cx3 * cy0 * w0 * w2 * spow w3 3%nat - sofZ 144 * cx3 * cy1 * spow w0 3%nat * w1 * w3 + sofZ 756 * cx3 * cy1 * spow w0 2%nat * spow w1 2%nat * w3 - sofZ 540 * cx3 * cy1 * spow w0 2%nat * w1 * w2 * w3 + sofZ 180 * cx3 * cy1 * spow w0 2%nat * w1 * spow w3 2%nat - sofZ 972 * cx3 * cy1 * w0 * spow w1 3%nat * w3 + sofZ 1080 * cx3 * cy1 * w0 * spow w1 2%nat * w2 * w3 - sofZ 432 * cx3 * cy1 * w0 * spow w1 2%nat * spow w3 2%nat - sofZ 216 * cx3 * cy1 * w0 * w1 * spow w2 2%nat * w3 + sofZ 216 * cx3 * cy1 * w0 * w1 * w2 * spow w3 2%nat - sofZ 36 * cx3 * cy1 * w0 * w1 * spow w3 3%nat + sofZ 648 * cx3 * cy1 * spow w1 3%nat * w2 * w3 - sofZ 972 * cx3 * cy1 * spow w1 2%nat * spow w2 2%nat * w3 + sofZ 216 * cx3 * cy1 * spow w1 2%nat * w2 * spow w3 2%nat + sofZ 324 * cx3 * cy1 * w1 * spow w2 3%nat * w3 - sofZ 108 * cx3 * cy1 * w1 * spow w2 2%nat * spow w3 2%nat + sofZ 126 * cx3 * cy2 * spow w0 3%nat * w2 * w3 - sofZ 756 * cx3 * cy2 * spow w0 2%nat * w1 * w2 * w3 + sofZ 540 * cx3 * cy2 * spow w0 2%nat * spow w2 2%nat * w3 - sofZ 144 * cx3 * cy2 * spow w0 2%nat * w2 * spow w3 2%nat + sofZ 1350 * cx3 * cy2 * w0 * spow w1 2%nat * w2 * w3 - sofZ 1728 * cx3 * cy2 * w0 * w1 * spow w2 2%nat * w3 + sofZ 432 * cx3 * cy2 * w0 * w1 * w2 * spow w3 2%nat + sofZ 486 * cx3 * cy2 * w0 * spow w2 3%nat * w3 - sofZ 216 * cx3 * cy2 * w0 * spow w2 2%nat * spow w3 2%nat + sofZ 18 * cx3 * cy2 * w0 * w2 * spow w3 3%nat - sofZ 648 * cx3 * cy2 * spow w1 3%nat * w2 * w3 + sofZ 972 * cx3 * cy2 * spow w1 2%nat * spow w2 2%nat * w3 - sofZ 216 * cx3 * cy2 * spow w1 2%nat * w2 * spow w3 2%nat - sofZ 324 * cx3 * cy2 * w1 * spow w2 3%nat * w3 + sofZ 108 * cx3 * cy2 * w1 * spow w2 2%nat * spow w3 2%nat;
     sofZ 18 * cx0 * cy1 * spow w0 3%nat * w1 * w2 - sofZ 18 * cx0 * cy1 * spow w0 3%nat * w1 * w3 - sofZ 108 * cx0 * cy1 * spow w0 2%nat * spow w1 2%nat * w2 + sofZ 108 * cx0 * cy1 * spow w0 2%nat * spow w1 2%nat * w3 + sofZ 108 * cx0 * cy1 * spow w0 2%nat * w1 * spow w2 2%nat - sofZ 144 * cx0 * cy1 * spow w0 2%nat * w1 * w2 * w3 + sofZ 36 * cx0 * cy1 * spow w0 2%nat * w1 * spow w3 2%nat + sofZ 162 * cx0 * cy1 * w0 * spow w1 3%nat * w2 - sofZ 162 * cx0 * cy1 * w0 * spow w1 3%nat * w3 - sofZ 324 * cx0 * cy1 * w0 * spow w1 2%nat * spow w2 2%nat + sofZ 432 * cx0 * cy1 * w0 * spow w1 2%nat * w2 * w3 - sofZ 108 * cx0 * cy1 * w0 * spow w1 2%nat * spow w3 2%nat + sofZ 162 * cx0 * cy1 * w0 * w1 * spow w2 3%nat - sofZ 270 * cx0 * cy1 * w0 * w1 * spow w2 2%nat * w3 + sofZ 126 * cx0 * cy1 * w0 * w1 * w2 * spow w3 2%nat - sofZ 18 * cx0 * cy1 * w0 * w1 * spow w3 3%nat - sofZ 18 * cx0 * cy2 * spow w0 3%nat * w1 * w2 + sofZ 18 * cx0 * cy2 * spow w0 3%nat * w2 * w3 + sofZ 108 * cx0 * cy2 * spow w0 2%nat * spow w1 2%nat * w2 - sofZ 108 * cx0 * cy2 * spow w0 2%nat * w1 * spow w2 2%nat - sofZ 72 * cx0 * cy2 * spow w0 2%nat * w1 * w2 * w3 + sofZ 108 * cx0 * cy2 * spow w0 2%nat * spow w2 2%nat * w3 - sofZ 36 * cx0 * cy2 * spow w0 2%nat * w2 * spow w3 2%nat - sofZ 162 * cx0 * cy2 * w0 * spow w1 3%nat * w2 + sofZ 324 * cx0 * cy2 * w0 * spow w1 2%nat * spow w2 2%nat + sofZ 54 * cx0 * cy2 * w0 * spow w1 2%nat * w2 * w3 - sofZ 162 * cx0 * cy2 * w0 * w1 * spow w2 3%nat - sofZ 216 * cx0 * cy2 * w0 * w1 * spow w2 2%nat * w3 + sofZ 90 * cx0 * cy2 * w0 * w1 * w2 * spow w3 2%nat + sofZ 162 * cx0 * cy2 * w0 * spow w2 3%nat * w3 - sofZ 108 * cx0 * cy2 * w0 * spow w2 2%nat * spow w3 2%nat + sofZ 18 * cx0 * cy2 * w0 * w2 * spow w3 3%nat + sofZ 18 * cx0 * cy3 * spow w0 3%nat * w1 * w3 - sofZ 18 * cx0 * cy3 * spow w0 3%nat * w2 * w3 - sofZ 108 * cx0 * cy3 * spow w0 2%nat * spow w1 2%nat * w3 + sofZ 216 * cx0 * cy3 * spow w0 2%nat * w1 * w2 * w3 - sofZ 36 * cx0 * cy3 * spow w0 2%nat * w1 * spow w3 2%nat - sofZ 108 * cx0 * cy3 * spow w0 2%nat * spow w2 2%nat * w3 + sofZ 36 * cx0 * cy3 * spow w0 2%nat * w2 * spow w3 2%nat + sofZ 162 * cx0 * cy3 * w0 * spow w1 3%nat * w3 - sofZ 486 * cx0 * cy3 * w0 * spow w1 2%nat * w2 * w3 + sofZ 108 * cx0 * cy3 * w0 * spow w1 2%nat * spow w3 2%nat + sofZ 486 * cx0 * cy3 * w0 * w1 * spow w2 2%nat * w3 - sofZ 216 * cx0 * cy3 * w0 * w1 * w2 * spow w3 2%nat + sofZ 18 * cx0 * cy3 * w0 * w1 * spow w3 3%nat - sofZ 162 * cx0 * cy3 * w0 * spow w2 3%nat * w3 + sofZ 108 * cx0 * cy3 * w0 * spow w2 2%nat * spow w3 2%nat - sofZ 18 * cx0 * cy3 * w0 * w2 * spow w3 3%nat - sofZ 18 * cx1 * cy0 * spow w0 3%nat * w1 * w2 + sofZ 18 * cx1 * cy0 * spow w0 3%nat * w1 * w3 + sofZ 108 * cx1 * cy0 * spow w0 2%nat * spow w1 2%nat * w2 - sofZ 108 * cx1 * cy0 * spow w0 2%nat * spow w1 2%nat * w3 - sofZ 108 * cx1 * cy0 * spow w0 2%nat * w1 * spow w2 2%nat + sofZ 144 * cx1 * cy0 * spow w0 2%nat * w1 * w2 * w3 - sofZ 36 * cx1 * cy0 * spow w0 2%nat * w1 * spow w3 2%nat - sofZ 162 * cx1 * cy0 * w0 * spow w1 3%nat * w2 + sofZ 162 * cx1 * cy0 * w0 * spow w1 3%nat * w3 + sofZ 324 * cx1 * cy0 * w0 * spow w1 2%nat * spow w2 2%nat - sofZ 432 * cx1 * cy0 * w0 * spow w1 2%nat * w2 * w3 + sofZ 108 * cx1 * cy0 * w0 * spow w1 2%nat * spow w3 2%nat - sofZ 162 * cx1 * cy0 * w0 * w1 * spow w2 3%nat + sofZ 270 * cx1 * cy0 * w0 * w1 * spow w2 2%nat * w3 - sofZ 126 * cx1 * cy0 * w0 * w1 * w2 * spow w3 2%nat + sofZ 18 * cx1 * cy0 * w0 * w1 * spow w3 3%nat + sofZ 18 * cx1 * cy2 * spow w0 3%nat * w1 * w2 - sofZ 108 * cx1 * cy2 * spow w0 2%nat * spow w1 2%nat * w2 + sofZ 108 * cx1 * cy2 * spow w0 2%nat * w1 * spow w2 2%nat - sofZ 54 * cx1 * cy2 * spow w0 2%nat * w1 * w2 * w3 + sofZ 162 * cx1 * cy2 * w0 * spow w1 3%nat * w2 - sofZ 324 * cx1 * cy2 * w0 * spow w1 2%nat * spow w2 2%nat + sofZ 216 * cx1 * cy2 * w0 * spow w1 2%nat * w2 * w3 + sofZ 162 * cx1 * cy2 * w0 * w1 * spow w2 3%nat - sofZ 216 * cx1 * cy2 * w0 * w1 * spow w2 2%nat * w3 + sofZ 54 * cx1 * cy2 * w0 * w1 * w2 * spow w3 2%nat - sofZ 162 * cx1 * cy2 * spow w1 3%nat * w2 * w3 + sofZ 324 * cx1 * cy2 * spow w1 2%nat * spow w2 2%nat * w3 - sofZ 108 * cx1 * cy2 * spow w1 2%nat * w2 * spow w3 2%nat - sofZ 162 * cx1 * cy2 * w1 * spow w2 3%nat * w3 + sofZ 108 * cx1 * cy2 * w1 * spow w2 2%nat * spow w3 2%nat - sofZ 18 * cx1 * cy2 * w1 * w2 * spow w3 3%nat - sofZ 18 * cx1 * cy3 * spow w0 3%nat * w1 * w3 + sofZ 108 * cx1 * cy3 * spow w0 2%nat * spow w1 2%nat * w3 - sofZ 90 * cx1 * cy3 * spow w0 2%nat * w1 * w2 * w3 + sofZ 36 * cx1 * cy3 * spow w0 2%nat * w1 * spow w3 2%nat - sofZ 162 * cx1 * cy3 * w0 * spow w1 3%nat * w3 + sofZ 216 * cx1 * cy3 * w0 * spow w1 2%nat * w2 * w3 - sofZ 108 * cx1 * cy3 * w0 * spow w1 2%nat * spow w3 2%nat - sofZ 54 * cx1 * cy3 * w0 * w1 * spow w2 2%nat * w3 + sofZ 72 * cx1 * cy3 * w0 * w1 * w2 * spow w3 2%nat - sofZ 18 * cx1 * cy3 * w0 * w1 * spow w3 3%nat + sofZ 162 * cx1 * cy3 * spow w1 3%nat * w2 * w3 - sofZ 324 * cx1 * cy3 * spow w1 2%nat * spow w2 2%nat * w3 + sofZ 108 * cx1 * cy3 * spow w1 2%nat * w2 * spow w3 2%nat + sofZ 162 * cx1 * cy3 * w1 * spow w2 3%nat * w3 - sofZ 108 * cx1 * cy3 * w1 * spow w2 2%nat * spow w3 2%nat + sofZ 18 * cx1 * cy3 * w1 * w2 * spow w3 3%nat + sofZ 18 * cx2 * cy0 * spow w0 3%nat * w1 * w2 - sofZ 18 * cx2 * cy0 * spow w0 3%nat * w2 * w3 - sofZ 108 * cx2 * cy0 * spow w0 2%nat * spow w1 2%nat * w2 + sofZ 108 * cx2 * cy0 * spow w0 2%nat * w1 * spow w2 2%nat + sofZ 72 * cx2 * cy0 * spow w0 2%nat * w1 * w2 * w3 - sofZ 108 * cx2 * cy0 * spow w0 2%nat * spow w2 2%nat * w3 + sofZ 36 * cx2 * cy0 * spow w0 2%nat * w2 * spow w3 2%nat + sofZ 162 * cx2 * cy0 * w0 * spow w1 3%nat * w2 - sofZ 324 * cx2 * cy0 * w0 * spow w1 2%nat * spow w2 2%nat - sofZ 54 * cx2 * cy0 * w0 * spow w1 2%nat * w2 * w3 + sofZ 162 * cx2 * cy0 * w0 * w1 * spow w2 3%nat + sofZ 216 * cx2 * cy0 * w0 * w1 * spow w2 2%nat * w3 - sofZ 90 * cx2 * cy0 * w0 * w1 * w2 * spow w3 2%nat - sofZ 162 * cx2 * cy0 * w0 * spow w2 3%nat * w3 + sofZ 108 * cx2 * cy0 * w0 * spow w2 2%nat * spow w3 2%nat - sofZ 18 * cx2 * cy0 * w0 * w2 * spow w3 3%nat - sofZ 18 * cx2 * cy1 * spow w0 3%nat * w1 * w2 + sofZ 108 * cx2 * cy1 * spow w0 2%nat * spow w1 2%nat * w2 - sofZ 108 * cx2 * cy1 * spow w0 2%nat * w1 * spow w2 2%nat + sofZ 54 * cx2 * cy1 * spow w0 2%nat * w1 * w2 * w3 - sofZ 162 * cx2 * cy1 * w0 * spow w1 3%nat * w2 + sofZ 324 * cx2 * cy1 * w0 * spow w1 2%nat * spow w2 2%nat - sofZ 216 * cx2 * cy1 * w0 * spow w1 2%nat * w2 * w3 - sofZ 162 * cx2 * cy1 * w0 * w1 * spow w2 3%nat + sofZ 216 * cx2 * cy1 * w0 * w1 * spow w2 2%nat * w3 - sofZ 54 * cx2 * cy1 * w0 * w1 * w2 * spow w3 2%nat + sofZ 162 * cx2 * cy1 * spow w1 3%nat * w2 * w3 - sofZ 324 * cx2 * cy1 * spow w1 2%nat * spow w2 2%nat * w3 + sofZ 108 * cx2 * cy1 * spow w1 2%nat * w2 * spow w3 2%nat + sofZ 162 * cx2 * cy1 * w1 * spow w2 3%nat * w3 - sofZ 108 * cx2 * cy1 * w1 * spow w2 2%nat * spow w3 2%nat + sofZ 18 * cx2 * cy1 * w1 * w2 * spow w3 3%nat + sofZ 18 * cx2 * cy3 * spow w0 3%nat * w2 * w3 - sofZ 126 * cx2 * cy3 * spow w0 2%nat * w1 * w2 * w3 + sofZ 108 * cx2 * cy3 * spow w0 2%nat * spow w2 2%nat * w3 - sofZ 36 * cx2 * cy3 * spow w0 2%nat * w2 * spow w3 2%nat + sofZ 270 * cx2 * cy3 * w0 * spow w1 2%nat * w2 * w3 - sofZ 432 * cx2 * cy3 * w0 * w1 * spow w2 2%nat * w3 + sofZ 144 * cx2 * cy3 * w0 * w1 * w2 * spow w3 2%nat + sofZ 162 * cx2 * cy3 * w0 * spow w2 3%nat * w3 - sofZ 108 * cx2 * cy3 * w0 * spow w2 2%nat * spow w3 2%nat + sofZ 18 * cx2 * cy3 * w0 * w2 * spow w3 3%nat - sofZ 162 * cx2 * cy3 * spow w1 3%nat * w2 * w3 + sofZ 324 * cx2 * cy3 * spow w1 2%nat * spow w2 2%nat * w3 - sofZ 108 * cx2 * cy3 * spow w1 2%nat * w2 * spow w3 2%nat - sofZ 162 * cx2 * cy3 * w1 * spow w2 3%nat * w3 + sofZ 108 * cx2 * cy3 * w1 * spow w2 2%nat * spow w3 2%nat - sofZ 18 * cx2 * cy3 * w1 * w2 * spow w3 3%nat - sofZ 18 * cx3 * cy0 * spow w0 3%nat * w1 * w3 + sofZ 18 * cx3 * cy0 * spow w0 3%nat * w2 * w3 + sofZ 108 * cx3 * cy0 * spow w0 2%nat * spow w1 2%nat * w3 - sofZ 216 * cx3 * cy0 * spow w0 2%nat * w1 * w2 * w3 + sofZ 36 * cx3 * cy0 * spow w0 2%nat * w1 * spow w3 2%nat + sofZ 108 * cx3 * cy0 * spow w0 2%nat * spow w2 2%nat * w3 - sofZ 36 * cx3 * cy0 * spow w0 2%nat * w2 * spow w3 2%nat - sofZ 162 * cx3 * cy0 * w0 * spow w1 3%nat * w3 + sofZ 486 * cx3 * cy0 * w0 * spow w1 2%nat * w2 * w3 - sofZ 108 * cx3 * cy0 * w0 * spow w1 2%nat * spow w3 2%nat - sofZ 486 * cx3 * cy0 * w0 * w1 * spow w2 2%nat * w3 + sofZ 216 * cx3 * cy0 * w0 * w1 * w2 * spow w3 2%nat - sofZ 18 * cx3 * cy0 * w0 * w1 * spow w3 3%nat + sofZ 162 * cx3 * cy0 * w0 * spow w2 3%nat * w3 - sofZ 108 * cx3 * cy0 * w0 * spow w2 2%nat * spow w3 2%nat + sofZ 18 * cx3 * cy0 * w0 * w2 * spow w3 3%nat + sofZ 18 * cx3 * cy1 * spow w0 3%nat * w1 * w3 - sofZ 108 * cx3 * cy1 * spow w0 2%nat * spow w1 2%nat * w3 + sofZ 90 * cx3 * cy1 * spow w0 2%nat * w1 * w2 * w3 - sofZ 36 * cx3 * cy1 * spow w0 2%nat * w1 * spow w3 2%nat + sofZ 162 * cx3 * cy1 * w0 * spow w1 3%nat * w3 - sofZ 216 * cx3 * cy1 * w0 * spow w1 2%nat * w2 * w3 + sofZ 108 * cx3 * cy1 * w0 * spow w1 2%nat * spow w3 2%nat + sofZ 54 * cx3 * cy1 * w0 * w1 * spow w2 2%nat * w3 - sofZ 72 * cx3 * cy1 * w0 * w1 * w2 * spow w3 2%nat + sofZ 18 * cx3 * cy1 * w0 * w1 * spow w3 3%nat - sofZ 162 * cx3 * cy1 * spow w1 3%nat * w2 * w3 + sofZ 324 * cx3 * cy1 * spow w1 2%nat * spow w2 2%nat * w3 - sofZ 108 * cx3 * cy1 * spow w1 2%nat * w2 * spow w3 2%nat - sofZ 162 * cx3 * cy1 * w1 * spow w2 3%nat * w3 + sofZ 108 * cx3 * cy1 * w1 * spow w2 2%nat * spow w3 2%nat - sofZ 18 * cx3 * cy1 * w1 * w2 * spow w3 3%nat - sofZ 18 * cx3 * cy2 * spow w0 3%nat * w2 * w3 + sofZ 126 * cx3 * cy2 * spow w0 2%nat * w1 * w2 * w3 - sofZ 108 * cx3 * cy2 * spow w0 2%nat * spow w2 2%nat * w3 + sofZ 36 * cx3 * cy2 * spow w0 2%nat * w2 * spow w3 2%nat - sofZ 270 * cx3 * cy2 * w0 * spow w1 2%nat * w2 * w3 + sofZ 432 * cx3 * cy2 * w0 * w1 * spow w2 2%nat * w3 - sofZ 144 * cx3 * cy2 * w0 * w1 * w2 * spow w3 2%nat - sofZ 162 * cx3 * cy2 * w0 * spow w2 3%nat * w3 + sofZ 108 * cx3 * cy2 * w0 * spow w2 2%nat * spow w3 2%nat - sofZ 18 * cx3 * cy2 * w0 * w2 * spow w3 3%nat + sofZ 162 * cx3 * cy2 * spow w1 3%nat * w2 * w3 - sofZ 324 * cx3 * cy2 * spow w1 2%nat * spow w2 2%nat * w3 + sofZ 108 * cx3 * cy2 * spow w1 2%nat * w2 * spow w3 2%nat + sofZ 162 * cx3 * cy2 * w1 * spow w2 3%nat * w3 - sofZ 108 * cx3 * cy2 * w1 * spow w2 2%nat * spow w3 2%nat + sofZ 18 * cx3 * cy2 * w1 * w2 * spow w3 3%nat].

  (** internal/auto_inflection_RationalBezier.h:67-95 compute_RationalBezier_degree_4_inflections *)
  Definition rinfl_4 (cx0 cy0 cx1 cy1 cx2 cy2 cx3 cy3 cx4 cy4 w0 w1 w2 w3 w4 : T) : list T :=
    [- sofZ 48 * cx0 * cy1 * spow w0 3%nat * w1 * w2 + sofZ 48 * cx0 * cy2 * spow w0 3%nat * w1 * w2 + sofZ 48 * cx1 * cy0 * spow w0 3%nat * w1 * w2 - sofZ 48 * cx1 * cy2 * spow w0 3%nat * w1 * w2 - sofZ 48 * cx2 * cy0 * spow w0 3%nat * w1 * w2 + sofZ 48 * cx2 * cy1 * spow w0 3%nat * w1 * w2;
     sofZ 672 * cx0 * cy1 * spow w0 3%nat * w1 * w2 - sofZ 96 * cx0 * cy1 * spow w0 3%nat * w1 * w3 - sofZ 384 * cx0 * cy1 * spow w0 2%nat * spow w1 2%nat * w2 - sofZ 672 * cx0 * cy2 * spow w0 3%nat * w1 * w2 + sofZ 384 * cx0 * cy2 * spow w0 2%nat * spow w1 2%nat * w2 + sofZ 96 * cx0 * cy3 * spow w0 3%nat * w1 * w3 - sofZ 672 * cx1 * cy0 * spow w0 3%nat * w1 * w2 + sofZ 96 * cx1 * cy0 * spow w0 3%nat * w1 * w3 + sofZ 384 * cx1 * cy0 * spow w0 2%nat * spow w1 2%nat * w2 + sofZ 672 * cx1 * cy2 * spow w0 3%nat * w1 * w2 - sofZ 384 * cx1 * cy2 * spow w0 2%nat * spow w1 2%nat * w2 - sofZ 96 * cx1 * cy3 * spow w0 3%nat * w1 * w3 + sofZ 672 * cx2 * cy0 * spow w0 3%nat * w1 * w2 - sofZ 384 * cx2 * cy0 * spow w0 2%nat * spow w1 2%nat * w2 - sofZ 672 * cx2 * cy1 * spow w0 3%nat * w1 * w2 + sofZ 384 * cx2 * cy1 * spow w0 2%nat * spow w1 2%nat * w2 - sofZ 96 * cx3 * cy0 * spow w0 3%nat * w1 * w3 + sofZ 96 * cx3 * cy1 * spow w0 3%nat * w1 * w3;
     - sofZ 4368 * cx0 * cy1 * spow w0 3%nat * w1 * w2 + sofZ 1248 * cx0 * cy1 * spow w0 3%nat * w1 * w3 - sofZ 48 * cx0 * cy1 * spow w0 3%nat * w1 * w4 + sofZ 4992 * cx0 * cy1 * spow w0 2%nat * spow w1 2%nat * w2 - sofZ 768 * cx0 * cy1 * spow w0 2%nat * spow w1 2%nat * w3 - sofZ 576 * cx0 * cy1 * spow w0 2%nat * w1 * spow w2 2%nat - sofZ 768 * cx0 * cy1 * w0 * spow w1 3%nat * w2 + sofZ 4368 * cx0 * cy2 * spow w0 3%nat * w1 * w2 - sofZ 144 * cx0 * cy2 * spow w0 3%nat * w2 * w3 - sofZ 4992 * cx0 * cy2 * spow w0 2%nat * spow w1 2%nat * w2 + sofZ 576 * cx0 * cy2 * spow w0 2%nat * w1 * spow w2 2%nat + sofZ 768 * cx0 * cy2 * w0 * spow w1 3%nat * w2 - sofZ 1248 * cx0 * cy3 * spow w0 3%nat * w1 * w3 + sofZ 144 * cx0 * cy3 * spow w0 3%nat * w2 * w3 + sofZ 768 * cx0 * cy3 * spow w0 2%nat * spow w1 2%nat * w3 + sofZ 48 * cx0 * cy4 * spow w0 3%nat * w1 * w4 + sofZ 4368 * cx1 * cy0 * spow w0 3%nat * w1 * w2 - sofZ 1248 * cx1 * cy0 * spow w0 3%nat * w1 * w3 + sofZ 48 * cx1 * cy0 * spow w0 3%nat * w1 * w4 - sofZ 4992 * cx1 * cy0 * spow w0 2%nat * spow w1 2%nat * w2 + sofZ 768 * cx1 * cy0 * spow w0 2%nat * spow w1 2%nat * w3 + sofZ 576 * cx1 * cy0 * spow w0 2%nat * w1 * spow w2 2%nat + sofZ 768 * cx1 * cy0 * w0 * spow w1 3%nat * w2 - sofZ 4368 * cx1 * cy2 * spow w0 3%nat * w1 * w2 + sofZ 4992 * cx1 * cy2 * spow w0 2%nat * spow w1 2%nat * w2 - sofZ 576 * cx1 * cy2 * spow w0 2%nat * w1 * spow w2 2%nat - sofZ 768 * cx1 * cy2 * w0 * spow w1 3%nat * w2 + sofZ 1248 * cx1 * cy3 * spow w0 3%nat * w1 * w3 - sofZ 768 * cx1 * cy3 * spow w0 2%nat * spow w1 2%nat * w3 - sofZ 48 * cx1 * cy4 * spow w0 3%nat * w1 * w4 - sofZ 4368 * cx2 * cy0 * spow w0 3%nat * w1 * w2 + sofZ 144 * cx2 * cy0 * spow w0 3%nat * w2 * w3 + sofZ 4992 * cx2 * cy0 * spow w0 2%nat * spow w1 2%nat * w2 - sofZ 576 * cx2 * cy0 * spow w0 2%nat * w1 * spow w2 2%nat - sofZ 768 * cx2 * cy0 * w0 * spow w1 3%nat * w2 + sofZ 4368 * cx2 * cy1 * spow w0 3%nat * w1 * w2 - sofZ 4992 * cx2 * cy1 * spow w0 2%nat * spow w1 2%nat * w2 + sofZ 576 * cx2 * cy1 * spow w0 2%nat * w1 * spow w2 2%nat + sofZ 768 * cx2 * cy1 * w0 * spow w1 3%nat * w2 - sofZ 144 * cx2 * cy3 * spow w0 3%nat * w2 * w3 + sofZ 1248 * cx3 * cy0 * spow w0 3%nat * w1 * w3 - sofZ 144 * cx3 * cy0 * spow w0 3%nat * w2 * w3 - sofZ 768 * cx3 * cy0 * spow w0 2%nat * spow w1 2%nat * w3 - sofZ 1248 * cx3 * cy1 * spow w0 3%nat * w1 * w3 + sofZ 768 * cx3 * cy1 * spow w0 2%nat * spow w1 2%nat * w3 + sofZ 144 * cx3 * cy2 * spow w0 3%nat * w2 * w3 - sofZ 48 * cx4 * cy0 * spow w0 3%nat * w1 * w4 + sofZ 48 * cx4 * cy1 * spow w0 3%nat * w1 * w4;
     sofZ 17472 * cx0 * cy1 * spow w0 3%nat * w1 * w2 - sofZ 7488 * cx0 * cy1 * spow w0 3%nat * w1 * w3 + sofZ 576 * cx0 * cy1 * spow w0 3%nat * w1 * w4 - sofZ 29952 * cx0 * cy1 * spow w0 2%nat * spow w1 2%nat * w2 + sofZ 9216 * cx0 * cy1 * spow w0 2%nat * spow w1 2%nat * w3 - sofZ 384 * cx0 * cy1 * spow w0 2%nat * spow w1 2%nat * w4 + sofZ 6912 * cx0 * cy1 * spow w0 2%nat * w1 * spow w2 2%nat - sofZ 1536 * cx0 * cy1 * spow w0 2%nat * w1 * w2 * w3 + sofZ 9216 * cx0 * cy1 * w0 * spow w1 3%nat * w2 - sofZ 1536 * cx0 * cy1 * w0 * spow w1 3%nat * w3 - sofZ 2304 * cx0 * cy1 * w0 * spow w1 2%nat * spow w2 2%nat - sofZ 17472 * cx0 * cy2 * spow w0 3%nat * w1 * w2 + sofZ 1728 * cx0 * cy2 * spow w0 3%nat * w2 * w3 - sofZ 96 * cx0 * cy2 * spow w0 3%nat * w2 * w4 + sofZ 29952 * cx0 * cy2 * spow w0 2%nat * spow w1 2%nat * w2 - sofZ 6912 * cx0 * cy2 * spow w0 2%nat * w1 * spow w2 2%nat - sofZ 768 * cx0 * cy2 * spow w0 2%nat * w1 * w2 * w3 - sofZ 9216 * cx0 * cy2 * w0 * spow w1 3%nat * w2 + sofZ 2304 * cx0 * cy2 * w0 * spow w1 2%nat * spow w2 2%nat + sofZ 7488 * cx0 * cy3 * spow w0 3%nat * w1 * w3 - sofZ 1728 * cx0 * cy3 * spow w0 3%nat * w2 * w3 - sofZ 9216 * cx0 * cy3 * spow w0 2%nat * spow w1 2%nat * w3 + sofZ 2304 * cx0 * cy3 * spow w0 2%nat * w1 * w2 * w3 + sofZ 1536 * cx0 * cy3 * w0 * spow w1 3%nat * w3 - sofZ 576 * cx0 * cy4 * spow w0 3%nat * w1 * w4 + sofZ 96 * cx0 * cy4 * spow w0 3%nat * w2 * w4 + sofZ 384 * cx0 * cy4 * spow w0 2%nat * spow w1 2%nat * w4 - sofZ 17472 * cx1 * cy0 * spow w0 3%nat * w1 * w2 + sofZ 7488 * cx1 * cy0 * spow w0 3%nat * w1 * w3 - sofZ 576 * cx1 * cy0 * spow w0 3%nat * w1 * w4 + sofZ 29952 * cx1 * cy0 * spow w0 2%nat * spow w1 2%nat * w2 - sofZ 9216 * cx1 * cy0 * spow w0 2%nat * spow w1 2%nat * w3 + sofZ 384 * cx1 * cy0 * spow w0 2%nat * spow w1 2%nat * w4 - sofZ 6912 * cx1 * cy0 * spow w0 2%nat * w1 * spow w2 2%nat + sofZ 1536 * cx1 * cy0 * spow w0 2%nat * w1 * w2 * w3 - sofZ 9216 * cx1 * cy0 * w0 * spow w1 3%nat * w2 + sofZ 1536 * cx1 * cy0 * w0 * spow w1 3%nat * w3 + sofZ 2304 * cx1 * cy0 * w0 * spow w1 2%nat * spow w2 2%nat + sofZ 17472 * cx1 * cy2 * spow w0 3%nat * w1 * w2 - sofZ 29952 * cx1 * cy2 * spow w0 2%nat * spow w1 2%nat * w2 + sofZ 6912 * cx1 * cy2 * spow w0 2%nat * w1 * spow w2 2%nat - sofZ 576 * cx1 * cy2 * spow w0 2%nat * w1 * w2 * w3 + sofZ 9216 * cx1 * cy2 * w0 * spow w1 3%nat * w2 - sofZ 2304 * cx1 * cy2 * w0 * spow w1 2%nat * spow w2 2%nat - sofZ 7488 * cx1 * cy3 * spow w0 3%nat * w1 * w3 + sofZ 9216 * cx1 * cy3 * spow w0 2%nat * spow w1 2%nat * w3 - sofZ 960 * cx1 * cy3 * spow w0 2%nat * w1 * w2 * w3 - sofZ 1536 * cx1 * cy3 * w0 * spow w1 3%nat * w3 + sofZ 576 * cx1 * cy4 * spow w0 3%nat * w1 * w4 - sofZ 384 * cx1 * cy4 * spow w0 2%nat * spow w1 2%nat * w4 + sofZ 17472 * cx2 * cy0 * spow w0 3%nat * w1 * w2 - sofZ 1728 * cx2 * cy0 * spow w0 3%nat * w2 * w3 + sofZ 96 * cx2 * cy0 * spow w0 3%nat * w2 * w4 - sofZ 29952 * cx2 * cy0 * spow w0 2%nat * spow w1 2%nat * w2 + sofZ 6912 * cx2 * cy0 * spow w0 2%nat * w1 * spow w2 2%nat + sofZ 768 * cx2 * cy0 * spow w0 2%nat * w1 * w2 * w3 + sofZ 9216 * cx2 * cy0 * w0 * spow w1 3%nat * w2 - sofZ 2304 * cx2 * cy0 * w0 * spow w1 2%nat * spow w2 2%nat - sofZ 17472 * cx2 * cy1 * spow w0 3%nat * w1 * w2 + sofZ 29952 * cx2 * cy1 * spow w0 2%nat * spow w1 2%nat * w2 - sofZ 6912 * cx2 * cy1 * spow w0 2%nat * w1 * spow w2 2%nat + sofZ 576 * cx2 * cy1 * spow w0 2%nat * w1 * w2 * w3 - sofZ 9216 * cx2 * cy1 * w0 * spow w1 3%nat * w2 + sofZ 2304 * cx2 * cy1 * w0 * spow w1 2%nat * spow w2 2%nat + sofZ 1728 * cx2 * cy3 * spow w0 3%nat * w2 * w3 - sofZ 1344 * cx2 * cy3 * spow w0 2%nat * w1 * w2 * w3 - sofZ 96 * cx2 * cy4 * spow w0 3%nat * w2 * w4 - sofZ 7488 * cx3 * cy0 * spow w0 3%nat * w1 * w3 + sofZ 1728 * cx3 * cy0 * spow w0 3%nat * w2 * w3 + sofZ 9216 * cx3 * cy0 * spow w0 2%nat * spow w1 2%nat * w3 - sofZ 2304 * cx3 * cy0 * spow w0 2%nat * w1 * w2 * w3 - sofZ 1536 * cx3 * cy0 * w0 * spow w1 3%nat * w3 + sofZ 7488 * cx3 * cy1 * spow w0 3%nat * w1 * w3 - sofZ 9216 * cx3 * cy1 * spow w0 2%nat * spow w1 2%nat * w3 + sofZ 960 * cx3 * cy1 * spow w0 2%nat * w1 * w2 * w3 + sofZ 1536 * cx3 * cy1 * w0 * spow w1 3%nat * w3 - sofZ 1728 * cx3 * cy2 * spow w0 3%nat * w2 * w3 + sofZ 1344 * cx3 * cy2 * spow w0 2%nat * w1 * w2 * w3 + sofZ 576 * cx4 * cy0 * spow w0 3%nat * w1 * w4 - sofZ 96 * cx4 * cy0 * spow w0 3%nat * w2 * w4 - sofZ 384 * cx4 * cy0 * spow w0 2%nat * spow w1 2%nat * w4 - sofZ 576 * cx4 * cy1 * spow w0 3%nat * w1 * w4 + sofZ 384 * cx4 * cy1 * spow w0 2%nat * spow w1 2%nat * w4 + sofZ 96 * cx4 * cy2 * spow w0 3%nat * w2 * w4;
     - sofZ 48048 * cx0 * cy1 * spow w0 3%nat * w1 * w2 + sofZ 27456 * cx0 * cy1 * spow w0 3%nat * w1 * w3 - sofZ 3168 * cx0 * cy1 * spow w0 3%nat * w1 * w4 + sofZ 109824 * cx0 * cy1 * spow w0 2%nat * spow w1 2%nat * w2 - sofZ 50688 * cx0 * cy1 * spow w0 2%nat * spow w1 2%nat * w3 + sofZ 4224 * cx0 * cy1 * spow w0 2%nat * spow w1 2%nat * w4 - sofZ 38016 * cx0 * cy1 * spow w0 2%nat * w1 * spow w2 2%nat + sofZ 16896 * cx0 * cy1 * spow w0 2%nat * w1 * w2 * w3 - sofZ 672 * cx0 * cy1 * spow w0 2%nat * w1 * w2 * w4 - sofZ 768 * cx0 * cy1 * spow w0 2%nat * w1 * spow w3 2%nat - sofZ 50688 * cx0 * cy1 * w0 * spow w1 3%nat * w2 + sofZ 16896 * cx0 * cy1 * w0 * spow w1 3%nat * w3 - sofZ 768 * cx0 * cy1 * w0 * spow w1 3%nat * w4 + sofZ 25344 * cx0 * cy1 * w0 * spow w1 2%nat * spow w2 2%nat - sofZ 6144 * cx0 * cy1 * w0 * spow w1 2%nat * w2 * w3 - sofZ 1728 * cx0 * cy1 * w0 * w1 * spow w2 3%nat + sofZ 48048 * cx0 * cy2 * spow w0 3%nat * w1 * w2 - sofZ 9504 * cx0 * cy2 * spow w0 3%nat * w2 * w3 + sofZ 1056 * cx0 * cy2 * spow w0 3%nat * w2 * w4 - sofZ 109824 * cx0 * cy2 * spow w0 2%nat * spow w1 2%nat * w2 + sofZ 38016 * cx0 * cy2 * spow w0 2%nat * w1 * spow w2 2%nat + sofZ 8448 * cx0 * cy2 * spow w0 2%nat * w1 * w2 * w3 - sofZ 672 * cx0 * cy2 * spow w0 2%nat * w1 * w2 * w4 - sofZ 1728 * cx0 * cy2 * spow w0 2%nat * spow w2 2%nat * w3 + sofZ 50688 * cx0 * cy2 * w0 * spow w1 3%nat * w2 - sofZ 25344 * cx0 * cy2 * w0 * spow w1 2%nat * spow w2 2%nat - sofZ 768 * cx0 * cy2 * w0 * spow w1 2%nat * w2 * w3 + sofZ 1728 * cx0 * cy2 * w0 * w1 * spow w2 3%nat - sofZ 27456 * cx0 * cy3 * spow w0 3%nat * w1 * w3 + sofZ 9504 * cx0 * cy3 * spow w0 3%nat * w2 * w3 - sofZ 48 * cx0 * cy3 * spow w0 3%nat * w3 * w4 + sofZ 50688 * cx0 * cy3 * spow w0 2%nat * spow w1 2%nat * w3 - sofZ 25344 * cx0 * cy3 * spow w0 2%nat * w1 * w2 * w3 + sofZ 768 * cx0 * cy3 * spow w0 2%nat * w1 * spow w3 2%nat + sofZ 1728 * cx0 * cy3 * spow w0 2%nat * spow w2 2%nat * w3 - sofZ 16896 * cx0 * cy3 * w0 * spow w1 3%nat * w3 + sofZ 6912 * cx0 * cy3 * w0 * spow w1 2%nat * w2 * w3 + sofZ 3168 * cx0 * cy4 * spow w0 3%nat * w1 * w4 - sofZ 1056 * cx0 * cy4 * spow w0 3%nat * w2 * w4 + sofZ 48 * cx0 * cy4 * spow w0 3%nat * w3 * w4 - sofZ 4224 * cx0 * cy4 * spow w0 2%nat * spow w1 2%nat * w4 + sofZ 1344 * cx0 * cy4 * spow w0 2%nat * w1 * w2 * w4 + sofZ 768 * cx0 * cy4 * w0 * spow w1 3%nat * w4 + sofZ 48048 * cx1 * cy0 * spow w0 3%nat * w1 * w2 - sofZ 27456 * cx1 * cy0 * spow w0 3%nat * w1 * w3 + sofZ 3168 * cx1 * cy0 * spow w0 3%nat * w1 * w4 - sofZ 109824 * cx1 * cy0 * spow w0 2%nat * spow w1 2%nat * w2 + sofZ 50688 * cx1 * cy0 * spow w0 2%nat * spow w1 2%nat * w3 - sofZ 4224 * cx1 * cy0 * spow w0 2%nat * spow w1 2%nat * w4 + sofZ 38016 * cx1 * cy0 * spow w0 2%nat * w1 * spow w2 2%nat - sofZ 16896 * cx1 * cy0 * spow w0 2%nat * w1 * w2 * w3 + sofZ 672 * cx1 * cy0 * spow w0 2%nat * w1 * w2 * w4 + sofZ 768 * cx1 * cy0 * spow w0 2%nat * w1 * spow w3 2%nat + sofZ 50688 * cx1 * cy0 * w0 * spow w1 3%nat * w2 - sofZ 16896 * cx1 * cy0 * w0 * spow w1 3%nat * w3 + sofZ 768 * cx1 * cy0 * w0 * spow w1 3%nat * w4 - sofZ 25344 * cx1 * cy0 * w0 * spow w1 2%nat * spow w2 2%nat + sofZ 6144 * cx1 * cy0 * w0 * spow w1 2%nat * w2 * w3 + sofZ 1728 * cx1 * cy0 * w0 * w1 * spow w2 3%nat - sofZ 48048 * cx1 * cy2 * spow w0 3%nat * w1 * w2 + sofZ 109824 * cx1 * cy2 * spow w0 2%nat * spow w1 2%nat * w2 - sofZ 38016 * cx1 * cy2 * spow w0 2%nat * w1 * spow w2 2%nat + sofZ 6336 * cx1 * cy2 * spow w0 2%nat * w1 * w2 * w3 - sofZ 240 * cx1 * cy2 * spow w0 2%nat * w1 * w2 * w4 - sofZ 50688 * cx1 * cy2 * w0 * spow w1 3%nat * w2 + sofZ 25344 * cx1 * cy2 * w0 * spow w1 2%nat * spow w2 2%nat - sofZ 3072 * cx1 * cy2 * w0 * spow w1 2%nat * w2 * w3 - sofZ 1728 * cx1 * cy2 * w0 * w1 * spow w2 3%nat + sofZ 27456 * cx1 * cy3 * spow w0 3%nat * w1 * w3 - sofZ 50688 * cx1 * cy3 * spow w0 2%nat * spow w1 2%nat * w3 + sofZ 10560 * cx1 * cy3 * spow w0 2%nat * w1 * w2 * w3 - sofZ 768 * cx1 * cy3 * spow w0 2%nat * w1 * spow w3 2%nat + sofZ 16896 * cx1 * cy3 * w0 * spow w1 3%nat * w3 - sofZ 3072 * cx1 * cy3 * w0 * spow w1 2%nat * w2 * w3 - sofZ 3168 * cx1 * cy4 * spow w0 3%nat * w1 * w4 + sofZ 4224 * cx1 * cy4 * spow w0 2%nat * spow w1 2%nat * w4 - sofZ 432 * cx1 * cy4 * spow w0 2%nat * w1 * w2 * w4 - sofZ 768 * cx1 * cy4 * w0 * spow w1 3%nat * w4 - sofZ 48048 * cx2 * cy0 * spow w0 3%nat * w1 * w2 + sofZ 9504 * cx2 * cy0 * spow w0 3%nat * w2 * w3 - sofZ 1056 * cx2 * cy0 * spow w0 3%nat * w2 * w4 + sofZ 109824 * cx2 * cy0 * spow w0 2%nat * spow w1 2%nat * w2 - sofZ 38016 * cx2 * cy0 * spow w0 2%nat * w1 * spow w2 2%nat - sofZ 8448 * cx2 * cy0 * spow w0 2%nat * w1 * w2 * w3 + sofZ 672 * cx2 * cy0 * spow w0 2%nat * w1 * w2 * w4 + sofZ 1728 * cx2 * cy0 * spow w0 2%nat * spow w2 2%nat * w3 - sofZ 50688 * cx2 * cy0 * w0 * spow w1 3%nat * w2 + sofZ 25344 * cx2 * cy0 * w0 * spow w1 2%nat * spow w2 2%nat + sofZ 768 * cx2 * cy0 * w0 * spow w1 2%nat * w2 * w3 - sofZ 1728 * cx2 * cy0 * w0 * w1 * spow w2 3%nat + sofZ 48048 * cx2 * cy1 * spow w0 3%nat * w1 * w2 - sofZ 109824 * cx2 * cy1 * spow w0 2%nat * spow w1 2%nat * w2 + sofZ 38016 * cx2 * cy1 * spow w0 2%nat * w1 * spow w2 2%nat - sofZ 6336 * cx2 * cy1 * spow w0 2%nat * w1 * w2 * w3 + sofZ 240 * cx2 * cy1 * spow w0 2%nat * w1 * w2 * w4 + sofZ 50688 * cx2 * cy1 * w0 * spow w1 3%nat * w2 - sofZ 25344 * cx2 * cy1 * w0 * spow w1 2%nat * spow w2 2%nat + sofZ 3072 * cx2 * cy1 * w0 * spow w1 2%nat * w2 * w3 + sofZ 1728 * cx2 * cy1 * w0 * w1 * spow w2 3%nat - sofZ 9504 * cx2 * cy3 * spow w0 3%nat * w2 * w3 + sofZ 14784 * cx2 * cy3 * spow w0 2%nat * w1 * w2 * w3 - sofZ 1728 * cx2 * cy3 * spow w0 2%nat * spow w2 2%nat * w3 - sofZ 3840 * cx2 * cy3 * w0 * spow w1 2%nat * w2 * w3 + sofZ 1056 * cx2 * cy4 * spow w0 3%nat * w2 * w4 - sofZ 912 * cx2 * cy4 * spow w0 2%nat * w1 * w2 * w4 + sofZ 27456 * cx3 * cy0 * spow w0 3%nat * w1 * w3 - sofZ 9504 * cx3 * cy0 * spow w0 3%nat * w2 * w3 + sofZ 48 * cx3 * cy0 * spow w0 3%nat * w3 * w4 - sofZ 50688 * cx3 * cy0 * spow w0 2%nat * spow w1 2%nat * w3 + sofZ 25344 * cx3 * cy0 * spow w0 2%nat * w1 * w2 * w3 - sofZ 768 * cx3 * cy0 * spow w0 2%nat * w1 * spow w3 2%nat - sofZ 1728 * cx3 * cy0 * spow w0 2%nat * spow w2 2%nat * w3 + sofZ 16896 * cx3 * cy0 * w0 * spow w1 3%nat * w3 - sofZ 6912 * cx3 * cy0 * w0 * spow w1 2%nat * w2 * w3 - sofZ 27456 * cx3 * cy1 * spow w0 3%nat * w1 * w3 + sofZ 50688 * cx3 * cy1 * spow w0 2%nat * spow w1 2%nat * w3 - sofZ 10560 * cx3 * cy1 * spow w0 2%nat * w1 * w2 * w3 + sofZ 768 * cx3 * cy1 * spow w0 2%nat * w1 * spow w3 2%nat - sofZ 16896 * cx3 * cy1 * w0 * spow w1 3%nat * w3 + sofZ 3072 * cx3 * cy1 * w0 * spow w1 2%nat * w2 * w3 + sofZ 9504 * cx3 * cy2 * spow w0 3%nat * w2 * w3 - sofZ 14784 * cx3 * cy2 * spow w0 2%nat * w1 * w2 * w3 + sofZ 1728 * cx3 * cy2 * spow w0 2%nat * spow w2 2%nat * w3 + sofZ 3840 * cx3 * cy2 * w0 * spow w1 2%nat * w2 * w3 - sofZ 48 * cx3 * cy4 * spow w0 3%nat * w3 * w4 - sofZ 3168 * cx4 * cy0 * spow w0 3%nat * w1 * w4 + sofZ 1056 * cx4 * cy0 * spow w0 3%nat * w2 * w4 - sofZ 48 * cx4 * cy0 * spow w0 3%nat * w3 * w4 + sofZ 4224 * cx4 * cy0 * spow w0 2%nat * spow w1 2%nat * w4 - sofZ 1344 * cx4 * cy0 * spow w0 2%nat * w1 * w2 * w4 - sofZ 768 * cx4 * cy0 * w0 * spow w1 3%nat * w4 + sofZ 3168 * cx4 * cy1 * spow w0 3%nat * w1 * w4 - sofZ 4224 * cx4 * cy1 * spow w0 2%nat * spow w1 2%nat * w4 + sofZ 432 * cx4 * cy1 * spow w0 2%nat * w1 * w2 * w4 + sofZ 768 * cx4 * cy1 * w0 * spow w1 3%nat * w4 - sofZ 1056 * cx4 * cy2 * spow w0 3%nat * w2 * w4 + sofZ 912 * cx4 * cy2 * spow w0 2%nat * w1 * w2 * w4 + sofZ 48 * cx4 * cy3 * spow w0 3%nat * w3 * w4;
     sofZ 96096 * cx0 * cy1 * spow w0 3%nat * w1 * w2 - sofZ 68640 * cx0 * cy1 * spow w0 3%nat * w1 * w3 + sofZ 10560 * cx0 * cy1 * spow w0 3%nat * w1 * w4 - sofZ 274560 * cx0 * cy1 * spow w0 2%nat * spow w1 2%nat * w2 + sofZ 168960 * cx0 * cy1 * spow w0 2%nat * spow w1 2%nat * w3 - sofZ 21120 * cx0 * cy1 * spow w0 2%nat * spow w1 2%nat * w4 + sofZ 126720 * cx0 * cy1 * spow w0 2%nat * w1 * spow w2 2%nat - sofZ 84480 * cx0 * cy1 * spow w0 2%nat * w1 * w2 * w3 + sofZ 6720 * cx0 * cy1 * spow w0 2%nat * w1 * w2 * w4 + sofZ 7680 * cx0 * cy1 * spow w0 2%nat * w1 * spow w3 2%nat - sofZ 576 * cx0 * cy1 * spow w0 2%nat * w1 * w3 * w4 + sofZ 168960 * cx0 * cy1 * w0 * spow w1 3%nat * w2 - sofZ 84480 * cx0 * cy1 * w0 * spow w1 3%nat * w3 + sofZ 7680 * cx0 * cy1 * w0 * spow w1 3%nat * w4 - sofZ 126720 * cx0 * cy1 * w0 * spow w1 2%nat * spow w2 2%nat + sofZ 61440 * cx0 * cy1 * w0 * spow w1 2%nat * w2 * w3 - sofZ 2688 * cx0 * cy1 * w0 * spow w1 2%nat * w2 * w4 - sofZ 3072 * cx0 * cy1 * w0 * spow w1 2%nat * spow w3 2%nat + sofZ 17280 * cx0 * cy1 * w0 * w1 * spow w2 3%nat - sofZ 5760 * cx0 * cy1 * w0 * w1 * spow w2 2%nat * w3 - sofZ 96096 * cx0 * cy2 * spow w0 3%nat * w1 * w2 + sofZ 31680 * cx0 * cy2 * spow w0 3%nat * w2 * w3 - sofZ 5280 * cx0 * cy2 * spow w0 3%nat * w2 * w4 + sofZ 274560 * cx0 * cy2 * spow w0 2%nat * spow w1 2%nat * w2 - sofZ 126720 * cx0 * cy2 * spow w0 2%nat * w1 * spow w2 2%nat - sofZ 42240 * cx0 * cy2 * spow w0 2%nat * w1 * w2 * w3 + sofZ 6720 * cx0 * cy2 * spow w0 2%nat * w1 * w2 * w4 + sofZ 17280 * cx0 * cy2 * spow w0 2%nat * spow w2 2%nat * w3 - sofZ 1152 * cx0 * cy2 * spow w0 2%nat * spow w2 2%nat * w4 - sofZ 1152 * cx0 * cy2 * spow w0 2%nat * w2 * spow w3 2%nat - sofZ 168960 * cx0 * cy2 * w0 * spow w1 3%nat * w2 + sofZ 126720 * cx0 * cy2 * w0 * spow w1 2%nat * spow w2 2%nat + sofZ 7680 * cx0 * cy2 * w0 * spow w1 2%nat * w2 * w3 - sofZ 1152 * cx0 * cy2 * w0 * spow w1 2%nat * w2 * w4 - sofZ 17280 * cx0 * cy2 * w0 * w1 * spow w2 3%nat - sofZ 4608 * cx0 * cy2 * w0 * w1 * spow w2 2%nat * w3 + sofZ 68640 * cx0 * cy3 * spow w0 3%nat * w1 * w3 - sofZ 31680 * cx0 * cy3 * spow w0 3%nat * w2 * w3 + sofZ 480 * cx0 * cy3 * spow w0 3%nat * w3 * w4 - sofZ 168960 * cx0 * cy3 * spow w0 2%nat * spow w1 2%nat * w3 + sofZ 126720 * cx0 * cy3 * spow w0 2%nat * w1 * w2 * w3 - sofZ 7680 * cx0 * cy3 * spow w0 2%nat * w1 * spow w3 2%nat - sofZ 192 * cx0 * cy3 * spow w0 2%nat * w1 * w3 * w4 - sofZ 17280 * cx0 * cy3 * spow w0 2%nat * spow w2 2%nat * w3 + sofZ 1152 * cx0 * cy3 * spow w0 2%nat * w2 * spow w3 2%nat + sofZ 84480 * cx0 * cy3 * w0 * spow w1 3%nat * w3 - sofZ 69120 * cx0 * cy3 * w0 * spow w1 2%nat * w2 * w3 + sofZ 3072 * cx0 * cy3 * w0 * spow w1 2%nat * spow w3 2%nat + sofZ 10368 * cx0 * cy3 * w0 * w1 * spow w2 2%nat * w3 - sofZ 10560 * cx0 * cy4 * spow w0 3%nat * w1 * w4 + sofZ 5280 * cx0 * cy4 * spow w0 3%nat * w2 * w4 - sofZ 480 * cx0 * cy4 * spow w0 3%nat * w3 * w4 + sofZ 21120 * cx0 * cy4 * spow w0 2%nat * spow w1 2%nat * w4 - sofZ 13440 * cx0 * cy4 * spow w0 2%nat * w1 * w2 * w4 + sofZ 768 * cx0 * cy4 * spow w0 2%nat * w1 * w3 * w4 + sofZ 1152 * cx0 * cy4 * spow w0 2%nat * spow w2 2%nat * w4 - sofZ 7680 * cx0 * cy4 * w0 * spow w1 3%nat * w4 + sofZ 3840 * cx0 * cy4 * w0 * spow w1 2%nat * w2 * w4 - sofZ 96096 * cx1 * cy0 * spow w0 3%nat * w1 * w2 + sofZ 68640 * cx1 * cy0 * spow w0 3%nat * w1 * w3 - sofZ 10560 * cx1 * cy0 * spow w0 3%nat * w1 * w4 + sofZ 274560 * cx1 * cy0 * spow w0 2%nat * spow w1 2%nat * w2 - sofZ 168960 * cx1 * cy0 * spow w0 2%nat * spow w1 2%nat * w3 + sofZ 21120 * cx1 * cy0 * spow w0 2%nat * spow w1 2%nat * w4 - sofZ 126720 * cx1 * cy0 * spow w0 2%nat * w1 * spow w2 2%nat + sofZ 84480 * cx1 * cy0 * spow w0 2%nat * w1 * w2 * w3 - sofZ 6720 * cx1 * cy0 * spow w0 2%nat * w1 * w2 * w4 - sofZ 7680 * cx1 * cy0 * spow w0 2%nat * w1 * spow w3 2%nat + sofZ 576 * cx1 * cy0 * spow w0 2%nat * w1 * w3 * w4 - sofZ 168960 * cx1 * cy0 * w0 * spow w1 3%nat * w2 + sofZ 84480 * cx1 * cy0 * w0 * spow w1 3%nat * w3 - sofZ 7680 * cx1 * cy0 * w0 * spow w1 3%nat * w4 + sofZ 126720 * cx1 * cy0 * w0 * spow w1 2%nat * spow w2 2%nat - sofZ 61440 * cx1 * cy0 * w0 * spow w1 2%nat * w2 * w3 + sofZ 2688 * cx1 * cy0 * w0 * spow w1 2%nat * w2 * w4 + sofZ 3072 * cx1 * cy0 * w0 * spow w1 2%nat * spow w3 2%nat - sofZ 17280 * cx1 * cy0 * w0 * w1 * spow w2 3%nat + sofZ 5760 * cx1 * cy0 * w0 * w1 * spow w2 2%nat * w3 + sofZ 96096 * cx1 * cy2 * spow w0 3%nat * w1 * w2 - sofZ 274560 * cx1 * cy2 * spow w0 2%nat * spow w1 2%nat * w2 + sofZ 126720 * cx1 * cy2 * spow w0 2%nat * w1 * spow w2 2%nat - sofZ 31680 * cx1 * cy2 * spow w0 2%nat * w1 * w2 * w3 + sofZ 2400 * cx1 * cy2 * spow w0 2%nat * w1 * w2 * w4 + sofZ 168960 * cx1 * cy2 * w0 * spow w1 3%nat * w2 - sofZ 126720 * cx1 * cy2 * w0 * spow w1 2%nat * spow w2 2%nat + sofZ 30720 * cx1 * cy2 * w0 * spow w1 2%nat * w2 * w3 - sofZ 1536 * cx1 * cy2 * w0 * spow w1 2%nat * w2 * w4 + sofZ 17280 * cx1 * cy2 * w0 * w1 * spow w2 3%nat - sofZ 4608 * cx1 * cy2 * w0 * w1 * spow w2 2%nat * w3 - sofZ 3072 * cx1 * cy2 * spow w1 3%nat * w2 * w3 - sofZ 68640 * cx1 * cy3 * spow w0 3%nat * w1 * w3 + sofZ 168960 * cx1 * cy3 * spow w0 2%nat * spow w1 2%nat * w3 - sofZ 52800 * cx1 * cy3 * spow w0 2%nat * w1 * w2 * w3 + sofZ 7680 * cx1 * cy3 * spow w0 2%nat * w1 * spow w3 2%nat - sofZ 288 * cx1 * cy3 * spow w0 2%nat * w1 * w3 * w4 - sofZ 84480 * cx1 * cy3 * w0 * spow w1 3%nat * w3 + sofZ 30720 * cx1 * cy3 * w0 * spow w1 2%nat * w2 * w3 - sofZ 3072 * cx1 * cy3 * w0 * spow w1 2%nat * spow w3 2%nat - sofZ 1152 * cx1 * cy3 * w0 * w1 * spow w2 2%nat * w3 + sofZ 3072 * cx1 * cy3 * spow w1 3%nat * w2 * w3 + sofZ 10560 * cx1 * cy4 * spow w0 3%nat * w1 * w4 - sofZ 21120 * cx1 * cy4 * spow w0 2%nat * spow w1 2%nat * w4 + sofZ 4320 * cx1 * cy4 * spow w0 2%nat * w1 * w2 * w4 - sofZ 288 * cx1 * cy4 * spow w0 2%nat * w1 * w3 * w4 + sofZ 7680 * cx1 * cy4 * w0 * spow w1 3%nat * w4 - sofZ 1152 * cx1 * cy4 * w0 * spow w1 2%nat * w2 * w4 + sofZ 96096 * cx2 * cy0 * spow w0 3%nat * w1 * w2 - sofZ 31680 * cx2 * cy0 * spow w0 3%nat * w2 * w3 + sofZ 5280 * cx2 * cy0 * spow w0 3%nat * w2 * w4 - sofZ 274560 * cx2 * cy0 * spow w0 2%nat * spow w1 2%nat * w2 + sofZ 126720 * cx2 * cy0 * spow w0 2%nat * w1 * spow w2 2%nat + sofZ 42240 * cx2 * cy0 * spow w0 2%nat * w1 * w2 * w3 - sofZ 6720 * cx2 * cy0 * spow w0 2%nat * w1 * w2 * w4 - sofZ 17280 * cx2 * cy0 * spow w0 2%nat * spow w2 2%nat * w3 + sofZ 1152 * cx2 * cy0 * spow w0 2%nat * spow w2 2%nat * w4 + sofZ 1152 * cx2 * cy0 * spow w0 2%nat * w2 * spow w3 2%nat + sofZ 168960 * cx2 * cy0 * w0 * spow w1 3%nat * w2 - sofZ 126720 * cx2 * cy0 * w0 * spow w1 2%nat * spow w2 2%nat - sofZ 7680 * cx2 * cy0 * w0 * spow w1 2%nat * w2 * w3 + sofZ 1152 * cx2 * cy0 * w0 * spow w1 2%nat * w2 * w4 + sofZ 17280 * cx2 * cy0 * w0 * w1 * spow w2 3%nat + sofZ 4608 * cx2 * cy0 * w0 * w1 * spow w2 2%nat * w3 - sofZ 96096 * cx2 * cy1 * spow w0 3%nat * w1 * w2 + sofZ 274560 * cx2 * cy1 * spow w0 2%nat * spow w1 2%nat * w2 - sofZ 126720 * cx2 * cy1 * spow w0 2%nat * w1 * spow w2 2%nat + sofZ 31680 * cx2 * cy1 * spow w0 2%nat * w1 * w2 * w3 - sofZ 2400 * cx2 * cy1 * spow w0 2%nat * w1 * w2 * w4 - sofZ 168960 * cx2 * cy1 * w0 * spow w1 3%nat * w2 + sofZ 126720 * cx2 * cy1 * w0 * spow w1 2%nat * spow w2 2%nat - sofZ 30720 * cx2 * cy1 * w0 * spow w1 2%nat * w2 * w3 + sofZ 1536 * cx2 * cy1 * w0 * spow w1 2%nat * w2 * w4 - sofZ 17280 * cx2 * cy1 * w0 * w1 * spow w2 3%nat + sofZ 4608 * cx2 * cy1 * w0 * w1 * spow w2 2%nat * w3 + sofZ 3072 * cx2 * cy1 * spow w1 3%nat * w2 * w3 + sofZ 31680 * cx2 * cy3 * spow w0 3%nat * w2 * w3 - sofZ 73920 * cx2 * cy3 * spow w0 2%nat * w1 * w2 * w3 + sofZ 17280 * cx2 * cy3 * spow w0 2%nat * spow w2 2%nat * w3 - sofZ 1152 * cx2 * cy3 * spow w0 2%nat * w2 * spow w3 2%nat + sofZ 38400 * cx2 * cy3 * w0 * spow w1 2%nat * w2 * w3 - sofZ 9216 * cx2 * cy3 * w0 * w1 * spow w2 2%nat * w3 - sofZ 3072 * cx2 * cy3 * spow w1 3%nat * w2 * w3 - sofZ 5280 * cx2 * cy4 * spow w0 3%nat * w2 * w4 + sofZ 9120 * cx2 * cy4 * spow w0 2%nat * w1 * w2 * w4 - sofZ 1152 * cx2 * cy4 * spow w0 2%nat * spow w2 2%nat * w4 - sofZ 2688 * cx2 * cy4 * w0 * spow w1 2%nat * w2 * w4 - sofZ 68640 * cx3 * cy0 * spow w0 3%nat * w1 * w3 + sofZ 31680 * cx3 * cy0 * spow w0 3%nat * w2 * w3 - sofZ 480 * cx3 * cy0 * spow w0 3%nat * w3 * w4 + sofZ 168960 * cx3 * cy0 * spow w0 2%nat * spow w1 2%nat * w3 - sofZ 126720 * cx3 * cy0 * spow w0 2%nat * w1 * w2 * w3 + sofZ 7680 * cx3 * cy0 * spow w0 2%nat * w1 * spow w3 2%nat + sofZ 192 * cx3 * cy0 * spow w0 2%nat * w1 * w3 * w4 + sofZ 17280 * cx3 * cy0 * spow w0 2%nat * spow w2 2%nat * w3 - sofZ 1152 * cx3 * cy0 * spow w0 2%nat * w2 * spow w3 2%nat - sofZ 84480 * cx3 * cy0 * w0 * spow w1 3%nat * w3 + sofZ 69120 * cx3 * cy0 * w0 * spow w1 2%nat * w2 * w3 - sofZ 3072 * cx3 * cy0 * w0 * spow w1 2%nat * spow w3 2%nat - sofZ 10368 * cx3 * cy0 * w0 * w1 * spow w2 2%nat * w3 + sofZ 68640 * cx3 * cy1 * spow w0 3%nat * w1 * w3 - sofZ 168960 * cx3 * cy1 * spow w0 2%nat * spow w1 2%nat * w3 + sofZ 52800 * cx3 * cy1 * spow w0 2%nat * w1 * w2 * w3 - sofZ 7680 * cx3 * cy1 * spow w0 2%nat * w1 * spow w3 2%nat + sofZ 288 * cx3 * cy1 * spow w0 2%nat * w1 * w3 * w4 + sofZ 84480 * cx3 * cy1 * w0 * spow w1 3%nat * w3 - sofZ 30720 * cx3 * cy1 * w0 * spow w1 2%nat * w2 * w3 + sofZ 3072 * cx3 * cy1 * w0 * spow w1 2%nat * spow w3 2%nat + sofZ 1152 * cx3 * cy1 * w0 * w1 * spow w2 2%nat * w3 - sofZ 3072 * cx3 * cy1 * spow w1 3%nat * w2 * w3 - sofZ 31680 * cx3 * cy2 * spow w0 3%nat * w2 * w3 + sofZ 73920 * cx3 * cy2 * spow w0 2%nat * w1 * w2 * w3 - sofZ 17280 * cx3 * cy2 * spow w0 2%nat * spow w2 2%nat * w3 + sofZ 1152 * cx3 * cy2 * spow w0 2%nat * w2 * spow w3 2%nat - sofZ 38400 * cx3 * cy2 * w0 * spow w1 2%nat * w2 * w3 + sofZ 9216 * cx3 * cy2 * w0 * w1 * spow w2 2%nat * w3 + sofZ 3072 * cx3 * cy2 * spow w1 3%nat * w2 * w3 + sofZ 480 * cx3 * cy4 * spow w0 3%nat * w3 * w4 - sofZ 480 * cx3 * cy4 * spow w0 2%nat * w1 * w3 * w4 + sofZ 10560 * cx4 * cy0 * spow w0 3%nat * w1 * w4 - sofZ 5280 * cx4 * cy0 * spow w0 3%nat * w2 * w4 + sofZ 480 * cx4 * cy0 * spow w0 3%nat * w3 * w4 - sofZ 21120 * cx4 * cy0 * spow w0 2%nat * spow w1 2%nat * w4 + sofZ 13440 * cx4 * cy0 * spow w0 2%nat * w1 * w2 * w4 - sofZ 768 * cx4 * cy0 * spow w0 2%nat * w1 * w3 * w4 - sofZ 1152 * cx4 * cy0 * spow w0 2%nat * spow w2 2%nat * w4 + sofZ 7680 * cx4 * cy0 * w0 * spow w1 3%nat * w4 - sofZ 3840 * cx4 * cy0 * w0 * spow w1 2%nat * w2 * w4 - sofZ 10560 * cx4 * cy1 * spow w0 3%nat * w1 * w4 + sofZ 21120 * cx4 * cy1 * spow w0 2%nat * spow w1 2%nat * w4 - sofZ 4320 * cx4 * cy1 * spow w0 2%nat * w1 * w2 * w4 + sofZ 288 * cx4 * cy1 * spow w0 2%nat * w1 * w3 * w4 - sofZ 7680 * cx4 * cy1 * w0 * spow w1 3%nat * w4 + sofZ 1152 * cx4 * cy1 * w0 * spow w1 2%nat * w2 * w4 + sofZ 5280 * cx4 * cy2 * spow w0 3%nat * w2 * w4 - sofZ 9120 * cx4 * cy2 * spow w0 2%nat * w1 * w2 * w4 + sofZ 1152 * cx4 * cy2 * spow w0 2%nat * spow w2 2%nat * w4 + sofZ 2688 * cx4 * cy2 * w0 * spow w1 2%nat * w2 * w4 - sofZ 480 * cx4 * cy3 * spow w0 3%nat * w3 * w4 + sofZ 480 * cx4 * cy3 * spow w0 2%nat * w1 * w3 * w4;
     - sofZ 144144 * cx0 * cy1 * spow w0 3%nat * w1 * w2 + sofZ 123552 * cx0 * cy1 * spow w0 3%nat * w1 * w3 - sofZ 23760 * cx0 * cy1 * spow w0 3%nat * w1 * w4 + sofZ 494208 * cx0 * cy1 * spow w0 2%nat * spow w1 2%nat * w2 - sofZ 380160 * cx0 * cy1 * spow w0 2%nat * spow w1 2%nat * w3 + sofZ 63360 * cx0 * cy1 * spow w0 2%nat * spow w1 2%nat * w4 - sofZ 285120 * cx0 * cy1 * spow w0 2%nat * w1 * spow w2 2%nat + sofZ 253440 * cx0 * cy1 * spow w0 2%nat * w1 * w2 * w3 - sofZ 30240 * cx0 * cy1 * spow w0 2%nat * w1 * w2 * w4 - sofZ 34560 * cx0 * cy1 * spow w0 2%nat * w1 * spow w3 2%nat + sofZ 5184 * cx0 * cy1 * spow w0 2%nat * w1 * w3 * w4 - sofZ 96 * cx0 * cy1 * spow w0 2%nat * w1 * spow w4 2%nat - sofZ 380160 * cx0 * cy1 * w0 * spow w1 3%nat * w2 + sofZ 253440 * cx0 * cy1 * w0 * spow w1 3%nat * w3 - sofZ 34560 * cx0 * cy1 * w0 * spow w1 3%nat * w4 + sofZ 380160 * cx0 * cy1 * w0 * spow w1 2%nat * spow w2 2%nat - sofZ 276480 * cx0 * cy1 * w0 * spow w1 2%nat * w2 * w3 + sofZ 24192 * cx0 * cy1 * w0 * spow w1 2%nat * w2 * w4 + sofZ 27648 * cx0 * cy1 * w0 * spow w1 2%nat * spow w3 2%nat - sofZ 2304 * cx0 * cy1 * w0 * spow w1 2%nat * w3 * w4 - sofZ 77760 * cx0 * cy1 * w0 * w1 * spow w2 3%nat + sofZ 51840 * cx0 * cy1 * w0 * w1 * spow w2 2%nat * w3 - sofZ 2304 * cx0 * cy1 * w0 * w1 * spow w2 2%nat * w4 - sofZ 5376 * cx0 * cy1 * w0 * w1 * w2 * spow w3 2%nat + sofZ 144144 * cx0 * cy2 * spow w0 3%nat * w1 * w2 - sofZ 71280 * cx0 * cy2 * spow w0 3%nat * w2 * w3 + sofZ 15840 * cx0 * cy2 * spow w0 3%nat * w2 * w4 - sofZ 494208 * cx0 * cy2 * spow w0 2%nat * spow w1 2%nat * w2 + sofZ 285120 * cx0 * cy2 * spow w0 2%nat * w1 * spow w2 2%nat + sofZ 126720 * cx0 * cy2 * spow w0 2%nat * w1 * w2 * w3 - sofZ 30240 * cx0 * cy2 * spow w0 2%nat * w1 * w2 * w4 - sofZ 77760 * cx0 * cy2 * spow w0 2%nat * spow w2 2%nat * w3 + sofZ 10368 * cx0 * cy2 * spow w0 2%nat * spow w2 2%nat * w4 + sofZ 10368 * cx0 * cy2 * spow w0 2%nat * w2 * spow w3 2%nat - sofZ 1056 * cx0 * cy2 * spow w0 2%nat * w2 * w3 * w4 + sofZ 380160 * cx0 * cy2 * w0 * spow w1 3%nat * w2 - sofZ 380160 * cx0 * cy2 * w0 * spow w1 2%nat * spow w2 2%nat - sofZ 34560 * cx0 * cy2 * w0 * spow w1 2%nat * w2 * w3 + sofZ 10368 * cx0 * cy2 * w0 * spow w1 2%nat * w2 * w4 + sofZ 77760 * cx0 * cy2 * w0 * w1 * spow w2 3%nat + sofZ 41472 * cx0 * cy2 * w0 * w1 * spow w2 2%nat * w3 - sofZ 4032 * cx0 * cy2 * w0 * w1 * spow w2 2%nat * w4 - sofZ 3840 * cx0 * cy2 * w0 * w1 * w2 * spow w3 2%nat - sofZ 5184 * cx0 * cy2 * w0 * spow w2 3%nat * w3 - sofZ 123552 * cx0 * cy3 * spow w0 3%nat * w1 * w3 + sofZ 71280 * cx0 * cy3 * spow w0 3%nat * w2 * w3 - sofZ 2160 * cx0 * cy3 * spow w0 3%nat * w3 * w4 + sofZ 380160 * cx0 * cy3 * spow w0 2%nat * spow w1 2%nat * w3 - sofZ 380160 * cx0 * cy3 * spow w0 2%nat * w1 * w2 * w3 + sofZ 34560 * cx0 * cy3 * spow w0 2%nat * w1 * spow w3 2%nat + sofZ 1728 * cx0 * cy3 * spow w0 2%nat * w1 * w3 * w4 + sofZ 77760 * cx0 * cy3 * spow w0 2%nat * spow w2 2%nat * w3 - sofZ 10368 * cx0 * cy3 * spow w0 2%nat * w2 * spow w3 2%nat - sofZ 288 * cx0 * cy3 * spow w0 2%nat * w2 * w3 * w4 - sofZ 253440 * cx0 * cy3 * w0 * spow w1 3%nat * w3 + sofZ 311040 * cx0 * cy3 * w0 * spow w1 2%nat * w2 * w3 - sofZ 27648 * cx0 * cy3 * w0 * spow w1 2%nat * spow w3 2%nat - sofZ 93312 * cx0 * cy3 * w0 * w1 * spow w2 2%nat * w3 + sofZ 9216 * cx0 * cy3 * w0 * w1 * w2 * spow w3 2%nat + sofZ 5184 * cx0 * cy3 * w0 * spow w2 3%nat * w3 + sofZ 23760 * cx0 * cy4 * spow w0 3%nat * w1 * w4 - sofZ 15840 * cx0 * cy4 * spow w0 3%nat * w2 * w4 + sofZ 2160 * cx0 * cy4 * spow w0 3%nat * w3 * w4 - sofZ 63360 * cx0 * cy4 * spow w0 2%nat * spow w1 2%nat * w4 + sofZ 60480 * cx0 * cy4 * spow w0 2%nat * w1 * w2 * w4 - sofZ 6912 * cx0 * cy4 * spow w0 2%nat * w1 * w3 * w4 + sofZ 96 * cx0 * cy4 * spow w0 2%nat * w1 * spow w4 2%nat - sofZ 10368 * cx0 * cy4 * spow w0 2%nat * spow w2 2%nat * w4 + sofZ 1344 * cx0 * cy4 * spow w0 2%nat * w2 * w3 * w4 + sofZ 34560 * cx0 * cy4 * w0 * spow w1 3%nat * w4 - sofZ 34560 * cx0 * cy4 * w0 * spow w1 2%nat * w2 * w4 + sofZ 2304 * cx0 * cy4 * w0 * spow w1 2%nat * w3 * w4 + sofZ 6336 * cx0 * cy4 * w0 * w1 * spow w2 2%nat * w4 + sofZ 144144 * cx1 * cy0 * spow w0 3%nat * w1 * w2 - sofZ 123552 * cx1 * cy0 * spow w0 3%nat * w1 * w3 + sofZ 23760 * cx1 * cy0 * spow w0 3%nat * w1 * w4 - sofZ 494208 * cx1 * cy0 * spow w0 2%nat * spow w1 2%nat * w2 + sofZ 380160 * cx1 * cy0 * spow w0 2%nat * spow w1 2%nat * w3 - sofZ 63360 * cx1 * cy0 * spow w0 2%nat * spow w1 2%nat * w4 + sofZ 285120 * cx1 * cy0 * spow w0 2%nat * w1 * spow w2 2%nat - sofZ 253440 * cx1 * cy0 * spow w0 2%nat * w1 * w2 * w3 + sofZ 30240 * cx1 * cy0 * spow w0 2%nat * w1 * w2 * w4 + sofZ 34560 * cx1 * cy0 * spow w0 2%nat * w1 * spow w3 2%nat - sofZ 5184 * cx1 * cy0 * spow w0 2%nat * w1 * w3 * w4 + sofZ 96 * cx1 * cy0 * spow w0 2%nat * w1 * spow w4 2%nat + sofZ 380160 * cx1 * cy0 * w0 * spow w1 3%nat * w2 - sofZ 253440 * cx1 * cy0 * w0 * spow w1 3%nat * w3 + sofZ 34560 * cx1 * cy0 * w0 * spow w1 3%nat * w4 - sofZ 380160 * cx1 * cy0 * w0 * spow w1 2%nat * spow w2 2%nat + sofZ 276480 * cx1 * cy0 * w0 * spow w1 2%nat * w2 * w3 - sofZ 24192 * cx1 * cy0 * w0 * spow w1 2%nat * w2 * w4 - sofZ 27648 * cx1 * cy0 * w0 * spow w1 2%nat * spow w3 2%nat + sofZ 2304 * cx1 * cy0 * w0 * spow w1 2%nat * w3 * w4 + sofZ 77760 * cx1 * cy0 * w0 * w1 * spow w2 3%nat - sofZ 51840 * cx1 * cy0 * w0 * w1 * spow w2 2%nat * w3 + sofZ 2304 * cx1 * cy0 * w0 * w1 * spow w2 2%nat * w4 + sofZ 5376 * cx1 * cy0 * w0 * w1 * w2 * spow w3 2%nat - sofZ 144144 * cx1 * cy2 * spow w0 3%nat * w1 * w2 + sofZ 494208 * cx1 * cy2 * spow w0 2%nat * spow w1 2%nat * w2 - sofZ 285120 * cx1 * cy2 * spow w0 2%nat * w1 * spow w2 2%nat + sofZ 95040 * cx1 * cy2 * spow w0 2%nat * w1 * w2 * w3 - sofZ 10800 * cx1 * cy2 * spow w0 2%nat * w1 * w2 * w4 - sofZ 380160 * cx1 * cy2 * w0 * spow w1 3%nat * w2 + sofZ 380160 * cx1 * cy2 * w0 * spow w1 2%nat * spow w2 2%nat - sofZ 138240 * cx1 * cy2 * w0 * spow w1 2%nat * w2 * w3 + sofZ 13824 * cx1 * cy2 * w0 * spow w1 2%nat * w2 * w4 - sofZ 77760 * cx1 * cy2 * w0 * w1 * spow w2 3%nat + sofZ 41472 * cx1 * cy2 * w0 * w1 * spow w2 2%nat * w3 - sofZ 2304 * cx1 * cy2 * w0 * w1 * spow w2 2%nat * w4 - sofZ 2304 * cx1 * cy2 * w0 * w1 * w2 * spow w3 2%nat + sofZ 27648 * cx1 * cy2 * spow w1 3%nat * w2 * w3 - sofZ 2304 * cx1 * cy2 * spow w1 3%nat * w2 * w4 - sofZ 9216 * cx1 * cy2 * spow w1 2%nat * spow w2 2%nat * w3 + sofZ 123552 * cx1 * cy3 * spow w0 3%nat * w1 * w3 - sofZ 380160 * cx1 * cy3 * spow w0 2%nat * spow w1 2%nat * w3 + sofZ 158400 * cx1 * cy3 * spow w0 2%nat * w1 * w2 * w3 - sofZ 34560 * cx1 * cy3 * spow w0 2%nat * w1 * spow w3 2%nat + sofZ 2592 * cx1 * cy3 * spow w0 2%nat * w1 * w3 * w4 + sofZ 253440 * cx1 * cy3 * w0 * spow w1 3%nat * w3 - sofZ 138240 * cx1 * cy3 * w0 * spow w1 2%nat * w2 * w3 + sofZ 27648 * cx1 * cy3 * w0 * spow w1 2%nat * spow w3 2%nat - sofZ 1536 * cx1 * cy3 * w0 * spow w1 2%nat * w3 * w4 + sofZ 10368 * cx1 * cy3 * w0 * w1 * spow w2 2%nat * w3 - sofZ 3072 * cx1 * cy3 * w0 * w1 * w2 * spow w3 2%nat - sofZ 27648 * cx1 * cy3 * spow w1 3%nat * w2 * w3 + sofZ 9216 * cx1 * cy3 * spow w1 2%nat * spow w2 2%nat * w3 - sofZ 23760 * cx1 * cy4 * spow w0 3%nat * w1 * w4 + sofZ 63360 * cx1 * cy4 * spow w0 2%nat * spow w1 2%nat * w4 - sofZ 19440 * cx1 * cy4 * spow w0 2%nat * w1 * w2 * w4 + sofZ 2592 * cx1 * cy4 * spow w0 2%nat * w1 * w3 * w4 - sofZ 96 * cx1 * cy4 * spow w0 2%nat * w1 * spow w4 2%nat - sofZ 34560 * cx1 * cy4 * w0 * spow w1 3%nat * w4 + sofZ 10368 * cx1 * cy4 * w0 * spow w1 2%nat * w2 * w4 - sofZ 768 * cx1 * cy4 * w0 * spow w1 2%nat * w3 * w4 + sofZ 2304 * cx1 * cy4 * spow w1 3%nat * w2 * w4 - sofZ 144144 * cx2 * cy0 * spow w0 3%nat * w1 * w2 + sofZ 71280 * cx2 * cy0 * spow w0 3%nat * w2 * w3 - sofZ 15840 * cx2 * cy0 * spow w0 3%nat * w2 * w4 + sofZ 494208 * cx2 * cy0 * spow w0 2%nat * spow w1 2%nat * w2 - sofZ 285120 * cx2 * cy0 * spow w0 2%nat * w1 * spow w2 2%nat - sofZ 126720 * cx2 * cy0 * spow w0 2%nat * w1 * w2 * w3 + sofZ 30240 * cx2 * cy0 * spow w0 2%nat * w1 * w2 * w4 + sofZ 77760 * cx2 * cy0 * spow w0 2%nat * spow w2 2%nat * w3 - sofZ 10368 * cx2 * cy0 * spow w0 2%nat * spow w2 2%nat * w4 - sofZ 10368 * cx2 * cy0 * spow w0 2%nat * w2 * spow w3 2%nat + sofZ 1056 * cx2 * cy0 * spow w0 2%nat * w2 * w3 * w4 - sofZ 380160 * cx2 * cy0 * w0 * spow w1 3%nat * w2 + sofZ 380160 * cx2 * cy0 * w0 * spow w1 2%nat * spow w2 2%nat + sofZ 34560 * cx2 * cy0 * w0 * spow w1 2%nat * w2 * w3 - sofZ 10368 * cx2 * cy0 * w0 * spow w1 2%nat * w2 * w4 - sofZ 77760 * cx2 * cy0 * w0 * w1 * spow w2 3%nat - sofZ 41472 * cx2 * cy0 * w0 * w1 * spow w2 2%nat * w3 + sofZ 4032 * cx2 * cy0 * w0 * w1 * spow w2 2%nat * w4 + sofZ 3840 * cx2 * cy0 * w0 * w1 * w2 * spow w3 2%nat + sofZ 5184 * cx2 * cy0 * w0 * spow w2 3%nat * w3 + sofZ 144144 * cx2 * cy1 * spow w0 3%nat * w1 * w2 - sofZ 494208 * cx2 * cy1 * spow w0 2%nat * spow w1 2%nat * w2 + sofZ 285120 * cx2 * cy1 * spow w0 2%nat * w1 * spow w2 2%nat - sofZ 95040 * cx2 * cy1 * spow w0 2%nat * w1 * w2 * w3 + sofZ 10800 * cx2 * cy1 * spow w0 2%nat * w1 * w2 * w4 + sofZ 380160 * cx2 * cy1 * w0 * spow w1 3%nat * w2 - sofZ 380160 * cx2 * cy1 * w0 * spow w1 2%nat * spow w2 2%nat + sofZ 138240 * cx2 * cy1 * w0 * spow w1 2%nat * w2 * w3 - sofZ 13824 * cx2 * cy1 * w0 * spow w1 2%nat * w2 * w4 + sofZ 77760 * cx2 * cy1 * w0 * w1 * spow w2 3%nat - sofZ 41472 * cx2 * cy1 * w0 * w1 * spow w2 2%nat * w3 + sofZ 2304 * cx2 * cy1 * w0 * w1 * spow w2 2%nat * w4 + sofZ 2304 * cx2 * cy1 * w0 * w1 * w2 * spow w3 2%nat - sofZ 27648 * cx2 * cy1 * spow w1 3%nat * w2 * w3 + sofZ 2304 * cx2 * cy1 * spow w1 3%nat * w2 * w4 + sofZ 9216 * cx2 * cy1 * spow w1 2%nat * spow w2 2%nat * w3 - sofZ 71280 * cx2 * cy3 * spow w0 3%nat * w2 * w3 + sofZ 221760 * cx2 * cy3 * spow w0 2%nat * w1 * w2 * w3 - sofZ 77760 * cx2 * cy3 * spow w0 2%nat * spow w2 2%nat * w3 + sofZ 10368 * cx2 * cy3 * spow w0 2%nat * w2 * spow w3 2%nat - sofZ 336 * cx2 * cy3 * spow w0 2%nat * w2 * w3 * w4 - sofZ 172800 * cx2 * cy3 * w0 * spow w1 2%nat * w2 * w3 + sofZ 82944 * cx2 * cy3 * w0 * w1 * spow w2 2%nat * w3 - sofZ 6144 * cx2 * cy3 * w0 * w1 * w2 * spow w3 2%nat - sofZ 5184 * cx2 * cy3 * w0 * spow w2 3%nat * w3 + sofZ 27648 * cx2 * cy3 * spow w1 3%nat * w2 * w3 - sofZ 9216 * cx2 * cy3 * spow w1 2%nat * spow w2 2%nat * w3 + sofZ 15840 * cx2 * cy4 * spow w0 3%nat * w2 * w4 - sofZ 41040 * cx2 * cy4 * spow w0 2%nat * w1 * w2 * w4 + sofZ 10368 * cx2 * cy4 * spow w0 2%nat * spow w2 2%nat * w4 - sofZ 720 * cx2 * cy4 * spow w0 2%nat * w2 * w3 * w4 + sofZ 24192 * cx2 * cy4 * w0 * spow w1 2%nat * w2 * w4 - sofZ 6336 * cx2 * cy4 * w0 * w1 * spow w2 2%nat * w4 - sofZ 2304 * cx2 * cy4 * spow w1 3%nat * w2 * w4 + sofZ 123552 * cx3 * cy0 * spow w0 3%nat * w1 * w3 - sofZ 71280 * cx3 * cy0 * spow w0 3%nat * w2 * w3 + sofZ 2160 * cx3 * cy0 * spow w0 3%nat * w3 * w4 - sofZ 380160 * cx3 * cy0 * spow w0 2%nat * spow w1 2%nat * w3 + sofZ 380160 * cx3 * cy0 * spow w0 2%nat * w1 * w2 * w3 - sofZ 34560 * cx3 * cy0 * spow w0 2%nat * w1 * spow w3 2%nat - sofZ 1728 * cx3 * cy0 * spow w0 2%nat * w1 * w3 * w4 - sofZ 77760 * cx3 * cy0 * spow w0 2%nat * spow w2 2%nat * w3 + sofZ 10368 * cx3 * cy0 * spow w0 2%nat * w2 * spow w3 2%nat + sofZ 288 * cx3 * cy0 * spow w0 2%nat * w2 * w3 * w4 + sofZ 253440 * cx3 * cy0 * w0 * spow w1 3%nat * w3 - sofZ 311040 * cx3 * cy0 * w0 * spow w1 2%nat * w2 * w3 + sofZ 27648 * cx3 * cy0 * w0 * spow w1 2%nat * spow w3 2%nat + sofZ 93312 * cx3 * cy0 * w0 * w1 * spow w2 2%nat * w3 - sofZ 9216 * cx3 * cy0 * w0 * w1 * w2 * spow w3 2%nat - sofZ 5184 * cx3 * cy0 * w0 * spow w2 3%nat * w3 - sofZ 123552 * cx3 * cy1 * spow w0 3%nat * w1 * w3 + sofZ 380160 * cx3 * cy1 * spow w0 2%nat * spow w1 2%nat * w3 - sofZ 158400 * cx3 * cy1 * spow w0 2%nat * w1 * w2 * w3 + sofZ 34560 * cx3 * cy1 * spow w0 2%nat * w1 * spow w3 2%nat - sofZ 2592 * cx3 * cy1 * spow w0 2%nat * w1 * w3 * w4 - sofZ 253440 * cx3 * cy1 * w0 * spow w1 3%nat * w3 + sofZ 138240 * cx3 * cy1 * w0 * spow w1 2%nat * w2 * w3 - sofZ 27648 * cx3 * cy1 * w0 * spow w1 2%nat * spow w3 2%nat + sofZ 1536 * cx3 * cy1 * w0 * spow w1 2%nat * w3 * w4 - sofZ 10368 * cx3 * cy1 * w0 * w1 * spow w2 2%nat * w3 + sofZ 3072 * cx3 * cy1 * w0 * w1 * w2 * spow w3 2%nat + sofZ 27648 * cx3 * cy1 * spow w1 3%nat * w2 * w3 - sofZ 9216 * cx3 * cy1 * spow w1 2%nat * spow w2 2%nat * w3 + sofZ 71280 * cx3 * cy2 * spow w0 3%nat * w2 * w3 - sofZ 221760 * cx3 * cy2 * spow w0 2%nat * w1 * w2 * w3 + sofZ 77760 * cx3 * cy2 * spow w0 2%nat * spow w2 2%nat * w3 - sofZ 10368 * cx3 * cy2 * spow w0 2%nat * w2 * spow w3 2%nat + sofZ 336 * cx3 * cy2 * spow w0 2%nat * w2 * w3 * w4 + sofZ 172800 * cx3 * cy2 * w0 * spow w1 2%nat * w2 * w3 - sofZ 82944 * cx3 * cy2 * w0 * w1 * spow w2 2%nat * w3 + sofZ 6144 * cx3 * cy2 * w0 * w1 * w2 * spow w3 2%nat + sofZ 5184 * cx3 * cy2 * w0 * spow w2 3%nat * w3 - sofZ 27648 * cx3 * cy2 * spow w1 3%nat * w2 * w3 + sofZ 9216 * cx3 * cy2 * spow w1 2%nat * spow w2 2%nat * w3 - sofZ 2160 * cx3 * cy4 * spow w0 3%nat * w3 * w4 + sofZ 4320 * cx3 * cy4 * spow w0 2%nat * w1 * w3 * w4 - sofZ 624 * cx3 * cy4 * spow w0 2%nat * w2 * w3 * w4 - sofZ 1536 * cx3 * cy4 * w0 * spow w1 2%nat * w3 * w4 - sofZ 23760 * cx4 * cy0 * spow w0 3%nat * w1 * w4 + sofZ 15840 * cx4 * cy0 * spow w0 3%nat * w2 * w4 - sofZ 2160 * cx4 * cy0 * spow w0 3%nat * w3 * w4 + sofZ 63360 * cx4 * cy0 * spow w0 2%nat * spow w1 2%nat * w4 - sofZ 60480 * cx4 * cy0 * spow w0 2%nat * w1 * w2 * w4 + sofZ 6912 * cx4 * cy0 * spow w0 2%nat * w1 * w3 * w4 - sofZ 96 * cx4 * cy0 * spow w0 2%nat * w1 * spow w4 2%nat + sofZ 10368 * cx4 * cy0 * spow w0 2%nat * spow w2 2%nat * w4 - sofZ 1344 * cx4 * cy0 * spow w0 2%nat * w2 * w3 * w4 - sofZ 34560 * cx4 * cy0 * w0 * spow w1 3%nat * w4 + sofZ 34560 * cx4 * cy0 * w0 * spow w1 2%nat * w2 * w4 - sofZ 2304 * cx4 * cy0 * w0 * spow w1 2%nat * w3 * w4 - sofZ 6336 * cx4 * cy0 * w0 * w1 * spow w2 2%nat * w4 + sofZ 23760 * cx4 * cy1 * spow w0 3%nat * w1 * w4 - sofZ 63360 * cx4 * cy1 * spow w0 2%nat * spow w1 2%nat * w4 + sofZ 19440 * cx4 * cy1 * spow w0 2%nat * w1 * w2 * w4 - sofZ 2592 * cx4 * cy1 * spow w0 2%nat * w1 * w3 * w4 + sofZ 96 * cx4 * cy1 * spow w0 2%nat * w1 * spow w4 2%nat + sofZ 34560 * cx4 * cy1 * w0 * spow w1 3%nat * w4 - sofZ 10368 * cx4 * cy1 * w0 * spow w1 2%nat * w2 * w4 + sofZ 768 * cx4 * cy1 * w0 * spow w1 2%nat * w3 * w4 - sofZ 2304 * cx4 * cy1 * spow w1 3%nat * w2 * w4 - sofZ 15840 * cx4 * cy2 * spow w0 3%nat * w2 * w4 + sofZ 41040 * cx4 * cy2 * spow w0 2%nat * w1 * w2 * w4 - sofZ 10368 * cx4 * cy2 * spow w0 2%nat * spow w2 2%nat * w4 + sofZ 720 * cx4 * cy2 * spow w0 2%nat * w2 * w3 * w4 - sofZ 24192 * cx4 * cy2 * w0 * spow w1 2%nat * w2 * w4 + sofZ 6336 * cx4 * cy2 * w0 * w1 * spow w2 2%nat * w4 + sofZ 2304 * cx4 * cy2 * spow w1 3%nat * w2 * w4 + sofZ 2160 * cx4 * cy3 * spow w0 3%nat * w3 * w4 - sofZ 4320 * cx4 * cy3 * spow w0 2%nat * w1 * w3 * w4 + sofZ 624 * cx4 * cy3 * spow w0 2%nat * w2 * w3 * w4 + sofZ 1536 * cx4 * cy3 * w0 * spow w1 2%nat * w3 * w4;
     sofZ 164736 * cx0 * cy1 * spow w0 3%nat * w1 * w2 - sofZ 164736 * cx0 * cy1 * spow w0 3%nat * w1 * w3 + sofZ 38016 * cx0 * cy1 * spow w0 3%nat * w1 * w4 - sofZ 658944 * cx0 * cy1 * spow w0 2%nat * spow w1 2%nat * w2 + sofZ 608256 * cx0 * cy1 * spow w0 2%nat * spow w1 2%nat * w3 - sofZ 126720 * cx0 * cy1 * spow w0 2%nat * spow w1 2%nat * w4 + sofZ 456192 * cx0 * cy1 * spow w0 2%nat * w1 * spow w2 2%nat - sofZ 506880 * cx0 * cy1 * spow w0 2%nat * w1 * w2 * w3 + sofZ 80640 * cx0 * cy1 * spow w0 2%nat * w1 * w2 * w4 + sofZ 92160 * cx0 * cy1 * spow w0 2%nat * w1 * spow w3 2%nat - sofZ 20736 * cx0 * cy1 * spow w0 2%nat * w1 * w3 * w4 + sofZ 768 * cx0 * cy1 * spow w0 2%nat * w1 * spow w4 2%nat + sofZ 608256 * cx0 * cy1 * w0 * spow w1 3%nat * w2 - sofZ 506880 * cx0 * cy1 * w0 * spow w1 3%nat * w3 + sofZ 92160 * cx0 * cy1 * w0 * spow w1 3%nat * w4 - sofZ 760320 * cx0 * cy1 * w0 * spow w1 2%nat * spow w2 2%nat + sofZ 737280 * cx0 * cy1 * w0 * spow w1 2%nat * w2 * w3 - sofZ 96768 * cx0 * cy1 * w0 * spow w1 2%nat * w2 * w4 - sofZ 110592 * cx0 * cy1 * w0 * spow w1 2%nat * spow w3 2%nat + sofZ 18432 * cx0 * cy1 * w0 * spow w1 2%nat * w3 * w4 - sofZ 384 * cx0 * cy1 * w0 * spow w1 2%nat * spow w4 2%nat + sofZ 207360 * cx0 * cy1 * w0 * w1 * spow w2 3%nat - sofZ 207360 * cx0 * cy1 * w0 * w1 * spow w2 2%nat * w3 + sofZ 18432 * cx0 * cy1 * w0 * w1 * spow w2 2%nat * w4 + sofZ 43008 * cx0 * cy1 * w0 * w1 * w2 * spow w3 2%nat - sofZ 3840 * cx0 * cy1 * w0 * w1 * w2 * w3 * w4 - sofZ 1536 * cx0 * cy1 * w0 * w1 * spow w3 3%nat - sofZ 164736 * cx0 * cy2 * spow w0 3%nat * w1 * w2 + sofZ 114048 * cx0 * cy2 * spow w0 3%nat * w2 * w3 - sofZ 31680 * cx0 * cy2 * spow w0 3%nat * w2 * w4 + sofZ 658944 * cx0 * cy2 * spow w0 2%nat * spow w1 2%nat * w2 - sofZ 456192 * cx0 * cy2 * spow w0 2%nat * w1 * spow w2 2%nat - sofZ 253440 * cx0 * cy2 * spow w0 2%nat * w1 * w2 * w3 + sofZ 80640 * cx0 * cy2 * spow w0 2%nat * w1 * w2 * w4 + sofZ 207360 * cx0 * cy2 * spow w0 2%nat * spow w2 2%nat * w3 - sofZ 41472 * cx0 * cy2 * spow w0 2%nat * spow w2 2%nat * w4 - sofZ 41472 * cx0 * cy2 * spow w0 2%nat * w2 * spow w3 2%nat + sofZ 8448 * cx0 * cy2 * spow w0 2%nat * w2 * w3 * w4 - sofZ 192 * cx0 * cy2 * spow w0 2%nat * w2 * spow w4 2%nat - sofZ 608256 * cx0 * cy2 * w0 * spow w1 3%nat * w2 + sofZ 760320 * cx0 * cy2 * w0 * spow w1 2%nat * spow w2 2%nat + sofZ 92160 * cx0 * cy2 * w0 * spow w1 2%nat * w2 * w3 - sofZ 41472 * cx0 * cy2 * w0 * spow w1 2%nat * w2 * w4 - sofZ 207360 * cx0 * cy2 * w0 * w1 * spow w2 3%nat - sofZ 165888 * cx0 * cy2 * w0 * w1 * spow w2 2%nat * w3 + sofZ 32256 * cx0 * cy2 * w0 * w1 * spow w2 2%nat * w4 + sofZ 30720 * cx0 * cy2 * w0 * w1 * w2 * spow w3 2%nat - sofZ 3840 * cx0 * cy2 * w0 * w1 * w2 * w3 * w4 + sofZ 41472 * cx0 * cy2 * w0 * spow w2 3%nat * w3 - sofZ 3456 * cx0 * cy2 * w0 * spow w2 3%nat * w4 - sofZ 6912 * cx0 * cy2 * w0 * spow w2 2%nat * spow w3 2%nat + sofZ 164736 * cx0 * cy3 * spow w0 3%nat * w1 * w3 - sofZ 114048 * cx0 * cy3 * spow w0 3%nat * w2 * w3 + sofZ 5760 * cx0 * cy3 * spow w0 3%nat * w3 * w4 - sofZ 608256 * cx0 * cy3 * spow w0 2%nat * spow w1 2%nat * w3 + sofZ 760320 * cx0 * cy3 * spow w0 2%nat * w1 * w2 * w3 - sofZ 92160 * cx0 * cy3 * spow w0 2%nat * w1 * spow w3 2%nat - sofZ 6912 * cx0 * cy3 * spow w0 2%nat * w1 * w3 * w4 - sofZ 207360 * cx0 * cy3 * spow w0 2%nat * spow w2 2%nat * w3 + sofZ 41472 * cx0 * cy3 * spow w0 2%nat * w2 * spow w3 2%nat + sofZ 2304 * cx0 * cy3 * spow w0 2%nat * w2 * w3 * w4 - sofZ 384 * cx0 * cy3 * spow w0 2%nat * spow w3 2%nat * w4 + sofZ 506880 * cx0 * cy3 * w0 * spow w1 3%nat * w3 - sofZ 829440 * cx0 * cy3 * w0 * spow w1 2%nat * w2 * w3 + sofZ 110592 * cx0 * cy3 * w0 * spow w1 2%nat * spow w3 2%nat + sofZ 373248 * cx0 * cy3 * w0 * w1 * spow w2 2%nat * w3 - sofZ 73728 * cx0 * cy3 * w0 * w1 * w2 * spow w3 2%nat + sofZ 1536 * cx0 * cy3 * w0 * w1 * spow w3 3%nat - sofZ 41472 * cx0 * cy3 * w0 * spow w2 3%nat * w3 + sofZ 6912 * cx0 * cy3 * w0 * spow w2 2%nat * spow w3 2%nat - sofZ 38016 * cx0 * cy4 * spow w0 3%nat * w1 * w4 + sofZ 31680 * cx0 * cy4 * spow w0 3%nat * w2 * w4 - sofZ 5760 * cx0 * cy4 * spow w0 3%nat * w3 * w4 + sofZ 126720 * cx0 * cy4 * spow w0 2%nat * spow w1 2%nat * w4 - sofZ 161280 * cx0 * cy4 * spow w0 2%nat * w1 * w2 * w4 + sofZ 27648 * cx0 * cy4 * spow w0 2%nat * w1 * w3 * w4 - sofZ 768 * cx0 * cy4 * spow w0 2%nat * w1 * spow w4 2%nat + sofZ 41472 * cx0 * cy4 * spow w0 2%nat * spow w2 2%nat * w4 - sofZ 10752 * cx0 * cy4 * spow w0 2%nat * w2 * w3 * w4 + sofZ 192 * cx0 * cy4 * spow w0 2%nat * w2 * spow w4 2%nat + sofZ 384 * cx0 * cy4 * spow w0 2%nat * spow w3 2%nat * w4 - sofZ 92160 * cx0 * cy4 * w0 * spow w1 3%nat * w4 + sofZ 138240 * cx0 * cy4 * w0 * spow w1 2%nat * w2 * w4 - sofZ 18432 * cx0 * cy4 * w0 * spow w1 2%nat * w3 * w4 + sofZ 384 * cx0 * cy4 * w0 * spow w1 2%nat * spow w4 2%nat - sofZ 50688 * cx0 * cy4 * w0 * w1 * spow w2 2%nat * w4 + sofZ 7680 * cx0 * cy4 * w0 * w1 * w2 * w3 * w4 + sofZ 3456 * cx0 * cy4 * w0 * spow w2 3%nat * w4 - sofZ 164736 * cx1 * cy0 * spow w0 3%nat * w1 * w2 + sofZ 164736 * cx1 * cy0 * spow w0 3%nat * w1 * w3 - sofZ 38016 * cx1 * cy0 * spow w0 3%nat * w1 * w4 + sofZ 658944 * cx1 * cy0 * spow w0 2%nat * spow w1 2%nat * w2 - sofZ 608256 * cx1 * cy0 * spow w0 2%nat * spow w1 2%nat * w3 + sofZ 126720 * cx1 * cy0 * spow w0 2%nat * spow w1 2%nat * w4 - sofZ 456192 * cx1 * cy0 * spow w0 2%nat * w1 * spow w2 2%nat + sofZ 506880 * cx1 * cy0 * spow w0 2%nat * w1 * w2 * w3 - sofZ 80640 * cx1 * cy0 * spow w0 2%nat * w1 * w2 * w4 - sofZ 92160 * cx1 * cy0 * spow w0 2%nat * w1 * spow w3 2%nat + sofZ 20736 * cx1 * cy0 * spow w0 2%nat * w1 * w3 * w4 - sofZ 768 * cx1 * cy0 * spow w0 2%nat * w1 * spow w4 2%nat - sofZ 608256 * cx1 * cy0 * w0 * spow w1 3%nat * w2 + sofZ 506880 * cx1 * cy0 * w0 * spow w1 3%nat * w3 - sofZ 92160 * cx1 * cy0 * w0 * spow w1 3%nat * w4 + sofZ 760320 * cx1 * cy0 * w0 * spow w1 2%nat * spow w2 2%nat - sofZ 737280 * cx1 * cy0 * w0 * spow w1 2%nat * w2 * w3 + sofZ 96768 * cx1 * cy0 * w0 * spow w1 2%nat * w2 * w4 + sofZ 110592 * cx1 * cy0 * w0 * spow w1 2%nat * spow w3 2%nat - sofZ 18432 * cx1 * cy0 * w0 * spow w1 2%nat * w3 * w4 + sofZ 384 * cx1 * cy0 * w0 * spow w1 2%nat * spow w4 2%nat - sofZ 207360 * cx1 * cy0 * w0 * w1 * spow w2 3%nat + sofZ 207360 * cx1 * cy0 * w0 * w1 * spow w2 2%nat * w3 - sofZ 18432 * cx1 * cy0 * w0 * w1 * spow w2 2%nat * w4 - sofZ 43008 * cx1 * cy0 * w0 * w1 * w2 * spow w3 2%nat + sofZ 3840 * cx1 * cy0 * w0 * w1 * w2 * w3 * w4 + sofZ 1536 * cx1 * cy0 * w0 * w1 * spow w3 3%nat + sofZ 164736 * cx1 * cy2 * spow w0 3%nat * w1 * w2 - sofZ 658944 * cx1 * cy2 * spow w0 2%nat * spow w1 2%nat * w2 + sofZ 456192 * cx1 * cy2 * spow w0 2%nat * w1 * spow w2 2%nat - sofZ 190080 * cx1 * cy2 * spow w0 2%nat * w1 * w2 * w3 + sofZ 28800 * cx1 * cy2 * spow w0 2%nat * w1 * w2 * w4 + sofZ 608256 * cx1 * cy2 * w0 * spow w1 3%nat * w2 - sofZ 760320 * cx1 * cy2 * w0 * spow w1 2%nat * spow w2 2%nat + sofZ 368640 * cx1 * cy2 * w0 * spow w1 2%nat * w2 * w3 - sofZ 55296 * cx1 * cy2 * w0 * spow w1 2%nat * w2 * w4 + sofZ 207360 * cx1 * cy2 * w0 * w1 * spow w2 3%nat - sofZ 165888 * cx1 * cy2 * w0 * w1 * spow w2 2%nat * w3 + sofZ 18432 * cx1 * cy2 * w0 * w1 * spow w2 2%nat * w4 + sofZ 18432 * cx1 * cy2 * w0 * w1 * w2 * spow w3 2%nat - sofZ 1920 * cx1 * cy2 * w0 * w1 * w2 * w3 * w4 - sofZ 110592 * cx1 * cy2 * spow w1 3%nat * w2 * w3 + sofZ 18432 * cx1 * cy2 * spow w1 3%nat * w2 * w4 + sofZ 73728 * cx1 * cy2 * spow w1 2%nat * spow w2 2%nat * w3 - sofZ 6912 * cx1 * cy2 * spow w1 2%nat * spow w2 2%nat * w4 - sofZ 6144 * cx1 * cy2 * spow w1 2%nat * w2 * spow w3 2%nat - sofZ 6912 * cx1 * cy2 * w1 * spow w2 3%nat * w3 - sofZ 164736 * cx1 * cy3 * spow w0 3%nat * w1 * w3 + sofZ 608256 * cx1 * cy3 * spow w0 2%nat * spow w1 2%nat * w3 - sofZ 316800 * cx1 * cy3 * spow w0 2%nat * w1 * w2 * w3 + sofZ 92160 * cx1 * cy3 * spow w0 2%nat * w1 * spow w3 2%nat - sofZ 10368 * cx1 * cy3 * spow w0 2%nat * w1 * w3 * w4 - sofZ 506880 * cx1 * cy3 * w0 * spow w1 3%nat * w3 + sofZ 368640 * cx1 * cy3 * w0 * spow w1 2%nat * w2 * w3 - sofZ 110592 * cx1 * cy3 * w0 * spow w1 2%nat * spow w3 2%nat + sofZ 12288 * cx1 * cy3 * w0 * spow w1 2%nat * w3 * w4 - sofZ 41472 * cx1 * cy3 * w0 * w1 * spow w2 2%nat * w3 + sofZ 24576 * cx1 * cy3 * w0 * w1 * w2 * spow w3 2%nat - sofZ 1920 * cx1 * cy3 * w0 * w1 * w2 * w3 * w4 - sofZ 1536 * cx1 * cy3 * w0 * w1 * spow w3 3%nat + sofZ 110592 * cx1 * cy3 * spow w1 3%nat * w2 * w3 - sofZ 1536 * cx1 * cy3 * spow w1 3%nat * w3 * w4 - sofZ 73728 * cx1 * cy3 * spow w1 2%nat * spow w2 2%nat * w3 + sofZ 6144 * cx1 * cy3 * spow w1 2%nat * w2 * spow w3 2%nat + sofZ 6912 * cx1 * cy3 * w1 * spow w2 3%nat * w3 + sofZ 38016 * cx1 * cy4 * spow w0 3%nat * w1 * w4 - sofZ 126720 * cx1 * cy4 * spow w0 2%nat * spow w1 2%nat * w4 + sofZ 51840 * cx1 * cy4 * spow w0 2%nat * w1 * w2 * w4 - sofZ 10368 * cx1 * cy4 * spow w0 2%nat * w1 * w3 * w4 + sofZ 768 * cx1 * cy4 * spow w0 2%nat * w1 * spow w4 2%nat + sofZ 92160 * cx1 * cy4 * w0 * spow w1 3%nat * w4 - sofZ 41472 * cx1 * cy4 * w0 * spow w1 2%nat * w2 * w4 + sofZ 6144 * cx1 * cy4 * w0 * spow w1 2%nat * w3 * w4 - sofZ 384 * cx1 * cy4 * w0 * spow w1 2%nat * spow w4 2%nat - sofZ 18432 * cx1 * cy4 * spow w1 3%nat * w2 * w4 + sofZ 1536 * cx1 * cy4 * spow w1 3%nat * w3 * w4 + sofZ 6912 * cx1 * cy4 * spow w1 2%nat * spow w2 2%nat * w4 + sofZ 164736 * cx2 * cy0 * spow w0 3%nat * w1 * w2 - sofZ 114048 * cx2 * cy0 * spow w0 3%nat * w2 * w3 + sofZ 31680 * cx2 * cy0 * spow w0 3%nat * w2 * w4 - sofZ 658944 * cx2 * cy0 * spow w0 2%nat * spow w1 2%nat * w2 + sofZ 456192 * cx2 * cy0 * spow w0 2%nat * w1 * spow w2 2%nat + sofZ 253440 * cx2 * cy0 * spow w0 2%nat * w1 * w2 * w3 - sofZ 80640 * cx2 * cy0 * spow w0 2%nat * w1 * w2 * w4 - sofZ 207360 * cx2 * cy0 * spow w0 2%nat * spow w2 2%nat * w3 + sofZ 41472 * cx2 * cy0 * spow w0 2%nat * spow w2 2%nat * w4 + sofZ 41472 * cx2 * cy0 * spow w0 2%nat * w2 * spow w3 2%nat - sofZ 8448 * cx2 * cy0 * spow w0 2%nat * w2 * w3 * w4 + sofZ 192 * cx2 * cy0 * spow w0 2%nat * w2 * spow w4 2%nat + sofZ 608256 * cx2 * cy0 * w0 * spow w1 3%nat * w2 - sofZ 760320 * cx2 * cy0 * w0 * spow w1 2%nat * spow w2 2%nat - sofZ 92160 * cx2 * cy0 * w0 * spow w1 2%nat * w2 * w3 + sofZ 41472 * cx2 * cy0 * w0 * spow w1 2%nat * w2 * w4 + sofZ 207360 * cx2 * cy0 * w0 * w1 * spow w2 3%nat + sofZ 165888 * cx2 * cy0 * w0 * w1 * spow w2 2%nat * w3 - sofZ 32256 * cx2 * cy0 * w0 * w1 * spow w2 2%nat * w4 - sofZ 30720 * cx2 * cy0 * w0 * w1 * w2 * spow w3 2%nat + sofZ 3840 * cx2 * cy0 * w0 * w1 * w2 * w3 * w4 - sofZ 41472 * cx2 * cy0 * w0 * spow w2 3%nat * w3 + sofZ 3456 * cx2 * cy0 * w0 * spow w2 3%nat * w4 + sofZ 6912 * cx2 * cy0 * w0 * spow w2 2%nat * spow w3 2%nat - sofZ 164736 * cx2 * cy1 * spow w0 3%nat * w1 * w2 + sofZ 658944 * cx2 * cy1 * spow w0 2%nat * spow w1 2%nat * w2 - sofZ 456192 * cx2 * cy1 * spow w0 2%nat * w1 * spow w2 2%nat + sofZ 190080 * cx2 * cy1 * spow w0 2%nat * w1 * w2 * w3 - sofZ 28800 * cx2 * cy1 * spow w0 2%nat * w1 * w2 * w4 - sofZ 608256 * cx2 * cy1 * w0 * spow w1 3%nat * w2 + sofZ 760320 * cx2 * cy1 * w0 * spow w1 2%nat * spow w2 2%nat - sofZ 368640 * cx2 * cy1 * w0 * spow w1 2%nat * w2 * w3 + sofZ 55296 * cx2 * cy1 * w0 * spow w1 2%nat * w2 * w4 - sofZ 207360 * cx2 * cy1 * w0 * w1 * spow w2 3%nat + sofZ 165888 * cx2 * cy1 * w0 * w1 * spow w2 2%nat * w3 - sofZ 18432 * cx2 * cy1 * w0 * w1 * spow w2 2%nat * w4 - sofZ 18432 * cx2 * cy1 * w0 * w1 * w2 * spow w3 2%nat + sofZ 1920 * cx2 * cy1 * w0 * w1 * w2 * w3 * w4 + sofZ 110592 * cx2 * cy1 * spow w1 3%nat * w2 * w3 - sofZ 18432 * cx2 * cy1 * spow w1 3%nat * w2 * w4 - sofZ 73728 * cx2 * cy1 * spow w1 2%nat * spow w2 2%nat * w3 + sofZ 6912 * cx2 * cy1 * spow w1 2%nat * spow w2 2%nat * w4 + sofZ 6144 * cx2 * cy1 * spow w1 2%nat * w2 * spow w3 2%nat + sofZ 6912 * cx2 * cy1 * w1 * spow w2 3%nat * w3 + sofZ 114048 * cx2 * cy3 * spow w0 3%nat * w2 * w3 - sofZ 443520 * cx2 * cy3 * spow w0 2%nat * w1 * w2 * w3 + sofZ 207360 * cx2 * cy3 * spow w0 2%nat * spow w2 2%nat * w3 - sofZ 41472 * cx2 * cy3 * spow w0 2%nat * w2 * spow w3 2%nat + sofZ 2688 * cx2 * cy3 * spow w0 2%nat * w2 * w3 * w4 + sofZ 460800 * cx2 * cy3 * w0 * spow w1 2%nat * w2 * w3 - sofZ 331776 * cx2 * cy3 * w0 * w1 * spow w2 2%nat * w3 + sofZ 49152 * cx2 * cy3 * w0 * w1 * w2 * spow w3 2%nat - sofZ 1920 * cx2 * cy3 * w0 * w1 * w2 * w3 * w4 + sofZ 41472 * cx2 * cy3 * w0 * spow w2 3%nat * w3 - sofZ 6912 * cx2 * cy3 * w0 * spow w2 2%nat * spow w3 2%nat - sofZ 110592 * cx2 * cy3 * spow w1 3%nat * w2 * w3 + sofZ 73728 * cx2 * cy3 * spow w1 2%nat * spow w2 2%nat * w3 - sofZ 6144 * cx2 * cy3 * spow w1 2%nat * w2 * spow w3 2%nat - sofZ 6912 * cx2 * cy3 * w1 * spow w2 3%nat * w3 - sofZ 31680 * cx2 * cy4 * spow w0 3%nat * w2 * w4 + sofZ 109440 * cx2 * cy4 * spow w0 2%nat * w1 * w2 * w4 - sofZ 41472 * cx2 * cy4 * spow w0 2%nat * spow w2 2%nat * w4 + sofZ 5760 * cx2 * cy4 * spow w0 2%nat * w2 * w3 * w4 - sofZ 192 * cx2 * cy4 * spow w0 2%nat * w2 * spow w4 2%nat - sofZ 96768 * cx2 * cy4 * w0 * spow w1 2%nat * w2 * w4 + sofZ 50688 * cx2 * cy4 * w0 * w1 * spow w2 2%nat * w4 - sofZ 3840 * cx2 * cy4 * w0 * w1 * w2 * w3 * w4 - sofZ 3456 * cx2 * cy4 * w0 * spow w2 3%nat * w4 + sofZ 18432 * cx2 * cy4 * spow w1 3%nat * w2 * w4 - sofZ 6912 * cx2 * cy4 * spow w1 2%nat * spow w2 2%nat * w4 - sofZ 164736 * cx3 * cy0 * spow w0 3%nat * w1 * w3 + sofZ 114048 * cx3 * cy0 * spow w0 3%nat * w2 * w3 - sofZ 5760 * cx3 * cy0 * spow w0 3%nat * w3 * w4 + sofZ 608256 * cx3 * cy0 * spow w0 2%nat * spow w1 2%nat * w3 - sofZ 760320 * cx3 * cy0 * spow w0 2%nat * w1 * w2 * w3 + sofZ 92160 * cx3 * cy0 * spow w0 2%nat * w1 * spow w3 2%nat + sofZ 6912 * cx3 * cy0 * spow w0 2%nat * w1 * w3 * w4 + sofZ 207360 * cx3 * cy0 * spow w0 2%nat * spow w2 2%nat * w3 - sofZ 41472 * cx3 * cy0 * spow w0 2%nat * w2 * spow w3 2%nat - sofZ 2304 * cx3 * cy0 * spow w0 2%nat * w2 * w3 * w4 + sofZ 384 * cx3 * cy0 * spow w0 2%nat * spow w3 2%nat * w4 - sofZ 506880 * cx3 * cy0 * w0 * spow w1 3%nat * w3 + sofZ 829440 * cx3 * cy0 * w0 * spow w1 2%nat * w2 * w3 - sofZ 110592 * cx3 * cy0 * w0 * spow w1 2%nat * spow w3 2%nat - sofZ 373248 * cx3 * cy0 * w0 * w1 * spow w2 2%nat * w3 + sofZ 73728 * cx3 * cy0 * w0 * w1 * w2 * spow w3 2%nat - sofZ 1536 * cx3 * cy0 * w0 * w1 * spow w3 3%nat + sofZ 41472 * cx3 * cy0 * w0 * spow w2 3%nat * w3 - sofZ 6912 * cx3 * cy0 * w0 * spow w2 2%nat * spow w3 2%nat + sofZ 164736 * cx3 * cy1 * spow w0 3%nat * w1 * w3 - sofZ 608256 * cx3 * cy1 * spow w0 2%nat * spow w1 2%nat * w3 + sofZ 316800 * cx3 * cy1 * spow w0 2%nat * w1 * w2 * w3 - sofZ 92160 * cx3 * cy1 * spow w0 2%nat * w1 * spow w3 2%nat + sofZ 10368 * cx3 * cy1 * spow w0 2%nat * w1 * w3 * w4 + sofZ 506880 * cx3 * cy1 * w0 * spow w1 3%nat * w3 - sofZ 368640 * cx3 * cy1 * w0 * spow w1 2%nat * w2 * w3 + sofZ 110592 * cx3 * cy1 * w0 * spow w1 2%nat * spow w3 2%nat - sofZ 12288 * cx3 * cy1 * w0 * spow w1 2%nat * w3 * w4 + sofZ 41472 * cx3 * cy1 * w0 * w1 * spow w2 2%nat * w3 - sofZ 24576 * cx3 * cy1 * w0 * w1 * w2 * spow w3 2%nat + sofZ 1920 * cx3 * cy1 * w0 * w1 * w2 * w3 * w4 + sofZ 1536 * cx3 * cy1 * w0 * w1 * spow w3 3%nat - sofZ 110592 * cx3 * cy1 * spow w1 3%nat * w2 * w3 + sofZ 1536 * cx3 * cy1 * spow w1 3%nat * w3 * w4 + sofZ 73728 * cx3 * cy1 * spow w1 2%nat * spow w2 2%nat * w3 - sofZ 6144 * cx3 * cy1 * spow w1 2%nat * w2 * spow w3 2%nat - sofZ 6912 * cx3 * cy1 * w1 * spow w2 3%nat * w3 - sofZ 114048 * cx3 * cy2 * spow w0 3%nat * w2 * w3 + sofZ 443520 * cx3 * cy2 * spow w0 2%nat * w1 * w2 * w3 - sofZ 207360 * cx3 * cy2 * spow w0 2%nat * spow w2 2%nat * w3 + sofZ 41472 * cx3 * cy2 * spow w0 2%nat * w2 * spow w3 2%nat - sofZ 2688 * cx3 * cy2 * spow w0 2%nat * w2 * w3 * w4 - sofZ 460800 * cx3 * cy2 * w0 * spow w1 2%nat * w2 * w3 + sofZ 331776 * cx3 * cy2 * w0 * w1 * spow w2 2%nat * w3 - sofZ 49152 * cx3 * cy2 * w0 * w1 * w2 * spow w3 2%nat + sofZ 1920 * cx3 * cy2 * w0 * w1 * w2 * w3 * w4 - sofZ 41472 * cx3 * cy2 * w0 * spow w2 3%nat * w3 + sofZ 6912 * cx3 * cy2 * w0 * spow w2 2%nat * spow w3 2%nat + sofZ 110592 * cx3 * cy2 * spow w1 3%nat * w2 * w3 - sofZ 73728 * cx3 * cy2 * spow w1 2%nat * spow w2 2%nat * w3 + sofZ 6144 * cx3 * cy2 * spow w1 2%nat * w2 * spow w3 2%nat + sofZ 6912 * cx3 * cy2 * w1 * spow w2 3%nat * w3 + sofZ 5760 * cx3 * cy4 * spow w0 3%nat * w3 * w4 - sofZ 17280 * cx3 * cy4 * spow w0 2%nat * w1 * w3 * w4 + sofZ 4992 * cx3 * cy4 * spow w0 2%nat * w2 * w3 * w4 - sofZ 384 * cx3 * cy4 * spow w0 2%nat * spow w3 2%nat * w4 + sofZ 12288 * cx3 * cy4 * w0 * spow w1 2%nat * w3 * w4 - sofZ 3840 * cx3 * cy4 * w0 * w1 * w2 * w3 * w4 - sofZ 1536 * cx3 * cy4 * spow w1 3%nat * w3 * w4 + sofZ 38016 * cx4 * cy0 * spow w0 3%nat * w1 * w4 - sofZ 31680 * cx4 * cy0 * spow w0 3%nat * w2 * w4 + sofZ 5760 * cx4 * cy0 * spow w0 3%nat * w3 * w4 - sofZ 126720 * cx4 * cy0 * spow w0 2%nat * spow w1 2%nat * w4 + sofZ 161280 * cx4 * cy0 * spow w0 2%nat * w1 * w2 * w4 - sofZ 27648 * cx4 * cy0 * spow w0 2%nat * w1 * w3 * w4 + sofZ 768 * cx4 * cy0 * spow w0 2%nat * w1 * spow w4 2%nat - sofZ 41472 * cx4 * cy0 * spow w0 2%nat * spow w2 2%nat * w4 + sofZ 10752 * cx4 * cy0 * spow w0 2%nat * w2 * w3 * w4 - sofZ 192 * cx4 * cy0 * spow w0 2%nat * w2 * spow w4 2%nat - sofZ 384 * cx4 * cy0 * spow w0 2%nat * spow w3 2%nat * w4 + sofZ 92160 * cx4 * cy0 * w0 * spow w1 3%nat * w4 - sofZ 138240 * cx4 * cy0 * w0 * spow w1 2%nat * w2 * w4 + sofZ 18432 * cx4 * cy0 * w0 * spow w1 2%nat * w3 * w4 - sofZ 384 * cx4 * cy0 * w0 * spow w1 2%nat * spow w4 2%nat + sofZ 50688 * cx4 * cy0 * w0 * w1 * spow w2 2%nat * w4 - sofZ 7680 * cx4 * cy0 * w0 * w1 * w2 * w3 * w4 - sofZ 3456 * cx4 * cy0 * w0 * spow w2 3%nat * w4 - sofZ 38016 * cx4 * cy1 * spow w0 3%nat * w1 * w4 + sofZ 126720 * cx4 * cy1 * spow w0 2%nat * spow w1 2%nat * w4 - sofZ 51840 * cx4 * cy1 * spow w0 2%nat * w1 * w2 * w4 + sofZ 10368 * cx4 * cy1 * spow w0 2%nat * w1 * w3 * w4 - sofZ 768 * cx4 * cy1 * spow w0 2%nat * w1 * spow w4 2%nat - sofZ 92160 * cx4 * cy1 * w0 * spow w1 3%nat * w4 + sofZ 41472 * cx4 * cy1 * w0 * spow w1 2%nat * w2 * w4 - sofZ 6144 * cx4 * cy1 * w0 * spow w1 2%nat * w3 * w4 + sofZ 384 * cx4 * cy1 * w0 * spow w1 2%nat * spow w4 2%nat + sofZ 18432 * cx4 * cy1 * spow w1 3%nat * w2 * w4 - sofZ 1536 * cx4 * cy1 * spow w1 3%nat * w3 * w4 - sofZ 6912 * cx4 * cy1 * spow w1 2%nat * spow w2 2%nat * w4 + sofZ 31680 * cx4 * cy2 * spow w0 3%nat * w2 * w4 - sofZ 109440 * cx4 * cy2 * spow w0 2%nat * w1 * w2 * w4 + sofZ 41472 * cx4 * cy2 * spow w0 2%nat * spow w2 2%nat * w4 - sofZ 5760 * cx4 * cy2 * spow w0 2%nat * w2 * w3 * w4 + sofZ 192 * cx4 * cy2 * spow w0 2%nat * w2 * spow w4 2%nat + sofZ 96768 * cx4 * cy2 * w0 * spow w1 2%nat * w2 * w4 - sofZ 50688 * cx4 * cy2 * w0 * w1 * spow w2 2%nat * w4 + sofZ 3840 * cx4 * cy2 * w0 * w1 * w2 * w3 * w4 + sofZ 3456 * cx4 * cy2 * w0 * spow w2 3%nat * w4 - sofZ 18432 * cx4 * cy2 * spow w1 3%nat * w2 * w4 + sofZ 6912 * cx4 * cy2 * spow w1 2%nat * spow w2 2%nat * w4 - sofZ 5760 * cx4 * cy3 * spow w0 3%nat * w3 * w4 + sofZ 17280 * cx4 * cy3 * spow w0 2%nat * w1 * w3 * w4 - sofZ 4992 * cx4 * cy3 * spow w0 2%nat * w2 * w3 * w4 + sofZ 384 * cx4 * cy3 * spow w0 2%nat * spow w3 2%nat * w4 - sofZ 12288 * cx4 * cy3 * w0 * spow w1 2%nat * w3 * w4 + sofZ 3840 * cx4 * cy3 * w0 * w1 * w2 * w3 * w4 + sofZ 1536 * cx4 * cy3 * spow w1 3%nat * w3 * w4;
     - sofZ 144144 * cx0 * cy1 * spow w0 3%nat * w1 * w2 + sofZ 164736 * cx0 * cy1 * spow w0 3%nat * w1 * w3 - sofZ 44352 * cx0 * cy1 * spow w0 3%nat * w1 * w4 + sofZ 658944 * cx0 * cy1 * spow w0 2%nat * spow w1 2%nat * w2 - sofZ 709632 * cx0 * cy1 * spow w0 2%nat * spow w1 2%nat * w3 + sofZ 177408 * cx0 * cy1 * spow w0 2%nat * spow w1 2%nat * w4 - sofZ 532224 * cx0 * cy1 * spow w0 2%nat * w1 * spow w2 2%nat + sofZ 709632 * cx0 * cy1 * spow w0 2%nat * w1 * w2 * w3 - sofZ 141120 * cx0 * cy1 * spow w0 2%nat * w1 * w2 * w4 - sofZ 161280 * cx0 * cy1 * spow w0 2%nat * w1 * spow w3 2%nat + sofZ 48384 * cx0 * cy1 * spow w0 2%nat * w1 * w3 * w4 - sofZ 2688 * cx0 * cy1 * spow w0 2%nat * w1 * spow w4 2%nat - sofZ 709632 * cx0 * cy1 * w0 * spow w1 3%nat * w2 + sofZ 709632 * cx0 * cy1 * w0 * spow w1 3%nat * w3 - sofZ 161280 * cx0 * cy1 * w0 * spow w1 3%nat * w4 + sofZ 1064448 * cx0 * cy1 * w0 * spow w1 2%nat * spow w2 2%nat - sofZ 1290240 * cx0 * cy1 * w0 * spow w1 2%nat * w2 * w3 + sofZ 225792 * cx0 * cy1 * w0 * spow w1 2%nat * w2 * w4 + sofZ 258048 * cx0 * cy1 * w0 * spow w1 2%nat * spow w3 2%nat - sofZ 64512 * cx0 * cy1 * w0 * spow w1 2%nat * w3 * w4 + sofZ 2688 * cx0 * cy1 * w0 * spow w1 2%nat * spow w4 2%nat - sofZ 362880 * cx0 * cy1 * w0 * w1 * spow w2 3%nat + sofZ 483840 * cx0 * cy1 * w0 * w1 * spow w2 2%nat * w3 - sofZ 64512 * cx0 * cy1 * w0 * w1 * spow w2 2%nat * w4 - sofZ 150528 * cx0 * cy1 * w0 * w1 * w2 * spow w3 2%nat + sofZ 26880 * cx0 * cy1 * w0 * w1 * w2 * w3 * w4 - sofZ 624 * cx0 * cy1 * w0 * w1 * w2 * spow w4 2%nat + sofZ 10752 * cx0 * cy1 * w0 * w1 * spow w3 3%nat - sofZ 1536 * cx0 * cy1 * w0 * w1 * spow w3 2%nat * w4 + sofZ 144144 * cx0 * cy2 * spow w0 3%nat * w1 * w2 - sofZ 133056 * cx0 * cy2 * spow w0 3%nat * w2 * w3 + sofZ 44352 * cx0 * cy2 * spow w0 3%nat * w2 * w4 - sofZ 658944 * cx0 * cy2 * spow w0 2%nat * spow w1 2%nat * w2 + sofZ 532224 * cx0 * cy2 * spow w0 2%nat * w1 * spow w2 2%nat + sofZ 354816 * cx0 * cy2 * spow w0 2%nat * w1 * w2 * w3 - sofZ 141120 * cx0 * cy2 * spow w0 2%nat * w1 * w2 * w4 - sofZ 362880 * cx0 * cy2 * spow w0 2%nat * spow w2 2%nat * w3 + sofZ 96768 * cx0 * cy2 * spow w0 2%nat * spow w2 2%nat * w4 + sofZ 96768 * cx0 * cy2 * spow w0 2%nat * w2 * spow w3 2%nat - sofZ 29568 * cx0 * cy2 * spow w0 2%nat * w2 * w3 * w4 + sofZ 1344 * cx0 * cy2 * spow w0 2%nat * w2 * spow w4 2%nat + sofZ 709632 * cx0 * cy2 * w0 * spow w1 3%nat * w2 - sofZ 1064448 * cx0 * cy2 * w0 * spow w1 2%nat * spow w2 2%nat - sofZ 161280 * cx0 * cy2 * w0 * spow w1 2%nat * w2 * w3 + sofZ 96768 * cx0 * cy2 * w0 * spow w1 2%nat * w2 * w4 + sofZ 362880 * cx0 * cy2 * w0 * w1 * spow w2 3%nat + sofZ 387072 * cx0 * cy2 * w0 * w1 * spow w2 2%nat * w3 - sofZ 112896 * cx0 * cy2 * w0 * w1 * spow w2 2%nat * w4 - sofZ 107520 * cx0 * cy2 * w0 * w1 * w2 * spow w3 2%nat + sofZ 26880 * cx0 * cy2 * w0 * w1 * w2 * w3 * w4 - sofZ 720 * cx0 * cy2 * w0 * w1 * w2 * spow w4 2%nat - sofZ 145152 * cx0 * cy2 * w0 * spow w2 3%nat * w3 + sofZ 24192 * cx0 * cy2 * w0 * spow w2 3%nat * w4 + sofZ 48384 * cx0 * cy2 * w0 * spow w2 2%nat * spow w3 2%nat - sofZ 6336 * cx0 * cy2 * w0 * spow w2 2%nat * w3 * w4 - sofZ 2304 * cx0 * cy2 * w0 * w2 * spow w3 3%nat - sofZ 164736 * cx0 * cy3 * spow w0 3%nat * w1 * w3 + sofZ 133056 * cx0 * cy3 * spow w0 3%nat * w2 * w3 - sofZ 10080 * cx0 * cy3 * spow w0 3%nat * w3 * w4 + sofZ 709632 * cx0 * cy3 * spow w0 2%nat * spow w1 2%nat * w3 - sofZ 1064448 * cx0 * cy3 * spow w0 2%nat * w1 * w2 * w3 + sofZ 161280 * cx0 * cy3 * spow w0 2%nat * w1 * spow w3 2%nat + sofZ 16128 * cx0 * cy3 * spow w0 2%nat * w1 * w3 * w4 + sofZ 362880 * cx0 * cy3 * spow w0 2%nat * spow w2 2%nat * w3 - sofZ 96768 * cx0 * cy3 * spow w0 2%nat * w2 * spow w3 2%nat - sofZ 8064 * cx0 * cy3 * spow w0 2%nat * w2 * w3 * w4 + sofZ 2688 * cx0 * cy3 * spow w0 2%nat * spow w3 2%nat * w4 - sofZ 96 * cx0 * cy3 * spow w0 2%nat * w3 * spow w4 2%nat - sofZ 709632 * cx0 * cy3 * w0 * spow w1 3%nat * w3 + sofZ 1451520 * cx0 * cy3 * w0 * spow w1 2%nat * w2 * w3 - sofZ 258048 * cx0 * cy3 * w0 * spow w1 2%nat * spow w3 2%nat - sofZ 870912 * cx0 * cy3 * w0 * w1 * spow w2 2%nat * w3 + sofZ 258048 * cx0 * cy3 * w0 * w1 * w2 * spow w3 2%nat - sofZ 10752 * cx0 * cy3 * w0 * w1 * spow w3 3%nat - sofZ 768 * cx0 * cy3 * w0 * w1 * spow w3 2%nat * w4 + sofZ 145152 * cx0 * cy3 * w0 * spow w2 3%nat * w3 - sofZ 48384 * cx0 * cy3 * w0 * spow w2 2%nat * spow w3 2%nat + sofZ 2304 * cx0 * cy3 * w0 * w2 * spow w3 3%nat + sofZ 44352 * cx0 * cy4 * spow w0 3%nat * w1 * w4 - sofZ 44352 * cx0 * cy4 * spow w0 3%nat * w2 * w4 + sofZ 10080 * cx0 * cy4 * spow w0 3%nat * w3 * w4 - sofZ 177408 * cx0 * cy4 * spow w0 2%nat * spow w1 2%nat * w4 + sofZ 282240 * cx0 * cy4 * spow w0 2%nat * w1 * w2 * w4 - sofZ 64512 * cx0 * cy4 * spow w0 2%nat * w1 * w3 * w4 + sofZ 2688 * cx0 * cy4 * spow w0 2%nat * w1 * spow w4 2%nat - sofZ 96768 * cx0 * cy4 * spow w0 2%nat * spow w2 2%nat * w4 + sofZ 37632 * cx0 * cy4 * spow w0 2%nat * w2 * w3 * w4 - sofZ 1344 * cx0 * cy4 * spow w0 2%nat * w2 * spow w4 2%nat - sofZ 2688 * cx0 * cy4 * spow w0 2%nat * spow w3 2%nat * w4 + sofZ 96 * cx0 * cy4 * spow w0 2%nat * w3 * spow w4 2%nat + sofZ 161280 * cx0 * cy4 * w0 * spow w1 3%nat * w4 - sofZ 322560 * cx0 * cy4 * w0 * spow w1 2%nat * w2 * w4 + sofZ 64512 * cx0 * cy4 * w0 * spow w1 2%nat * w3 * w4 - sofZ 2688 * cx0 * cy4 * w0 * spow w1 2%nat * spow w4 2%nat + sofZ 177408 * cx0 * cy4 * w0 * w1 * spow w2 2%nat * w4 - sofZ 53760 * cx0 * cy4 * w0 * w1 * w2 * w3 * w4 + sofZ 1344 * cx0 * cy4 * w0 * w1 * w2 * spow w4 2%nat + sofZ 2304 * cx0 * cy4 * w0 * w1 * spow w3 2%nat * w4 - sofZ 24192 * cx0 * cy4 * w0 * spow w2 3%nat * w4 + sofZ 6336 * cx0 * cy4 * w0 * spow w2 2%nat * w3 * w4 + sofZ 144144 * cx1 * cy0 * spow w0 3%nat * w1 * w2 - sofZ 164736 * cx1 * cy0 * spow w0 3%nat * w1 * w3 + sofZ 44352 * cx1 * cy0 * spow w0 3%nat * w1 * w4 - sofZ 658944 * cx1 * cy0 * spow w0 2%nat * spow w1 2%nat * w2 + sofZ 709632 * cx1 * cy0 * spow w0 2%nat * spow w1 2%nat * w3 - sofZ 177408 * cx1 * cy0 * spow w0 2%nat * spow w1 2%nat * w4 + sofZ 532224 * cx1 * cy0 * spow w0 2%nat * w1 * spow w2 2%nat - sofZ 709632 * cx1 * cy0 * spow w0 2%nat * w1 * w2 * w3 + sofZ 141120 * cx1 * cy0 * spow w0 2%nat * w1 * w2 * w4 + sofZ 161280 * cx1 * cy0 * spow w0 2%nat * w1 * spow w3 2%nat - sofZ 48384 * cx1 * cy0 * spow w0 2%nat * w1 * w3 * w4 + sofZ 2688 * cx1 * cy0 * spow w0 2%nat * w1 * spow w4 2%nat + sofZ 709632 * cx1 * cy0 * w0 * spow w1 3%nat * w2 - sofZ 709632 * cx1 * cy0 * w0 * spow w1 3%nat * w3 + sofZ 161280 * cx1 * cy0 * w0 * spow w1 3%nat * w4 - sofZ 1064448 * cx1 * cy0 * w0 * spow w1 2%nat * spow w2 2%nat + sofZ 1290240 * cx1 * cy0 * w0 * spow w1 2%nat * w2 * w3 - sofZ 225792 * cx1 * cy0 * w0 * spow w1 2%nat * w2 * w4 - sofZ 258048 * cx1 * cy0 * w0 * spow w1 2%nat * spow w3 2%nat + sofZ 64512 * cx1 * cy0 * w0 * spow w1 2%nat * w3 * w4 - sofZ 2688 * cx1 * cy0 * w0 * spow w1 2%nat * spow w4 2%nat + sofZ 362880 * cx1 * cy0 * w0 * w1 * spow w2 3%nat - sofZ 483840 * cx1 * cy0 * w0 * w1 * spow w2 2%nat * w3 + sofZ 64512 * cx1 * cy0 * w0 * w1 * spow w2 2%nat * w4 + sofZ 150528 * cx1 * cy0 * w0 * w1 * w2 * spow w3 2%nat - sofZ 26880 * cx1 * cy0 * w0 * w1 * w2 * w3 * w4 + sofZ 624 * cx1 * cy0 * w0 * w1 * w2 * spow w4 2%nat - sofZ 10752 * cx1 * cy0 * w0 * w1 * spow w3 3%nat + sofZ 1536 * cx1 * cy0 * w0 * w1 * spow w3 2%nat * w4 - sofZ 144144 * cx1 * cy2 * spow w0 3%nat * w1 * w2 + sofZ 658944 * cx1 * cy2 * spow w0 2%nat * spow w1 2%nat * w2 - sofZ 532224 * cx1 * cy2 * spow w0 2%nat * w1 * spow w2 2%nat + sofZ 266112 * cx1 * cy2 * spow w0 2%nat * w1 * w2 * w3 - sofZ 50400 * cx1 * cy2 * spow w0 2%nat * w1 * w2 * w4 - sofZ 709632 * cx1 * cy2 * w0 * spow w1 3%nat * w2 + sofZ 1064448 * cx1 * cy2 * w0 * spow w1 2%nat * spow w2 2%nat - sofZ 645120 * cx1 * cy2 * w0 * spow w1 2%nat * w2 * w3 + sofZ 129024 * cx1 * cy2 * w0 * spow w1 2%nat * w2 * w4 - sofZ 362880 * cx1 * cy2 * w0 * w1 * spow w2 3%nat + sofZ 387072 * cx1 * cy2 * w0 * w1 * spow w2 2%nat * w3 - sofZ 64512 * cx1 * cy2 * w0 * w1 * spow w2 2%nat * w4 - sofZ 64512 * cx1 * cy2 * w0 * w1 * w2 * spow w3 2%nat + sofZ 13440 * cx1 * cy2 * w0 * w1 * w2 * w3 * w4 - sofZ 336 * cx1 * cy2 * w0 * w1 * w2 * spow w4 2%nat + sofZ 258048 * cx1 * cy2 * spow w1 3%nat * w2 * w3 - sofZ 64512 * cx1 * cy2 * spow w1 3%nat * w2 * w4 - sofZ 258048 * cx1 * cy2 * spow w1 2%nat * spow w2 2%nat * w3 + sofZ 48384 * cx1 * cy2 * spow w1 2%nat * spow w2 2%nat * w4 + sofZ 43008 * cx1 * cy2 * spow w1 2%nat * w2 * spow w3 2%nat - sofZ 6144 * cx1 * cy2 * spow w1 2%nat * w2 * w3 * w4 + sofZ 48384 * cx1 * cy2 * w1 * spow w2 3%nat * w3 - sofZ 5184 * cx1 * cy2 * w1 * spow w2 3%nat * w4 - sofZ 9216 * cx1 * cy2 * w1 * spow w2 2%nat * spow w3 2%nat + sofZ 164736 * cx1 * cy3 * spow w0 3%nat * w1 * w3 - sofZ 709632 * cx1 * cy3 * spow w0 2%nat * spow w1 2%nat * w3 + sofZ 443520 * cx1 * cy3 * spow w0 2%nat * w1 * w2 * w3 - sofZ 161280 * cx1 * cy3 * spow w0 2%nat * w1 * spow w3 2%nat + sofZ 24192 * cx1 * cy3 * spow w0 2%nat * w1 * w3 * w4 + sofZ 709632 * cx1 * cy3 * w0 * spow w1 3%nat * w3 - sofZ 645120 * cx1 * cy3 * w0 * spow w1 2%nat * w2 * w3 + sofZ 258048 * cx1 * cy3 * w0 * spow w1 2%nat * spow w3 2%nat - sofZ 43008 * cx1 * cy3 * w0 * spow w1 2%nat * w3 * w4 + sofZ 96768 * cx1 * cy3 * w0 * w1 * spow w2 2%nat * w3 - sofZ 86016 * cx1 * cy3 * w0 * w1 * w2 * spow w3 2%nat + sofZ 13440 * cx1 * cy3 * w0 * w1 * w2 * w3 * w4 + sofZ 10752 * cx1 * cy3 * w0 * w1 * spow w3 3%nat - sofZ 1536 * cx1 * cy3 * w0 * w1 * spow w3 2%nat * w4 - sofZ 258048 * cx1 * cy3 * spow w1 3%nat * w2 * w3 + sofZ 10752 * cx1 * cy3 * spow w1 3%nat * w3 * w4 + sofZ 258048 * cx1 * cy3 * spow w1 2%nat * spow w2 2%nat * w3 - sofZ 43008 * cx1 * cy3 * spow w1 2%nat * w2 * spow w3 2%nat - sofZ 3072 * cx1 * cy3 * spow w1 2%nat * w2 * w3 * w4 - sofZ 48384 * cx1 * cy3 * w1 * spow w2 3%nat * w3 + sofZ 9216 * cx1 * cy3 * w1 * spow w2 2%nat * spow w3 2%nat - sofZ 44352 * cx1 * cy4 * spow w0 3%nat * w1 * w4 + sofZ 177408 * cx1 * cy4 * spow w0 2%nat * spow w1 2%nat * w4 - sofZ 90720 * cx1 * cy4 * spow w0 2%nat * w1 * w2 * w4 + sofZ 24192 * cx1 * cy4 * spow w0 2%nat * w1 * w3 * w4 - sofZ 2688 * cx1 * cy4 * spow w0 2%nat * w1 * spow w4 2%nat - sofZ 161280 * cx1 * cy4 * w0 * spow w1 3%nat * w4 + sofZ 96768 * cx1 * cy4 * w0 * spow w1 2%nat * w2 * w4 - sofZ 21504 * cx1 * cy4 * w0 * spow w1 2%nat * w3 * w4 + sofZ 2688 * cx1 * cy4 * w0 * spow w1 2%nat * spow w4 2%nat - sofZ 288 * cx1 * cy4 * w0 * w1 * w2 * spow w4 2%nat + sofZ 64512 * cx1 * cy4 * spow w1 3%nat * w2 * w4 - sofZ 10752 * cx1 * cy4 * spow w1 3%nat * w3 * w4 - sofZ 48384 * cx1 * cy4 * spow w1 2%nat * spow w2 2%nat * w4 + sofZ 9216 * cx1 * cy4 * spow w1 2%nat * w2 * w3 * w4 + sofZ 5184 * cx1 * cy4 * w1 * spow w2 3%nat * w4 - sofZ 144144 * cx2 * cy0 * spow w0 3%nat * w1 * w2 + sofZ 133056 * cx2 * cy0 * spow w0 3%nat * w2 * w3 - sofZ 44352 * cx2 * cy0 * spow w0 3%nat * w2 * w4 + sofZ 658944 * cx2 * cy0 * spow w0 2%nat * spow w1 2%nat * w2 - sofZ 532224 * cx2 * cy0 * spow w0 2%nat * w1 * spow w2 2%nat - sofZ 354816 * cx2 * cy0 * spow w0 2%nat * w1 * w2 * w3 + sofZ 141120 * cx2 * cy0 * spow w0 2%nat * w1 * w2 * w4 + sofZ 362880 * cx2 * cy0 * spow w0 2%nat * spow w2 2%nat * w3 - sofZ 96768 * cx2 * cy0 * spow w0 2%nat * spow w2 2%nat * w4 - sofZ 96768 * cx2 * cy0 * spow w0 2%nat * w2 * spow w3 2%nat + sofZ 29568 * cx2 * cy0 * spow w0 2%nat * w2 * w3 * w4 - sofZ 1344 * cx2 * cy0 * spow w0 2%nat * w2 * spow w4 2%nat - sofZ 709632 * cx2 * cy0 * w0 * spow w1 3%nat * w2 + sofZ 1064448 * cx2 * cy0 * w0 * spow w1 2%nat * spow w2 2%nat + sofZ 161280 * cx2 * cy0 * w0 * spow w1 2%nat * w2 * w3 - sofZ 96768 * cx2 * cy0 * w0 * spow w1 2%nat * w2 * w4 - sofZ 362880 * cx2 * cy0 * w0 * w1 * spow w2 3%nat - sofZ 387072 * cx2 * cy0 * w0 * w1 * spow w2 2%nat * w3 + sofZ 112896 * cx2 * cy0 * w0 * w1 * spow w2 2%nat * w4 + sofZ 107520 * cx2 * cy0 * w0 * w1 * w2 * spow w3 2%nat - sofZ 26880 * cx2 * cy0 * w0 * w1 * w2 * w3 * w4 + sofZ 720 * cx2 * cy0 * w0 * w1 * w2 * spow w4 2%nat + sofZ 145152 * cx2 * cy0 * w0 * spow w2 3%nat * w3 - sofZ 24192 * cx2 * cy0 * w0 * spow w2 3%nat * w4 - sofZ 48384 * cx2 * cy0 * w0 * spow w2 2%nat * spow w3 2%nat + sofZ 6336 * cx2 * cy0 * w0 * spow w2 2%nat * w3 * w4 + sofZ 2304 * cx2 * cy0 * w0 * w2 * spow w3 3%nat + sofZ 144144 * cx2 * cy1 * spow w0 3%nat * w1 * w2 - sofZ 658944 * cx2 * cy1 * spow w0 2%nat * spow w1 2%nat * w2 + sofZ 532224 * cx2 * cy1 * spow w0 2%nat * w1 * spow w2 2%nat - sofZ 266112 * cx2 * cy1 * spow w0 2%nat * w1 * w2 * w3 + sofZ 50400 * cx2 * cy1 * spow w0 2%nat * w1 * w2 * w4 + sofZ 709632 * cx2 * cy1 * w0 * spow w1 3%nat * w2 - sofZ 1064448 * cx2 * cy1 * w0 * spow w1 2%nat * spow w2 2%nat + sofZ 645120 * cx2 * cy1 * w0 * spow w1 2%nat * w2 * w3 - sofZ 129024 * cx2 * cy1 * w0 * spow w1 2%nat * w2 * w4 + sofZ 362880 * cx2 * cy1 * w0 * w1 * spow w2 3%nat - sofZ 387072 * cx2 * cy1 * w0 * w1 * spow w2 2%nat * w3 + sofZ 64512 * cx2 * cy1 * w0 * w1 * spow w2 2%nat * w4 + sofZ 64512 * cx2 * cy1 * w0 * w1 * w2 * spow w3 2%nat - sofZ 13440 * cx2 * cy1 * w0 * w1 * w2 * w3 * w4 + sofZ 336 * cx2 * cy1 * w0 * w1 * w2 * spow w4 2%nat - sofZ 258048 * cx2 * cy1 * spow w1 3%nat * w2 * w3 + sofZ 64512 * cx2 * cy1 * spow w1 3%nat * w2 * w4 + sofZ 258048 * cx2 * cy1 * spow w1 2%nat * spow w2 2%nat * w3 - sofZ 48384 * cx2 * cy1 * spow w1 2%nat * spow w2 2%nat * w4 - sofZ 43008 * cx2 * cy1 * spow w1 2%nat * w2 * spow w3 2%nat + sofZ 6144 * cx2 * cy1 * spow w1 2%nat * w2 * w3 * w4 - sofZ 48384 * cx2 * cy1 * w1 * spow w2 3%nat * w3 + sofZ 5184 * cx2 * cy1 * w1 * spow w2 3%nat * w4 + sofZ 9216 * cx2 * cy1 * w1 * spow w2 2%nat * spow w3 2%nat - sofZ 133056 * cx2 * cy3 * spow w0 3%nat * w2 * w3 + sofZ 620928 * cx2 * cy3 * spow w0 2%nat * w1 * w2 * w3 - sofZ 362880 * cx2 * cy3 * spow w0 2%nat * spow w2 2%nat * w3 + sofZ 96768 * cx2 * cy3 * spow w0 2%nat * w2 * spow w3 2%nat - sofZ 9408 * cx2 * cy3 * spow w0 2%nat * w2 * w3 * w4 - sofZ 806400 * cx2 * cy3 * w0 * spow w1 2%nat * w2 * w3 + sofZ 774144 * cx2 * cy3 * w0 * w1 * spow w2 2%nat * w3 - sofZ 172032 * cx2 * cy3 * w0 * w1 * w2 * spow w3 2%nat + sofZ 13440 * cx2 * cy3 * w0 * w1 * w2 * w3 * w4 - sofZ 145152 * cx2 * cy3 * w0 * spow w2 3%nat * w3 + sofZ 48384 * cx2 * cy3 * w0 * spow w2 2%nat * spow w3 2%nat - sofZ 2304 * cx2 * cy3 * w0 * spow w2 2%nat * w3 * w4 - sofZ 2304 * cx2 * cy3 * w0 * w2 * spow w3 3%nat + sofZ 258048 * cx2 * cy3 * spow w1 3%nat * w2 * w3 - sofZ 258048 * cx2 * cy3 * spow w1 2%nat * spow w2 2%nat * w3 + sofZ 43008 * cx2 * cy3 * spow w1 2%nat * w2 * spow w3 2%nat - sofZ 2304 * cx2 * cy3 * spow w1 2%nat * w2 * w3 * w4 + sofZ 48384 * cx2 * cy3 * w1 * spow w2 3%nat * w3 - sofZ 9216 * cx2 * cy3 * w1 * spow w2 2%nat * spow w3 2%nat + sofZ 44352 * cx2 * cy4 * spow w0 3%nat * w2 * w4 - sofZ 191520 * cx2 * cy4 * spow w0 2%nat * w1 * w2 * w4 + sofZ 96768 * cx2 * cy4 * spow w0 2%nat * spow w2 2%nat * w4 - sofZ 20160 * cx2 * cy4 * spow w0 2%nat * w2 * w3 * w4 + sofZ 1344 * cx2 * cy4 * spow w0 2%nat * w2 * spow w4 2%nat + sofZ 225792 * cx2 * cy4 * w0 * spow w1 2%nat * w2 * w4 - sofZ 177408 * cx2 * cy4 * w0 * w1 * spow w2 2%nat * w4 + sofZ 26880 * cx2 * cy4 * w0 * w1 * w2 * w3 * w4 - sofZ 1056 * cx2 * cy4 * w0 * w1 * w2 * spow w4 2%nat + sofZ 24192 * cx2 * cy4 * w0 * spow w2 3%nat * w4 - sofZ 4032 * cx2 * cy4 * w0 * spow w2 2%nat * w3 * w4 - sofZ 64512 * cx2 * cy4 * spow w1 3%nat * w2 * w4 + sofZ 48384 * cx2 * cy4 * spow w1 2%nat * spow w2 2%nat * w4 - sofZ 3840 * cx2 * cy4 * spow w1 2%nat * w2 * w3 * w4 - sofZ 5184 * cx2 * cy4 * w1 * spow w2 3%nat * w4 + sofZ 164736 * cx3 * cy0 * spow w0 3%nat * w1 * w3 - sofZ 133056 * cx3 * cy0 * spow w0 3%nat * w2 * w3 + sofZ 10080 * cx3 * cy0 * spow w0 3%nat * w3 * w4 - sofZ 709632 * cx3 * cy0 * spow w0 2%nat * spow w1 2%nat * w3 + sofZ 1064448 * cx3 * cy0 * spow w0 2%nat * w1 * w2 * w3 - sofZ 161280 * cx3 * cy0 * spow w0 2%nat * w1 * spow w3 2%nat - sofZ 16128 * cx3 * cy0 * spow w0 2%nat * w1 * w3 * w4 - sofZ 362880 * cx3 * cy0 * spow w0 2%nat * spow w2 2%nat * w3 + sofZ 96768 * cx3 * cy0 * spow w0 2%nat * w2 * spow w3 2%nat + sofZ 8064 * cx3 * cy0 * spow w0 2%nat * w2 * w3 * w4 - sofZ 2688 * cx3 * cy0 * spow w0 2%nat * spow w3 2%nat * w4 + sofZ 96 * cx3 * cy0 * spow w0 2%nat * w3 * spow w4 2%nat + sofZ 709632 * cx3 * cy0 * w0 * spow w1 3%nat * w3 - sofZ 1451520 * cx3 * cy0 * w0 * spow w1 2%nat * w2 * w3 + sofZ 258048 * cx3 * cy0 * w0 * spow w1 2%nat * spow w3 2%nat + sofZ 870912 * cx3 * cy0 * w0 * w1 * spow w2 2%nat * w3 - sofZ 258048 * cx3 * cy0 * w0 * w1 * w2 * spow w3 2%nat + sofZ 10752 * cx3 * cy0 * w0 * w1 * spow w3 3%nat + sofZ 768 * cx3 * cy0 * w0 * w1 * spow w3 2%nat * w4 - sofZ 145152 * cx3 * cy0 * w0 * spow w2 3%nat * w3 + sofZ 48384 * cx3 * cy0 * w0 * spow w2 2%nat * spow w3 2%nat - sofZ 2304 * cx3 * cy0 * w0 * w2 * spow w3 3%nat - sofZ 164736 * cx3 * cy1 * spow w0 3%nat * w1 * w3 + sofZ 709632 * cx3 * cy1 * spow w0 2%nat * spow w1 2%nat * w3 - sofZ 443520 * cx3 * cy1 * spow w0 2%nat * w1 * w2 * w3 + sofZ 161280 * cx3 * cy1 * spow w0 2%nat * w1 * spow w3 2%nat - sofZ 24192 * cx3 * cy1 * spow w0 2%nat * w1 * w3 * w4 - sofZ 709632 * cx3 * cy1 * w0 * spow w1 3%nat * w3 + sofZ 645120 * cx3 * cy1 * w0 * spow w1 2%nat * w2 * w3 - sofZ 258048 * cx3 * cy1 * w0 * spow w1 2%nat * spow w3 2%nat + sofZ 43008 * cx3 * cy1 * w0 * spow w1 2%nat * w3 * w4 - sofZ 96768 * cx3 * cy1 * w0 * w1 * spow w2 2%nat * w3 + sofZ 86016 * cx3 * cy1 * w0 * w1 * w2 * spow w3 2%nat - sofZ 13440 * cx3 * cy1 * w0 * w1 * w2 * w3 * w4 - sofZ 10752 * cx3 * cy1 * w0 * w1 * spow w3 3%nat + sofZ 1536 * cx3 * cy1 * w0 * w1 * spow w3 2%nat * w4 + sofZ 258048 * cx3 * cy1 * spow w1 3%nat * w2 * w3 - sofZ 10752 * cx3 * cy1 * spow w1 3%nat * w3 * w4 - sofZ 258048 * cx3 * cy1 * spow w1 2%nat * spow w2 2%nat * w3 + sofZ 43008 * cx3 * cy1 * spow w1 2%nat * w2 * spow w3 2%nat + sofZ 3072 * cx3 * cy1 * spow w1 2%nat * w2 * w3 * w4 + sofZ 48384 * cx3 * cy1 * w1 * spow w2 3%nat * w3 - sofZ 9216 * cx3 * cy1 * w1 * spow w2 2%nat * spow w3 2%nat + sofZ 133056 * cx3 * cy2 * spow w0 3%nat * w2 * w3 - sofZ 620928 * cx3 * cy2 * spow w0 2%nat * w1 * w2 * w3 + sofZ 362880 * cx3 * cy2 * spow w0 2%nat * spow w2 2%nat * w3 - sofZ 96768 * cx3 * cy2 * spow w0 2%nat * w2 * spow w3 2%nat + sofZ 9408 * cx3 * cy2 * spow w0 2%nat * w2 * w3 * w4 + sofZ 806400 * cx3 * cy2 * w0 * spow w1 2%nat * w2 * w3 - sofZ 774144 * cx3 * cy2 * w0 * w1 * spow w2 2%nat * w3 + sofZ 172032 * cx3 * cy2 * w0 * w1 * w2 * spow w3 2%nat - sofZ 13440 * cx3 * cy2 * w0 * w1 * w2 * w3 * w4 + sofZ 145152 * cx3 * cy2 * w0 * spow w2 3%nat * w3 - sofZ 48384 * cx3 * cy2 * w0 * spow w2 2%nat * spow w3 2%nat + sofZ 2304 * cx3 * cy2 * w0 * spow w2 2%nat * w3 * w4 + sofZ 2304 * cx3 * cy2 * w0 * w2 * spow w3 3%nat - sofZ 258048 * cx3 * cy2 * spow w1 3%nat * w2 * w3 + sofZ 258048 * cx3 * cy2 * spow w1 2%nat * spow w2 2%nat * w3 - sofZ 43008 * cx3 * cy2 * spow w1 2%nat * w2 * spow w3 2%nat + sofZ 2304 * cx3 * cy2 * spow w1 2%nat * w2 * w3 * w4 - sofZ 48384 * cx3 * cy2 * w1 * spow w2 3%nat * w3 + sofZ 9216 * cx3 * cy2 * w1 * spow w2 2%nat * spow w3 2%nat - sofZ 10080 * cx3 * cy4 * spow w0 3%nat * w3 * w4 + sofZ 40320 * cx3 * cy4 * spow w0 2%nat * w1 * w3 * w4 - sofZ 17472 * cx3 * cy4 * spow w0 2%nat * w2 * w3 * w4 + sofZ 2688 * cx3 * cy4 * spow w0 2%nat * spow w3 2%nat * w4 - sofZ 96 * cx3 * cy4 * spow w0 2%nat * w3 * spow w4 2%nat - sofZ 43008 * cx3 * cy4 * w0 * spow w1 2%nat * w3 * w4 + sofZ 26880 * cx3 * cy4 * w0 * w1 * w2 * w3 * w4 - sofZ 2304 * cx3 * cy4 * w0 * w1 * spow w3 2%nat * w4 - sofZ 2304 * cx3 * cy4 * w0 * spow w2 2%nat * w3 * w4 + sofZ 10752 * cx3 * cy4 * spow w1 3%nat * w3 * w4 - sofZ 5376 * cx3 * cy4 * spow w1 2%nat * w2 * w3 * w4 - sofZ 44352 * cx4 * cy0 * spow w0 3%nat * w1 * w4 + sofZ 44352 * cx4 * cy0 * spow w0 3%nat * w2 * w4 - sofZ 10080 * cx4 * cy0 * spow w0 3%nat * w3 * w4 + sofZ 177408 * cx4 * cy0 * spow w0 2%nat * spow w1 2%nat * w4 - sofZ 282240 * cx4 * cy0 * spow w0 2%nat * w1 * w2 * w4 + sofZ 64512 * cx4 * cy0 * spow w0 2%nat * w1 * w3 * w4 - sofZ 2688 * cx4 * cy0 * spow w0 2%nat * w1 * spow w4 2%nat + sofZ 96768 * cx4 * cy0 * spow w0 2%nat * spow w2 2%nat * w4 - sofZ 37632 * cx4 * cy0 * spow w0 2%nat * w2 * w3 * w4 + sofZ 1344 * cx4 * cy0 * spow w0 2%nat * w2 * spow w4 2%nat + sofZ 2688 * cx4 * cy0 * spow w0 2%nat * spow w3 2%nat * w4 - sofZ 96 * cx4 * cy0 * spow w0 2%nat * w3 * spow w4 2%nat - sofZ 161280 * cx4 * cy0 * w0 * spow w1 3%nat * w4 + sofZ 322560 * cx4 * cy0 * w0 * spow w1 2%nat * w2 * w4 - sofZ 64512 * cx4 * cy0 * w0 * spow w1 2%nat * w3 * w4 + sofZ 2688 * cx4 * cy0 * w0 * spow w1 2%nat * spow w4 2%nat - sofZ 177408 * cx4 * cy0 * w0 * w1 * spow w2 2%nat * w4 + sofZ 53760 * cx4 * cy0 * w0 * w1 * w2 * w3 * w4 - sofZ 1344 * cx4 * cy0 * w0 * w1 * w2 * spow w4 2%nat - sofZ 2304 * cx4 * cy0 * w0 * w1 * spow w3 2%nat * w4 + sofZ 24192 * cx4 * cy0 * w0 * spow w2 3%nat * w4 - sofZ 6336 * cx4 * cy0 * w0 * spow w2 2%nat * w3 * w4 + sofZ 44352 * cx4 * cy1 * spow w0 3%nat * w1 * w4 - sofZ 177408 * cx4 * cy1 * spow w0 2%nat * spow w1 2%nat * w4 + sofZ 90720 * cx4 * cy1 * spow w0 2%nat * w1 * w2 * w4 - sofZ 24192 * cx4 * cy1 * spow w0 2%nat * w1 * w3 * w4 + sofZ 2688 * cx4 * cy1 * spow w0 2%nat * w1 * spow w4 2%nat + sofZ 161280 * cx4 * cy1 * w0 * spow w1 3%nat * w4 - sofZ 96768 * cx4 * cy1 * w0 * spow w1 2%nat * w2 * w4 + sofZ 21504 * cx4 * cy1 * w0 * spow w1 2%nat * w3 * w4 - sofZ 2688 * cx4 * cy1 * w0 * spow w1 2%nat * spow w4 2%nat + sofZ 288 * cx4 * cy1 * w0 * w1 * w2 * spow w4 2%nat - sofZ 64512 * cx4 * cy1 * spow w1 3%nat * w2 * w4 + sofZ 10752 * cx4 * cy1 * spow w1 3%nat * w3 * w4 + sofZ 48384 * cx4 * cy1 * spow w1 2%nat * spow w2 2%nat * w4 - sofZ 9216 * cx4 * cy1 * spow w1 2%nat * w2 * w3 * w4 - sofZ 5184 * cx4 * cy1 * w1 * spow w2 3%nat * w4 - sofZ 44352 * cx4 * cy2 * spow w0 3%nat * w2 * w4 + sofZ 191520 * cx4 * cy2 * spow w0 2%nat * w1 * w2 * w4 - sofZ 96768 * cx4 * cy2 * spow w0 2%nat * spow w2 2%nat * w4 + sofZ 20160 * cx4 * cy2 * spow w0 2%nat * w2 * w3 * w4 - sofZ 1344 * cx4 * cy2 * spow w0 2%nat * w2 * spow w4 2%nat - sofZ 225792 * cx4 * cy2 * w0 * spow w1 2%nat * w2 * w4 + sofZ 177408 * cx4 * cy2 * w0 * w1 * spow w2 2%nat * w4 - sofZ 26880 * cx4 * cy2 * w0 * w1 * w2 * w3 * w4 + sofZ 1056 * cx4 * cy2 * w0 * w1 * w2 * spow w4 2%nat - sofZ 24192 * cx4 * cy2 * w0 * spow w2 3%nat * w4 + sofZ 4032 * cx4 * cy2 * w0 * spow w2 2%nat * w3 * w4 + sofZ 64512 * cx4 * cy2 * spow w1 3%nat * w2 * w4 - sofZ 48384 * cx4 * cy2 * spow w1 2%nat * spow w2 2%nat * w4 + sofZ 3840 * cx4 * cy2 * spow w1 2%nat * w2 * w3 * w4 + sofZ 5184 * cx4 * cy2 * w1 * spow w2 3%nat * w4 + sofZ 10080 * cx4 * cy3 * spow w0 3%nat * w3 * w4 - sofZ 40320 * cx4 * cy3 * spow w0 2%nat * w1 * w3 * w4 + sofZ 17472 * cx4 * cy3 * spow w0 2%nat * w2 * w3 * w4 - sofZ 2688 * cx4 * cy3 * spow w0 2%nat * spow w3 2%nat * w4 + sofZ 96 * cx4 * cy3 * spow w0 2%nat * w3 * spow w4 2%nat + sofZ 43008 * cx4 * cy3 * w0 * spow w1 2%nat * w3 * w4 - sofZ 26880 * cx4 * cy3 * w0 * w1 * w2 * w3 * w4 + sofZ 2304 * cx4 * cy3 * w0 * w1 * spow w3 2%nat * w4 + sofZ 2304 * cx4 * cy3 * w0 * spow w2 2%nat * w3 * w4 - sofZ 10752 * cx4 * cy3 * spow w1 3%nat * w3 * w4 + sofZ 5376 * cx4 * cy3 * spow w1 2%nat * w2 * w3 * w4;
     sofZ 96096 * cx0 * cy1 * spow w0 3%nat * w1 * w2 - sofZ 123552 * cx0 * cy1 * spow w0 3%nat * w1 * w3 + sofZ 38016 * cx0 * cy1 * spow w0 3%nat * w1 * w4 - sofZ 494208 * cx0 * cy1 * spow w0 2%nat * spow w1 2%nat * w2 + sofZ 608256 * cx0 * cy1 * spow w0 2%nat * spow w1 2%nat * w3 - sofZ 177408 * cx0 * cy1 * spow w0 2%nat * spow w1 2%nat * w4 + sofZ 456192 * cx0 * cy1 * spow w0 2%nat * w1 * spow w2 2%nat - sofZ 709632 * cx0 * cy1 * spow w0 2%nat * w1 * w2 * w3 + sofZ 169344 * cx0 * cy1 * spow w0 2%nat * w1 * w2 * w4 + sofZ 193536 * cx0 * cy1 * spow w0 2%nat * w1 * spow w3 2%nat - sofZ 72576 * cx0 * cy1 * spow w0 2%nat * w1 * w3 * w4 + sofZ 5376 * cx0 * cy1 * spow w0 2%nat * w1 * spow w4 2%nat + sofZ 608256 * cx0 * cy1 * w0 * spow w1 3%nat * w2 - sofZ 709632 * cx0 * cy1 * w0 * spow w1 3%nat * w3 + sofZ 193536 * cx0 * cy1 * w0 * spow w1 3%nat * w4 - sofZ 1064448 * cx0 * cy1 * w0 * spow w1 2%nat * spow w2 2%nat + sofZ 1548288 * cx0 * cy1 * w0 * spow w1 2%nat * w2 * w3 - sofZ 338688 * cx0 * cy1 * w0 * spow w1 2%nat * w2 * w4 - sofZ 387072 * cx0 * cy1 * w0 * spow w1 2%nat * spow w3 2%nat + sofZ 129024 * cx0 * cy1 * w0 * spow w1 2%nat * w3 * w4 - sofZ 8064 * cx0 * cy1 * w0 * spow w1 2%nat * spow w4 2%nat + sofZ 435456 * cx0 * cy1 * w0 * w1 * spow w2 3%nat - sofZ 725760 * cx0 * cy1 * w0 * w1 * spow w2 2%nat * w3 + sofZ 129024 * cx0 * cy1 * w0 * w1 * spow w2 2%nat * w4 + sofZ 301056 * cx0 * cy1 * w0 * w1 * w2 * spow w3 2%nat - sofZ 80640 * cx0 * cy1 * w0 * w1 * w2 * w3 * w4 + sofZ 3744 * cx0 * cy1 * w0 * w1 * w2 * spow w4 2%nat - sofZ 32256 * cx0 * cy1 * w0 * w1 * spow w3 3%nat + sofZ 9216 * cx0 * cy1 * w0 * w1 * spow w3 2%nat * w4 - sofZ 480 * cx0 * cy1 * w0 * w1 * w3 * spow w4 2%nat - sofZ 96096 * cx0 * cy2 * spow w0 3%nat * w1 * w2 + sofZ 114048 * cx0 * cy2 * spow w0 3%nat * w2 * w3 - sofZ 44352 * cx0 * cy2 * spow w0 3%nat * w2 * w4 + sofZ 494208 * cx0 * cy2 * spow w0 2%nat * spow w1 2%nat * w2 - sofZ 456192 * cx0 * cy2 * spow w0 2%nat * w1 * spow w2 2%nat - sofZ 354816 * cx0 * cy2 * spow w0 2%nat * w1 * w2 * w3 + sofZ 169344 * cx0 * cy2 * spow w0 2%nat * w1 * w2 * w4 + sofZ 435456 * cx0 * cy2 * spow w0 2%nat * spow w2 2%nat * w3 - sofZ 145152 * cx0 * cy2 * spow w0 2%nat * spow w2 2%nat * w4 - sofZ 145152 * cx0 * cy2 * spow w0 2%nat * w2 * spow w3 2%nat + sofZ 59136 * cx0 * cy2 * spow w0 2%nat * w2 * w3 * w4 - sofZ 4032 * cx0 * cy2 * spow w0 2%nat * w2 * spow w4 2%nat - sofZ 608256 * cx0 * cy2 * w0 * spow w1 3%nat * w2 + sofZ 1064448 * cx0 * cy2 * w0 * spow w1 2%nat * spow w2 2%nat + sofZ 193536 * cx0 * cy2 * w0 * spow w1 2%nat * w2 * w3 - sofZ 145152 * cx0 * cy2 * w0 * spow w1 2%nat * w2 * w4 - sofZ 435456 * cx0 * cy2 * w0 * w1 * spow w2 3%nat - sofZ 580608 * cx0 * cy2 * w0 * w1 * spow w2 2%nat * w3 + sofZ 225792 * cx0 * cy2 * w0 * w1 * spow w2 2%nat * w4 + sofZ 215040 * cx0 * cy2 * w0 * w1 * w2 * spow w3 2%nat - sofZ 80640 * cx0 * cy2 * w0 * w1 * w2 * w3 * w4 + sofZ 4320 * cx0 * cy2 * w0 * w1 * w2 * spow w4 2%nat + sofZ 290304 * cx0 * cy2 * w0 * spow w2 3%nat * w3 - sofZ 72576 * cx0 * cy2 * w0 * spow w2 3%nat * w4 - sofZ 145152 * cx0 * cy2 * w0 * spow w2 2%nat * spow w3 2%nat + sofZ 38016 * cx0 * cy2 * w0 * spow w2 2%nat * w3 * w4 - sofZ 1152 * cx0 * cy2 * w0 * spow w2 2%nat * spow w4 2%nat + sofZ 13824 * cx0 * cy2 * w0 * w2 * spow w3 3%nat - sofZ 2688 * cx0 * cy2 * w0 * w2 * spow w3 2%nat * w4 + sofZ 123552 * cx0 * cy3 * spow w0 3%nat * w1 * w3 - sofZ 114048 * cx0 * cy3 * spow w0 3%nat * w2 * w3 + sofZ 12096 * cx0 * cy3 * spow w0 3%nat * w3 * w4 - sofZ 608256 * cx0 * cy3 * spow w0 2%nat * spow w1 2%nat * w3 + sofZ 1064448 * cx0 * cy3 * spow w0 2%nat * w1 * w2 * w3 - sofZ 193536 * cx0 * cy3 * spow w0 2%nat * w1 * spow w3 2%nat - sofZ 24192 * cx0 * cy3 * spow w0 2%nat * w1 * w3 * w4 - sofZ 435456 * cx0 * cy3 * spow w0 2%nat * spow w2 2%nat * w3 + sofZ 145152 * cx0 * cy3 * spow w0 2%nat * w2 * spow w3 2%nat + sofZ 16128 * cx0 * cy3 * spow w0 2%nat * w2 * w3 * w4 - sofZ 8064 * cx0 * cy3 * spow w0 2%nat * spow w3 2%nat * w4 + sofZ 576 * cx0 * cy3 * spow w0 2%nat * w3 * spow w4 2%nat + sofZ 709632 * cx0 * cy3 * w0 * spow w1 3%nat * w3 - sofZ 1741824 * cx0 * cy3 * w0 * spow w1 2%nat * w2 * w3 + sofZ 387072 * cx0 * cy3 * w0 * spow w1 2%nat * spow w3 2%nat + sofZ 1306368 * cx0 * cy3 * w0 * w1 * spow w2 2%nat * w3 - sofZ 516096 * cx0 * cy3 * w0 * w1 * w2 * spow w3 2%nat + sofZ 32256 * cx0 * cy3 * w0 * w1 * spow w3 3%nat + sofZ 4608 * cx0 * cy3 * w0 * w1 * spow w3 2%nat * w4 - sofZ 288 * cx0 * cy3 * w0 * w1 * w3 * spow w4 2%nat - sofZ 290304 * cx0 * cy3 * w0 * spow w2 3%nat * w3 + sofZ 145152 * cx0 * cy3 * w0 * spow w2 2%nat * spow w3 2%nat - sofZ 13824 * cx0 * cy3 * w0 * w2 * spow w3 3%nat - sofZ 1152 * cx0 * cy3 * w0 * w2 * spow w3 2%nat * w4 - sofZ 38016 * cx0 * cy4 * spow w0 3%nat * w1 * w4 + sofZ 44352 * cx0 * cy4 * spow w0 3%nat * w2 * w4 - sofZ 12096 * cx0 * cy4 * spow w0 3%nat * w3 * w4 + sofZ 177408 * cx0 * cy4 * spow w0 2%nat * spow w1 2%nat * w4 - sofZ 338688 * cx0 * cy4 * spow w0 2%nat * w1 * w2 * w4 + sofZ 96768 * cx0 * cy4 * spow w0 2%nat * w1 * w3 * w4 - sofZ 5376 * cx0 * cy4 * spow w0 2%nat * w1 * spow w4 2%nat + sofZ 145152 * cx0 * cy4 * spow w0 2%nat * spow w2 2%nat * w4 - sofZ 75264 * cx0 * cy4 * spow w0 2%nat * w2 * w3 * w4 + sofZ 4032 * cx0 * cy4 * spow w0 2%nat * w2 * spow w4 2%nat + sofZ 8064 * cx0 * cy4 * spow w0 2%nat * spow w3 2%nat * w4 - sofZ 576 * cx0 * cy4 * spow w0 2%nat * w3 * spow w4 2%nat - sofZ 193536 * cx0 * cy4 * w0 * spow w1 3%nat * w4 + sofZ 483840 * cx0 * cy4 * w0 * spow w1 2%nat * w2 * w4 - sofZ 129024 * cx0 * cy4 * w0 * spow w1 2%nat * w3 * w4 + sofZ 8064 * cx0 * cy4 * w0 * spow w1 2%nat * spow w4 2%nat - sofZ 354816 * cx0 * cy4 * w0 * w1 * spow w2 2%nat * w4 + sofZ 161280 * cx0 * cy4 * w0 * w1 * w2 * w3 * w4 - sofZ 8064 * cx0 * cy4 * w0 * w1 * w2 * spow w4 2%nat - sofZ 13824 * cx0 * cy4 * w0 * w1 * spow w3 2%nat * w4 + sofZ 768 * cx0 * cy4 * w0 * w1 * w3 * spow w4 2%nat + sofZ 72576 * cx0 * cy4 * w0 * spow w2 3%nat * w4 - sofZ 38016 * cx0 * cy4 * w0 * spow w2 2%nat * w3 * w4 + sofZ 1152 * cx0 * cy4 * w0 * spow w2 2%nat * spow w4 2%nat + sofZ 3840 * cx0 * cy4 * w0 * w2 * spow w3 2%nat * w4 - sofZ 96096 * cx1 * cy0 * spow w0 3%nat * w1 * w2 + sofZ 123552 * cx1 * cy0 * spow w0 3%nat * w1 * w3 - sofZ 38016 * cx1 * cy0 * spow w0 3%nat * w1 * w4 + sofZ 494208 * cx1 * cy0 * spow w0 2%nat * spow w1 2%nat * w2 - sofZ 608256 * cx1 * cy0 * spow w0 2%nat * spow w1 2%nat * w3 + sofZ 177408 * cx1 * cy0 * spow w0 2%nat * spow w1 2%nat * w4 - sofZ 456192 * cx1 * cy0 * spow w0 2%nat * w1 * spow w2 2%nat + sofZ 709632 * cx1 * cy0 * spow w0 2%nat * w1 * w2 * w3 - sofZ 169344 * cx1 * cy0 * spow w0 2%nat * w1 * w2 * w4 - sofZ 193536 * cx1 * cy0 * spow w0 2%nat * w1 * spow w3 2%nat + sofZ 72576 * cx1 * cy0 * spow w0 2%nat * w1 * w3 * w4 - sofZ 5376 * cx1 * cy0 * spow w0 2%nat * w1 * spow w4 2%nat - sofZ 608256 * cx1 * cy0 * w0 * spow w1 3%nat * w2 + sofZ 709632 * cx1 * cy0 * w0 * spow w1 3%nat * w3 - sofZ 193536 * cx1 * cy0 * w0 * spow w1 3%nat * w4 + sofZ 1064448 * cx1 * cy0 * w0 * spow w1 2%nat * spow w2 2%nat - sofZ 1548288 * cx1 * cy0 * w0 * spow w1 2%nat * w2 * w3 + sofZ 338688 * cx1 * cy0 * w0 * spow w1 2%nat * w2 * w4 + sofZ 387072 * cx1 * cy0 * w0 * spow w1 2%nat * spow w3 2%nat - sofZ 129024 * cx1 * cy0 * w0 * spow w1 2%nat * w3 * w4 + sofZ 8064 * cx1 * cy0 * w0 * spow w1 2%nat * spow w4 2%nat - sofZ 435456 * cx1 * cy0 * w0 * w1 * spow w2 3%nat + sofZ 725760 * cx1 * cy0 * w0 * w1 * spow w2 2%nat * w3 - sofZ 129024 * cx1 * cy0 * w0 * w1 * spow w2 2%nat * w4 - sofZ 301056 * cx1 * cy0 * w0 * w1 * w2 * spow w3 2%nat + sofZ 80640 * cx1 * cy0 * w0 * w1 * w2 * w3 * w4 - sofZ 3744 * cx1 * cy0 * w0 * w1 * w2 * spow w4 2%nat + sofZ 32256 * cx1 * cy0 * w0 * w1 * spow w3 3%nat - sofZ 9216 * cx1 * cy0 * w0 * w1 * spow w3 2%nat * w4 + sofZ 480 * cx1 * cy0 * w0 * w1 * w3 * spow w4 2%nat + sofZ 96096 * cx1 * cy2 * spow w0 3%nat * w1 * w2 - sofZ 494208 * cx1 * cy2 * spow w0 2%nat * spow w1 2%nat * w2 + sofZ 456192 * cx1 * cy2 * spow w0 2%nat * w1 * spow w2 2%nat - sofZ 266112 * cx1 * cy2 * spow w0 2%nat * w1 * w2 * w3 + sofZ 60480 * cx1 * cy2 * spow w0 2%nat * w1 * w2 * w4 + sofZ 608256 * cx1 * cy2 * w0 * spow w1 3%nat * w2 - sofZ 1064448 * cx1 * cy2 * w0 * spow w1 2%nat * spow w2 2%nat + sofZ 774144 * cx1 * cy2 * w0 * spow w1 2%nat * w2 * w3 - sofZ 193536 * cx1 * cy2 * w0 * spow w1 2%nat * w2 * w4 + sofZ 435456 * cx1 * cy2 * w0 * w1 * spow w2 3%nat - sofZ 580608 * cx1 * cy2 * w0 * w1 * spow w2 2%nat * w3 + sofZ 129024 * cx1 * cy2 * w0 * w1 * spow w2 2%nat * w4 + sofZ 129024 * cx1 * cy2 * w0 * w1 * w2 * spow w3 2%nat - sofZ 40320 * cx1 * cy2 * w0 * w1 * w2 * w3 * w4 + sofZ 2016 * cx1 * cy2 * w0 * w1 * w2 * spow w4 2%nat - sofZ 387072 * cx1 * cy2 * spow w1 3%nat * w2 * w3 + sofZ 129024 * cx1 * cy2 * spow w1 3%nat * w2 * w4 + sofZ 516096 * cx1 * cy2 * spow w1 2%nat * spow w2 2%nat * w3 - sofZ 145152 * cx1 * cy2 * spow w1 2%nat * spow w2 2%nat * w4 - sofZ 129024 * cx1 * cy2 * spow w1 2%nat * w2 * spow w3 2%nat + sofZ 36864 * cx1 * cy2 * spow w1 2%nat * w2 * w3 * w4 - sofZ 1152 * cx1 * cy2 * spow w1 2%nat * w2 * spow w4 2%nat - sofZ 145152 * cx1 * cy2 * w1 * spow w2 3%nat * w3 + sofZ 31104 * cx1 * cy2 * w1 * spow w2 3%nat * w4 + sofZ 55296 * cx1 * cy2 * w1 * spow w2 2%nat * spow w3 2%nat - sofZ 9216 * cx1 * cy2 * w1 * spow w2 2%nat * w3 * w4 - sofZ 3072 * cx1 * cy2 * w1 * w2 * spow w3 3%nat - sofZ 123552 * cx1 * cy3 * spow w0 3%nat * w1 * w3 + sofZ 608256 * cx1 * cy3 * spow w0 2%nat * spow w1 2%nat * w3 - sofZ 443520 * cx1 * cy3 * spow w0 2%nat * w1 * w2 * w3 + sofZ 193536 * cx1 * cy3 * spow w0 2%nat * w1 * spow w3 2%nat - sofZ 36288 * cx1 * cy3 * spow w0 2%nat * w1 * w3 * w4 - sofZ 709632 * cx1 * cy3 * w0 * spow w1 3%nat * w3 + sofZ 774144 * cx1 * cy3 * w0 * spow w1 2%nat * w2 * w3 - sofZ 387072 * cx1 * cy3 * w0 * spow w1 2%nat * spow w3 2%nat + sofZ 86016 * cx1 * cy3 * w0 * spow w1 2%nat * w3 * w4 - sofZ 145152 * cx1 * cy3 * w0 * w1 * spow w2 2%nat * w3 + sofZ 172032 * cx1 * cy3 * w0 * w1 * w2 * spow w3 2%nat - sofZ 40320 * cx1 * cy3 * w0 * w1 * w2 * w3 * w4 - sofZ 32256 * cx1 * cy3 * w0 * w1 * spow w3 3%nat + sofZ 9216 * cx1 * cy3 * w0 * w1 * spow w3 2%nat * w4 - sofZ 288 * cx1 * cy3 * w0 * w1 * w3 * spow w4 2%nat + sofZ 387072 * cx1 * cy3 * spow w1 3%nat * w2 * w3 - sofZ 32256 * cx1 * cy3 * spow w1 3%nat * w3 * w4 - sofZ 516096 * cx1 * cy3 * spow w1 2%nat * spow w2 2%nat * w3 + sofZ 129024 * cx1 * cy3 * spow w1 2%nat * w2 * spow w3 2%nat + sofZ 18432 * cx1 * cy3 * spow w1 2%nat * w2 * w3 * w4 - sofZ 3072 * cx1 * cy3 * spow w1 2%nat * spow w3 2%nat * w4 + sofZ 145152 * cx1 * cy3 * w1 * spow w2 3%nat * w3 - sofZ 55296 * cx1 * cy3 * w1 * spow w2 2%nat * spow w3 2%nat - sofZ 1152 * cx1 * cy3 * w1 * spow w2 2%nat * w3 * w4 + sofZ 3072 * cx1 * cy3 * w1 * w2 * spow w3 3%nat + sofZ 38016 * cx1 * cy4 * spow w0 3%nat * w1 * w4 - sofZ 177408 * cx1 * cy4 * spow w0 2%nat * spow w1 2%nat * w4 + sofZ 108864 * cx1 * cy4 * spow w0 2%nat * w1 * w2 * w4 - sofZ 36288 * cx1 * cy4 * spow w0 2%nat * w1 * w3 * w4 + sofZ 5376 * cx1 * cy4 * spow w0 2%nat * w1 * spow w4 2%nat + sofZ 193536 * cx1 * cy4 * w0 * spow w1 3%nat * w4 - sofZ 145152 * cx1 * cy4 * w0 * spow w1 2%nat * w2 * w4 + sofZ 43008 * cx1 * cy4 * w0 * spow w1 2%nat * w3 * w4 - sofZ 8064 * cx1 * cy4 * w0 * spow w1 2%nat * spow w4 2%nat + sofZ 1728 * cx1 * cy4 * w0 * w1 * w2 * spow w4 2%nat - sofZ 192 * cx1 * cy4 * w0 * w1 * w3 * spow w4 2%nat - sofZ 129024 * cx1 * cy4 * spow w1 3%nat * w2 * w4 + sofZ 32256 * cx1 * cy4 * spow w1 3%nat * w3 * w4 + sofZ 145152 * cx1 * cy4 * spow w1 2%nat * spow w2 2%nat * w4 - sofZ 55296 * cx1 * cy4 * spow w1 2%nat * w2 * w3 * w4 + sofZ 1152 * cx1 * cy4 * spow w1 2%nat * w2 * spow w4 2%nat + sofZ 3072 * cx1 * cy4 * spow w1 2%nat * spow w3 2%nat * w4 - sofZ 31104 * cx1 * cy4 * w1 * spow w2 3%nat * w4 + sofZ 10368 * cx1 * cy4 * w1 * spow w2 2%nat * w3 * w4 + sofZ 96096 * cx2 * cy0 * spow w0 3%nat * w1 * w2 - sofZ 114048 * cx2 * cy0 * spow w0 3%nat * w2 * w3 + sofZ 44352 * cx2 * cy0 * spow w0 3%nat * w2 * w4 - sofZ 494208 * cx2 * cy0 * spow w0 2%nat * spow w1 2%nat * w2 + sofZ 456192 * cx2 * cy0 * spow w0 2%nat * w1 * spow w2 2%nat + sofZ 354816 * cx2 * cy0 * spow w0 2%nat * w1 * w2 * w3 - sofZ 169344 * cx2 * cy0 * spow w0 2%nat * w1 * w2 * w4 - sofZ 435456 * cx2 * cy0 * spow w0 2%nat * spow w2 2%nat * w3 + sofZ 145152 * cx2 * cy0 * spow w0 2%nat * spow w2 2%nat * w4 + sofZ 145152 * cx2 * cy0 * spow w0 2%nat * w2 * spow w3 2%nat - sofZ 59136 * cx2 * cy0 * spow w0 2%nat * w2 * w3 * w4 + sofZ 4032 * cx2 * cy0 * spow w0 2%nat * w2 * spow w4 2%nat + sofZ 608256 * cx2 * cy0 * w0 * spow w1 3%nat * w2 - sofZ 1064448 * cx2 * cy0 * w0 * spow w1 2%nat * spow w2 2%nat - sofZ 193536 * cx2 * cy0 * w0 * spow w1 2%nat * w2 * w3 + sofZ 145152 * cx2 * cy0 * w0 * spow w1 2%nat * w2 * w4 + sofZ 435456 * cx2 * cy0 * w0 * w1 * spow w2 3%nat + sofZ 580608 * cx2 * cy0 * w0 * w1 * spow w2 2%nat * w3 - sofZ 225792 * cx2 * cy0 * w0 * w1 * spow w2 2%nat * w4 - sofZ 215040 * cx2 * cy0 * w0 * w1 * w2 * spow w3 2%nat + sofZ 80640 * cx2 * cy0 * w0 * w1 * w2 * w3 * w4 - sofZ 4320 * cx2 * cy0 * w0 * w1 * w2 * spow w4 2%nat - sofZ 290304 * cx2 * cy0 * w0 * spow w2 3%nat * w3 + sofZ 72576 * cx2 * cy0 * w0 * spow w2 3%nat * w4 + sofZ 145152 * cx2 * cy0 * w0 * spow w2 2%nat * spow w3 2%nat - sofZ 38016 * cx2 * cy0 * w0 * spow w2 2%nat * w3 * w4 + sofZ 1152 * cx2 * cy0 * w0 * spow w2 2%nat * spow w4 2%nat - sofZ 13824 * cx2 * cy0 * w0 * w2 * spow w3 3%nat + sofZ 2688 * cx2 * cy0 * w0 * w2 * spow w3 2%nat * w4 - sofZ 96096 * cx2 * cy1 * spow w0 3%nat * w1 * w2 + sofZ 494208 * cx2 * cy1 * spow w0 2%nat * spow w1 2%nat * w2 - sofZ 456192 * cx2 * cy1 * spow w0 2%nat * w1 * spow w2 2%nat + sofZ 266112 * cx2 * cy1 * spow w0 2%nat * w1 * w2 * w3 - sofZ 60480 * cx2 * cy1 * spow w0 2%nat * w1 * w2 * w4 - sofZ 608256 * cx2 * cy1 * w0 * spow w1 3%nat * w2 + sofZ 1064448 * cx2 * cy1 * w0 * spow w1 2%nat * spow w2 2%nat - sofZ 774144 * cx2 * cy1 * w0 * spow w1 2%nat * w2 * w3 + sofZ 193536 * cx2 * cy1 * w0 * spow w1 2%nat * w2 * w4 - sofZ 435456 * cx2 * cy1 * w0 * w1 * spow w2 3%nat + sofZ 580608 * cx2 * cy1 * w0 * w1 * spow w2 2%nat * w3 - sofZ 129024 * cx2 * cy1 * w0 * w1 * spow w2 2%nat * w4 - sofZ 129024 * cx2 * cy1 * w0 * w1 * w2 * spow w3 2%nat + sofZ 40320 * cx2 * cy1 * w0 * w1 * w2 * w3 * w4 - sofZ 2016 * cx2 * cy1 * w0 * w1 * w2 * spow w4 2%nat + sofZ 387072 * cx2 * cy1 * spow w1 3%nat * w2 * w3 - sofZ 129024 * cx2 * cy1 * spow w1 3%nat * w2 * w4 - sofZ 516096 * cx2 * cy1 * spow w1 2%nat * spow w2 2%nat * w3 + sofZ 145152 * cx2 * cy1 * spow w1 2%nat * spow w2 2%nat * w4 + sofZ 129024 * cx2 * cy1 * spow w1 2%nat * w2 * spow w3 2%nat - sofZ 36864 * cx2 * cy1 * spow w1 2%nat * w2 * w3 * w4 + sofZ 1152 * cx2 * cy1 * spow w1 2%nat * w2 * spow w4 2%nat + sofZ 145152 * cx2 * cy1 * w1 * spow w2 3%nat * w3 - sofZ 31104 * cx2 * cy1 * w1 * spow w2 3%nat * w4 - sofZ 55296 * cx2 * cy1 * w1 * spow w2 2%nat * spow w3 2%nat + sofZ 9216 * cx2 * cy1 * w1 * spow w2 2%nat * w3 * w4 + sofZ 3072 * cx2 * cy1 * w1 * w2 * spow w3 3%nat + sofZ 114048 * cx2 * cy3 * spow w0 3%nat * w2 * w3 - sofZ 620928 * cx2 * cy3 * spow w0 2%nat * w1 * w2 * w3 + sofZ 435456 * cx2 * cy3 * spow w0 2%nat * spow w2 2%nat * w3 - sofZ 145152 * cx2 * cy3 * spow w0 2%nat * w2 * spow w3 2%nat + sofZ 18816 * cx2 * cy3 * spow w0 2%nat * w2 * w3 * w4 + sofZ 967680 * cx2 * cy3 * w0 * spow w1 2%nat * w2 * w3 - sofZ 1161216 * cx2 * cy3 * w0 * w1 * spow w2 2%nat * w3 + sofZ 344064 * cx2 * cy3 * w0 * w1 * w2 * spow w3 2%nat - sofZ 40320 * cx2 * cy3 * w0 * w1 * w2 * w3 * w4 + sofZ 290304 * cx2 * cy3 * w0 * spow w2 3%nat * w3 - sofZ 145152 * cx2 * cy3 * w0 * spow w2 2%nat * spow w3 2%nat + sofZ 13824 * cx2 * cy3 * w0 * spow w2 2%nat * w3 * w4 + sofZ 13824 * cx2 * cy3 * w0 * w2 * spow w3 3%nat - sofZ 1536 * cx2 * cy3 * w0 * w2 * spow w3 2%nat * w4 - sofZ 387072 * cx2 * cy3 * spow w1 3%nat * w2 * w3 + sofZ 516096 * cx2 * cy3 * spow w1 2%nat * spow w2 2%nat * w3 - sofZ 129024 * cx2 * cy3 * spow w1 2%nat * w2 * spow w3 2%nat + sofZ 13824 * cx2 * cy3 * spow w1 2%nat * w2 * w3 * w4 - sofZ 145152 * cx2 * cy3 * w1 * spow w2 3%nat * w3 + sofZ 55296 * cx2 * cy3 * w1 * spow w2 2%nat * spow w3 2%nat - sofZ 4608 * cx2 * cy3 * w1 * spow w2 2%nat * w3 * w4 - sofZ 3072 * cx2 * cy3 * w1 * w2 * spow w3 3%nat - sofZ 44352 * cx2 * cy4 * spow w0 3%nat * w2 * w4 + sofZ 229824 * cx2 * cy4 * spow w0 2%nat * w1 * w2 * w4 - sofZ 145152 * cx2 * cy4 * spow w0 2%nat * spow w2 2%nat * w4 + sofZ 40320 * cx2 * cy4 * spow w0 2%nat * w2 * w3 * w4 - sofZ 4032 * cx2 * cy4 * spow w0 2%nat * w2 * spow w4 2%nat - sofZ 338688 * cx2 * cy4 * w0 * spow w1 2%nat * w2 * w4 + sofZ 354816 * cx2 * cy4 * w0 * w1 * spow w2 2%nat * w4 - sofZ 80640 * cx2 * cy4 * w0 * w1 * w2 * w3 * w4 + sofZ 6336 * cx2 * cy4 * w0 * w1 * w2 * spow w4 2%nat - sofZ 72576 * cx2 * cy4 * w0 * spow w2 3%nat * w4 + sofZ 24192 * cx2 * cy4 * w0 * spow w2 2%nat * w3 * w4 - sofZ 1152 * cx2 * cy4 * w0 * spow w2 2%nat * spow w4 2%nat - sofZ 1152 * cx2 * cy4 * w0 * w2 * spow w3 2%nat * w4 + sofZ 129024 * cx2 * cy4 * spow w1 3%nat * w2 * w4 - sofZ 145152 * cx2 * cy4 * spow w1 2%nat * spow w2 2%nat * w4 + sofZ 23040 * cx2 * cy4 * spow w1 2%nat * w2 * w3 * w4 - sofZ 1152 * cx2 * cy4 * spow w1 2%nat * w2 * spow w4 2%nat + sofZ 31104 * cx2 * cy4 * w1 * spow w2 3%nat * w4 - sofZ 4608 * cx2 * cy4 * w1 * spow w2 2%nat * w3 * w4 - sofZ 123552 * cx3 * cy0 * spow w0 3%nat * w1 * w3 + sofZ 114048 * cx3 * cy0 * spow w0 3%nat * w2 * w3 - sofZ 12096 * cx3 * cy0 * spow w0 3%nat * w3 * w4 + sofZ 608256 * cx3 * cy0 * spow w0 2%nat * spow w1 2%nat * w3 - sofZ 1064448 * cx3 * cy0 * spow w0 2%nat * w1 * w2 * w3 + sofZ 193536 * cx3 * cy0 * spow w0 2%nat * w1 * spow w3 2%nat + sofZ 24192 * cx3 * cy0 * spow w0 2%nat * w1 * w3 * w4 + sofZ 435456 * cx3 * cy0 * spow w0 2%nat * spow w2 2%nat * w3 - sofZ 145152 * cx3 * cy0 * spow w0 2%nat * w2 * spow w3 2%nat - sofZ 16128 * cx3 * cy0 * spow w0 2%nat * w2 * w3 * w4 + sofZ 8064 * cx3 * cy0 * spow w0 2%nat * spow w3 2%nat * w4 - sofZ 576 * cx3 * cy0 * spow w0 2%nat * w3 * spow w4 2%nat - sofZ 709632 * cx3 * cy0 * w0 * spow w1 3%nat * w3 + sofZ 1741824 * cx3 * cy0 * w0 * spow w1 2%nat * w2 * w3 - sofZ 387072 * cx3 * cy0 * w0 * spow w1 2%nat * spow w3 2%nat - sofZ 1306368 * cx3 * cy0 * w0 * w1 * spow w2 2%nat * w3 + sofZ 516096 * cx3 * cy0 * w0 * w1 * w2 * spow w3 2%nat - sofZ 32256 * cx3 * cy0 * w0 * w1 * spow w3 3%nat - sofZ 4608 * cx3 * cy0 * w0 * w1 * spow w3 2%nat * w4 + sofZ 288 * cx3 * cy0 * w0 * w1 * w3 * spow w4 2%nat + sofZ 290304 * cx3 * cy0 * w0 * spow w2 3%nat * w3 - sofZ 145152 * cx3 * cy0 * w0 * spow w2 2%nat * spow w3 2%nat + sofZ 13824 * cx3 * cy0 * w0 * w2 * spow w3 3%nat + sofZ 1152 * cx3 * cy0 * w0 * w2 * spow w3 2%nat * w4 + sofZ 123552 * cx3 * cy1 * spow w0 3%nat * w1 * w3 - sofZ 608256 * cx3 * cy1 * spow w0 2%nat * spow w1 2%nat * w3 + sofZ 443520 * cx3 * cy1 * spow w0 2%nat * w1 * w2 * w3 - sofZ 193536 * cx3 * cy1 * spow w0 2%nat * w1 * spow w3 2%nat + sofZ 36288 * cx3 * cy1 * spow w0 2%nat * w1 * w3 * w4 + sofZ 709632 * cx3 * cy1 * w0 * spow w1 3%nat * w3 - sofZ 774144 * cx3 * cy1 * w0 * spow w1 2%nat * w2 * w3 + sofZ 387072 * cx3 * cy1 * w0 * spow w1 2%nat * spow w3 2%nat - sofZ 86016 * cx3 * cy1 * w0 * spow w1 2%nat * w3 * w4 + sofZ 145152 * cx3 * cy1 * w0 * w1 * spow w2 2%nat * w3 - sofZ 172032 * cx3 * cy1 * w0 * w1 * w2 * spow w3 2%nat + sofZ 40320 * cx3 * cy1 * w0 * w1 * w2 * w3 * w4 + sofZ 32256 * cx3 * cy1 * w0 * w1 * spow w3 3%nat - sofZ 9216 * cx3 * cy1 * w0 * w1 * spow w3 2%nat * w4 + sofZ 288 * cx3 * cy1 * w0 * w1 * w3 * spow w4 2%nat - sofZ 387072 * cx3 * cy1 * spow w1 3%nat * w2 * w3 + sofZ 32256 * cx3 * cy1 * spow w1 3%nat * w3 * w4 + sofZ 516096 * cx3 * cy1 * spow w1 2%nat * spow w2 2%nat * w3 - sofZ 129024 * cx3 * cy1 * spow w1 2%nat * w2 * spow w3 2%nat - sofZ 18432 * cx3 * cy1 * spow w1 2%nat * w2 * w3 * w4 + sofZ 3072 * cx3 * cy1 * spow w1 2%nat * spow w3 2%nat * w4 - sofZ 145152 * cx3 * cy1 * w1 * spow w2 3%nat * w3 + sofZ 55296 * cx3 * cy1 * w1 * spow w2 2%nat * spow w3 2%nat + sofZ 1152 * cx3 * cy1 * w1 * spow w2 2%nat * w3 * w4 - sofZ 3072 * cx3 * cy1 * w1 * w2 * spow w3 3%nat - sofZ 114048 * cx3 * cy2 * spow w0 3%nat * w2 * w3 + sofZ 620928 * cx3 * cy2 * spow w0 2%nat * w1 * w2 * w3 - sofZ 435456 * cx3 * cy2 * spow w0 2%nat * spow w2 2%nat * w3 + sofZ 145152 * cx3 * cy2 * spow w0 2%nat * w2 * spow w3 2%nat - sofZ 18816 * cx3 * cy2 * spow w0 2%nat * w2 * w3 * w4 - sofZ 967680 * cx3 * cy2 * w0 * spow w1 2%nat * w2 * w3 + sofZ 1161216 * cx3 * cy2 * w0 * w1 * spow w2 2%nat * w3 - sofZ 344064 * cx3 * cy2 * w0 * w1 * w2 * spow w3 2%nat + sofZ 40320 * cx3 * cy2 * w0 * w1 * w2 * w3 * w4 - sofZ 290304 * cx3 * cy2 * w0 * spow w2 3%nat * w3 + sofZ 145152 * cx3 * cy2 * w0 * spow w2 2%nat * spow w3 2%nat - sofZ 13824 * cx3 * cy2 * w0 * spow w2 2%nat * w3 * w4 - sofZ 13824 * cx3 * cy2 * w0 * w2 * spow w3 3%nat + sofZ 1536 * cx3 * cy2 * w0 * w2 * spow w3 2%nat * w4 + sofZ 387072 * cx3 * cy2 * spow w1 3%nat * w2 * w3 - sofZ 516096 * cx3 * cy2 * spow w1 2%nat * spow w2 2%nat * w3 + sofZ 129024 * cx3 * cy2 * spow w1 2%nat * w2 * spow w3 2%nat - sofZ 13824 * cx3 * cy2 * spow w1 2%nat * w2 * w3 * w4 + sofZ 145152 * cx3 * cy2 * w1 * spow w2 3%nat * w3 - sofZ 55296 * cx3 * cy2 * w1 * spow w2 2%nat * spow w3 2%nat + sofZ 4608 * cx3 * cy2 * w1 * spow w2 2%nat * w3 * w4 + sofZ 3072 * cx3 * cy2 * w1 * w2 * spow w3 3%nat + sofZ 12096 * cx3 * cy4 * spow w0 3%nat * w3 * w4 - sofZ 60480 * cx3 * cy4 * spow w0 2%nat * w1 * w3 * w4 + sofZ 34944 * cx3 * cy4 * spow w0 2%nat * w2 * w3 * w4 - sofZ 8064 * cx3 * cy4 * spow w0 2%nat * spow w3 2%nat * w4 + sofZ 576 * cx3 * cy4 * spow w0 2%nat * w3 * spow w4 2%nat + sofZ 86016 * cx3 * cy4 * w0 * spow w1 2%nat * w3 * w4 - sofZ 80640 * cx3 * cy4 * w0 * w1 * w2 * w3 * w4 + sofZ 13824 * cx3 * cy4 * w0 * w1 * spow w3 2%nat * w4 - sofZ 576 * cx3 * cy4 * w0 * w1 * w3 * spow w4 2%nat + sofZ 13824 * cx3 * cy4 * w0 * spow w2 2%nat * w3 * w4 - sofZ 2688 * cx3 * cy4 * w0 * w2 * spow w3 2%nat * w4 - sofZ 32256 * cx3 * cy4 * spow w1 3%nat * w3 * w4 + sofZ 32256 * cx3 * cy4 * spow w1 2%nat * w2 * w3 * w4 - sofZ 3072 * cx3 * cy4 * spow w1 2%nat * spow w3 2%nat * w4 - sofZ 5760 * cx3 * cy4 * w1 * spow w2 2%nat * w3 * w4 + sofZ 38016 * cx4 * cy0 * spow w0 3%nat * w1 * w4 - sofZ 44352 * cx4 * cy0 * spow w0 3%nat * w2 * w4 + sofZ 12096 * cx4 * cy0 * spow w0 3%nat * w3 * w4 - sofZ 177408 * cx4 * cy0 * spow w0 2%nat * spow w1 2%nat * w4 + sofZ 338688 * cx4 * cy0 * spow w0 2%nat * w1 * w2 * w4 - sofZ 96768 * cx4 * cy0 * spow w0 2%nat * w1 * w3 * w4 + sofZ 5376 * cx4 * cy0 * spow w0 2%nat * w1 * spow w4 2%nat - sofZ 145152 * cx4 * cy0 * spow w0 2%nat * spow w2 2%nat * w4 + sofZ 75264 * cx4 * cy0 * spow w0 2%nat * w2 * w3 * w4 - sofZ 4032 * cx4 * cy0 * spow w0 2%nat * w2 * spow w4 2%nat - sofZ 8064 * cx4 * cy0 * spow w0 2%nat * spow w3 2%nat * w4 + sofZ 576 * cx4 * cy0 * spow w0 2%nat * w3 * spow w4 2%nat + sofZ 193536 * cx4 * cy0 * w0 * spow w1 3%nat * w4 - sofZ 483840 * cx4 * cy0 * w0 * spow w1 2%nat * w2 * w4 + sofZ 129024 * cx4 * cy0 * w0 * spow w1 2%nat * w3 * w4 - sofZ 8064 * cx4 * cy0 * w0 * spow w1 2%nat * spow w4 2%nat + sofZ 354816 * cx4 * cy0 * w0 * w1 * spow w2 2%nat * w4 - sofZ 161280 * cx4 * cy0 * w0 * w1 * w2 * w3 * w4 + sofZ 8064 * cx4 * cy0 * w0 * w1 * w2 * spow w4 2%nat + sofZ 13824 * cx4 * cy0 * w0 * w1 * spow w3 2%nat * w4 - sofZ 768 * cx4 * cy0 * w0 * w1 * w3 * spow w4 2%nat - sofZ 72576 * cx4 * cy0 * w0 * spow w2 3%nat * w4 + sofZ 38016 * cx4 * cy0 * w0 * spow w2 2%nat * w3 * w4 - sofZ 1152 * cx4 * cy0 * w0 * spow w2 2%nat * spow w4 2%nat - sofZ 3840 * cx4 * cy0 * w0 * w2 * spow w3 2%nat * w4 - sofZ 38016 * cx4 * cy1 * spow w0 3%nat * w1 * w4 + sofZ 177408 * cx4 * cy1 * spow w0 2%nat * spow w1 2%nat * w4 - sofZ 108864 * cx4 * cy1 * spow w0 2%nat * w1 * w2 * w4 + sofZ 36288 * cx4 * cy1 * spow w0 2%nat * w1 * w3 * w4 - sofZ 5376 * cx4 * cy1 * spow w0 2%nat * w1 * spow w4 2%nat - sofZ 193536 * cx4 * cy1 * w0 * spow w1 3%nat * w4 + sofZ 145152 * cx4 * cy1 * w0 * spow w1 2%nat * w2 * w4 - sofZ 43008 * cx4 * cy1 * w0 * spow w1 2%nat * w3 * w4 + sofZ 8064 * cx4 * cy1 * w0 * spow w1 2%nat * spow w4 2%nat - sofZ 1728 * cx4 * cy1 * w0 * w1 * w2 * spow w4 2%nat + sofZ 192 * cx4 * cy1 * w0 * w1 * w3 * spow w4 2%nat + sofZ 129024 * cx4 * cy1 * spow w1 3%nat * w2 * w4 - sofZ 32256 * cx4 * cy1 * spow w1 3%nat * w3 * w4 - sofZ 145152 * cx4 * cy1 * spow w1 2%nat * spow w2 2%nat * w4 + sofZ 55296 * cx4 * cy1 * spow w1 2%nat * w2 * w3 * w4 - sofZ 1152 * cx4 * cy1 * spow w1 2%nat * w2 * spow w4 2%nat - sofZ 3072 * cx4 * cy1 * spow w1 2%nat * spow w3 2%nat * w4 + sofZ 31104 * cx4 * cy1 * w1 * spow w2 3%nat * w4 - sofZ 10368 * cx4 * cy1 * w1 * spow w2 2%nat * w3 * w4 + sofZ 44352 * cx4 * cy2 * spow w0 3%nat * w2 * w4 - sofZ 229824 * cx4 * cy2 * spow w0 2%nat * w1 * w2 * w4 + sofZ 145152 * cx4 * cy2 * spow w0 2%nat * spow w2 2%nat * w4 - sofZ 40320 * cx4 * cy2 * spow w0 2%nat * w2 * w3 * w4 + sofZ 4032 * cx4 * cy2 * spow w0 2%nat * w2 * spow w4 2%nat + sofZ 338688 * cx4 * cy2 * w0 * spow w1 2%nat * w2 * w4 - sofZ 354816 * cx4 * cy2 * w0 * w1 * spow w2 2%nat * w4 + sofZ 80640 * cx4 * cy2 * w0 * w1 * w2 * w3 * w4 - sofZ 6336 * cx4 * cy2 * w0 * w1 * w2 * spow w4 2%nat + sofZ 72576 * cx4 * cy2 * w0 * spow w2 3%nat * w4 - sofZ 24192 * cx4 * cy2 * w0 * spow w2 2%nat * w3 * w4 + sofZ 1152 * cx4 * cy2 * w0 * spow w2 2%nat * spow w4 2%nat + sofZ 1152 * cx4 * cy2 * w0 * w2 * spow w3 2%nat * w4 - sofZ 129024 * cx4 * cy2 * spow w1 3%nat * w2 * w4 + sofZ 145152 * cx4 * cy2 * spow w1 2%nat * spow w2 2%nat * w4 - sofZ 23040 * cx4 * cy2 * spow w1 2%nat * w2 * w3 * w4 + sofZ 1152 * cx4 * cy2 * spow w1 2%nat * w2 * spow w4 2%nat - sofZ 31104 * cx4 * cy2 * w1 * spow w2 3%nat * w4 + sofZ 4608 * cx4 * cy2 * w1 * spow w2 2%nat * w3 * w4 - sofZ 12096 * cx4 * cy3 * spow w0 3%nat * w3 * w4 + sofZ 60480 * cx4 * cy3 * spow w0 2%nat * w1 * w3 * w4 - sofZ 34944 * cx4 * cy3 * spow w0 2%nat * w2 * w3 * w4 + sofZ 8064 * cx4 * cy3 * spow w0 2%nat * spow w3 2%nat * w4 - sofZ 576 * cx4 * cy3 * spow w0 2%nat * w3 * spow w4 2%nat - sofZ 86016 * cx4 * cy3 * w0 * spow w1 2%nat * w3 * w4 + sofZ 80640 * cx4 * cy3 * w0 * w1 * w2 * w3 * w4 - sofZ 13824 * cx4 * cy3 * w0 * w1 * spow w3 2%nat * w4 + sofZ 576 * cx4 * cy3 * w0 * w1 * w3 * spow w4 2%nat - sofZ 13824 * cx4 * cy3 * w0 * spow w2 2%nat * w3 * w4 + sofZ 2688 * cx4 * cy3 * w0 * w2 * spow w3 2%nat * w4 + sofZ 32256 * cx4 * cy3 * spow w1 3%nat * w3 * w4 - sofZ 32256 * cx4 * cy3 * spow w1 2%nat * w2 * w3 * w4 + sofZ 3072 * cx4 * cy3 * spow w1 2%nat * spow w3 2%nat * w4 + sofZ 5760 * cx4 * cy3 * w1 * spow w2 2%nat * w3 * w4;
     - sofZ 48048 * cx0 * cy1 * spow w0 3%nat * w1 * w2 + sofZ 68640 * cx0 * cy1 * spow w0 3%nat * w1 * w3 - sofZ 23760 * cx0 * cy1 * spow w0 3%nat * w1 * w4 + sofZ 274560 * cx0 * cy1 * spow w0 2%nat * spow w1 2%nat * w2 - sofZ 380160 * cx0 * cy1 * spow w0 2%nat * spow w1 2%nat * w3 + sofZ 126720 * cx0 * cy1 * spow w0 2%nat * spow w1 2%nat * w4 - sofZ 285120 * cx0 * cy1 * spow w0 2%nat * w1 * spow w2 2%nat + sofZ 506880 * cx0 * cy1 * spow w0 2%nat * w1 * w2 * w3 - sofZ 141120 * cx0 * cy1 * spow w0 2%nat * w1 * w2 * w4 - sofZ 161280 * cx0 * cy1 * spow w0 2%nat * w1 * spow w3 2%nat + sofZ 72576 * cx0 * cy1 * spow w0 2%nat * w1 * w3 * w4 - sofZ 6720 * cx0 * cy1 * spow w0 2%nat * w1 * spow w4 2%nat - sofZ 380160 * cx0 * cy1 * w0 * spow w1 3%nat * w2 + sofZ 506880 * cx0 * cy1 * w0 * spow w1 3%nat * w3 - sofZ 161280 * cx0 * cy1 * w0 * spow w1 3%nat * w4 + sofZ 760320 * cx0 * cy1 * w0 * spow w1 2%nat * spow w2 2%nat - sofZ 1290240 * cx0 * cy1 * w0 * spow w1 2%nat * w2 * w3 + sofZ 338688 * cx0 * cy1 * w0 * spow w1 2%nat * w2 * w4 + sofZ 387072 * cx0 * cy1 * w0 * spow w1 2%nat * spow w3 2%nat - sofZ 161280 * cx0 * cy1 * w0 * spow w1 2%nat * w3 * w4 + sofZ 13440 * cx0 * cy1 * w0 * spow w1 2%nat * spow w4 2%nat - sofZ 362880 * cx0 * cy1 * w0 * w1 * spow w2 3%nat + sofZ 725760 * cx0 * cy1 * w0 * w1 * spow w2 2%nat * w3 - sofZ 161280 * cx0 * cy1 * w0 * w1 * spow w2 2%nat * w4 - sofZ 376320 * cx0 * cy1 * w0 * w1 * w2 * spow w3 2%nat + sofZ 134400 * cx0 * cy1 * w0 * w1 * w2 * w3 * w4 - sofZ 9360 * cx0 * cy1 * w0 * w1 * w2 * spow w4 2%nat + sofZ 53760 * cx0 * cy1 * w0 * w1 * spow w3 3%nat - sofZ 23040 * cx0 * cy1 * w0 * w1 * spow w3 2%nat * w4 + sofZ 2400 * cx0 * cy1 * w0 * w1 * w3 * spow w4 2%nat - sofZ 48 * cx0 * cy1 * w0 * w1 * spow w4 3%nat + sofZ 48048 * cx0 * cy2 * spow w0 3%nat * w1 * w2 - sofZ 71280 * cx0 * cy2 * spow w0 3%nat * w2 * w3 + sofZ 31680 * cx0 * cy2 * spow w0 3%nat * w2 * w4 - sofZ 274560 * cx0 * cy2 * spow w0 2%nat * spow w1 2%nat * w2 + sofZ 285120 * cx0 * cy2 * spow w0 2%nat * w1 * spow w2 2%nat + sofZ 253440 * cx0 * cy2 * spow w0 2%nat * w1 * w2 * w3 - sofZ 141120 * cx0 * cy2 * spow w0 2%nat * w1 * w2 * w4 - sofZ 362880 * cx0 * cy2 * spow w0 2%nat * spow w2 2%nat * w3 + sofZ 145152 * cx0 * cy2 * spow w0 2%nat * spow w2 2%nat * w4 + sofZ 145152 * cx0 * cy2 * spow w0 2%nat * w2 * spow w3 2%nat - sofZ 73920 * cx0 * cy2 * spow w0 2%nat * w2 * w3 * w4 + sofZ 6720 * cx0 * cy2 * spow w0 2%nat * w2 * spow w4 2%nat + sofZ 380160 * cx0 * cy2 * w0 * spow w1 3%nat * w2 - sofZ 760320 * cx0 * cy2 * w0 * spow w1 2%nat * spow w2 2%nat - sofZ 161280 * cx0 * cy2 * w0 * spow w1 2%nat * w2 * w3 + sofZ 145152 * cx0 * cy2 * w0 * spow w1 2%nat * w2 * w4 + sofZ 362880 * cx0 * cy2 * w0 * w1 * spow w2 3%nat + sofZ 580608 * cx0 * cy2 * w0 * w1 * spow w2 2%nat * w3 - sofZ 282240 * cx0 * cy2 * w0 * w1 * spow w2 2%nat * w4 - sofZ 268800 * cx0 * cy2 * w0 * w1 * w2 * spow w3 2%nat + sofZ 134400 * cx0 * cy2 * w0 * w1 * w2 * w3 * w4 - sofZ 10800 * cx0 * cy2 * w0 * w1 * w2 * spow w4 2%nat - sofZ 362880 * cx0 * cy2 * w0 * spow w2 3%nat * w3 + sofZ 120960 * cx0 * cy2 * w0 * spow w2 3%nat * w4 + sofZ 241920 * cx0 * cy2 * w0 * spow w2 2%nat * spow w3 2%nat - sofZ 95040 * cx0 * cy2 * w0 * spow w2 2%nat * w3 * w4 + sofZ 5760 * cx0 * cy2 * w0 * spow w2 2%nat * spow w4 2%nat - sofZ 34560 * cx0 * cy2 * w0 * w2 * spow w3 3%nat + sofZ 13440 * cx0 * cy2 * w0 * w2 * spow w3 2%nat * w4 - sofZ 912 * cx0 * cy2 * w0 * w2 * w3 * spow w4 2%nat - sofZ 68640 * cx0 * cy3 * spow w0 3%nat * w1 * w3 + sofZ 71280 * cx0 * cy3 * spow w0 3%nat * w2 * w3 - sofZ 10080 * cx0 * cy3 * spow w0 3%nat * w3 * w4 + sofZ 380160 * cx0 * cy3 * spow w0 2%nat * spow w1 2%nat * w3 - sofZ 760320 * cx0 * cy3 * spow w0 2%nat * w1 * w2 * w3 + sofZ 161280 * cx0 * cy3 * spow w0 2%nat * w1 * spow w3 2%nat + sofZ 24192 * cx0 * cy3 * spow w0 2%nat * w1 * w3 * w4 + sofZ 362880 * cx0 * cy3 * spow w0 2%nat * spow w2 2%nat * w3 - sofZ 145152 * cx0 * cy3 * spow w0 2%nat * w2 * spow w3 2%nat - sofZ 20160 * cx0 * cy3 * spow w0 2%nat * w2 * w3 * w4 + sofZ 13440 * cx0 * cy3 * spow w0 2%nat * spow w3 2%nat * w4 - sofZ 1440 * cx0 * cy3 * spow w0 2%nat * w3 * spow w4 2%nat - sofZ 506880 * cx0 * cy3 * w0 * spow w1 3%nat * w3 + sofZ 1451520 * cx0 * cy3 * w0 * spow w1 2%nat * w2 * w3 - sofZ 387072 * cx0 * cy3 * w0 * spow w1 2%nat * spow w3 2%nat - sofZ 1306368 * cx0 * cy3 * w0 * w1 * spow w2 2%nat * w3 + sofZ 645120 * cx0 * cy3 * w0 * w1 * w2 * spow w3 2%nat - sofZ 53760 * cx0 * cy3 * w0 * w1 * spow w3 3%nat - sofZ 11520 * cx0 * cy3 * w0 * w1 * spow w3 2%nat * w4 + sofZ 1440 * cx0 * cy3 * w0 * w1 * w3 * spow w4 2%nat + sofZ 362880 * cx0 * cy3 * w0 * spow w2 3%nat * w3 - sofZ 241920 * cx0 * cy3 * w0 * spow w2 2%nat * spow w3 2%nat + sofZ 34560 * cx0 * cy3 * w0 * w2 * spow w3 3%nat + sofZ 5760 * cx0 * cy3 * w0 * w2 * spow w3 2%nat * w4 - sofZ 432 * cx0 * cy3 * w0 * w2 * w3 * spow w4 2%nat - sofZ 768 * cx0 * cy3 * w0 * spow w3 3%nat * w4 + sofZ 23760 * cx0 * cy4 * spow w0 3%nat * w1 * w4 - sofZ 31680 * cx0 * cy4 * spow w0 3%nat * w2 * w4 + sofZ 10080 * cx0 * cy4 * spow w0 3%nat * w3 * w4 - sofZ 126720 * cx0 * cy4 * spow w0 2%nat * spow w1 2%nat * w4 + sofZ 282240 * cx0 * cy4 * spow w0 2%nat * w1 * w2 * w4 - sofZ 96768 * cx0 * cy4 * spow w0 2%nat * w1 * w3 * w4 + sofZ 6720 * cx0 * cy4 * spow w0 2%nat * w1 * spow w4 2%nat - sofZ 145152 * cx0 * cy4 * spow w0 2%nat * spow w2 2%nat * w4 + sofZ 94080 * cx0 * cy4 * spow w0 2%nat * w2 * w3 * w4 - sofZ 6720 * cx0 * cy4 * spow w0 2%nat * w2 * spow w4 2%nat - sofZ 13440 * cx0 * cy4 * spow w0 2%nat * spow w3 2%nat * w4 + sofZ 1440 * cx0 * cy4 * spow w0 2%nat * w3 * spow w4 2%nat + sofZ 161280 * cx0 * cy4 * w0 * spow w1 3%nat * w4 - sofZ 483840 * cx0 * cy4 * w0 * spow w1 2%nat * w2 * w4 + sofZ 161280 * cx0 * cy4 * w0 * spow w1 2%nat * w3 * w4 - sofZ 13440 * cx0 * cy4 * w0 * spow w1 2%nat * spow w4 2%nat + sofZ 443520 * cx0 * cy4 * w0 * w1 * spow w2 2%nat * w4 - sofZ 268800 * cx0 * cy4 * w0 * w1 * w2 * w3 * w4 + sofZ 20160 * cx0 * cy4 * w0 * w1 * w2 * spow w4 2%nat + sofZ 34560 * cx0 * cy4 * w0 * w1 * spow w3 2%nat * w4 - sofZ 3840 * cx0 * cy4 * w0 * w1 * w3 * spow w4 2%nat + sofZ 48 * cx0 * cy4 * w0 * w1 * spow w4 3%nat - sofZ 120960 * cx0 * cy4 * w0 * spow w2 3%nat * w4 + sofZ 95040 * cx0 * cy4 * w0 * spow w2 2%nat * w3 * w4 - sofZ 5760 * cx0 * cy4 * w0 * spow w2 2%nat * spow w4 2%nat - sofZ 19200 * cx0 * cy4 * w0 * w2 * spow w3 2%nat * w4 + sofZ 1344 * cx0 * cy4 * w0 * w2 * w3 * spow w4 2%nat + sofZ 768 * cx0 * cy4 * w0 * spow w3 3%nat * w4 + sofZ 48048 * cx1 * cy0 * spow w0 3%nat * w1 * w2 - sofZ 68640 * cx1 * cy0 * spow w0 3%nat * w1 * w3 + sofZ 23760 * cx1 * cy0 * spow w0 3%nat * w1 * w4 - sofZ 274560 * cx1 * cy0 * spow w0 2%nat * spow w1 2%nat * w2 + sofZ 380160 * cx1 * cy0 * spow w0 2%nat * spow w1 2%nat * w3 - sofZ 126720 * cx1 * cy0 * spow w0 2%nat * spow w1 2%nat * w4 + sofZ 285120 * cx1 * cy0 * spow w0 2%nat * w1 * spow w2 2%nat - sofZ 506880 * cx1 * cy0 * spow w0 2%nat * w1 * w2 * w3 + sofZ 141120 * cx1 * cy0 * spow w0 2%nat * w1 * w2 * w4 + sofZ 161280 * cx1 * cy0 * spow w0 2%nat * w1 * spow w3 2%nat - sofZ 72576 * cx1 * cy0 * spow w0 2%nat * w1 * w3 * w4 + sofZ 6720 * cx1 * cy0 * spow w0 2%nat * w1 * spow w4 2%nat + sofZ 380160 * cx1 * cy0 * w0 * spow w1 3%nat * w2 - sofZ 506880 * cx1 * cy0 * w0 * spow w1 3%nat * w3 + sofZ 161280 * cx1 * cy0 * w0 * spow w1 3%nat * w4 - sofZ 760320 * cx1 * cy0 * w0 * spow w1 2%nat * spow w2 2%nat + sofZ 1290240 * cx1 * cy0 * w0 * spow w1 2%nat * w2 * w3 - sofZ 338688 * cx1 * cy0 * w0 * spow w1 2%nat * w2 * w4 - sofZ 387072 * cx1 * cy0 * w0 * spow w1 2%nat * spow w3 2%nat + sofZ 161280 * cx1 * cy0 * w0 * spow w1 2%nat * w3 * w4 - sofZ 13440 * cx1 * cy0 * w0 * spow w1 2%nat * spow w4 2%nat + sofZ 362880 * cx1 * cy0 * w0 * w1 * spow w2 3%nat - sofZ 725760 * cx1 * cy0 * w0 * w1 * spow w2 2%nat * w3 + sofZ 161280 * cx1 * cy0 * w0 * w1 * spow w2 2%nat * w4 + sofZ 376320 * cx1 * cy0 * w0 * w1 * w2 * spow w3 2%nat - sofZ 134400 * cx1 * cy0 * w0 * w1 * w2 * w3 * w4 + sofZ 9360 * cx1 * cy0 * w0 * w1 * w2 * spow w4 2%nat - sofZ 53760 * cx1 * cy0 * w0 * w1 * spow w3 3%nat + sofZ 23040 * cx1 * cy0 * w0 * w1 * spow w3 2%nat * w4 - sofZ 2400 * cx1 * cy0 * w0 * w1 * w3 * spow w4 2%nat + sofZ 48 * cx1 * cy0 * w0 * w1 * spow w4 3%nat - sofZ 48048 * cx1 * cy2 * spow w0 3%nat * w1 * w2 + sofZ 274560 * cx1 * cy2 * spow w0 2%nat * spow w1 2%nat * w2 - sofZ 285120 * cx1 * cy2 * spow w0 2%nat * w1 * spow w2 2%nat + sofZ 190080 * cx1 * cy2 * spow w0 2%nat * w1 * w2 * w3 - sofZ 50400 * cx1 * cy2 * spow w0 2%nat * w1 * w2 * w4 - sofZ 380160 * cx1 * cy2 * w0 * spow w1 3%nat * w2 + sofZ 760320 * cx1 * cy2 * w0 * spow w1 2%nat * spow w2 2%nat - sofZ 645120 * cx1 * cy2 * w0 * spow w1 2%nat * w2 * w3 + sofZ 193536 * cx1 * cy2 * w0 * spow w1 2%nat * w2 * w4 - sofZ 362880 * cx1 * cy2 * w0 * w1 * spow w2 3%nat + sofZ 580608 * cx1 * cy2 * w0 * w1 * spow w2 2%nat * w3 - sofZ 161280 * cx1 * cy2 * w0 * w1 * spow w2 2%nat * w4 - sofZ 161280 * cx1 * cy2 * w0 * w1 * w2 * spow w3 2%nat + sofZ 67200 * cx1 * cy2 * w0 * w1 * w2 * w3 * w4 - sofZ 5040 * cx1 * cy2 * w0 * w1 * w2 * spow w4 2%nat + sofZ 387072 * cx1 * cy2 * spow w1 3%nat * w2 * w3 - sofZ 161280 * cx1 * cy2 * spow w1 3%nat * w2 * w4 - sofZ 645120 * cx1 * cy2 * spow w1 2%nat * spow w2 2%nat * w3 + sofZ 241920 * cx1 * cy2 * spow w1 2%nat * spow w2 2%nat * w4 + sofZ 215040 * cx1 * cy2 * spow w1 2%nat * w2 * spow w3 2%nat - sofZ 92160 * cx1 * cy2 * spow w1 2%nat * w2 * w3 * w4 + sofZ 5760 * cx1 * cy2 * spow w1 2%nat * w2 * spow w4 2%nat + sofZ 241920 * cx1 * cy2 * w1 * spow w2 3%nat * w3 - sofZ 77760 * cx1 * cy2 * w1 * spow w2 3%nat * w4 - sofZ 138240 * cx1 * cy2 * w1 * spow w2 2%nat * spow w3 2%nat + sofZ 46080 * cx1 * cy2 * w1 * spow w2 2%nat * w3 * w4 - sofZ 1728 * cx1 * cy2 * w1 * spow w2 2%nat * spow w4 2%nat + sofZ 15360 * cx1 * cy2 * w1 * w2 * spow w3 3%nat - sofZ 3840 * cx1 * cy2 * w1 * w2 * spow w3 2%nat * w4 + sofZ 68640 * cx1 * cy3 * spow w0 3%nat * w1 * w3 - sofZ 380160 * cx1 * cy3 * spow w0 2%nat * spow w1 2%nat * w3 + sofZ 316800 * cx1 * cy3 * spow w0 2%nat * w1 * w2 * w3 - sofZ 161280 * cx1 * cy3 * spow w0 2%nat * w1 * spow w3 2%nat + sofZ 36288 * cx1 * cy3 * spow w0 2%nat * w1 * w3 * w4 + sofZ 506880 * cx1 * cy3 * w0 * spow w1 3%nat * w3 - sofZ 645120 * cx1 * cy3 * w0 * spow w1 2%nat * w2 * w3 + sofZ 387072 * cx1 * cy3 * w0 * spow w1 2%nat * spow w3 2%nat - sofZ 107520 * cx1 * cy3 * w0 * spow w1 2%nat * w3 * w4 + sofZ 145152 * cx1 * cy3 * w0 * w1 * spow w2 2%nat * w3 - sofZ 215040 * cx1 * cy3 * w0 * w1 * w2 * spow w3 2%nat + sofZ 67200 * cx1 * cy3 * w0 * w1 * w2 * w3 * w4 + sofZ 53760 * cx1 * cy3 * w0 * w1 * spow w3 3%nat - sofZ 23040 * cx1 * cy3 * w0 * w1 * spow w3 2%nat * w4 + sofZ 1440 * cx1 * cy3 * w0 * w1 * w3 * spow w4 2%nat - sofZ 387072 * cx1 * cy3 * spow w1 3%nat * w2 * w3 + sofZ 53760 * cx1 * cy3 * spow w1 3%nat * w3 * w4 + sofZ 645120 * cx1 * cy3 * spow w1 2%nat * spow w2 2%nat * w3 - sofZ 215040 * cx1 * cy3 * spow w1 2%nat * w2 * spow w3 2%nat - sofZ 46080 * cx1 * cy3 * spow w1 2%nat * w2 * w3 * w4 + sofZ 15360 * cx1 * cy3 * spow w1 2%nat * spow w3 2%nat * w4 - sofZ 768 * cx1 * cy3 * spow w1 2%nat * w3 * spow w4 2%nat - sofZ 241920 * cx1 * cy3 * w1 * spow w2 3%nat * w3 + sofZ 138240 * cx1 * cy3 * w1 * spow w2 2%nat * spow w3 2%nat + sofZ 5760 * cx1 * cy3 * w1 * spow w2 2%nat * w3 * w4 - sofZ 15360 * cx1 * cy3 * w1 * w2 * spow w3 3%nat - sofZ 3072 * cx1 * cy3 * w1 * w2 * spow w3 2%nat * w4 - sofZ 23760 * cx1 * cy4 * spow w0 3%nat * w1 * w4 + sofZ 126720 * cx1 * cy4 * spow w0 2%nat * spow w1 2%nat * w4 - sofZ 90720 * cx1 * cy4 * spow w0 2%nat * w1 * w2 * w4 + sofZ 36288 * cx1 * cy4 * spow w0 2%nat * w1 * w3 * w4 - sofZ 6720 * cx1 * cy4 * spow w0 2%nat * w1 * spow w4 2%nat - sofZ 161280 * cx1 * cy4 * w0 * spow w1 3%nat * w4 + sofZ 145152 * cx1 * cy4 * w0 * spow w1 2%nat * w2 * w4 - sofZ 53760 * cx1 * cy4 * w0 * spow w1 2%nat * w3 * w4 + sofZ 13440 * cx1 * cy4 * w0 * spow w1 2%nat * spow w4 2%nat - sofZ 4320 * cx1 * cy4 * w0 * w1 * w2 * spow w4 2%nat + sofZ 960 * cx1 * cy4 * w0 * w1 * w3 * spow w4 2%nat - sofZ 48 * cx1 * cy4 * w0 * w1 * spow w4 3%nat + sofZ 161280 * cx1 * cy4 * spow w1 3%nat * w2 * w4 - sofZ 53760 * cx1 * cy4 * spow w1 3%nat * w3 * w4 - sofZ 241920 * cx1 * cy4 * spow w1 2%nat * spow w2 2%nat * w4 + sofZ 138240 * cx1 * cy4 * spow w1 2%nat * w2 * w3 * w4 - sofZ 5760 * cx1 * cy4 * spow w1 2%nat * w2 * spow w4 2%nat - sofZ 15360 * cx1 * cy4 * spow w1 2%nat * spow w3 2%nat * w4 + sofZ 768 * cx1 * cy4 * spow w1 2%nat * w3 * spow w4 2%nat + sofZ 77760 * cx1 * cy4 * w1 * spow w2 3%nat * w4 - sofZ 51840 * cx1 * cy4 * w1 * spow w2 2%nat * w3 * w4 + sofZ 1728 * cx1 * cy4 * w1 * spow w2 2%nat * spow w4 2%nat + sofZ 6912 * cx1 * cy4 * w1 * w2 * spow w3 2%nat * w4 - sofZ 48048 * cx2 * cy0 * spow w0 3%nat * w1 * w2 + sofZ 71280 * cx2 * cy0 * spow w0 3%nat * w2 * w3 - sofZ 31680 * cx2 * cy0 * spow w0 3%nat * w2 * w4 + sofZ 274560 * cx2 * cy0 * spow w0 2%nat * spow w1 2%nat * w2 - sofZ 285120 * cx2 * cy0 * spow w0 2%nat * w1 * spow w2 2%nat - sofZ 253440 * cx2 * cy0 * spow w0 2%nat * w1 * w2 * w3 + sofZ 141120 * cx2 * cy0 * spow w0 2%nat * w1 * w2 * w4 + sofZ 362880 * cx2 * cy0 * spow w0 2%nat * spow w2 2%nat * w3 - sofZ 145152 * cx2 * cy0 * spow w0 2%nat * spow w2 2%nat * w4 - sofZ 145152 * cx2 * cy0 * spow w0 2%nat * w2 * spow w3 2%nat + sofZ 73920 * cx2 * cy0 * spow w0 2%nat * w2 * w3 * w4 - sofZ 6720 * cx2 * cy0 * spow w0 2%nat * w2 * spow w4 2%nat - sofZ 380160 * cx2 * cy0 * w0 * spow w1 3%nat * w2 + sofZ 760320 * cx2 * cy0 * w0 * spow w1 2%nat * spow w2 2%nat + sofZ 161280 * cx2 * cy0 * w0 * spow w1 2%nat * w2 * w3 - sofZ 145152 * cx2 * cy0 * w0 * spow w1 2%nat * w2 * w4 - sofZ 362880 * cx2 * cy0 * w0 * w1 * spow w2 3%nat - sofZ 580608 * cx2 * cy0 * w0 * w1 * spow w2 2%nat * w3 + sofZ 282240 * cx2 * cy0 * w0 * w1 * spow w2 2%nat * w4 + sofZ 268800 * cx2 * cy0 * w0 * w1 * w2 * spow w3 2%nat - sofZ 134400 * cx2 * cy0 * w0 * w1 * w2 * w3 * w4 + sofZ 10800 * cx2 * cy0 * w0 * w1 * w2 * spow w4 2%nat + sofZ 362880 * cx2 * cy0 * w0 * spow w2 3%nat * w3 - sofZ 120960 * cx2 * cy0 * w0 * spow w2 3%nat * w4 - sofZ 241920 * cx2 * cy0 * w0 * spow w2 2%nat * spow w3 2%nat + sofZ 95040 * cx2 * cy0 * w0 * spow w2 2%nat * w3 * w4 - sofZ 5760 * cx2 * cy0 * w0 * spow w2 2%nat * spow w4 2%nat + sofZ 34560 * cx2 * cy0 * w0 * w2 * spow w3 3%nat - sofZ 13440 * cx2 * cy0 * w0 * w2 * spow w3 2%nat * w4 + sofZ 912 * cx2 * cy0 * w0 * w2 * w3 * spow w4 2%nat + sofZ 48048 * cx2 * cy1 * spow w0 3%nat * w1 * w2 - sofZ 274560 * cx2 * cy1 * spow w0 2%nat * spow w1 2%nat * w2 + sofZ 285120 * cx2 * cy1 * spow w0 2%nat * w1 * spow w2 2%nat - sofZ 190080 * cx2 * cy1 * spow w0 2%nat * w1 * w2 * w3 + sofZ 50400 * cx2 * cy1 * spow w0 2%nat * w1 * w2 * w4 + sofZ 380160 * cx2 * cy1 * w0 * spow w1 3%nat * w2 - sofZ 760320 * cx2 * cy1 * w0 * spow w1 2%nat * spow w2 2%nat + sofZ 645120 * cx2 * cy1 * w0 * spow w1 2%nat * w2 * w3 - sofZ 193536 * cx2 * cy1 * w0 * spow w1 2%nat * w2 * w4 + sofZ 362880 * cx2 * cy1 * w0 * w1 * spow w2 3%nat - sofZ 580608 * cx2 * cy1 * w0 * w1 * spow w2 2%nat * w3 + sofZ 161280 * cx2 * cy1 * w0 * w1 * spow w2 2%nat * w4 + sofZ 161280 * cx2 * cy1 * w0 * w1 * w2 * spow w3 2%nat - sofZ 67200 * cx2 * cy1 * w0 * w1 * w2 * w3 * w4 + sofZ 5040 * cx2 * cy1 * w0 * w1 * w2 * spow w4 2%nat - sofZ 387072 * cx2 * cy1 * spow w1 3%nat * w2 * w3 + sofZ 161280 * cx2 * cy1 * spow w1 3%nat * w2 * w4 + sofZ 645120 * cx2 * cy1 * spow w1 2%nat * spow w2 2%nat * w3 - sofZ 241920 * cx2 * cy1 * spow w1 2%nat * spow w2 2%nat * w4 - sofZ 215040 * cx2 * cy1 * spow w1 2%nat * w2 * spow w3 2%nat + sofZ 92160 * cx2 * cy1 * spow w1 2%nat * w2 * w3 * w4 - sofZ 5760 * cx2 * cy1 * spow w1 2%nat * w2 * spow w4 2%nat - sofZ 241920 * cx2 * cy1 * w1 * spow w2 3%nat * w3 + sofZ 77760 * cx2 * cy1 * w1 * spow w2 3%nat * w4 + sofZ 138240 * cx2 * cy1 * w1 * spow w2 2%nat * spow w3 2%nat - sofZ 46080 * cx2 * cy1 * w1 * spow w2 2%nat * w3 * w4 + sofZ 1728 * cx2 * cy1 * w1 * spow w2 2%nat * spow w4 2%nat - sofZ 15360 * cx2 * cy1 * w1 * w2 * spow w3 3%nat + sofZ 3840 * cx2 * cy1 * w1 * w2 * spow w3 2%nat * w4 - sofZ 71280 * cx2 * cy3 * spow w0 3%nat * w2 * w3 + sofZ 443520 * cx2 * cy3 * spow w0 2%nat * w1 * w2 * w3 - sofZ 362880 * cx2 * cy3 * spow w0 2%nat * spow w2 2%nat * w3 + sofZ 145152 * cx2 * cy3 * spow w0 2%nat * w2 * spow w3 2%nat - sofZ 23520 * cx2 * cy3 * spow w0 2%nat * w2 * w3 * w4 - sofZ 806400 * cx2 * cy3 * w0 * spow w1 2%nat * w2 * w3 + sofZ 1161216 * cx2 * cy3 * w0 * w1 * spow w2 2%nat * w3 - sofZ 430080 * cx2 * cy3 * w0 * w1 * w2 * spow w3 2%nat + sofZ 67200 * cx2 * cy3 * w0 * w1 * w2 * w3 * w4 - sofZ 362880 * cx2 * cy3 * w0 * spow w2 3%nat * w3 + sofZ 241920 * cx2 * cy3 * w0 * spow w2 2%nat * spow w3 2%nat - sofZ 34560 * cx2 * cy3 * w0 * spow w2 2%nat * w3 * w4 - sofZ 34560 * cx2 * cy3 * w0 * w2 * spow w3 3%nat + sofZ 7680 * cx2 * cy3 * w0 * w2 * spow w3 2%nat * w4 - sofZ 240 * cx2 * cy3 * w0 * w2 * w3 * spow w4 2%nat + sofZ 387072 * cx2 * cy3 * spow w1 3%nat * w2 * w3 - sofZ 645120 * cx2 * cy3 * spow w1 2%nat * spow w2 2%nat * w3 + sofZ 215040 * cx2 * cy3 * spow w1 2%nat * w2 * spow w3 2%nat - sofZ 34560 * cx2 * cy3 * spow w1 2%nat * w2 * w3 * w4 + sofZ 241920 * cx2 * cy3 * w1 * spow w2 3%nat * w3 - sofZ 138240 * cx2 * cy3 * w1 * spow w2 2%nat * spow w3 2%nat + sofZ 23040 * cx2 * cy3 * w1 * spow w2 2%nat * w3 * w4 + sofZ 15360 * cx2 * cy3 * w1 * w2 * spow w3 3%nat - sofZ 3072 * cx2 * cy3 * w1 * w2 * spow w3 2%nat * w4 - sofZ 1728 * cx2 * cy3 * spow w2 3%nat * w3 * w4 + sofZ 31680 * cx2 * cy4 * spow w0 3%nat * w2 * w4 - sofZ 191520 * cx2 * cy4 * spow w0 2%nat * w1 * w2 * w4 + sofZ 145152 * cx2 * cy4 * spow w0 2%nat * spow w2 2%nat * w4 - sofZ 50400 * cx2 * cy4 * spow w0 2%nat * w2 * w3 * w4 + sofZ 6720 * cx2 * cy4 * spow w0 2%nat * w2 * spow w4 2%nat + sofZ 338688 * cx2 * cy4 * w0 * spow w1 2%nat * w2 * w4 - sofZ 443520 * cx2 * cy4 * w0 * w1 * spow w2 2%nat * w4 + sofZ 134400 * cx2 * cy4 * w0 * w1 * w2 * w3 * w4 - sofZ 15840 * cx2 * cy4 * w0 * w1 * w2 * spow w4 2%nat + sofZ 120960 * cx2 * cy4 * w0 * spow w2 3%nat * w4 - sofZ 60480 * cx2 * cy4 * w0 * spow w2 2%nat * w3 * w4 + sofZ 5760 * cx2 * cy4 * w0 * spow w2 2%nat * spow w4 2%nat + sofZ 5760 * cx2 * cy4 * w0 * w2 * spow w3 2%nat * w4 - sofZ 672 * cx2 * cy4 * w0 * w2 * w3 * spow w4 2%nat - sofZ 161280 * cx2 * cy4 * spow w1 3%nat * w2 * w4 + sofZ 241920 * cx2 * cy4 * spow w1 2%nat * spow w2 2%nat * w4 - sofZ 57600 * cx2 * cy4 * spow w1 2%nat * w2 * w3 * w4 + sofZ 5760 * cx2 * cy4 * spow w1 2%nat * w2 * spow w4 2%nat - sofZ 77760 * cx2 * cy4 * w1 * spow w2 3%nat * w4 + sofZ 23040 * cx2 * cy4 * w1 * spow w2 2%nat * w3 * w4 - sofZ 1728 * cx2 * cy4 * w1 * spow w2 2%nat * spow w4 2%nat - sofZ 768 * cx2 * cy4 * w1 * w2 * spow w3 2%nat * w4 + sofZ 1728 * cx2 * cy4 * spow w2 3%nat * w3 * w4 + sofZ 68640 * cx3 * cy0 * spow w0 3%nat * w1 * w3 - sofZ 71280 * cx3 * cy0 * spow w0 3%nat * w2 * w3 + sofZ 10080 * cx3 * cy0 * spow w0 3%nat * w3 * w4 - sofZ 380160 * cx3 * cy0 * spow w0 2%nat * spow w1 2%nat * w3 + sofZ 760320 * cx3 * cy0 * spow w0 2%nat * w1 * w2 * w3 - sofZ 161280 * cx3 * cy0 * spow w0 2%nat * w1 * spow w3 2%nat - sofZ 24192 * cx3 * cy0 * spow w0 2%nat * w1 * w3 * w4 - sofZ 362880 * cx3 * cy0 * spow w0 2%nat * spow w2 2%nat * w3 + sofZ 145152 * cx3 * cy0 * spow w0 2%nat * w2 * spow w3 2%nat + sofZ 20160 * cx3 * cy0 * spow w0 2%nat * w2 * w3 * w4 - sofZ 13440 * cx3 * cy0 * spow w0 2%nat * spow w3 2%nat * w4 + sofZ 1440 * cx3 * cy0 * spow w0 2%nat * w3 * spow w4 2%nat + sofZ 506880 * cx3 * cy0 * w0 * spow w1 3%nat * w3 - sofZ 1451520 * cx3 * cy0 * w0 * spow w1 2%nat * w2 * w3 + sofZ 387072 * cx3 * cy0 * w0 * spow w1 2%nat * spow w3 2%nat + sofZ 1306368 * cx3 * cy0 * w0 * w1 * spow w2 2%nat * w3 - sofZ 645120 * cx3 * cy0 * w0 * w1 * w2 * spow w3 2%nat + sofZ 53760 * cx3 * cy0 * w0 * w1 * spow w3 3%nat + sofZ 11520 * cx3 * cy0 * w0 * w1 * spow w3 2%nat * w4 - sofZ 1440 * cx3 * cy0 * w0 * w1 * w3 * spow w4 2%nat - sofZ 362880 * cx3 * cy0 * w0 * spow w2 3%nat * w3 + sofZ 241920 * cx3 * cy0 * w0 * spow w2 2%nat * spow w3 2%nat - sofZ 34560 * cx3 * cy0 * w0 * w2 * spow w3 3%nat - sofZ 5760 * cx3 * cy0 * w0 * w2 * spow w3 2%nat * w4 + sofZ 432 * cx3 * cy0 * w0 * w2 * w3 * spow w4 2%nat + sofZ 768 * cx3 * cy0 * w0 * spow w3 3%nat * w4 - sofZ 68640 * cx3 * cy1 * spow w0 3%nat * w1 * w3 + sofZ 380160 * cx3 * cy1 * spow w0 2%nat * spow w1 2%nat * w3 - sofZ 316800 * cx3 * cy1 * spow w0 2%nat * w1 * w2 * w3 + sofZ 161280 * cx3 * cy1 * spow w0 2%nat * w1 * spow w3 2%nat - sofZ 36288 * cx3 * cy1 * spow w0 2%nat * w1 * w3 * w4 - sofZ 506880 * cx3 * cy1 * w0 * spow w1 3%nat * w3 + sofZ 645120 * cx3 * cy1 * w0 * spow w1 2%nat * w2 * w3 - sofZ 387072 * cx3 * cy1 * w0 * spow w1 2%nat * spow w3 2%nat + sofZ 107520 * cx3 * cy1 * w0 * spow w1 2%nat * w3 * w4 - sofZ 145152 * cx3 * cy1 * w0 * w1 * spow w2 2%nat * w3 + sofZ 215040 * cx3 * cy1 * w0 * w1 * w2 * spow w3 2%nat - sofZ 67200 * cx3 * cy1 * w0 * w1 * w2 * w3 * w4 - sofZ 53760 * cx3 * cy1 * w0 * w1 * spow w3 3%nat + sofZ 23040 * cx3 * cy1 * w0 * w1 * spow w3 2%nat * w4 - sofZ 1440 * cx3 * cy1 * w0 * w1 * w3 * spow w4 2%nat + sofZ 387072 * cx3 * cy1 * spow w1 3%nat * w2 * w3 - sofZ 53760 * cx3 * cy1 * spow w1 3%nat * w3 * w4 - sofZ 645120 * cx3 * cy1 * spow w1 2%nat * spow w2 2%nat * w3 + sofZ 215040 * cx3 * cy1 * spow w1 2%nat * w2 * spow w3 2%nat + sofZ 46080 * cx3 * cy1 * spow w1 2%nat * w2 * w3 * w4 - sofZ 15360 * cx3 * cy1 * spow w1 2%nat * spow w3 2%nat * w4 + sofZ 768 * cx3 * cy1 * spow w1 2%nat * w3 * spow w4 2%nat + sofZ 241920 * cx3 * cy1 * w1 * spow w2 3%nat * w3 - sofZ 138240 * cx3 * cy1 * w1 * spow w2 2%nat * spow w3 2%nat - sofZ 5760 * cx3 * cy1 * w1 * spow w2 2%nat * w3 * w4 + sofZ 15360 * cx3 * cy1 * w1 * w2 * spow w3 3%nat + sofZ 3072 * cx3 * cy1 * w1 * w2 * spow w3 2%nat * w4 + sofZ 71280 * cx3 * cy2 * spow w0 3%nat * w2 * w3 - sofZ 443520 * cx3 * cy2 * spow w0 2%nat * w1 * w2 * w3 + sofZ 362880 * cx3 * cy2 * spow w0 2%nat * spow w2 2%nat * w3 - sofZ 145152 * cx3 * cy2 * spow w0 2%nat * w2 * spow w3 2%nat + sofZ 23520 * cx3 * cy2 * spow w0 2%nat * w2 * w3 * w4 + sofZ 806400 * cx3 * cy2 * w0 * spow w1 2%nat * w2 * w3 - sofZ 1161216 * cx3 * cy2 * w0 * w1 * spow w2 2%nat * w3 + sofZ 430080 * cx3 * cy2 * w0 * w1 * w2 * spow w3 2%nat - sofZ 67200 * cx3 * cy2 * w0 * w1 * w2 * w3 * w4 + sofZ 362880 * cx3 * cy2 * w0 * spow w2 3%nat * w3 - sofZ 241920 * cx3 * cy2 * w0 * spow w2 2%nat * spow w3 2%nat + sofZ 34560 * cx3 * cy2 * w0 * spow w2 2%nat * w3 * w4 + sofZ 34560 * cx3 * cy2 * w0 * w2 * spow w3 3%nat - sofZ 7680 * cx3 * cy2 * w0 * w2 * spow w3 2%nat * w4 + sofZ 240 * cx3 * cy2 * w0 * w2 * w3 * spow w4 2%nat - sofZ 387072 * cx3 * cy2 * spow w1 3%nat * w2 * w3 + sofZ 645120 * cx3 * cy2 * spow w1 2%nat * spow w2 2%nat * w3 - sofZ 215040 * cx3 * cy2 * spow w1 2%nat * w2 * spow w3 2%nat + sofZ 34560 * cx3 * cy2 * spow w1 2%nat * w2 * w3 * w4 - sofZ 241920 * cx3 * cy2 * w1 * spow w2 3%nat * w3 + sofZ 138240 * cx3 * cy2 * w1 * spow w2 2%nat * spow w3 2%nat - sofZ 23040 * cx3 * cy2 * w1 * spow w2 2%nat * w3 * w4 - sofZ 15360 * cx3 * cy2 * w1 * w2 * spow w3 3%nat + sofZ 3072 * cx3 * cy2 * w1 * w2 * spow w3 2%nat * w4 + sofZ 1728 * cx3 * cy2 * spow w2 3%nat * w3 * w4 - sofZ 10080 * cx3 * cy4 * spow w0 3%nat * w3 * w4 + sofZ 60480 * cx3 * cy4 * spow w0 2%nat * w1 * w3 * w4 - sofZ 43680 * cx3 * cy4 * spow w0 2%nat * w2 * w3 * w4 + sofZ 13440 * cx3 * cy4 * spow w0 2%nat * spow w3 2%nat * w4 - sofZ 1440 * cx3 * cy4 * spow w0 2%nat * w3 * spow w4 2%nat - sofZ 107520 * cx3 * cy4 * w0 * spow w1 2%nat * w3 * w4 + sofZ 134400 * cx3 * cy4 * w0 * w1 * w2 * w3 * w4 - sofZ 34560 * cx3 * cy4 * w0 * w1 * spow w3 2%nat * w4 + sofZ 2880 * cx3 * cy4 * w0 * w1 * w3 * spow w4 2%nat - sofZ 34560 * cx3 * cy4 * w0 * spow w2 2%nat * w3 * w4 + sofZ 13440 * cx3 * cy4 * w0 * w2 * spow w3 2%nat * w4 - sofZ 672 * cx3 * cy4 * w0 * w2 * w3 * spow w4 2%nat - sofZ 768 * cx3 * cy4 * w0 * spow w3 3%nat * w4 + sofZ 53760 * cx3 * cy4 * spow w1 3%nat * w3 * w4 - sofZ 80640 * cx3 * cy4 * spow w1 2%nat * w2 * w3 * w4 + sofZ 15360 * cx3 * cy4 * spow w1 2%nat * spow w3 2%nat * w4 - sofZ 768 * cx3 * cy4 * spow w1 2%nat * w3 * spow w4 2%nat + sofZ 28800 * cx3 * cy4 * w1 * spow w2 2%nat * w3 * w4 - sofZ 6144 * cx3 * cy4 * w1 * w2 * spow w3 2%nat * w4 - sofZ 1728 * cx3 * cy4 * spow w2 3%nat * w3 * w4 - sofZ 23760 * cx4 * cy0 * spow w0 3%nat * w1 * w4 + sofZ 31680 * cx4 * cy0 * spow w0 3%nat * w2 * w4 - sofZ 10080 * cx4 * cy0 * spow w0 3%nat * w3 * w4 + sofZ 126720 * cx4 * cy0 * spow w0 2%nat * spow w1 2%nat * w4 - sofZ 282240 * cx4 * cy0 * spow w0 2%nat * w1 * w2 * w4 + sofZ 96768 * cx4 * cy0 * spow w0 2%nat * w1 * w3 * w4 - sofZ 6720 * cx4 * cy0 * spow w0 2%nat * w1 * spow w4 2%nat + sofZ 145152 * cx4 * cy0 * spow w0 2%nat * spow w2 2%nat * w4 - sofZ 94080 * cx4 * cy0 * spow w0 2%nat * w2 * w3 * w4 + sofZ 6720 * cx4 * cy0 * spow w0 2%nat * w2 * spow w4 2%nat + sofZ 13440 * cx4 * cy0 * spow w0 2%nat * spow w3 2%nat * w4 - sofZ 1440 * cx4 * cy0 * spow w0 2%nat * w3 * spow w4 2%nat - sofZ 161280 * cx4 * cy0 * w0 * spow w1 3%nat * w4 + sofZ 483840 * cx4 * cy0 * w0 * spow w1 2%nat * w2 * w4 - sofZ 161280 * cx4 * cy0 * w0 * spow w1 2%nat * w3 * w4 + sofZ 13440 * cx4 * cy0 * w0 * spow w1 2%nat * spow w4 2%nat - sofZ 443520 * cx4 * cy0 * w0 * w1 * spow w2 2%nat * w4 + sofZ 268800 * cx4 * cy0 * w0 * w1 * w2 * w3 * w4 - sofZ 20160 * cx4 * cy0 * w0 * w1 * w2 * spow w4 2%nat - sofZ 34560 * cx4 * cy0 * w0 * w1 * spow w3 2%nat * w4 + sofZ 3840 * cx4 * cy0 * w0 * w1 * w3 * spow w4 2%nat - sofZ 48 * cx4 * cy0 * w0 * w1 * spow w4 3%nat + sofZ 120960 * cx4 * cy0 * w0 * spow w2 3%nat * w4 - sofZ 95040 * cx4 * cy0 * w0 * spow w2 2%nat * w3 * w4 + sofZ 5760 * cx4 * cy0 * w0 * spow w2 2%nat * spow w4 2%nat + sofZ 19200 * cx4 * cy0 * w0 * w2 * spow w3 2%nat * w4 - sofZ 1344 * cx4 * cy0 * w0 * w2 * w3 * spow w4 2%nat - sofZ 768 * cx4 * cy0 * w0 * spow w3 3%nat * w4 + sofZ 23760 * cx4 * cy1 * spow w0 3%nat * w1 * w4 - sofZ 126720 * cx4 * cy1 * spow w0 2%nat * spow w1 2%nat * w4 + sofZ 90720 * cx4 * cy1 * spow w0 2%nat * w1 * w2 * w4 - sofZ 36288 * cx4 * cy1 * spow w0 2%nat * w1 * w3 * w4 + sofZ 6720 * cx4 * cy1 * spow w0 2%nat * w1 * spow w4 2%nat + sofZ 161280 * cx4 * cy1 * w0 * spow w1 3%nat * w4 - sofZ 145152 * cx4 * cy1 * w0 * spow w1 2%nat * w2 * w4 + sofZ 53760 * cx4 * cy1 * w0 * spow w1 2%nat * w3 * w4 - sofZ 13440 * cx4 * cy1 * w0 * spow w1 2%nat * spow w4 2%nat + sofZ 4320 * cx4 * cy1 * w0 * w1 * w2 * spow w4 2%nat - sofZ 960 * cx4 * cy1 * w0 * w1 * w3 * spow w4 2%nat + sofZ 48 * cx4 * cy1 * w0 * w1 * spow w4 3%nat - sofZ 161280 * cx4 * cy1 * spow w1 3%nat * w2 * w4 + sofZ 53760 * cx4 * cy1 * spow w1 3%nat * w3 * w4 + sofZ 241920 * cx4 * cy1 * spow w1 2%nat * spow w2 2%nat * w4 - sofZ 138240 * cx4 * cy1 * spow w1 2%nat * w2 * w3 * w4 + sofZ 5760 * cx4 * cy1 * spow w1 2%nat * w2 * spow w4 2%nat + sofZ 15360 * cx4 * cy1 * spow w1 2%nat * spow w3 2%nat * w4 - sofZ 768 * cx4 * cy1 * spow w1 2%nat * w3 * spow w4 2%nat - sofZ 77760 * cx4 * cy1 * w1 * spow w2 3%nat * w4 + sofZ 51840 * cx4 * cy1 * w1 * spow w2 2%nat * w3 * w4 - sofZ 1728 * cx4 * cy1 * w1 * spow w2 2%nat * spow w4 2%nat - sofZ 6912 * cx4 * cy1 * w1 * w2 * spow w3 2%nat * w4 - sofZ 31680 * cx4 * cy2 * spow w0 3%nat * w2 * w4 + sofZ 191520 * cx4 * cy2 * spow w0 2%nat * w1 * w2 * w4 - sofZ 145152 * cx4 * cy2 * spow w0 2%nat * spow w2 2%nat * w4 + sofZ 50400 * cx4 * cy2 * spow w0 2%nat * w2 * w3 * w4 - sofZ 6720 * cx4 * cy2 * spow w0 2%nat * w2 * spow w4 2%nat - sofZ 338688 * cx4 * cy2 * w0 * spow w1 2%nat * w2 * w4 + sofZ 443520 * cx4 * cy2 * w0 * w1 * spow w2 2%nat * w4 - sofZ 134400 * cx4 * cy2 * w0 * w1 * w2 * w3 * w4 + sofZ 15840 * cx4 * cy2 * w0 * w1 * w2 * spow w4 2%nat - sofZ 120960 * cx4 * cy2 * w0 * spow w2 3%nat * w4 + sofZ 60480 * cx4 * cy2 * w0 * spow w2 2%nat * w3 * w4 - sofZ 5760 * cx4 * cy2 * w0 * spow w2 2%nat * spow w4 2%nat - sofZ 5760 * cx4 * cy2 * w0 * w2 * spow w3 2%nat * w4 + sofZ 672 * cx4 * cy2 * w0 * w2 * w3 * spow w4 2%nat + sofZ 161280 * cx4 * cy2 * spow w1 3%nat * w2 * w4 - sofZ 241920 * cx4 * cy2 * spow w1 2%nat * spow w2 2%nat * w4 + sofZ 57600 * cx4 * cy2 * spow w1 2%nat * w2 * w3 * w4 - sofZ 5760 * cx4 * cy2 * spow w1 2%nat * w2 * spow w4 2%nat + sofZ 77760 * cx4 * cy2 * w1 * spow w2 3%nat * w4 - sofZ 23040 * cx4 * cy2 * w1 * spow w2 2%nat * w3 * w4 + sofZ 1728 * cx4 * cy2 * w1 * spow w2 2%nat * spow w4 2%nat + sofZ 768 * cx4 * cy2 * w1 * w2 * spow w3 2%nat * w4 - sofZ 1728 * cx4 * cy2 * spow w2 3%nat * w3 * w4 + sofZ 10080 * cx4 * cy3 * spow w0 3%nat * w3 * w4 - sofZ 60480 * cx4 * cy3 * spow w0 2%nat * w1 * w3 * w4 + sofZ 43680 * cx4 * cy3 * spow w0 2%nat * w2 * w3 * w4 - sofZ 13440 * cx4 * cy3 * spow w0 2%nat * spow w3 2%nat * w4 + sofZ 1440 * cx4 * cy3 * spow w0 2%nat * w3 * spow w4 2%nat + sofZ 107520 * cx4 * cy3 * w0 * spow w1 2%nat * w3 * w4 - sofZ 134400 * cx4 * cy3 * w0 * w1 * w2 * w3 * w4 + sofZ 34560 * cx4 * cy3 * w0 * w1 * spow w3 2%nat * w4 - sofZ 2880 * cx4 * cy3 * w0 * w1 * w3 * spow w4 2%nat + sofZ 34560 * cx4 * cy3 * w0 * spow w2 2%nat * w3 * w4 - sofZ 13440 * cx4 * cy3 * w0 * w2 * spow w3 2%nat * w4 + sofZ 672 * cx4 * cy3 * w0 * w2 * w3 * spow w4 2%nat + sofZ 768 * cx4 * cy3 * w0 * spow w3 3%nat * w4 - sofZ 53760 * cx4 * cy3 * spow w1 3%nat * w3 * w4 + sofZ 80640 * cx4 * cy3 * spow w1 2%nat * w2 * w3 * w4 - sofZ 15360 * cx4 * cy3 * spow w1 2%nat * spow w3 2%nat * w4 + sofZ 768 * cx4 * cy3 * spow w1 2%nat * w3 * spow w4 2%nat - sofZ 28800 * cx4 * cy3 * w1 * spow w2 2%nat * w3 * w4 + sofZ 6144 * cx4 * cy3 * w1 * w2 * spow w3 2%nat * w4 + sofZ 1728 * cx4 * cy3 * spow w2 3%nat * w3 * w4;
     sofZ 17472 * cx0 * cy1 * spow w0 3%nat * w1 * w2 - sofZ 27456 * cx0 * cy1 * spow w0 3%nat * w1 * w3 + sofZ 10560 * cx0 * cy1 * spow w0 3%nat * w1 * w4 - sofZ 109824 * cx0 * cy1 * spow w0 2%nat * spow w1 2%nat * w2 + sofZ 168960 * cx0 * cy1 * spow w0 2%nat * spow w1 2%nat * w3 - sofZ 63360 * cx0 * cy1 * spow w0 2%nat * spow w1 2%nat * w4 + sofZ 126720 * cx0 * cy1 * spow w0 2%nat * w1 * spow w2 2%nat - sofZ 253440 * cx0 * cy1 * spow w0 2%nat * w1 * w2 * w3 + sofZ 80640 * cx0 * cy1 * spow w0 2%nat * w1 * w2 * w4 + sofZ 92160 * cx0 * cy1 * spow w0 2%nat * w1 * spow w3 2%nat - sofZ 48384 * cx0 * cy1 * spow w0 2%nat * w1 * w3 * w4 + sofZ 5376 * cx0 * cy1 * spow w0 2%nat * w1 * spow w4 2%nat + sofZ 168960 * cx0 * cy1 * w0 * spow w1 3%nat * w2 - sofZ 253440 * cx0 * cy1 * w0 * spow w1 3%nat * w3 + sofZ 92160 * cx0 * cy1 * w0 * spow w1 3%nat * w4 - sofZ 380160 * cx0 * cy1 * w0 * spow w1 2%nat * spow w2 2%nat + sofZ 737280 * cx0 * cy1 * w0 * spow w1 2%nat * w2 * w3 - sofZ 225792 * cx0 * cy1 * w0 * spow w1 2%nat * w2 * w4 - sofZ 258048 * cx0 * cy1 * w0 * spow w1 2%nat * spow w3 2%nat + sofZ 129024 * cx0 * cy1 * w0 * spow w1 2%nat * w3 * w4 - sofZ 13440 * cx0 * cy1 * w0 * spow w1 2%nat * spow w4 2%nat + sofZ 207360 * cx0 * cy1 * w0 * w1 * spow w2 3%nat - sofZ 483840 * cx0 * cy1 * w0 * w1 * spow w2 2%nat * w3 + sofZ 129024 * cx0 * cy1 * w0 * w1 * spow w2 2%nat * w4 + sofZ 301056 * cx0 * cy1 * w0 * w1 * w2 * spow w3 2%nat - sofZ 134400 * cx0 * cy1 * w0 * w1 * w2 * w3 * w4 + sofZ 12480 * cx0 * cy1 * w0 * w1 * w2 * spow w4 2%nat - sofZ 53760 * cx0 * cy1 * w0 * w1 * spow w3 3%nat + sofZ 30720 * cx0 * cy1 * w0 * w1 * spow w3 2%nat * w4 - sofZ 4800 * cx0 * cy1 * w0 * w1 * w3 * spow w4 2%nat + sofZ 192 * cx0 * cy1 * w0 * w1 * spow w4 3%nat - sofZ 17472 * cx0 * cy2 * spow w0 3%nat * w1 * w2 + sofZ 31680 * cx0 * cy2 * spow w0 3%nat * w2 * w3 - sofZ 15840 * cx0 * cy2 * spow w0 3%nat * w2 * w4 + sofZ 109824 * cx0 * cy2 * spow w0 2%nat * spow w1 2%nat * w2 - sofZ 126720 * cx0 * cy2 * spow w0 2%nat * w1 * spow w2 2%nat - sofZ 126720 * cx0 * cy2 * spow w0 2%nat * w1 * w2 * w3 + sofZ 80640 * cx0 * cy2 * spow w0 2%nat * w1 * w2 * w4 + sofZ 207360 * cx0 * cy2 * spow w0 2%nat * spow w2 2%nat * w3 - sofZ 96768 * cx0 * cy2 * spow w0 2%nat * spow w2 2%nat * w4 - sofZ 96768 * cx0 * cy2 * spow w0 2%nat * w2 * spow w3 2%nat + sofZ 59136 * cx0 * cy2 * spow w0 2%nat * w2 * w3 * w4 - sofZ 6720 * cx0 * cy2 * spow w0 2%nat * w2 * spow w4 2%nat - sofZ 168960 * cx0 * cy2 * w0 * spow w1 3%nat * w2 + sofZ 380160 * cx0 * cy2 * w0 * spow w1 2%nat * spow w2 2%nat + sofZ 92160 * cx0 * cy2 * w0 * spow w1 2%nat * w2 * w3 - sofZ 96768 * cx0 * cy2 * w0 * spow w1 2%nat * w2 * w4 - sofZ 207360 * cx0 * cy2 * w0 * w1 * spow w2 3%nat - sofZ 387072 * cx0 * cy2 * w0 * w1 * spow w2 2%nat * w3 + sofZ 225792 * cx0 * cy2 * w0 * w1 * spow w2 2%nat * w4 + sofZ 215040 * cx0 * cy2 * w0 * w1 * w2 * spow w3 2%nat - sofZ 134400 * cx0 * cy2 * w0 * w1 * w2 * w3 * w4 + sofZ 14400 * cx0 * cy2 * w0 * w1 * w2 * spow w4 2%nat + sofZ 290304 * cx0 * cy2 * w0 * spow w2 3%nat * w3 - sofZ 120960 * cx0 * cy2 * w0 * spow w2 3%nat * w4 - sofZ 241920 * cx0 * cy2 * w0 * spow w2 2%nat * spow w3 2%nat + sofZ 126720 * cx0 * cy2 * w0 * spow w2 2%nat * w3 * w4 - sofZ 11520 * cx0 * cy2 * w0 * spow w2 2%nat * spow w4 2%nat + sofZ 46080 * cx0 * cy2 * w0 * w2 * spow w3 3%nat - sofZ 26880 * cx0 * cy2 * w0 * w2 * spow w3 2%nat * w4 + sofZ 3648 * cx0 * cy2 * w0 * w2 * w3 * spow w4 2%nat - sofZ 96 * cx0 * cy2 * w0 * w2 * spow w4 3%nat + sofZ 27456 * cx0 * cy3 * spow w0 3%nat * w1 * w3 - sofZ 31680 * cx0 * cy3 * spow w0 3%nat * w2 * w3 + sofZ 5760 * cx0 * cy3 * spow w0 3%nat * w3 * w4 - sofZ 168960 * cx0 * cy3 * spow w0 2%nat * spow w1 2%nat * w3 + sofZ 380160 * cx0 * cy3 * spow w0 2%nat * w1 * w2 * w3 - sofZ 92160 * cx0 * cy3 * spow w0 2%nat * w1 * spow w3 2%nat - sofZ 16128 * cx0 * cy3 * spow w0 2%nat * w1 * w3 * w4 - sofZ 207360 * cx0 * cy3 * spow w0 2%nat * spow w2 2%nat * w3 + sofZ 96768 * cx0 * cy3 * spow w0 2%nat * w2 * spow w3 2%nat + sofZ 16128 * cx0 * cy3 * spow w0 2%nat * w2 * w3 * w4 - sofZ 13440 * cx0 * cy3 * spow w0 2%nat * spow w3 2%nat * w4 + sofZ 1920 * cx0 * cy3 * spow w0 2%nat * w3 * spow w4 2%nat + sofZ 253440 * cx0 * cy3 * w0 * spow w1 3%nat * w3 - sofZ 829440 * cx0 * cy3 * w0 * spow w1 2%nat * w2 * w3 + sofZ 258048 * cx0 * cy3 * w0 * spow w1 2%nat * spow w3 2%nat + sofZ 870912 * cx0 * cy3 * w0 * w1 * spow w2 2%nat * w3 - sofZ 516096 * cx0 * cy3 * w0 * w1 * w2 * spow w3 2%nat + sofZ 53760 * cx0 * cy3 * w0 * w1 * spow w3 3%nat + sofZ 15360 * cx0 * cy3 * w0 * w1 * spow w3 2%nat * w4 - sofZ 2880 * cx0 * cy3 * w0 * w1 * w3 * spow w4 2%nat - sofZ 290304 * cx0 * cy3 * w0 * spow w2 3%nat * w3 + sofZ 241920 * cx0 * cy3 * w0 * spow w2 2%nat * spow w3 2%nat - sofZ 46080 * cx0 * cy3 * w0 * w2 * spow w3 3%nat - sofZ 11520 * cx0 * cy3 * w0 * w2 * spow w3 2%nat * w4 + sofZ 1728 * cx0 * cy3 * w0 * w2 * w3 * spow w4 2%nat + sofZ 3072 * cx0 * cy3 * w0 * spow w3 3%nat * w4 - sofZ 384 * cx0 * cy3 * w0 * spow w3 2%nat * spow w4 2%nat - sofZ 10560 * cx0 * cy4 * spow w0 3%nat * w1 * w4 + sofZ 15840 * cx0 * cy4 * spow w0 3%nat * w2 * w4 - sofZ 5760 * cx0 * cy4 * spow w0 3%nat * w3 * w4 + sofZ 63360 * cx0 * cy4 * spow w0 2%nat * spow w1 2%nat * w4 - sofZ 161280 * cx0 * cy4 * spow w0 2%nat * w1 * w2 * w4 + sofZ 64512 * cx0 * cy4 * spow w0 2%nat * w1 * w3 * w4 - sofZ 5376 * cx0 * cy4 * spow w0 2%nat * w1 * spow w4 2%nat + sofZ 96768 * cx0 * cy4 * spow w0 2%nat * spow w2 2%nat * w4 - sofZ 75264 * cx0 * cy4 * spow w0 2%nat * w2 * w3 * w4 + sofZ 6720 * cx0 * cy4 * spow w0 2%nat * w2 * spow w4 2%nat + sofZ 13440 * cx0 * cy4 * spow w0 2%nat * spow w3 2%nat * w4 - sofZ 1920 * cx0 * cy4 * spow w0 2%nat * w3 * spow w4 2%nat - sofZ 92160 * cx0 * cy4 * w0 * spow w1 3%nat * w4 + sofZ 322560 * cx0 * cy4 * w0 * spow w1 2%nat * w2 * w4 - sofZ 129024 * cx0 * cy4 * w0 * spow w1 2%nat * w3 * w4 + sofZ 13440 * cx0 * cy4 * w0 * spow w1 2%nat * spow w4 2%nat - sofZ 354816 * cx0 * cy4 * w0 * w1 * spow w2 2%nat * w4 + sofZ 268800 * cx0 * cy4 * w0 * w1 * w2 * w3 * w4 - sofZ 26880 * cx0 * cy4 * w0 * w1 * w2 * spow w4 2%nat - sofZ 46080 * cx0 * cy4 * w0 * w1 * spow w3 2%nat * w4 + sofZ 7680 * cx0 * cy4 * w0 * w1 * w3 * spow w4 2%nat - sofZ 192 * cx0 * cy4 * w0 * w1 * spow w4 3%nat + sofZ 120960 * cx0 * cy4 * w0 * spow w2 3%nat * w4 - sofZ 126720 * cx0 * cy4 * w0 * spow w2 2%nat * w3 * w4 + sofZ 11520 * cx0 * cy4 * w0 * spow w2 2%nat * spow w4 2%nat + sofZ 38400 * cx0 * cy4 * w0 * w2 * spow w3 2%nat * w4 - sofZ 5376 * cx0 * cy4 * w0 * w2 * w3 * spow w4 2%nat + sofZ 96 * cx0 * cy4 * w0 * w2 * spow w4 3%nat - sofZ 3072 * cx0 * cy4 * w0 * spow w3 3%nat * w4 + sofZ 384 * cx0 * cy4 * w0 * spow w3 2%nat * spow w4 2%nat - sofZ 17472 * cx1 * cy0 * spow w0 3%nat * w1 * w2 + sofZ 27456 * cx1 * cy0 * spow w0 3%nat * w1 * w3 - sofZ 10560 * cx1 * cy0 * spow w0 3%nat * w1 * w4 + sofZ 109824 * cx1 * cy0 * spow w0 2%nat * spow w1 2%nat * w2 - sofZ 168960 * cx1 * cy0 * spow w0 2%nat * spow w1 2%nat * w3 + sofZ 63360 * cx1 * cy0 * spow w0 2%nat * spow w1 2%nat * w4 - sofZ 126720 * cx1 * cy0 * spow w0 2%nat * w1 * spow w2 2%nat + sofZ 253440 * cx1 * cy0 * spow w0 2%nat * w1 * w2 * w3 - sofZ 80640 * cx1 * cy0 * spow w0 2%nat * w1 * w2 * w4 - sofZ 92160 * cx1 * cy0 * spow w0 2%nat * w1 * spow w3 2%nat + sofZ 48384 * cx1 * cy0 * spow w0 2%nat * w1 * w3 * w4 - sofZ 5376 * cx1 * cy0 * spow w0 2%nat * w1 * spow w4 2%nat - sofZ 168960 * cx1 * cy0 * w0 * spow w1 3%nat * w2 + sofZ 253440 * cx1 * cy0 * w0 * spow w1 3%nat * w3 - sofZ 92160 * cx1 * cy0 * w0 * spow w1 3%nat * w4 + sofZ 380160 * cx1 * cy0 * w0 * spow w1 2%nat * spow w2 2%nat - sofZ 737280 * cx1 * cy0 * w0 * spow w1 2%nat * w2 * w3 + sofZ 225792 * cx1 * cy0 * w0 * spow w1 2%nat * w2 * w4 + sofZ 258048 * cx1 * cy0 * w0 * spow w1 2%nat * spow w3 2%nat - sofZ 129024 * cx1 * cy0 * w0 * spow w1 2%nat * w3 * w4 + sofZ 13440 * cx1 * cy0 * w0 * spow w1 2%nat * spow w4 2%nat - sofZ 207360 * cx1 * cy0 * w0 * w1 * spow w2 3%nat + sofZ 483840 * cx1 * cy0 * w0 * w1 * spow w2 2%nat * w3 - sofZ 129024 * cx1 * cy0 * w0 * w1 * spow w2 2%nat * w4 - sofZ 301056 * cx1 * cy0 * w0 * w1 * w2 * spow w3 2%nat + sofZ 134400 * cx1 * cy0 * w0 * w1 * w2 * w3 * w4 - sofZ 12480 * cx1 * cy0 * w0 * w1 * w2 * spow w4 2%nat + sofZ 53760 * cx1 * cy0 * w0 * w1 * spow w3 3%nat - sofZ 30720 * cx1 * cy0 * w0 * w1 * spow w3 2%nat * w4 + sofZ 4800 * cx1 * cy0 * w0 * w1 * w3 * spow w4 2%nat - sofZ 192 * cx1 * cy0 * w0 * w1 * spow w4 3%nat + sofZ 17472 * cx1 * cy2 * spow w0 3%nat * w1 * w2 - sofZ 109824 * cx1 * cy2 * spow w0 2%nat * spow w1 2%nat * w2 + sofZ 126720 * cx1 * cy2 * spow w0 2%nat * w1 * spow w2 2%nat - sofZ 95040 * cx1 * cy2 * spow w0 2%nat * w1 * w2 * w3 + sofZ 28800 * cx1 * cy2 * spow w0 2%nat * w1 * w2 * w4 + sofZ 168960 * cx1 * cy2 * w0 * spow w1 3%nat * w2 - sofZ 380160 * cx1 * cy2 * w0 * spow w1 2%nat * spow w2 2%nat + sofZ 368640 * cx1 * cy2 * w0 * spow w1 2%nat * w2 * w3 - sofZ 129024 * cx1 * cy2 * w0 * spow w1 2%nat * w2 * w4 + sofZ 207360 * cx1 * cy2 * w0 * w1 * spow w2 3%nat - sofZ 387072 * cx1 * cy2 * w0 * w1 * spow w2 2%nat * w3 + sofZ 129024 * cx1 * cy2 * w0 * w1 * spow w2 2%nat * w4 + sofZ 129024 * cx1 * cy2 * w0 * w1 * w2 * spow w3 2%nat - sofZ 67200 * cx1 * cy2 * w0 * w1 * w2 * w3 * w4 + sofZ 6720 * cx1 * cy2 * w0 * w1 * w2 * spow w4 2%nat - sofZ 258048 * cx1 * cy2 * spow w1 3%nat * w2 * w3 + sofZ 129024 * cx1 * cy2 * spow w1 3%nat * w2 * w4 + sofZ 516096 * cx1 * cy2 * spow w1 2%nat * spow w2 2%nat * w3 - sofZ 241920 * cx1 * cy2 * spow w1 2%nat * spow w2 2%nat * w4 - sofZ 215040 * cx1 * cy2 * spow w1 2%nat * w2 * spow w3 2%nat + sofZ 122880 * cx1 * cy2 * spow w1 2%nat * w2 * w3 * w4 - sofZ 11520 * cx1 * cy2 * spow w1 2%nat * w2 * spow w4 2%nat - sofZ 241920 * cx1 * cy2 * w1 * spow w2 3%nat * w3 + sofZ 103680 * cx1 * cy2 * w1 * spow w2 3%nat * w4 + sofZ 184320 * cx1 * cy2 * w1 * spow w2 2%nat * spow w3 2%nat - sofZ 92160 * cx1 * cy2 * w1 * spow w2 2%nat * w3 * w4 + sofZ 6912 * cx1 * cy2 * w1 * spow w2 2%nat * spow w4 2%nat - sofZ 30720 * cx1 * cy2 * w1 * w2 * spow w3 3%nat + sofZ 15360 * cx1 * cy2 * w1 * w2 * spow w3 2%nat * w4 - sofZ 1344 * cx1 * cy2 * w1 * w2 * w3 * spow w4 2%nat - sofZ 27456 * cx1 * cy3 * spow w0 3%nat * w1 * w3 + sofZ 168960 * cx1 * cy3 * spow w0 2%nat * spow w1 2%nat * w3 - sofZ 158400 * cx1 * cy3 * spow w0 2%nat * w1 * w2 * w3 + sofZ 92160 * cx1 * cy3 * spow w0 2%nat * w1 * spow w3 2%nat - sofZ 24192 * cx1 * cy3 * spow w0 2%nat * w1 * w3 * w4 - sofZ 253440 * cx1 * cy3 * w0 * spow w1 3%nat * w3 + sofZ 368640 * cx1 * cy3 * w0 * spow w1 2%nat * w2 * w3 - sofZ 258048 * cx1 * cy3 * w0 * spow w1 2%nat * spow w3 2%nat + sofZ 86016 * cx1 * cy3 * w0 * spow w1 2%nat * w3 * w4 - sofZ 96768 * cx1 * cy3 * w0 * w1 * spow w2 2%nat * w3 + sofZ 172032 * cx1 * cy3 * w0 * w1 * w2 * spow w3 2%nat - sofZ 67200 * cx1 * cy3 * w0 * w1 * w2 * w3 * w4 - sofZ 53760 * cx1 * cy3 * w0 * w1 * spow w3 3%nat + sofZ 30720 * cx1 * cy3 * w0 * w1 * spow w3 2%nat * w4 - sofZ 2880 * cx1 * cy3 * w0 * w1 * w3 * spow w4 2%nat + sofZ 258048 * cx1 * cy3 * spow w1 3%nat * w2 * w3 - sofZ 53760 * cx1 * cy3 * spow w1 3%nat * w3 * w4 - sofZ 516096 * cx1 * cy3 * spow w1 2%nat * spow w2 2%nat * w3 + sofZ 215040 * cx1 * cy3 * spow w1 2%nat * w2 * spow w3 2%nat + sofZ 61440 * cx1 * cy3 * spow w1 2%nat * w2 * w3 * w4 - sofZ 30720 * cx1 * cy3 * spow w1 2%nat * spow w3 2%nat * w4 + sofZ 3072 * cx1 * cy3 * spow w1 2%nat * w3 * spow w4 2%nat + sofZ 241920 * cx1 * cy3 * w1 * spow w2 3%nat * w3 - sofZ 184320 * cx1 * cy3 * w1 * spow w2 2%nat * spow w3 2%nat - sofZ 11520 * cx1 * cy3 * w1 * spow w2 2%nat * w3 * w4 + sofZ 30720 * cx1 * cy3 * w1 * w2 * spow w3 3%nat + sofZ 12288 * cx1 * cy3 * w1 * w2 * spow w3 2%nat * w4 - sofZ 960 * cx1 * cy3 * w1 * w2 * w3 * spow w4 2%nat - sofZ 1536 * cx1 * cy3 * w1 * spow w3 3%nat * w4 + sofZ 10560 * cx1 * cy4 * spow w0 3%nat * w1 * w4 - sofZ 63360 * cx1 * cy4 * spow w0 2%nat * spow w1 2%nat * w4 + sofZ 51840 * cx1 * cy4 * spow w0 2%nat * w1 * w2 * w4 - sofZ 24192 * cx1 * cy4 * spow w0 2%nat * w1 * w3 * w4 + sofZ 5376 * cx1 * cy4 * spow w0 2%nat * w1 * spow w4 2%nat + sofZ 92160 * cx1 * cy4 * w0 * spow w1 3%nat * w4 - sofZ 96768 * cx1 * cy4 * w0 * spow w1 2%nat * w2 * w4 + sofZ 43008 * cx1 * cy4 * w0 * spow w1 2%nat * w3 * w4 - sofZ 13440 * cx1 * cy4 * w0 * spow w1 2%nat * spow w4 2%nat + sofZ 5760 * cx1 * cy4 * w0 * w1 * w2 * spow w4 2%nat - sofZ 1920 * cx1 * cy4 * w0 * w1 * w3 * spow w4 2%nat + sofZ 192 * cx1 * cy4 * w0 * w1 * spow w4 3%nat - sofZ 129024 * cx1 * cy4 * spow w1 3%nat * w2 * w4 + sofZ 53760 * cx1 * cy4 * spow w1 3%nat * w3 * w4 + sofZ 241920 * cx1 * cy4 * spow w1 2%nat * spow w2 2%nat * w4 - sofZ 184320 * cx1 * cy4 * spow w1 2%nat * w2 * w3 * w4 + sofZ 11520 * cx1 * cy4 * spow w1 2%nat * w2 * spow w4 2%nat + sofZ 30720 * cx1 * cy4 * spow w1 2%nat * spow w3 2%nat * w4 - sofZ 3072 * cx1 * cy4 * spow w1 2%nat * w3 * spow w4 2%nat - sofZ 103680 * cx1 * cy4 * w1 * spow w2 3%nat * w4 + sofZ 103680 * cx1 * cy4 * w1 * spow w2 2%nat * w3 * w4 - sofZ 6912 * cx1 * cy4 * w1 * spow w2 2%nat * spow w4 2%nat - sofZ 27648 * cx1 * cy4 * w1 * w2 * spow w3 2%nat * w4 + sofZ 2304 * cx1 * cy4 * w1 * w2 * w3 * spow w4 2%nat + sofZ 1536 * cx1 * cy4 * w1 * spow w3 3%nat * w4 + sofZ 17472 * cx2 * cy0 * spow w0 3%nat * w1 * w2 - sofZ 31680 * cx2 * cy0 * spow w0 3%nat * w2 * w3 + sofZ 15840 * cx2 * cy0 * spow w0 3%nat * w2 * w4 - sofZ 109824 * cx2 * cy0 * spow w0 2%nat * spow w1 2%nat * w2 + sofZ 126720 * cx2 * cy0 * spow w0 2%nat * w1 * spow w2 2%nat + sofZ 126720 * cx2 * cy0 * spow w0 2%nat * w1 * w2 * w3 - sofZ 80640 * cx2 * cy0 * spow w0 2%nat * w1 * w2 * w4 - sofZ 207360 * cx2 * cy0 * spow w0 2%nat * spow w2 2%nat * w3 + sofZ 96768 * cx2 * cy0 * spow w0 2%nat * spow w2 2%nat * w4 + sofZ 96768 * cx2 * cy0 * spow w0 2%nat * w2 * spow w3 2%nat - sofZ 59136 * cx2 * cy0 * spow w0 2%nat * w2 * w3 * w4 + sofZ 6720 * cx2 * cy0 * spow w0 2%nat * w2 * spow w4 2%nat + sofZ 168960 * cx2 * cy0 * w0 * spow w1 3%nat * w2 - sofZ 380160 * cx2 * cy0 * w0 * spow w1 2%nat * spow w2 2%nat - sofZ 92160 * cx2 * cy0 * w0 * spow w1 2%nat * w2 * w3 + sofZ 96768 * cx2 * cy0 * w0 * spow w1 2%nat * w2 * w4 + sofZ 207360 * cx2 * cy0 * w0 * w1 * spow w2 3%nat + sofZ 387072 * cx2 * cy0 * w0 * w1 * spow w2 2%nat * w3 - sofZ 225792 * cx2 * cy0 * w0 * w1 * spow w2 2%nat * w4 - sofZ 215040 * cx2 * cy0 * w0 * w1 * w2 * spow w3 2%nat + sofZ 134400 * cx2 * cy0 * w0 * w1 * w2 * w3 * w4 - sofZ 14400 * cx2 * cy0 * w0 * w1 * w2 * spow w4 2%nat - sofZ 290304 * cx2 * cy0 * w0 * spow w2 3%nat * w3 + sofZ 120960 * cx2 * cy0 * w0 * spow w2 3%nat * w4 + sofZ 241920 * cx2 * cy0 * w0 * spow w2 2%nat * spow w3 2%nat - sofZ 126720 * cx2 * cy0 * w0 * spow w2 2%nat * w3 * w4 + sofZ 11520 * cx2 * cy0 * w0 * spow w2 2%nat * spow w4 2%nat - sofZ 46080 * cx2 * cy0 * w0 * w2 * spow w3 3%nat + sofZ 26880 * cx2 * cy0 * w0 * w2 * spow w3 2%nat * w4 - sofZ 3648 * cx2 * cy0 * w0 * w2 * w3 * spow w4 2%nat + sofZ 96 * cx2 * cy0 * w0 * w2 * spow w4 3%nat - sofZ 17472 * cx2 * cy1 * spow w0 3%nat * w1 * w2 + sofZ 109824 * cx2 * cy1 * spow w0 2%nat * spow w1 2%nat * w2 - sofZ 126720 * cx2 * cy1 * spow w0 2%nat * w1 * spow w2 2%nat + sofZ 95040 * cx2 * cy1 * spow w0 2%nat * w1 * w2 * w3 - sofZ 28800 * cx2 * cy1 * spow w0 2%nat * w1 * w2 * w4 - sofZ 168960 * cx2 * cy1 * w0 * spow w1 3%nat * w2 + sofZ 380160 * cx2 * cy1 * w0 * spow w1 2%nat * spow w2 2%nat - sofZ 368640 * cx2 * cy1 * w0 * spow w1 2%nat * w2 * w3 + sofZ 129024 * cx2 * cy1 * w0 * spow w1 2%nat * w2 * w4 - sofZ 207360 * cx2 * cy1 * w0 * w1 * spow w2 3%nat + sofZ 387072 * cx2 * cy1 * w0 * w1 * spow w2 2%nat * w3 - sofZ 129024 * cx2 * cy1 * w0 * w1 * spow w2 2%nat * w4 - sofZ 129024 * cx2 * cy1 * w0 * w1 * w2 * spow w3 2%nat + sofZ 67200 * cx2 * cy1 * w0 * w1 * w2 * w3 * w4 - sofZ 6720 * cx2 * cy1 * w0 * w1 * w2 * spow w4 2%nat + sofZ 258048 * cx2 * cy1 * spow w1 3%nat * w2 * w3 - sofZ 129024 * cx2 * cy1 * spow w1 3%nat * w2 * w4 - sofZ 516096 * cx2 * cy1 * spow w1 2%nat * spow w2 2%nat * w3 + sofZ 241920 * cx2 * cy1 * spow w1 2%nat * spow w2 2%nat * w4 + sofZ 215040 * cx2 * cy1 * spow w1 2%nat * w2 * spow w3 2%nat - sofZ 122880 * cx2 * cy1 * spow w1 2%nat * w2 * w3 * w4 + sofZ 11520 * cx2 * cy1 * spow w1 2%nat * w2 * spow w4 2%nat + sofZ 241920 * cx2 * cy1 * w1 * spow w2 3%nat * w3 - sofZ 103680 * cx2 * cy1 * w1 * spow w2 3%nat * w4 - sofZ 184320 * cx2 * cy1 * w1 * spow w2 2%nat * spow w3 2%nat + sofZ 92160 * cx2 * cy1 * w1 * spow w2 2%nat * w3 * w4 - sofZ 6912 * cx2 * cy1 * w1 * spow w2 2%nat * spow w4 2%nat + sofZ 30720 * cx2 * cy1 * w1 * w2 * spow w3 3%nat - sofZ 15360 * cx2 * cy1 * w1 * w2 * spow w3 2%nat * w4 + sofZ 1344 * cx2 * cy1 * w1 * w2 * w3 * spow w4 2%nat + sofZ 31680 * cx2 * cy3 * spow w0 3%nat * w2 * w3 - sofZ 221760 * cx2 * cy3 * spow w0 2%nat * w1 * w2 * w3 + sofZ 207360 * cx2 * cy3 * spow w0 2%nat * spow w2 2%nat * w3 - sofZ 96768 * cx2 * cy3 * spow w0 2%nat * w2 * spow w3 2%nat + sofZ 18816 * cx2 * cy3 * spow w0 2%nat * w2 * w3 * w4 + sofZ 460800 * cx2 * cy3 * w0 * spow w1 2%nat * w2 * w3 - sofZ 774144 * cx2 * cy3 * w0 * w1 * spow w2 2%nat * w3 + sofZ 344064 * cx2 * cy3 * w0 * w1 * w2 * spow w3 2%nat - sofZ 67200 * cx2 * cy3 * w0 * w1 * w2 * w3 * w4 + sofZ 290304 * cx2 * cy3 * w0 * spow w2 3%nat * w3 - sofZ 241920 * cx2 * cy3 * w0 * spow w2 2%nat * spow w3 2%nat + sofZ 46080 * cx2 * cy3 * w0 * spow w2 2%nat * w3 * w4 + sofZ 46080 * cx2 * cy3 * w0 * w2 * spow w3 3%nat - sofZ 15360 * cx2 * cy3 * w0 * w2 * spow w3 2%nat * w4 + sofZ 960 * cx2 * cy3 * w0 * w2 * w3 * spow w4 2%nat - sofZ 258048 * cx2 * cy3 * spow w1 3%nat * w2 * w3 + sofZ 516096 * cx2 * cy3 * spow w1 2%nat * spow w2 2%nat * w3 - sofZ 215040 * cx2 * cy3 * spow w1 2%nat * w2 * spow w3 2%nat + sofZ 46080 * cx2 * cy3 * spow w1 2%nat * w2 * w3 * w4 - sofZ 241920 * cx2 * cy3 * w1 * spow w2 3%nat * w3 + sofZ 184320 * cx2 * cy3 * w1 * spow w2 2%nat * spow w3 2%nat - sofZ 46080 * cx2 * cy3 * w1 * spow w2 2%nat * w3 * w4 - sofZ 30720 * cx2 * cy3 * w1 * w2 * spow w3 3%nat + sofZ 12288 * cx2 * cy3 * w1 * w2 * spow w3 2%nat * w4 - sofZ 576 * cx2 * cy3 * w1 * w2 * w3 * spow w4 2%nat + sofZ 6912 * cx2 * cy3 * spow w2 3%nat * w3 * w4 - sofZ 2304 * cx2 * cy3 * spow w2 2%nat * spow w3 2%nat * w4 - sofZ 15840 * cx2 * cy4 * spow w0 3%nat * w2 * w4 + sofZ 109440 * cx2 * cy4 * spow w0 2%nat * w1 * w2 * w4 - sofZ 96768 * cx2 * cy4 * spow w0 2%nat * spow w2 2%nat * w4 + sofZ 40320 * cx2 * cy4 * spow w0 2%nat * w2 * w3 * w4 - sofZ 6720 * cx2 * cy4 * spow w0 2%nat * w2 * spow w4 2%nat - sofZ 225792 * cx2 * cy4 * w0 * spow w1 2%nat * w2 * w4 + sofZ 354816 * cx2 * cy4 * w0 * w1 * spow w2 2%nat * w4 - sofZ 134400 * cx2 * cy4 * w0 * w1 * w2 * w3 * w4 + sofZ 21120 * cx2 * cy4 * w0 * w1 * w2 * spow w4 2%nat - sofZ 120960 * cx2 * cy4 * w0 * spow w2 3%nat * w4 + sofZ 80640 * cx2 * cy4 * w0 * spow w2 2%nat * w3 * w4 - sofZ 11520 * cx2 * cy4 * w0 * spow w2 2%nat * spow w4 2%nat - sofZ 11520 * cx2 * cy4 * w0 * w2 * spow w3 2%nat * w4 + sofZ 2688 * cx2 * cy4 * w0 * w2 * w3 * spow w4 2%nat - sofZ 96 * cx2 * cy4 * w0 * w2 * spow w4 3%nat + sofZ 129024 * cx2 * cy4 * spow w1 3%nat * w2 * w4 - sofZ 241920 * cx2 * cy4 * spow w1 2%nat * spow w2 2%nat * w4 + sofZ 76800 * cx2 * cy4 * spow w1 2%nat * w2 * w3 * w4 - sofZ 11520 * cx2 * cy4 * spow w1 2%nat * w2 * spow w4 2%nat + sofZ 103680 * cx2 * cy4 * w1 * spow w2 3%nat * w4 - sofZ 46080 * cx2 * cy4 * w1 * spow w2 2%nat * w3 * w4 + sofZ 6912 * cx2 * cy4 * w1 * spow w2 2%nat * spow w4 2%nat + sofZ 3072 * cx2 * cy4 * w1 * w2 * spow w3 2%nat * w4 - sofZ 768 * cx2 * cy4 * w1 * w2 * w3 * spow w4 2%nat - sofZ 6912 * cx2 * cy4 * spow w2 3%nat * w3 * w4 + sofZ 2304 * cx2 * cy4 * spow w2 2%nat * spow w3 2%nat * w4 - sofZ 27456 * cx3 * cy0 * spow w0 3%nat * w1 * w3 + sofZ 31680 * cx3 * cy0 * spow w0 3%nat * w2 * w3 - sofZ 5760 * cx3 * cy0 * spow w0 3%nat * w3 * w4 + sofZ 168960 * cx3 * cy0 * spow w0 2%nat * spow w1 2%nat * w3 - sofZ 380160 * cx3 * cy0 * spow w0 2%nat * w1 * w2 * w3 + sofZ 92160 * cx3 * cy0 * spow w0 2%nat * w1 * spow w3 2%nat + sofZ 16128 * cx3 * cy0 * spow w0 2%nat * w1 * w3 * w4 + sofZ 207360 * cx3 * cy0 * spow w0 2%nat * spow w2 2%nat * w3 - sofZ 96768 * cx3 * cy0 * spow w0 2%nat * w2 * spow w3 2%nat - sofZ 16128 * cx3 * cy0 * spow w0 2%nat * w2 * w3 * w4 + sofZ 13440 * cx3 * cy0 * spow w0 2%nat * spow w3 2%nat * w4 - sofZ 1920 * cx3 * cy0 * spow w0 2%nat * w3 * spow w4 2%nat - sofZ 253440 * cx3 * cy0 * w0 * spow w1 3%nat * w3 + sofZ 829440 * cx3 * cy0 * w0 * spow w1 2%nat * w2 * w3 - sofZ 258048 * cx3 * cy0 * w0 * spow w1 2%nat * spow w3 2%nat - sofZ 870912 * cx3 * cy0 * w0 * w1 * spow w2 2%nat * w3 + sofZ 516096 * cx3 * cy0 * w0 * w1 * w2 * spow w3 2%nat - sofZ 53760 * cx3 * cy0 * w0 * w1 * spow w3 3%nat - sofZ 15360 * cx3 * cy0 * w0 * w1 * spow w3 2%nat * w4 + sofZ 2880 * cx3 * cy0 * w0 * w1 * w3 * spow w4 2%nat + sofZ 290304 * cx3 * cy0 * w0 * spow w2 3%nat * w3 - sofZ 241920 * cx3 * cy0 * w0 * spow w2 2%nat * spow w3 2%nat + sofZ 46080 * cx3 * cy0 * w0 * w2 * spow w3 3%nat + sofZ 11520 * cx3 * cy0 * w0 * w2 * spow w3 2%nat * w4 - sofZ 1728 * cx3 * cy0 * w0 * w2 * w3 * spow w4 2%nat - sofZ 3072 * cx3 * cy0 * w0 * spow w3 3%nat * w4 + sofZ 384 * cx3 * cy0 * w0 * spow w3 2%nat * spow w4 2%nat + sofZ 27456 * cx3 * cy1 * spow w0 3%nat * w1 * w3 - sofZ 168960 * cx3 * cy1 * spow w0 2%nat * spow w1 2%nat * w3 + sofZ 158400 * cx3 * cy1 * spow w0 2%nat * w1 * w2 * w3 - sofZ 92160 * cx3 * cy1 * spow w0 2%nat * w1 * spow w3 2%nat + sofZ 24192 * cx3 * cy1 * spow w0 2%nat * w1 * w3 * w4 + sofZ 253440 * cx3 * cy1 * w0 * spow w1 3%nat * w3 - sofZ 368640 * cx3 * cy1 * w0 * spow w1 2%nat * w2 * w3 + sofZ 258048 * cx3 * cy1 * w0 * spow w1 2%nat * spow w3 2%nat - sofZ 86016 * cx3 * cy1 * w0 * spow w1 2%nat * w3 * w4 + sofZ 96768 * cx3 * cy1 * w0 * w1 * spow w2 2%nat * w3 - sofZ 172032 * cx3 * cy1 * w0 * w1 * w2 * spow w3 2%nat + sofZ 67200 * cx3 * cy1 * w0 * w1 * w2 * w3 * w4 + sofZ 53760 * cx3 * cy1 * w0 * w1 * spow w3 3%nat - sofZ 30720 * cx3 * cy1 * w0 * w1 * spow w3 2%nat * w4 + sofZ 2880 * cx3 * cy1 * w0 * w1 * w3 * spow w4 2%nat - sofZ 258048 * cx3 * cy1 * spow w1 3%nat * w2 * w3 + sofZ 53760 * cx3 * cy1 * spow w1 3%nat * w3 * w4 + sofZ 516096 * cx3 * cy1 * spow w1 2%nat * spow w2 2%nat * w3 - sofZ 215040 * cx3 * cy1 * spow w1 2%nat * w2 * spow w3 2%nat - sofZ 61440 * cx3 * cy1 * spow w1 2%nat * w2 * w3 * w4 + sofZ 30720 * cx3 * cy1 * spow w1 2%nat * spow w3 2%nat * w4 - sofZ 3072 * cx3 * cy1 * spow w1 2%nat * w3 * spow w4 2%nat - sofZ 241920 * cx3 * cy1 * w1 * spow w2 3%nat * w3 + sofZ 184320 * cx3 * cy1 * w1 * spow w2 2%nat * spow w3 2%nat + sofZ 11520 * cx3 * cy1 * w1 * spow w2 2%nat * w3 * w4 - sofZ 30720 * cx3 * cy1 * w1 * w2 * spow w3 3%nat - sofZ 12288 * cx3 * cy1 * w1 * w2 * spow w3 2%nat * w4 + sofZ 960 * cx3 * cy1 * w1 * w2 * w3 * spow w4 2%nat + sofZ 1536 * cx3 * cy1 * w1 * spow w3 3%nat * w4 - sofZ 31680 * cx3 * cy2 * spow w0 3%nat * w2 * w3 + sofZ 221760 * cx3 * cy2 * spow w0 2%nat * w1 * w2 * w3 - sofZ 207360 * cx3 * cy2 * spow w0 2%nat * spow w2 2%nat * w3 + sofZ 96768 * cx3 * cy2 * spow w0 2%nat * w2 * spow w3 2%nat - sofZ 18816 * cx3 * cy2 * spow w0 2%nat * w2 * w3 * w4 - sofZ 460800 * cx3 * cy2 * w0 * spow w1 2%nat * w2 * w3 + sofZ 774144 * cx3 * cy2 * w0 * w1 * spow w2 2%nat * w3 - sofZ 344064 * cx3 * cy2 * w0 * w1 * w2 * spow w3 2%nat + sofZ 67200 * cx3 * cy2 * w0 * w1 * w2 * w3 * w4 - sofZ 290304 * cx3 * cy2 * w0 * spow w2 3%nat * w3 + sofZ 241920 * cx3 * cy2 * w0 * spow w2 2%nat * spow w3 2%nat - sofZ 46080 * cx3 * cy2 * w0 * spow w2 2%nat * w3 * w4 - sofZ 46080 * cx3 * cy2 * w0 * w2 * spow w3 3%nat + sofZ 15360 * cx3 * cy2 * w0 * w2 * spow w3 2%nat * w4 - sofZ 960 * cx3 * cy2 * w0 * w2 * w3 * spow w4 2%nat + sofZ 258048 * cx3 * cy2 * spow w1 3%nat * w2 * w3 - sofZ 516096 * cx3 * cy2 * spow w1 2%nat * spow w2 2%nat * w3 + sofZ 215040 * cx3 * cy2 * spow w1 2%nat * w2 * spow w3 2%nat - sofZ 46080 * cx3 * cy2 * spow w1 2%nat * w2 * w3 * w4 + sofZ 241920 * cx3 * cy2 * w1 * spow w2 3%nat * w3 - sofZ 184320 * cx3 * cy2 * w1 * spow w2 2%nat * spow w3 2%nat + sofZ 46080 * cx3 * cy2 * w1 * spow w2 2%nat * w3 * w4 + sofZ 30720 * cx3 * cy2 * w1 * w2 * spow w3 3%nat - sofZ 12288 * cx3 * cy2 * w1 * w2 * spow w3 2%nat * w4 + sofZ 576 * cx3 * cy2 * w1 * w2 * w3 * spow w4 2%nat - sofZ 6912 * cx3 * cy2 * spow w2 3%nat * w3 * w4 + sofZ 2304 * cx3 * cy2 * spow w2 2%nat * spow w3 2%nat * w4 + sofZ 5760 * cx3 * cy4 * spow w0 3%nat * w3 * w4 - sofZ 40320 * cx3 * cy4 * spow w0 2%nat * w1 * w3 * w4 + sofZ 34944 * cx3 * cy4 * spow w0 2%nat * w2 * w3 * w4 - sofZ 13440 * cx3 * cy4 * spow w0 2%nat * spow w3 2%nat * w4 + sofZ 1920 * cx3 * cy4 * spow w0 2%nat * w3 * spow w4 2%nat + sofZ 86016 * cx3 * cy4 * w0 * spow w1 2%nat * w3 * w4 - sofZ 134400 * cx3 * cy4 * w0 * w1 * w2 * w3 * w4 + sofZ 46080 * cx3 * cy4 * w0 * w1 * spow w3 2%nat * w4 - sofZ 5760 * cx3 * cy4 * w0 * w1 * w3 * spow w4 2%nat + sofZ 46080 * cx3 * cy4 * w0 * spow w2 2%nat * w3 * w4 - sofZ 26880 * cx3 * cy4 * w0 * w2 * spow w3 2%nat * w4 + sofZ 2688 * cx3 * cy4 * w0 * w2 * w3 * spow w4 2%nat + sofZ 3072 * cx3 * cy4 * w0 * spow w3 3%nat * w4 - sofZ 384 * cx3 * cy4 * w0 * spow w3 2%nat * spow w4 2%nat - sofZ 53760 * cx3 * cy4 * spow w1 3%nat * w3 * w4 + sofZ 107520 * cx3 * cy4 * spow w1 2%nat * w2 * w3 * w4 - sofZ 30720 * cx3 * cy4 * spow w1 2%nat * spow w3 2%nat * w4 + sofZ 3072 * cx3 * cy4 * spow w1 2%nat * w3 * spow w4 2%nat - sofZ 57600 * cx3 * cy4 * w1 * spow w2 2%nat * w3 * w4 + sofZ 24576 * cx3 * cy4 * w1 * w2 * spow w3 2%nat * w4 - sofZ 1536 * cx3 * cy4 * w1 * w2 * w3 * spow w4 2%nat - sofZ 1536 * cx3 * cy4 * w1 * spow w3 3%nat * w4 + sofZ 6912 * cx3 * cy4 * spow w2 3%nat * w3 * w4 - sofZ 2304 * cx3 * cy4 * spow w2 2%nat * spow w3 2%nat * w4 + sofZ 10560 * cx4 * cy0 * spow w0 3%nat * w1 * w4 - sofZ 15840 * cx4 * cy0 * spow w0 3%nat * w2 * w4 + sofZ 5760 * cx4 * cy0 * spow w0 3%nat * w3 * w4 - sofZ 63360 * cx4 * cy0 * spow w0 2%nat * spow w1 2%nat * w4 + sofZ 161280 * cx4 * cy0 * spow w0 2%nat * w1 * w2 * w4 - sofZ 64512 * cx4 * cy0 * spow w0 2%nat * w1 * w3 * w4 + sofZ 5376 * cx4 * cy0 * spow w0 2%nat * w1 * spow w4 2%nat - sofZ 96768 * cx4 * cy0 * spow w0 2%nat * spow w2 2%nat * w4 + sofZ 75264 * cx4 * cy0 * spow w0 2%nat * w2 * w3 * w4 - sofZ 6720 * cx4 * cy0 * spow w0 2%nat * w2 * spow w4 2%nat - sofZ 13440 * cx4 * cy0 * spow w0 2%nat * spow w3 2%nat * w4 + sofZ 1920 * cx4 * cy0 * spow w0 2%nat * w3 * spow w4 2%nat + sofZ 92160 * cx4 * cy0 * w0 * spow w1 3%nat * w4 - sofZ 322560 * cx4 * cy0 * w0 * spow w1 2%nat * w2 * w4 + sofZ 129024 * cx4 * cy0 * w0 * spow w1 2%nat * w3 * w4 - sofZ 13440 * cx4 * cy0 * w0 * spow w1 2%nat * spow w4 2%nat + sofZ 354816 * cx4 * cy0 * w0 * w1 * spow w2 2%nat * w4 - sofZ 268800 * cx4 * cy0 * w0 * w1 * w2 * w3 * w4 + sofZ 26880 * cx4 * cy0 * w0 * w1 * w2 * spow w4 2%nat + sofZ 46080 * cx4 * cy0 * w0 * w1 * spow w3 2%nat * w4 - sofZ 7680 * cx4 * cy0 * w0 * w1 * w3 * spow w4 2%nat + sofZ 192 * cx4 * cy0 * w0 * w1 * spow w4 3%nat - sofZ 120960 * cx4 * cy0 * w0 * spow w2 3%nat * w4 + sofZ 126720 * cx4 * cy0 * w0 * spow w2 2%nat * w3 * w4 - sofZ 11520 * cx4 * cy0 * w0 * spow w2 2%nat * spow w4 2%nat - sofZ 38400 * cx4 * cy0 * w0 * w2 * spow w3 2%nat * w4 + sofZ 5376 * cx4 * cy0 * w0 * w2 * w3 * spow w4 2%nat - sofZ 96 * cx4 * cy0 * w0 * w2 * spow w4 3%nat + sofZ 3072 * cx4 * cy0 * w0 * spow w3 3%nat * w4 - sofZ 384 * cx4 * cy0 * w0 * spow w3 2%nat * spow w4 2%nat - sofZ 10560 * cx4 * cy1 * spow w0 3%nat * w1 * w4 + sofZ 63360 * cx4 * cy1 * spow w0 2%nat * spow w1 2%nat * w4 - sofZ 51840 * cx4 * cy1 * spow w0 2%nat * w1 * w2 * w4 + sofZ 24192 * cx4 * cy1 * spow w0 2%nat * w1 * w3 * w4 - sofZ 5376 * cx4 * cy1 * spow w0 2%nat * w1 * spow w4 2%nat - sofZ 92160 * cx4 * cy1 * w0 * spow w1 3%nat * w4 + sofZ 96768 * cx4 * cy1 * w0 * spow w1 2%nat * w2 * w4 - sofZ 43008 * cx4 * cy1 * w0 * spow w1 2%nat * w3 * w4 + sofZ 13440 * cx4 * cy1 * w0 * spow w1 2%nat * spow w4 2%nat - sofZ 5760 * cx4 * cy1 * w0 * w1 * w2 * spow w4 2%nat + sofZ 1920 * cx4 * cy1 * w0 * w1 * w3 * spow w4 2%nat - sofZ 192 * cx4 * cy1 * w0 * w1 * spow w4 3%nat + sofZ 129024 * cx4 * cy1 * spow w1 3%nat * w2 * w4 - sofZ 53760 * cx4 * cy1 * spow w1 3%nat * w3 * w4 - sofZ 241920 * cx4 * cy1 * spow w1 2%nat * spow w2 2%nat * w4 + sofZ 184320 * cx4 * cy1 * spow w1 2%nat * w2 * w3 * w4 - sofZ 11520 * cx4 * cy1 * spow w1 2%nat * w2 * spow w4 2%nat - sofZ 30720 * cx4 * cy1 * spow w1 2%nat * spow w3 2%nat * w4 + sofZ 3072 * cx4 * cy1 * spow w1 2%nat * w3 * spow w4 2%nat + sofZ 103680 * cx4 * cy1 * w1 * spow w2 3%nat * w4 - sofZ 103680 * cx4 * cy1 * w1 * spow w2 2%nat * w3 * w4 + sofZ 6912 * cx4 * cy1 * w1 * spow w2 2%nat * spow w4 2%nat + sofZ 27648 * cx4 * cy1 * w1 * w2 * spow w3 2%nat * w4 - sofZ 2304 * cx4 * cy1 * w1 * w2 * w3 * spow w4 2%nat - sofZ 1536 * cx4 * cy1 * w1 * spow w3 3%nat * w4 + sofZ 15840 * cx4 * cy2 * spow w0 3%nat * w2 * w4 - sofZ 109440 * cx4 * cy2 * spow w0 2%nat * w1 * w2 * w4 + sofZ 96768 * cx4 * cy2 * spow w0 2%nat * spow w2 2%nat * w4 - sofZ 40320 * cx4 * cy2 * spow w0 2%nat * w2 * w3 * w4 + sofZ 6720 * cx4 * cy2 * spow w0 2%nat * w2 * spow w4 2%nat + sofZ 225792 * cx4 * cy2 * w0 * spow w1 2%nat * w2 * w4 - sofZ 354816 * cx4 * cy2 * w0 * w1 * spow w2 2%nat * w4 + sofZ 134400 * cx4 * cy2 * w0 * w1 * w2 * w3 * w4 - sofZ 21120 * cx4 * cy2 * w0 * w1 * w2 * spow w4 2%nat + sofZ 120960 * cx4 * cy2 * w0 * spow w2 3%nat * w4 - sofZ 80640 * cx4 * cy2 * w0 * spow w2 2%nat * w3 * w4 + sofZ 11520 * cx4 * cy2 * w0 * spow w2 2%nat * spow w4 2%nat + sofZ 11520 * cx4 * cy2 * w0 * w2 * spow w3 2%nat * w4 - sofZ 2688 * cx4 * cy2 * w0 * w2 * w3 * spow w4 2%nat + sofZ 96 * cx4 * cy2 * w0 * w2 * spow w4 3%nat - sofZ 129024 * cx4 * cy2 * spow w1 3%nat * w2 * w4 + sofZ 241920 * cx4 * cy2 * spow w1 2%nat * spow w2 2%nat * w4 - sofZ 76800 * cx4 * cy2 * spow w1 2%nat * w2 * w3 * w4 + sofZ 11520 * cx4 * cy2 * spow w1 2%nat * w2 * spow w4 2%nat - sofZ 103680 * cx4 * cy2 * w1 * spow w2 3%nat * w4 + sofZ 46080 * cx4 * cy2 * w1 * spow w2 2%nat * w3 * w4 - sofZ 6912 * cx4 * cy2 * w1 * spow w2 2%nat * spow w4 2%nat - sofZ 3072 * cx4 * cy2 * w1 * w2 * spow w3 2%nat * w4 + sofZ 768 * cx4 * cy2 * w1 * w2 * w3 * spow w4 2%nat + sofZ 6912 * cx4 * cy2 * spow w2 3%nat * w3 * w4 - sofZ 2304 * cx4 * cy2 * spow w2 2%nat * spow w3 2%nat * w4 - sofZ 5760 * cx4 * cy3 * spow w0 3%nat * w3 * w4 + sofZ 40320 * cx4 * cy3 * spow w0 2%nat * w1 * w3 * w4 - sofZ 34944 * cx4 * cy3 * spow w0 2%nat * w2 * w3 * w4 + sofZ 13440 * cx4 * cy3 * spow w0 2%nat * spow w3 2%nat * w4 - sofZ 1920 * cx4 * cy3 * spow w0 2%nat * w3 * spow w4 2%nat - sofZ 86016 * cx4 * cy3 * w0 * spow w1 2%nat * w3 * w4 + sofZ 134400 * cx4 * cy3 * w0 * w1 * w2 * w3 * w4 - sofZ 46080 * cx4 * cy3 * w0 * w1 * spow w3 2%nat * w4 + sofZ 5760 * cx4 * cy3 * w0 * w1 * w3 * spow w4 2%nat - sofZ 46080 * cx4 * cy3 * w0 * spow w2 2%nat * w3 * w4 + sofZ 26880 * cx4 * cy3 * w0 * w2 * spow w3 2%nat * w4 - sofZ 2688 * cx4 * cy3 * w0 * w2 * w3 * spow w4 2%nat - sofZ 3072 * cx4 * cy3 * w0 * spow w3 3%nat * w4 + sofZ 384 * cx4 * cy3 * w0 * spow w3 2%nat * spow w4 2%nat + sofZ 53760 * cx4 * cy3 * spow w1 3%nat * w3 * w4 - sofZ 107520 * cx4 * cy3 * spow w1 2%nat * w2 * w3 * w4 + sofZ 30720 * cx4 * cy3 * spow w1 2%nat * spow w3 2%nat * w4 - sofZ 3072 * cx4 * cy3 * spow w1 2%nat * w3 * spow w4 2%nat + sofZ 57600 * cx4 * cy3 * w1 * spow w2 2%nat * w3 * w4 - sofZ 24576 * cx4 * cy3 * w1 * w2 * spow w3 2%nat * w4 + sofZ 1536 * cx4 * cy3 * w1 * w2 * w3 * spow w4 2%nat + sofZ 1536 * cx4 * cy3 * w1 * spow w3 3%nat * w4 - sofZ 6912 * cx4 * cy3 * spow w2 3%nat * w3 * w4 + sofZ 2304 * cx4 * cy3 * spow w2 2%nat * spow w3 2%nat * w4;
     - sofZ 4368 * cx0 * cy1 * spow w0 3%nat * w1 * w2 + sofZ 7488 * cx0 * cy1 * spow w0 3%nat * w1 * w3 - sofZ 3168 * cx0 * cy1 * spow w0 3%nat * w1 * w4 + sofZ 29952 * cx0 * cy1 * spow w0 2%nat * spow w1 2%nat * w2 - sofZ 50688 * cx0 * cy1 * spow w0 2%nat * spow w1 2%nat * w3 + sofZ 21120 * cx0 * cy1 * spow w0 2%nat * spow w1 2%nat * w4 - sofZ 38016 * cx0 * cy1 * spow w0 2%nat * w1 * spow w2 2%nat + sofZ 84480 * cx0 * cy1 * spow w0 2%nat * w1 * w2 * w3 - sofZ 30240 * cx0 * cy1 * spow w0 2%nat * w1 * w2 * w4 - sofZ 34560 * cx0 * cy1 * spow w0 2%nat * w1 * spow w3 2%nat + sofZ 20736 * cx0 * cy1 * spow w0 2%nat * w1 * w3 * w4 - sofZ 2688 * cx0 * cy1 * spow w0 2%nat * w1 * spow w4 2%nat - sofZ 50688 * cx0 * cy1 * w0 * spow w1 3%nat * w2 + sofZ 84480 * cx0 * cy1 * w0 * spow w1 3%nat * w3 - sofZ 34560 * cx0 * cy1 * w0 * spow w1 3%nat * w4 + sofZ 126720 * cx0 * cy1 * w0 * spow w1 2%nat * spow w2 2%nat - sofZ 276480 * cx0 * cy1 * w0 * spow w1 2%nat * w2 * w3 + sofZ 96768 * cx0 * cy1 * w0 * spow w1 2%nat * w2 * w4 + sofZ 110592 * cx0 * cy1 * w0 * spow w1 2%nat * spow w3 2%nat - sofZ 64512 * cx0 * cy1 * w0 * spow w1 2%nat * w3 * w4 + sofZ 8064 * cx0 * cy1 * w0 * spow w1 2%nat * spow w4 2%nat - sofZ 77760 * cx0 * cy1 * w0 * w1 * spow w2 3%nat + sofZ 207360 * cx0 * cy1 * w0 * w1 * spow w2 2%nat * w3 - sofZ 64512 * cx0 * cy1 * w0 * w1 * spow w2 2%nat * w4 - sofZ 150528 * cx0 * cy1 * w0 * w1 * w2 * spow w3 2%nat + sofZ 80640 * cx0 * cy1 * w0 * w1 * w2 * w3 * w4 - sofZ 9360 * cx0 * cy1 * w0 * w1 * w2 * spow w4 2%nat + sofZ 32256 * cx0 * cy1 * w0 * w1 * spow w3 3%nat - sofZ 23040 * cx0 * cy1 * w0 * w1 * spow w3 2%nat * w4 + sofZ 4800 * cx0 * cy1 * w0 * w1 * w3 * spow w4 2%nat - sofZ 288 * cx0 * cy1 * w0 * w1 * spow w4 3%nat + sofZ 4368 * cx0 * cy2 * spow w0 3%nat * w1 * w2 - sofZ 9504 * cx0 * cy2 * spow w0 3%nat * w2 * w3 + sofZ 5280 * cx0 * cy2 * spow w0 3%nat * w2 * w4 - sofZ 29952 * cx0 * cy2 * spow w0 2%nat * spow w1 2%nat * w2 + sofZ 38016 * cx0 * cy2 * spow w0 2%nat * w1 * spow w2 2%nat + sofZ 42240 * cx0 * cy2 * spow w0 2%nat * w1 * w2 * w3 - sofZ 30240 * cx0 * cy2 * spow w0 2%nat * w1 * w2 * w4 - sofZ 77760 * cx0 * cy2 * spow w0 2%nat * spow w2 2%nat * w3 + sofZ 41472 * cx0 * cy2 * spow w0 2%nat * spow w2 2%nat * w4 + sofZ 41472 * cx0 * cy2 * spow w0 2%nat * w2 * spow w3 2%nat - sofZ 29568 * cx0 * cy2 * spow w0 2%nat * w2 * w3 * w4 + sofZ 4032 * cx0 * cy2 * spow w0 2%nat * w2 * spow w4 2%nat + sofZ 50688 * cx0 * cy2 * w0 * spow w1 3%nat * w2 - sofZ 126720 * cx0 * cy2 * w0 * spow w1 2%nat * spow w2 2%nat - sofZ 34560 * cx0 * cy2 * w0 * spow w1 2%nat * w2 * w3 + sofZ 41472 * cx0 * cy2 * w0 * spow w1 2%nat * w2 * w4 + sofZ 77760 * cx0 * cy2 * w0 * w1 * spow w2 3%nat + sofZ 165888 * cx0 * cy2 * w0 * w1 * spow w2 2%nat * w3 - sofZ 112896 * cx0 * cy2 * w0 * w1 * spow w2 2%nat * w4 - sofZ 107520 * cx0 * cy2 * w0 * w1 * w2 * spow w3 2%nat + sofZ 80640 * cx0 * cy2 * w0 * w1 * w2 * w3 * w4 - sofZ 10800 * cx0 * cy2 * w0 * w1 * w2 * spow w4 2%nat - sofZ 145152 * cx0 * cy2 * w0 * spow w2 3%nat * w3 + sofZ 72576 * cx0 * cy2 * w0 * spow w2 3%nat * w4 + sofZ 145152 * cx0 * cy2 * w0 * spow w2 2%nat * spow w3 2%nat - sofZ 95040 * cx0 * cy2 * w0 * spow w2 2%nat * w3 * w4 + sofZ 11520 * cx0 * cy2 * w0 * spow w2 2%nat * spow w4 2%nat - sofZ 34560 * cx0 * cy2 * w0 * w2 * spow w3 3%nat + sofZ 26880 * cx0 * cy2 * w0 * w2 * spow w3 2%nat * w4 - sofZ 5472 * cx0 * cy2 * w0 * w2 * w3 * spow w4 2%nat + sofZ 288 * cx0 * cy2 * w0 * w2 * spow w4 3%nat - sofZ 7488 * cx0 * cy3 * spow w0 3%nat * w1 * w3 + sofZ 9504 * cx0 * cy3 * spow w0 3%nat * w2 * w3 - sofZ 2160 * cx0 * cy3 * spow w0 3%nat * w3 * w4 + sofZ 50688 * cx0 * cy3 * spow w0 2%nat * spow w1 2%nat * w3 - sofZ 126720 * cx0 * cy3 * spow w0 2%nat * w1 * w2 * w3 + sofZ 34560 * cx0 * cy3 * spow w0 2%nat * w1 * spow w3 2%nat + sofZ 6912 * cx0 * cy3 * spow w0 2%nat * w1 * w3 * w4 + sofZ 77760 * cx0 * cy3 * spow w0 2%nat * spow w2 2%nat * w3 - sofZ 41472 * cx0 * cy3 * spow w0 2%nat * w2 * spow w3 2%nat - sofZ 8064 * cx0 * cy3 * spow w0 2%nat * w2 * w3 * w4 + sofZ 8064 * cx0 * cy3 * spow w0 2%nat * spow w3 2%nat * w4 - sofZ 1440 * cx0 * cy3 * spow w0 2%nat * w3 * spow w4 2%nat - sofZ 84480 * cx0 * cy3 * w0 * spow w1 3%nat * w3 + sofZ 311040 * cx0 * cy3 * w0 * spow w1 2%nat * w2 * w3 - sofZ 110592 * cx0 * cy3 * w0 * spow w1 2%nat * spow w3 2%nat - sofZ 373248 * cx0 * cy3 * w0 * w1 * spow w2 2%nat * w3 + sofZ 258048 * cx0 * cy3 * w0 * w1 * w2 * spow w3 2%nat - sofZ 32256 * cx0 * cy3 * w0 * w1 * spow w3 3%nat - sofZ 11520 * cx0 * cy3 * w0 * w1 * spow w3 2%nat * w4 + sofZ 2880 * cx0 * cy3 * w0 * w1 * w3 * spow w4 2%nat + sofZ 145152 * cx0 * cy3 * w0 * spow w2 3%nat * w3 - sofZ 145152 * cx0 * cy3 * w0 * spow w2 2%nat * spow w3 2%nat + sofZ 34560 * cx0 * cy3 * w0 * w2 * spow w3 3%nat + sofZ 11520 * cx0 * cy3 * w0 * w2 * spow w3 2%nat * w4 - sofZ 2592 * cx0 * cy3 * w0 * w2 * w3 * spow w4 2%nat - sofZ 4608 * cx0 * cy3 * w0 * spow w3 3%nat * w4 + sofZ 1152 * cx0 * cy3 * w0 * spow w3 2%nat * spow w4 2%nat - sofZ 48 * cx0 * cy3 * w0 * w3 * spow w4 3%nat + sofZ 3168 * cx0 * cy4 * spow w0 3%nat * w1 * w4 - sofZ 5280 * cx0 * cy4 * spow w0 3%nat * w2 * w4 + sofZ 2160 * cx0 * cy4 * spow w0 3%nat * w3 * w4 - sofZ 21120 * cx0 * cy4 * spow w0 2%nat * spow w1 2%nat * w4 + sofZ 60480 * cx0 * cy4 * spow w0 2%nat * w1 * w2 * w4 - sofZ 27648 * cx0 * cy4 * spow w0 2%nat * w1 * w3 * w4 + sofZ 2688 * cx0 * cy4 * spow w0 2%nat * w1 * spow w4 2%nat - sofZ 41472 * cx0 * cy4 * spow w0 2%nat * spow w2 2%nat * w4 + sofZ 37632 * cx0 * cy4 * spow w0 2%nat * w2 * w3 * w4 - sofZ 4032 * cx0 * cy4 * spow w0 2%nat * w2 * spow w4 2%nat - sofZ 8064 * cx0 * cy4 * spow w0 2%nat * spow w3 2%nat * w4 + sofZ 1440 * cx0 * cy4 * spow w0 2%nat * w3 * spow w4 2%nat + sofZ 34560 * cx0 * cy4 * w0 * spow w1 3%nat * w4 - sofZ 138240 * cx0 * cy4 * w0 * spow w1 2%nat * w2 * w4 + sofZ 64512 * cx0 * cy4 * w0 * spow w1 2%nat * w3 * w4 - sofZ 8064 * cx0 * cy4 * w0 * spow w1 2%nat * spow w4 2%nat + sofZ 177408 * cx0 * cy4 * w0 * w1 * spow w2 2%nat * w4 - sofZ 161280 * cx0 * cy4 * w0 * w1 * w2 * w3 * w4 + sofZ 20160 * cx0 * cy4 * w0 * w1 * w2 * spow w4 2%nat + sofZ 34560 * cx0 * cy4 * w0 * w1 * spow w3 2%nat * w4 - sofZ 7680 * cx0 * cy4 * w0 * w1 * w3 * spow w4 2%nat + sofZ 288 * cx0 * cy4 * w0 * w1 * spow w4 3%nat - sofZ 72576 * cx0 * cy4 * w0 * spow w2 3%nat * w4 + sofZ 95040 * cx0 * cy4 * w0 * spow w2 2%nat * w3 * w4 - sofZ 11520 * cx0 * cy4 * w0 * spow w2 2%nat * spow w4 2%nat - sofZ 38400 * cx0 * cy4 * w0 * w2 * spow w3 2%nat * w4 + sofZ 8064 * cx0 * cy4 * w0 * w2 * w3 * spow w4 2%nat - sofZ 288 * cx0 * cy4 * w0 * w2 * spow w4 3%nat + sofZ 4608 * cx0 * cy4 * w0 * spow w3 3%nat * w4 - sofZ 1152 * cx0 * cy4 * w0 * spow w3 2%nat * spow w4 2%nat + sofZ 48 * cx0 * cy4 * w0 * w3 * spow w4 3%nat + sofZ 4368 * cx1 * cy0 * spow w0 3%nat * w1 * w2 - sofZ 7488 * cx1 * cy0 * spow w0 3%nat * w1 * w3 + sofZ 3168 * cx1 * cy0 * spow w0 3%nat * w1 * w4 - sofZ 29952 * cx1 * cy0 * spow w0 2%nat * spow w1 2%nat * w2 + sofZ 50688 * cx1 * cy0 * spow w0 2%nat * spow w1 2%nat * w3 - sofZ 21120 * cx1 * cy0 * spow w0 2%nat * spow w1 2%nat * w4 + sofZ 38016 * cx1 * cy0 * spow w0 2%nat * w1 * spow w2 2%nat - sofZ 84480 * cx1 * cy0 * spow w0 2%nat * w1 * w2 * w3 + sofZ 30240 * cx1 * cy0 * spow w0 2%nat * w1 * w2 * w4 + sofZ 34560 * cx1 * cy0 * spow w0 2%nat * w1 * spow w3 2%nat - sofZ 20736 * cx1 * cy0 * spow w0 2%nat * w1 * w3 * w4 + sofZ 2688 * cx1 * cy0 * spow w0 2%nat * w1 * spow w4 2%nat + sofZ 50688 * cx1 * cy0 * w0 * spow w1 3%nat * w2 - sofZ 84480 * cx1 * cy0 * w0 * spow w1 3%nat * w3 + sofZ 34560 * cx1 * cy0 * w0 * spow w1 3%nat * w4 - sofZ 126720 * cx1 * cy0 * w0 * spow w1 2%nat * spow w2 2%nat + sofZ 276480 * cx1 * cy0 * w0 * spow w1 2%nat * w2 * w3 - sofZ 96768 * cx1 * cy0 * w0 * spow w1 2%nat * w2 * w4 - sofZ 110592 * cx1 * cy0 * w0 * spow w1 2%nat * spow w3 2%nat + sofZ 64512 * cx1 * cy0 * w0 * spow w1 2%nat * w3 * w4 - sofZ 8064 * cx1 * cy0 * w0 * spow w1 2%nat * spow w4 2%nat + sofZ 77760 * cx1 * cy0 * w0 * w1 * spow w2 3%nat - sofZ 207360 * cx1 * cy0 * w0 * w1 * spow w2 2%nat * w3 + sofZ 64512 * cx1 * cy0 * w0 * w1 * spow w2 2%nat * w4 + sofZ 150528 * cx1 * cy0 * w0 * w1 * w2 * spow w3 2%nat - sofZ 80640 * cx1 * cy0 * w0 * w1 * w2 * w3 * w4 + sofZ 9360 * cx1 * cy0 * w0 * w1 * w2 * spow w4 2%nat - sofZ 32256 * cx1 * cy0 * w0 * w1 * spow w3 3%nat + sofZ 23040 * cx1 * cy0 * w0 * w1 * spow w3 2%nat * w4 - sofZ 4800 * cx1 * cy0 * w0 * w1 * w3 * spow w4 2%nat + sofZ 288 * cx1 * cy0 * w0 * w1 * spow w4 3%nat - sofZ 4368 * cx1 * cy2 * spow w0 3%nat * w1 * w2 + sofZ 29952 * cx1 * cy2 * spow w0 2%nat * spow w1 2%nat * w2 - sofZ 38016 * cx1 * cy2 * spow w0 2%nat * w1 * spow w2 2%nat + sofZ 31680 * cx1 * cy2 * spow w0 2%nat * w1 * w2 * w3 - sofZ 10800 * cx1 * cy2 * spow w0 2%nat * w1 * w2 * w4 - sofZ 50688 * cx1 * cy2 * w0 * spow w1 3%nat * w2 + sofZ 126720 * cx1 * cy2 * w0 * spow w1 2%nat * spow w2 2%nat - sofZ 138240 * cx1 * cy2 * w0 * spow w1 2%nat * w2 * w3 + sofZ 55296 * cx1 * cy2 * w0 * spow w1 2%nat * w2 * w4 - sofZ 77760 * cx1 * cy2 * w0 * w1 * spow w2 3%nat + sofZ 165888 * cx1 * cy2 * w0 * w1 * spow w2 2%nat * w3 - sofZ 64512 * cx1 * cy2 * w0 * w1 * spow w2 2%nat * w4 - sofZ 64512 * cx1 * cy2 * w0 * w1 * w2 * spow w3 2%nat + sofZ 40320 * cx1 * cy2 * w0 * w1 * w2 * w3 * w4 - sofZ 5040 * cx1 * cy2 * w0 * w1 * w2 * spow w4 2%nat + sofZ 110592 * cx1 * cy2 * spow w1 3%nat * w2 * w3 - sofZ 64512 * cx1 * cy2 * spow w1 3%nat * w2 * w4 - sofZ 258048 * cx1 * cy2 * spow w1 2%nat * spow w2 2%nat * w3 + sofZ 145152 * cx1 * cy2 * spow w1 2%nat * spow w2 2%nat * w4 + sofZ 129024 * cx1 * cy2 * spow w1 2%nat * w2 * spow w3 2%nat - sofZ 92160 * cx1 * cy2 * spow w1 2%nat * w2 * w3 * w4 + sofZ 11520 * cx1 * cy2 * spow w1 2%nat * w2 * spow w4 2%nat + sofZ 145152 * cx1 * cy2 * w1 * spow w2 3%nat * w3 - sofZ 77760 * cx1 * cy2 * w1 * spow w2 3%nat * w4 - sofZ 138240 * cx1 * cy2 * w1 * spow w2 2%nat * spow w3 2%nat + sofZ 92160 * cx1 * cy2 * w1 * spow w2 2%nat * w3 * w4 - sofZ 10368 * cx1 * cy2 * w1 * spow w2 2%nat * spow w4 2%nat + sofZ 30720 * cx1 * cy2 * w1 * w2 * spow w3 3%nat - sofZ 23040 * cx1 * cy2 * w1 * w2 * spow w3 2%nat * w4 + sofZ 4032 * cx1 * cy2 * w1 * w2 * w3 * spow w4 2%nat - sofZ 144 * cx1 * cy2 * w1 * w2 * spow w4 3%nat + sofZ 7488 * cx1 * cy3 * spow w0 3%nat * w1 * w3 - sofZ 50688 * cx1 * cy3 * spow w0 2%nat * spow w1 2%nat * w3 + sofZ 52800 * cx1 * cy3 * spow w0 2%nat * w1 * w2 * w3 - sofZ 34560 * cx1 * cy3 * spow w0 2%nat * w1 * spow w3 2%nat + sofZ 10368 * cx1 * cy3 * spow w0 2%nat * w1 * w3 * w4 + sofZ 84480 * cx1 * cy3 * w0 * spow w1 3%nat * w3 - sofZ 138240 * cx1 * cy3 * w0 * spow w1 2%nat * w2 * w3 + sofZ 110592 * cx1 * cy3 * w0 * spow w1 2%nat * spow w3 2%nat - sofZ 43008 * cx1 * cy3 * w0 * spow w1 2%nat * w3 * w4 + sofZ 41472 * cx1 * cy3 * w0 * w1 * spow w2 2%nat * w3 - sofZ 86016 * cx1 * cy3 * w0 * w1 * w2 * spow w3 2%nat + sofZ 40320 * cx1 * cy3 * w0 * w1 * w2 * w3 * w4 + sofZ 32256 * cx1 * cy3 * w0 * w1 * spow w3 3%nat - sofZ 23040 * cx1 * cy3 * w0 * w1 * spow w3 2%nat * w4 + sofZ 2880 * cx1 * cy3 * w0 * w1 * w3 * spow w4 2%nat - sofZ 110592 * cx1 * cy3 * spow w1 3%nat * w2 * w3 + sofZ 32256 * cx1 * cy3 * spow w1 3%nat * w3 * w4 + sofZ 258048 * cx1 * cy3 * spow w1 2%nat * spow w2 2%nat * w3 - sofZ 129024 * cx1 * cy3 * spow w1 2%nat * w2 * spow w3 2%nat - sofZ 46080 * cx1 * cy3 * spow w1 2%nat * w2 * w3 * w4 + sofZ 30720 * cx1 * cy3 * spow w1 2%nat * spow w3 2%nat * w4 - sofZ 4608 * cx1 * cy3 * spow w1 2%nat * w3 * spow w4 2%nat - sofZ 145152 * cx1 * cy3 * w1 * spow w2 3%nat * w3 + sofZ 138240 * cx1 * cy3 * w1 * spow w2 2%nat * spow w3 2%nat + sofZ 11520 * cx1 * cy3 * w1 * spow w2 2%nat * w3 * w4 - sofZ 30720 * cx1 * cy3 * w1 * w2 * spow w3 3%nat - sofZ 18432 * cx1 * cy3 * w1 * w2 * spow w3 2%nat * w4 + sofZ 2880 * cx1 * cy3 * w1 * w2 * w3 * spow w4 2%nat + sofZ 4608 * cx1 * cy3 * w1 * spow w3 3%nat * w4 - sofZ 768 * cx1 * cy3 * w1 * spow w3 2%nat * spow w4 2%nat - sofZ 3168 * cx1 * cy4 * spow w0 3%nat * w1 * w4 + sofZ 21120 * cx1 * cy4 * spow w0 2%nat * spow w1 2%nat * w4 - sofZ 19440 * cx1 * cy4 * spow w0 2%nat * w1 * w2 * w4 + sofZ 10368 * cx1 * cy4 * spow w0 2%nat * w1 * w3 * w4 - sofZ 2688 * cx1 * cy4 * spow w0 2%nat * w1 * spow w4 2%nat - sofZ 34560 * cx1 * cy4 * w0 * spow w1 3%nat * w4 + sofZ 41472 * cx1 * cy4 * w0 * spow w1 2%nat * w2 * w4 - sofZ 21504 * cx1 * cy4 * w0 * spow w1 2%nat * w3 * w4 + sofZ 8064 * cx1 * cy4 * w0 * spow w1 2%nat * spow w4 2%nat - sofZ 4320 * cx1 * cy4 * w0 * w1 * w2 * spow w4 2%nat + sofZ 1920 * cx1 * cy4 * w0 * w1 * w3 * spow w4 2%nat - sofZ 288 * cx1 * cy4 * w0 * w1 * spow w4 3%nat + sofZ 64512 * cx1 * cy4 * spow w1 3%nat * w2 * w4 - sofZ 32256 * cx1 * cy4 * spow w1 3%nat * w3 * w4 - sofZ 145152 * cx1 * cy4 * spow w1 2%nat * spow w2 2%nat * w4 + sofZ 138240 * cx1 * cy4 * spow w1 2%nat * w2 * w3 * w4 - sofZ 11520 * cx1 * cy4 * spow w1 2%nat * w2 * spow w4 2%nat - sofZ 30720 * cx1 * cy4 * spow w1 2%nat * spow w3 2%nat * w4 + sofZ 4608 * cx1 * cy4 * spow w1 2%nat * w3 * spow w4 2%nat + sofZ 77760 * cx1 * cy4 * w1 * spow w2 3%nat * w4 - sofZ 103680 * cx1 * cy4 * w1 * spow w2 2%nat * w3 * w4 + sofZ 10368 * cx1 * cy4 * w1 * spow w2 2%nat * spow w4 2%nat + sofZ 41472 * cx1 * cy4 * w1 * w2 * spow w3 2%nat * w4 - sofZ 6912 * cx1 * cy4 * w1 * w2 * w3 * spow w4 2%nat + sofZ 144 * cx1 * cy4 * w1 * w2 * spow w4 3%nat - sofZ 4608 * cx1 * cy4 * w1 * spow w3 3%nat * w4 + sofZ 768 * cx1 * cy4 * w1 * spow w3 2%nat * spow w4 2%nat - sofZ 4368 * cx2 * cy0 * spow w0 3%nat * w1 * w2 + sofZ 9504 * cx2 * cy0 * spow w0 3%nat * w2 * w3 - sofZ 5280 * cx2 * cy0 * spow w0 3%nat * w2 * w4 + sofZ 29952 * cx2 * cy0 * spow w0 2%nat * spow w1 2%nat * w2 - sofZ 38016 * cx2 * cy0 * spow w0 2%nat * w1 * spow w2 2%nat - sofZ 42240 * cx2 * cy0 * spow w0 2%nat * w1 * w2 * w3 + sofZ 30240 * cx2 * cy0 * spow w0 2%nat * w1 * w2 * w4 + sofZ 77760 * cx2 * cy0 * spow w0 2%nat * spow w2 2%nat * w3 - sofZ 41472 * cx2 * cy0 * spow w0 2%nat * spow w2 2%nat * w4 - sofZ 41472 * cx2 * cy0 * spow w0 2%nat * w2 * spow w3 2%nat + sofZ 29568 * cx2 * cy0 * spow w0 2%nat * w2 * w3 * w4 - sofZ 4032 * cx2 * cy0 * spow w0 2%nat * w2 * spow w4 2%nat - sofZ 50688 * cx2 * cy0 * w0 * spow w1 3%nat * w2 + sofZ 126720 * cx2 * cy0 * w0 * spow w1 2%nat * spow w2 2%nat + sofZ 34560 * cx2 * cy0 * w0 * spow w1 2%nat * w2 * w3 - sofZ 41472 * cx2 * cy0 * w0 * spow w1 2%nat * w2 * w4 - sofZ 77760 * cx2 * cy0 * w0 * w1 * spow w2 3%nat - sofZ 165888 * cx2 * cy0 * w0 * w1 * spow w2 2%nat * w3 + sofZ 112896 * cx2 * cy0 * w0 * w1 * spow w2 2%nat * w4 + sofZ 107520 * cx2 * cy0 * w0 * w1 * w2 * spow w3 2%nat - sofZ 80640 * cx2 * cy0 * w0 * w1 * w2 * w3 * w4 + sofZ 10800 * cx2 * cy0 * w0 * w1 * w2 * spow w4 2%nat + sofZ 145152 * cx2 * cy0 * w0 * spow w2 3%nat * w3 - sofZ 72576 * cx2 * cy0 * w0 * spow w2 3%nat * w4 - sofZ 145152 * cx2 * cy0 * w0 * spow w2 2%nat * spow w3 2%nat + sofZ 95040 * cx2 * cy0 * w0 * spow w2 2%nat * w3 * w4 - sofZ 11520 * cx2 * cy0 * w0 * spow w2 2%nat * spow w4 2%nat + sofZ 34560 * cx2 * cy0 * w0 * w2 * spow w3 3%nat - sofZ 26880 * cx2 * cy0 * w0 * w2 * spow w3 2%nat * w4 + sofZ 5472 * cx2 * cy0 * w0 * w2 * w3 * spow w4 2%nat - sofZ 288 * cx2 * cy0 * w0 * w2 * spow w4 3%nat + sofZ 4368 * cx2 * cy1 * spow w0 3%nat * w1 * w2 - sofZ 29952 * cx2 * cy1 * spow w0 2%nat * spow w1 2%nat * w2 + sofZ 38016 * cx2 * cy1 * spow w0 2%nat * w1 * spow w2 2%nat - sofZ 31680 * cx2 * cy1 * spow w0 2%nat * w1 * w2 * w3 + sofZ 10800 * cx2 * cy1 * spow w0 2%nat * w1 * w2 * w4 + sofZ 50688 * cx2 * cy1 * w0 * spow w1 3%nat * w2 - sofZ 126720 * cx2 * cy1 * w0 * spow w1 2%nat * spow w2 2%nat + sofZ 138240 * cx2 * cy1 * w0 * spow w1 2%nat * w2 * w3 - sofZ 55296 * cx2 * cy1 * w0 * spow w1 2%nat * w2 * w4 + sofZ 77760 * cx2 * cy1 * w0 * w1 * spow w2 3%nat - sofZ 165888 * cx2 * cy1 * w0 * w1 * spow w2 2%nat * w3 + sofZ 64512 * cx2 * cy1 * w0 * w1 * spow w2 2%nat * w4 + sofZ 64512 * cx2 * cy1 * w0 * w1 * w2 * spow w3 2%nat - sofZ 40320 * cx2 * cy1 * w0 * w1 * w2 * w3 * w4 + sofZ 5040 * cx2 * cy1 * w0 * w1 * w2 * spow w4 2%nat - sofZ 110592 * cx2 * cy1 * spow w1 3%nat * w2 * w3 + sofZ 64512 * cx2 * cy1 * spow w1 3%nat * w2 * w4 + sofZ 258048 * cx2 * cy1 * spow w1 2%nat * spow w2 2%nat * w3 - sofZ 145152 * cx2 * cy1 * spow w1 2%nat * spow w2 2%nat * w4 - sofZ 129024 * cx2 * cy1 * spow w1 2%nat * w2 * spow w3 2%nat + sofZ 92160 * cx2 * cy1 * spow w1 2%nat * w2 * w3 * w4 - sofZ 11520 * cx2 * cy1 * spow w1 2%nat * w2 * spow w4 2%nat - sofZ 145152 * cx2 * cy1 * w1 * spow w2 3%nat * w3 + sofZ 77760 * cx2 * cy1 * w1 * spow w2 3%nat * w4 + sofZ 138240 * cx2 * cy1 * w1 * spow w2 2%nat * spow w3 2%nat - sofZ 92160 * cx2 * cy1 * w1 * spow w2 2%nat * w3 * w4 + sofZ 10368 * cx2 * cy1 * w1 * spow w2 2%nat * spow w4 2%nat - sofZ 30720 * cx2 * cy1 * w1 * w2 * spow w3 3%nat + sofZ 23040 * cx2 * cy1 * w1 * w2 * spow w3 2%nat * w4 - sofZ 4032 * cx2 * cy1 * w1 * w2 * w3 * spow w4 2%nat + sofZ 144 * cx2 * cy1 * w1 * w2 * spow w4 3%nat - sofZ 9504 * cx2 * cy3 * spow w0 3%nat * w2 * w3 + sofZ 73920 * cx2 * cy3 * spow w0 2%nat * w1 * w2 * w3 - sofZ 77760 * cx2 * cy3 * spow w0 2%nat * spow w2 2%nat * w3 + sofZ 41472 * cx2 * cy3 * spow w0 2%nat * w2 * spow w3 2%nat - sofZ 9408 * cx2 * cy3 * spow w0 2%nat * w2 * w3 * w4 - sofZ 172800 * cx2 * cy3 * w0 * spow w1 2%nat * w2 * w3 + sofZ 331776 * cx2 * cy3 * w0 * w1 * spow w2 2%nat * w3 - sofZ 172032 * cx2 * cy3 * w0 * w1 * w2 * spow w3 2%nat + sofZ 40320 * cx2 * cy3 * w0 * w1 * w2 * w3 * w4 - sofZ 145152 * cx2 * cy3 * w0 * spow w2 3%nat * w3 + sofZ 145152 * cx2 * cy3 * w0 * spow w2 2%nat * spow w3 2%nat - sofZ 34560 * cx2 * cy3 * w0 * spow w2 2%nat * w3 * w4 - sofZ 34560 * cx2 * cy3 * w0 * w2 * spow w3 3%nat + sofZ 15360 * cx2 * cy3 * w0 * w2 * spow w3 2%nat * w4 - sofZ 1440 * cx2 * cy3 * w0 * w2 * w3 * spow w4 2%nat + sofZ 110592 * cx2 * cy3 * spow w1 3%nat * w2 * w3 - sofZ 258048 * cx2 * cy3 * spow w1 2%nat * spow w2 2%nat * w3 + sofZ 129024 * cx2 * cy3 * spow w1 2%nat * w2 * spow w3 2%nat - sofZ 34560 * cx2 * cy3 * spow w1 2%nat * w2 * w3 * w4 + sofZ 145152 * cx2 * cy3 * w1 * spow w2 3%nat * w3 - sofZ 138240 * cx2 * cy3 * w1 * spow w2 2%nat * spow w3 2%nat + sofZ 46080 * cx2 * cy3 * w1 * spow w2 2%nat * w3 * w4 + sofZ 30720 * cx2 * cy3 * w1 * w2 * spow w3 3%nat - sofZ 18432 * cx2 * cy3 * w1 * w2 * spow w3 2%nat * w4 + sofZ 1728 * cx2 * cy3 * w1 * w2 * w3 * spow w4 2%nat - sofZ 10368 * cx2 * cy3 * spow w2 3%nat * w3 * w4 + sofZ 6912 * cx2 * cy3 * spow w2 2%nat * spow w3 2%nat * w4 - sofZ 576 * cx2 * cy3 * spow w2 2%nat * w3 * spow w4 2%nat - sofZ 768 * cx2 * cy3 * w2 * spow w3 3%nat * w4 + sofZ 5280 * cx2 * cy4 * spow w0 3%nat * w2 * w4 - sofZ 41040 * cx2 * cy4 * spow w0 2%nat * w1 * w2 * w4 + sofZ 41472 * cx2 * cy4 * spow w0 2%nat * spow w2 2%nat * w4 - sofZ 20160 * cx2 * cy4 * spow w0 2%nat * w2 * w3 * w4 + sofZ 4032 * cx2 * cy4 * spow w0 2%nat * w2 * spow w4 2%nat + sofZ 96768 * cx2 * cy4 * w0 * spow w1 2%nat * w2 * w4 - sofZ 177408 * cx2 * cy4 * w0 * w1 * spow w2 2%nat * w4 + sofZ 80640 * cx2 * cy4 * w0 * w1 * w2 * w3 * w4 - sofZ 15840 * cx2 * cy4 * w0 * w1 * w2 * spow w4 2%nat + sofZ 72576 * cx2 * cy4 * w0 * spow w2 3%nat * w4 - sofZ 60480 * cx2 * cy4 * w0 * spow w2 2%nat * w3 * w4 + sofZ 11520 * cx2 * cy4 * w0 * spow w2 2%nat * spow w4 2%nat + sofZ 11520 * cx2 * cy4 * w0 * w2 * spow w3 2%nat * w4 - sofZ 4032 * cx2 * cy4 * w0 * w2 * w3 * spow w4 2%nat + sofZ 288 * cx2 * cy4 * w0 * w2 * spow w4 3%nat - sofZ 64512 * cx2 * cy4 * spow w1 3%nat * w2 * w4 + sofZ 145152 * cx2 * cy4 * spow w1 2%nat * spow w2 2%nat * w4 - sofZ 57600 * cx2 * cy4 * spow w1 2%nat * w2 * w3 * w4 + sofZ 11520 * cx2 * cy4 * spow w1 2%nat * w2 * spow w4 2%nat - sofZ 77760 * cx2 * cy4 * w1 * spow w2 3%nat * w4 + sofZ 46080 * cx2 * cy4 * w1 * spow w2 2%nat * w3 * w4 - sofZ 10368 * cx2 * cy4 * w1 * spow w2 2%nat * spow w4 2%nat - sofZ 4608 * cx2 * cy4 * w1 * w2 * spow w3 2%nat * w4 + sofZ 2304 * cx2 * cy4 * w1 * w2 * w3 * spow w4 2%nat - sofZ 144 * cx2 * cy4 * w1 * w2 * spow w4 3%nat + sofZ 10368 * cx2 * cy4 * spow w2 3%nat * w3 * w4 - sofZ 6912 * cx2 * cy4 * spow w2 2%nat * spow w3 2%nat * w4 + sofZ 576 * cx2 * cy4 * spow w2 2%nat * w3 * spow w4 2%nat + sofZ 768 * cx2 * cy4 * w2 * spow w3 3%nat * w4 + sofZ 7488 * cx3 * cy0 * spow w0 3%nat * w1 * w3 - sofZ 9504 * cx3 * cy0 * spow w0 3%nat * w2 * w3 + sofZ 2160 * cx3 * cy0 * spow w0 3%nat * w3 * w4 - sofZ 50688 * cx3 * cy0 * spow w0 2%nat * spow w1 2%nat * w3 + sofZ 126720 * cx3 * cy0 * spow w0 2%nat * w1 * w2 * w3 - sofZ 34560 * cx3 * cy0 * spow w0 2%nat * w1 * spow w3 2%nat - sofZ 6912 * cx3 * cy0 * spow w0 2%nat * w1 * w3 * w4 - sofZ 77760 * cx3 * cy0 * spow w0 2%nat * spow w2 2%nat * w3 + sofZ 41472 * cx3 * cy0 * spow w0 2%nat * w2 * spow w3 2%nat + sofZ 8064 * cx3 * cy0 * spow w0 2%nat * w2 * w3 * w4 - sofZ 8064 * cx3 * cy0 * spow w0 2%nat * spow w3 2%nat * w4 + sofZ 1440 * cx3 * cy0 * spow w0 2%nat * w3 * spow w4 2%nat + sofZ 84480 * cx3 * cy0 * w0 * spow w1 3%nat * w3 - sofZ 311040 * cx3 * cy0 * w0 * spow w1 2%nat * w2 * w3 + sofZ 110592 * cx3 * cy0 * w0 * spow w1 2%nat * spow w3 2%nat + sofZ 373248 * cx3 * cy0 * w0 * w1 * spow w2 2%nat * w3 - sofZ 258048 * cx3 * cy0 * w0 * w1 * w2 * spow w3 2%nat + sofZ 32256 * cx3 * cy0 * w0 * w1 * spow w3 3%nat + sofZ 11520 * cx3 * cy0 * w0 * w1 * spow w3 2%nat * w4 - sofZ 2880 * cx3 * cy0 * w0 * w1 * w3 * spow w4 2%nat - sofZ 145152 * cx3 * cy0 * w0 * spow w2 3%nat * w3 + sofZ 145152 * cx3 * cy0 * w0 * spow w2 2%nat * spow w3 2%nat - sofZ 34560 * cx3 * cy0 * w0 * w2 * spow w3 3%nat - sofZ 11520 * cx3 * cy0 * w0 * w2 * spow w3 2%nat * w4 + sofZ 2592 * cx3 * cy0 * w0 * w2 * w3 * spow w4 2%nat + sofZ 4608 * cx3 * cy0 * w0 * spow w3 3%nat * w4 - sofZ 1152 * cx3 * cy0 * w0 * spow w3 2%nat * spow w4 2%nat + sofZ 48 * cx3 * cy0 * w0 * w3 * spow w4 3%nat - sofZ 7488 * cx3 * cy1 * spow w0 3%nat * w1 * w3 + sofZ 50688 * cx3 * cy1 * spow w0 2%nat * spow w1 2%nat * w3 - sofZ 52800 * cx3 * cy1 * spow w0 2%nat * w1 * w2 * w3 + sofZ 34560 * cx3 * cy1 * spow w0 2%nat * w1 * spow w3 2%nat - sofZ 10368 * cx3 * cy1 * spow w0 2%nat * w1 * w3 * w4 - sofZ 84480 * cx3 * cy1 * w0 * spow w1 3%nat * w3 + sofZ 138240 * cx3 * cy1 * w0 * spow w1 2%nat * w2 * w3 - sofZ 110592 * cx3 * cy1 * w0 * spow w1 2%nat * spow w3 2%nat + sofZ 43008 * cx3 * cy1 * w0 * spow w1 2%nat * w3 * w4 - sofZ 41472 * cx3 * cy1 * w0 * w1 * spow w2 2%nat * w3 + sofZ 86016 * cx3 * cy1 * w0 * w1 * w2 * spow w3 2%nat - sofZ 40320 * cx3 * cy1 * w0 * w1 * w2 * w3 * w4 - sofZ 32256 * cx3 * cy1 * w0 * w1 * spow w3 3%nat + sofZ 23040 * cx3 * cy1 * w0 * w1 * spow w3 2%nat * w4 - sofZ 2880 * cx3 * cy1 * w0 * w1 * w3 * spow w4 2%nat + sofZ 110592 * cx3 * cy1 * spow w1 3%nat * w2 * w3 - sofZ 32256 * cx3 * cy1 * spow w1 3%nat * w3 * w4 - sofZ 258048 * cx3 * cy1 * spow w1 2%nat * spow w2 2%nat * w3 + sofZ 129024 * cx3 * cy1 * spow w1 2%nat * w2 * spow w3 2%nat + sofZ 46080 * cx3 * cy1 * spow w1 2%nat * w2 * w3 * w4 - sofZ 30720 * cx3 * cy1 * spow w1 2%nat * spow w3 2%nat * w4 + sofZ 4608 * cx3 * cy1 * spow w1 2%nat * w3 * spow w4 2%nat + sofZ 145152 * cx3 * cy1 * w1 * spow w2 3%nat * w3 - sofZ 138240 * cx3 * cy1 * w1 * spow w2 2%nat * spow w3 2%nat - sofZ 11520 * cx3 * cy1 * w1 * spow w2 2%nat * w3 * w4 + sofZ 30720 * cx3 * cy1 * w1 * w2 * spow w3 3%nat + sofZ 18432 * cx3 * cy1 * w1 * w2 * spow w3 2%nat * w4 - sofZ 2880 * cx3 * cy1 * w1 * w2 * w3 * spow w4 2%nat - sofZ 4608 * cx3 * cy1 * w1 * spow w3 3%nat * w4 + sofZ 768 * cx3 * cy1 * w1 * spow w3 2%nat * spow w4 2%nat + sofZ 9504 * cx3 * cy2 * spow w0 3%nat * w2 * w3 - sofZ 73920 * cx3 * cy2 * spow w0 2%nat * w1 * w2 * w3 + sofZ 77760 * cx3 * cy2 * spow w0 2%nat * spow w2 2%nat * w3 - sofZ 41472 * cx3 * cy2 * spow w0 2%nat * w2 * spow w3 2%nat + sofZ 9408 * cx3 * cy2 * spow w0 2%nat * w2 * w3 * w4 + sofZ 172800 * cx3 * cy2 * w0 * spow w1 2%nat * w2 * w3 - sofZ 331776 * cx3 * cy2 * w0 * w1 * spow w2 2%nat * w3 + sofZ 172032 * cx3 * cy2 * w0 * w1 * w2 * spow w3 2%nat - sofZ 40320 * cx3 * cy2 * w0 * w1 * w2 * w3 * w4 + sofZ 145152 * cx3 * cy2 * w0 * spow w2 3%nat * w3 - sofZ 145152 * cx3 * cy2 * w0 * spow w2 2%nat * spow w3 2%nat + sofZ 34560 * cx3 * cy2 * w0 * spow w2 2%nat * w3 * w4 + sofZ 34560 * cx3 * cy2 * w0 * w2 * spow w3 3%nat - sofZ 15360 * cx3 * cy2 * w0 * w2 * spow w3 2%nat * w4 + sofZ 1440 * cx3 * cy2 * w0 * w2 * w3 * spow w4 2%nat - sofZ 110592 * cx3 * cy2 * spow w1 3%nat * w2 * w3 + sofZ 258048 * cx3 * cy2 * spow w1 2%nat * spow w2 2%nat * w3 - sofZ 129024 * cx3 * cy2 * spow w1 2%nat * w2 * spow w3 2%nat + sofZ 34560 * cx3 * cy2 * spow w1 2%nat * w2 * w3 * w4 - sofZ 145152 * cx3 * cy2 * w1 * spow w2 3%nat * w3 + sofZ 138240 * cx3 * cy2 * w1 * spow w2 2%nat * spow w3 2%nat - sofZ 46080 * cx3 * cy2 * w1 * spow w2 2%nat * w3 * w4 - sofZ 30720 * cx3 * cy2 * w1 * w2 * spow w3 3%nat + sofZ 18432 * cx3 * cy2 * w1 * w2 * spow w3 2%nat * w4 - sofZ 1728 * cx3 * cy2 * w1 * w2 * w3 * spow w4 2%nat + sofZ 10368 * cx3 * cy2 * spow w2 3%nat * w3 * w4 - sofZ 6912 * cx3 * cy2 * spow w2 2%nat * spow w3 2%nat * w4 + sofZ 576 * cx3 * cy2 * spow w2 2%nat * w3 * spow w4 2%nat + sofZ 768 * cx3 * cy2 * w2 * spow w3 3%nat * w4 - sofZ 2160 * cx3 * cy4 * spow w0 3%nat * w3 * w4 + sofZ 17280 * cx3 * cy4 * spow w0 2%nat * w1 * w3 * w4 - sofZ 17472 * cx3 * cy4 * spow w0 2%nat * w2 * w3 * w4 + sofZ 8064 * cx3 * cy4 * spow w0 2%nat * spow w3 2%nat * w4 - sofZ 1440 * cx3 * cy4 * spow w0 2%nat * w3 * spow w4 2%nat - sofZ 43008 * cx3 * cy4 * w0 * spow w1 2%nat * w3 * w4 + sofZ 80640 * cx3 * cy4 * w0 * w1 * w2 * w3 * w4 - sofZ 34560 * cx3 * cy4 * w0 * w1 * spow w3 2%nat * w4 + sofZ 5760 * cx3 * cy4 * w0 * w1 * w3 * spow w4 2%nat - sofZ 34560 * cx3 * cy4 * w0 * spow w2 2%nat * w3 * w4 + sofZ 26880 * cx3 * cy4 * w0 * w2 * spow w3 2%nat * w4 - sofZ 4032 * cx3 * cy4 * w0 * w2 * w3 * spow w4 2%nat - sofZ 4608 * cx3 * cy4 * w0 * spow w3 3%nat * w4 + sofZ 1152 * cx3 * cy4 * w0 * spow w3 2%nat * spow w4 2%nat - sofZ 48 * cx3 * cy4 * w0 * w3 * spow w4 3%nat + sofZ 32256 * cx3 * cy4 * spow w1 3%nat * w3 * w4 - sofZ 80640 * cx3 * cy4 * spow w1 2%nat * w2 * w3 * w4 + sofZ 30720 * cx3 * cy4 * spow w1 2%nat * spow w3 2%nat * w4 - sofZ 4608 * cx3 * cy4 * spow w1 2%nat * w3 * spow w4 2%nat + sofZ 57600 * cx3 * cy4 * w1 * spow w2 2%nat * w3 * w4 - sofZ 36864 * cx3 * cy4 * w1 * w2 * spow w3 2%nat * w4 + sofZ 4608 * cx3 * cy4 * w1 * w2 * w3 * spow w4 2%nat + sofZ 4608 * cx3 * cy4 * w1 * spow w3 3%nat * w4 - sofZ 768 * cx3 * cy4 * w1 * spow w3 2%nat * spow w4 2%nat - sofZ 10368 * cx3 * cy4 * spow w2 3%nat * w3 * w4 + sofZ 6912 * cx3 * cy4 * spow w2 2%nat * spow w3 2%nat * w4 - sofZ 576 * cx3 * cy4 * spow w2 2%nat * w3 * spow w4 2%nat - sofZ 768 * cx3 * cy4 * w2 * spow w3 3%nat * w4 - sofZ 3168 * cx4 * cy0 * spow w0 3%nat * w1 * w4 + sofZ 5280 * cx4 * cy0 * spow w0 3%nat * w2 * w4 - sofZ 2160 * cx4 * cy0 * spow w0 3%nat * w3 * w4 + sofZ 21120 * cx4 * cy0 * spow w0 2%nat * spow w1 2%nat * w4 - sofZ 60480 * cx4 * cy0 * spow w0 2%nat * w1 * w2 * w4 + sofZ 27648 * cx4 * cy0 * spow w0 2%nat * w1 * w3 * w4 - sofZ 2688 * cx4 * cy0 * spow w0 2%nat * w1 * spow w4 2%nat + sofZ 41472 * cx4 * cy0 * spow w0 2%nat * spow w2 2%nat * w4 - sofZ 37632 * cx4 * cy0 * spow w0 2%nat * w2 * w3 * w4 + sofZ 4032 * cx4 * cy0 * spow w0 2%nat * w2 * spow w4 2%nat + sofZ 8064 * cx4 * cy0 * spow w0 2%nat * spow w3 2%nat * w4 - sofZ 1440 * cx4 * cy0 * spow w0 2%nat * w3 * spow w4 2%nat - sofZ 34560 * cx4 * cy0 * w0 * spow w1 3%nat * w4 + sofZ 138240 * cx4 * cy0 * w0 * spow w1 2%nat * w2 * w4 - sofZ 64512 * cx4 * cy0 * w0 * spow w1 2%nat * w3 * w4 + sofZ 8064 * cx4 * cy0 * w0 * spow w1 2%nat * spow w4 2%nat - sofZ 177408 * cx4 * cy0 * w0 * w1 * spow w2 2%nat * w4 + sofZ 161280 * cx4 * cy0 * w0 * w1 * w2 * w3 * w4 - sofZ 20160 * cx4 * cy0 * w0 * w1 * w2 * spow w4 2%nat - sofZ 34560 * cx4 * cy0 * w0 * w1 * spow w3 2%nat * w4 + sofZ 7680 * cx4 * cy0 * w0 * w1 * w3 * spow w4 2%nat - sofZ 288 * cx4 * cy0 * w0 * w1 * spow w4 3%nat + sofZ 72576 * cx4 * cy0 * w0 * spow w2 3%nat * w4 - sofZ 95040 * cx4 * cy0 * w0 * spow w2 2%nat * w3 * w4 + sofZ 11520 * cx4 * cy0 * w0 * spow w2 2%nat * spow w4 2%nat + sofZ 38400 * cx4 * cy0 * w0 * w2 * spow w3 2%nat * w4 - sofZ 8064 * cx4 * cy0 * w0 * w2 * w3 * spow w4 2%nat + sofZ 288 * cx4 * cy0 * w0 * w2 * spow w4 3%nat - sofZ 4608 * cx4 * cy0 * w0 * spow w3 3%nat * w4 + sofZ 1152 * cx4 * cy0 * w0 * spow w3 2%nat * spow w4 2%nat - sofZ 48 * cx4 * cy0 * w0 * w3 * spow w4 3%nat + sofZ 3168 * cx4 * cy1 * spow w0 3%nat * w1 * w4 - sofZ 21120 * cx4 * cy1 * spow w0 2%nat * spow w1 2%nat * w4 + sofZ 19440 * cx4 * cy1 * spow w0 2%nat * w1 * w2 * w4 - sofZ 10368 * cx4 * cy1 * spow w0 2%nat * w1 * w3 * w4 + sofZ 2688 * cx4 * cy1 * spow w0 2%nat * w1 * spow w4 2%nat + sofZ 34560 * cx4 * cy1 * w0 * spow w1 3%nat * w4 - sofZ 41472 * cx4 * cy1 * w0 * spow w1 2%nat * w2 * w4 + sofZ 21504 * cx4 * cy1 * w0 * spow w1 2%nat * w3 * w4 - sofZ 8064 * cx4 * cy1 * w0 * spow w1 2%nat * spow w4 2%nat + sofZ 4320 * cx4 * cy1 * w0 * w1 * w2 * spow w4 2%nat - sofZ 1920 * cx4 * cy1 * w0 * w1 * w3 * spow w4 2%nat + sofZ 288 * cx4 * cy1 * w0 * w1 * spow w4 3%nat - sofZ 64512 * cx4 * cy1 * spow w1 3%nat * w2 * w4 + sofZ 32256 * cx4 * cy1 * spow w1 3%nat * w3 * w4 + sofZ 145152 * cx4 * cy1 * spow w1 2%nat * spow w2 2%nat * w4 - sofZ 138240 * cx4 * cy1 * spow w1 2%nat * w2 * w3 * w4 + sofZ 11520 * cx4 * cy1 * spow w1 2%nat * w2 * spow w4 2%nat + sofZ 30720 * cx4 * cy1 * spow w1 2%nat * spow w3 2%nat * w4 - sofZ 4608 * cx4 * cy1 * spow w1 2%nat * w3 * spow w4 2%nat - sofZ 77760 * cx4 * cy1 * w1 * spow w2 3%nat * w4 + sofZ 103680 * cx4 * cy1 * w1 * spow w2 2%nat * w3 * w4 - sofZ 10368 * cx4 * cy1 * w1 * spow w2 2%nat * spow w4 2%nat - sofZ 41472 * cx4 * cy1 * w1 * w2 * spow w3 2%nat * w4 + sofZ 6912 * cx4 * cy1 * w1 * w2 * w3 * spow w4 2%nat - sofZ 144 * cx4 * cy1 * w1 * w2 * spow w4 3%nat + sofZ 4608 * cx4 * cy1 * w1 * spow w3 3%nat * w4 - sofZ 768 * cx4 * cy1 * w1 * spow w3 2%nat * spow w4 2%nat - sofZ 5280 * cx4 * cy2 * spow w0 3%nat * w2 * w4 + sofZ 41040 * cx4 * cy2 * spow w0 2%nat * w1 * w2 * w4 - sofZ 41472 * cx4 * cy2 * spow w0 2%nat * spow w2 2%nat * w4 + sofZ 20160 * cx4 * cy2 * spow w0 2%nat * w2 * w3 * w4 - sofZ 4032 * cx4 * cy2 * spow w0 2%nat * w2 * spow w4 2%nat - sofZ 96768 * cx4 * cy2 * w0 * spow w1 2%nat * w2 * w4 + sofZ 177408 * cx4 * cy2 * w0 * w1 * spow w2 2%nat * w4 - sofZ 80640 * cx4 * cy2 * w0 * w1 * w2 * w3 * w4 + sofZ 15840 * cx4 * cy2 * w0 * w1 * w2 * spow w4 2%nat - sofZ 72576 * cx4 * cy2 * w0 * spow w2 3%nat * w4 + sofZ 60480 * cx4 * cy2 * w0 * spow w2 2%nat * w3 * w4 - sofZ 11520 * cx4 * cy2 * w0 * spow w2 2%nat * spow w4 2%nat - sofZ 11520 * cx4 * cy2 * w0 * w2 * spow w3 2%nat * w4 + sofZ 4032 * cx4 * cy2 * w0 * w2 * w3 * spow w4 2%nat - sofZ 288 * cx4 * cy2 * w0 * w2 * spow w4 3%nat + sofZ 64512 * cx4 * cy2 * spow w1 3%nat * w2 * w4 - sofZ 145152 * cx4 * cy2 * spow w1 2%nat * spow w2 2%nat * w4 + sofZ 57600 * cx4 * cy2 * spow w1 2%nat * w2 * w3 * w4 - sofZ 11520 * cx4 * cy2 * spow w1 2%nat * w2 * spow w4 2%nat + sofZ 77760 * cx4 * cy2 * w1 * spow w2 3%nat * w4 - sofZ 46080 * cx4 * cy2 * w1 * spow w2 2%nat * w3 * w4 + sofZ 10368 * cx4 * cy2 * w1 * spow w2 2%nat * spow w4 2%nat + sofZ 4608 * cx4 * cy2 * w1 * w2 * spow w3 2%nat * w4 - sofZ 2304 * cx4 * cy2 * w1 * w2 * w3 * spow w4 2%nat + sofZ 144 * cx4 * cy2 * w1 * w2 * spow w4 3%nat - sofZ 10368 * cx4 * cy2 * spow w2 3%nat * w3 * w4 + sofZ 6912 * cx4 * cy2 * spow w2 2%nat * spow w3 2%nat * w4 - sofZ 576 * cx4 * cy2 * spow w2 2%nat * w3 * spow w4 2%nat - sofZ 768 * cx4 * cy2 * w2 * spow w3 3%nat * w4 + sofZ 2160 * cx4 * cy3 * spow w0 3%nat * w3 * w4 - sofZ 17280 * cx4 * cy3 * spow w0 2%nat * w1 * w3 * w4 + sofZ 17472 * cx4 * cy3 * spow w0 2%nat * w2 * w3 * w4 - sofZ 8064 * cx4 * cy3 * spow w0 2%nat * spow w3 2%nat * w4 + sofZ 1440 * cx4 * cy3 * spow w0 2%nat * w3 * spow w4 2%nat + sofZ 43008 * cx4 * cy3 * w0 * spow w1 2%nat * w3 * w4 - sofZ 80640 * cx4 * cy3 * w0 * w1 * w2 * w3 * w4 + sofZ 34560 * cx4 * cy3 * w0 * w1 * spow w3 2%nat * w4 - sofZ 5760 * cx4 * cy3 * w0 * w1 * w3 * spow w4 2%nat + sofZ 34560 * cx4 * cy3 * w0 * spow w2 2%nat * w3 * w4 - sofZ 26880 * cx4 * cy3 * w0 * w2 * spow w3 2%nat * w4 + sofZ 4032 * cx4 * cy3 * w0 * w2 * w3 * spow w4 2%nat + sofZ 4608 * cx4 * cy3 * w0 * spow w3 3%nat * w4 - sofZ 1152 * cx4 * cy3 * w0 * spow w3 2%nat * spow w4 2%nat + sofZ 48 * cx4 * cy3 * w0 * w3 * spow w4 3%nat - sofZ 32256 * cx4 * cy3 * spow w1 3%nat * w3 * w4 + sofZ 80640 * cx4 * cy3 * spow w1 2%nat * w2 * w3 * w4 - sofZ 30720 * cx4 * cy3 * spow w1 2%nat * spow w3 2%nat * w4 + sofZ 4608 * cx4 * cy3 * spow w1 2%nat * w3 * spow w4 2%nat - sofZ 57600 * cx4 * cy3 * w1 * spow w2 2%nat * w3 * w4 + sofZ 36864 * cx4 * cy3 * w1 * w2 * spow w3 2%nat * w4 - sofZ 4608 * cx4 * cy3 * w1 * w2 * w3 * spow w4 2%nat - sofZ 4608 * cx4 * cy3 * w1 * spow w3 3%nat * w4 + sofZ 768 * cx4 * cy3 * w1 * spow w3 2%nat * spow w4 2%nat + sofZ 10368 * cx4 * cy3 * spow w2 3%nat * w3 * w4 - sofZ 6912 * cx4 * cy3 * spow w2 2%nat * spow w3 2%nat * w4 + sofZ 576 * cx4 * cy3 * spow w2 2%nat * w3 * spow w4 2%nat + sofZ 768 * cx4 * cy3 * w2 * spow w3 3%nat * w4;
     sofZ 672 * cx0 * cy1 * spow w0 3%nat * w1 * w2 - sofZ 1248 * cx0 * cy1 * spow w0 3%nat * w1 * w3 + sofZ 576 * cx0 * cy1 * spow w0 3%nat * w1 * w4 - sofZ 4992 * cx0 * cy1 * spow w0 2%nat * spow w1 2%nat * w2 + sofZ 9216 * cx0 * cy1 * spow w0 2%nat * spow w1 2%nat * w3 - sofZ 4224 * cx0 * cy1 * spow w0 2%nat * spow w1 2%nat * w4 + sofZ 6912 * cx0 * cy1 * spow w0 2%nat * w1 * spow w2 2%nat - sofZ 16896 * cx0 * cy1 * spow w0 2%nat * w1 * w2 * w3 + sofZ 6720 * cx0 * cy1 * spow w0 2%nat * w1 * w2 * w4 + sofZ 7680 * cx0 * cy1 * spow w0 2%nat * w1 * spow w3 2%nat - sofZ 5184 * cx0 * cy1 * spow w0 2%nat * w1 * w3 * w4 + sofZ 768 * cx0 * cy1 * spow w0 2%nat * w1 * spow w4 2%nat + sofZ 9216 * cx0 * cy1 * w0 * spow w1 3%nat * w2 - sofZ 16896 * cx0 * cy1 * w0 * spow w1 3%nat * w3 + sofZ 7680 * cx0 * cy1 * w0 * spow w1 3%nat * w4 - sofZ 25344 * cx0 * cy1 * w0 * spow w1 2%nat * spow w2 2%nat + sofZ 61440 * cx0 * cy1 * w0 * spow w1 2%nat * w2 * w3 - sofZ 24192 * cx0 * cy1 * w0 * spow w1 2%nat * w2 * w4 - sofZ 27648 * cx0 * cy1 * w0 * spow w1 2%nat * spow w3 2%nat + sofZ 18432 * cx0 * cy1 * w0 * spow w1 2%nat * w3 * w4 - sofZ 2688 * cx0 * cy1 * w0 * spow w1 2%nat * spow w4 2%nat + sofZ 17280 * cx0 * cy1 * w0 * w1 * spow w2 3%nat - sofZ 51840 * cx0 * cy1 * w0 * w1 * spow w2 2%nat * w3 + sofZ 18432 * cx0 * cy1 * w0 * w1 * spow w2 2%nat * w4 + sofZ 43008 * cx0 * cy1 * w0 * w1 * w2 * spow w3 2%nat - sofZ 26880 * cx0 * cy1 * w0 * w1 * w2 * w3 * w4 + sofZ 3744 * cx0 * cy1 * w0 * w1 * w2 * spow w4 2%nat - sofZ 10752 * cx0 * cy1 * w0 * w1 * spow w3 3%nat + sofZ 9216 * cx0 * cy1 * w0 * w1 * spow w3 2%nat * w4 - sofZ 2400 * cx0 * cy1 * w0 * w1 * w3 * spow w4 2%nat + sofZ 192 * cx0 * cy1 * w0 * w1 * spow w4 3%nat - sofZ 672 * cx0 * cy2 * spow w0 3%nat * w1 * w2 + sofZ 1728 * cx0 * cy2 * spow w0 3%nat * w2 * w3 - sofZ 1056 * cx0 * cy2 * spow w0 3%nat * w2 * w4 + sofZ 4992 * cx0 * cy2 * spow w0 2%nat * spow w1 2%nat * w2 - sofZ 6912 * cx0 * cy2 * spow w0 2%nat * w1 * spow w2 2%nat - sofZ 8448 * cx0 * cy2 * spow w0 2%nat * w1 * w2 * w3 + sofZ 6720 * cx0 * cy2 * spow w0 2%nat * w1 * w2 * w4 + sofZ 17280 * cx0 * cy2 * spow w0 2%nat * spow w2 2%nat * w3 - sofZ 10368 * cx0 * cy2 * spow w0 2%nat * spow w2 2%nat * w4 - sofZ 10368 * cx0 * cy2 * spow w0 2%nat * w2 * spow w3 2%nat + sofZ 8448 * cx0 * cy2 * spow w0 2%nat * w2 * w3 * w4 - sofZ 1344 * cx0 * cy2 * spow w0 2%nat * w2 * spow w4 2%nat - sofZ 9216 * cx0 * cy2 * w0 * spow w1 3%nat * w2 + sofZ 25344 * cx0 * cy2 * w0 * spow w1 2%nat * spow w2 2%nat + sofZ 7680 * cx0 * cy2 * w0 * spow w1 2%nat * w2 * w3 - sofZ 10368 * cx0 * cy2 * w0 * spow w1 2%nat * w2 * w4 - sofZ 17280 * cx0 * cy2 * w0 * w1 * spow w2 3%nat - sofZ 41472 * cx0 * cy2 * w0 * w1 * spow w2 2%nat * w3 + sofZ 32256 * cx0 * cy2 * w0 * w1 * spow w2 2%nat * w4 + sofZ 30720 * cx0 * cy2 * w0 * w1 * w2 * spow w3 2%nat - sofZ 26880 * cx0 * cy2 * w0 * w1 * w2 * w3 * w4 + sofZ 4320 * cx0 * cy2 * w0 * w1 * w2 * spow w4 2%nat + sofZ 41472 * cx0 * cy2 * w0 * spow w2 3%nat * w3 - sofZ 24192 * cx0 * cy2 * w0 * spow w2 3%nat * w4 - sofZ 48384 * cx0 * cy2 * w0 * spow w2 2%nat * spow w3 2%nat + sofZ 38016 * cx0 * cy2 * w0 * spow w2 2%nat * w3 * w4 - sofZ 5760 * cx0 * cy2 * w0 * spow w2 2%nat * spow w4 2%nat + sofZ 13824 * cx0 * cy2 * w0 * w2 * spow w3 3%nat - sofZ 13440 * cx0 * cy2 * w0 * w2 * spow w3 2%nat * w4 + sofZ 3648 * cx0 * cy2 * w0 * w2 * w3 * spow w4 2%nat - sofZ 288 * cx0 * cy2 * w0 * w2 * spow w4 3%nat + sofZ 1248 * cx0 * cy3 * spow w0 3%nat * w1 * w3 - sofZ 1728 * cx0 * cy3 * spow w0 3%nat * w2 * w3 + sofZ 480 * cx0 * cy3 * spow w0 3%nat * w3 * w4 - sofZ 9216 * cx0 * cy3 * spow w0 2%nat * spow w1 2%nat * w3 + sofZ 25344 * cx0 * cy3 * spow w0 2%nat * w1 * w2 * w3 - sofZ 7680 * cx0 * cy3 * spow w0 2%nat * w1 * spow w3 2%nat - sofZ 1728 * cx0 * cy3 * spow w0 2%nat * w1 * w3 * w4 - sofZ 17280 * cx0 * cy3 * spow w0 2%nat * spow w2 2%nat * w3 + sofZ 10368 * cx0 * cy3 * spow w0 2%nat * w2 * spow w3 2%nat + sofZ 2304 * cx0 * cy3 * spow w0 2%nat * w2 * w3 * w4 - sofZ 2688 * cx0 * cy3 * spow w0 2%nat * spow w3 2%nat * w4 + sofZ 576 * cx0 * cy3 * spow w0 2%nat * w3 * spow w4 2%nat + sofZ 16896 * cx0 * cy3 * w0 * spow w1 3%nat * w3 - sofZ 69120 * cx0 * cy3 * w0 * spow w1 2%nat * w2 * w3 + sofZ 27648 * cx0 * cy3 * w0 * spow w1 2%nat * spow w3 2%nat + sofZ 93312 * cx0 * cy3 * w0 * w1 * spow w2 2%nat * w3 - sofZ 73728 * cx0 * cy3 * w0 * w1 * w2 * spow w3 2%nat + sofZ 10752 * cx0 * cy3 * w0 * w1 * spow w3 3%nat + sofZ 4608 * cx0 * cy3 * w0 * w1 * spow w3 2%nat * w4 - sofZ 1440 * cx0 * cy3 * w0 * w1 * w3 * spow w4 2%nat - sofZ 41472 * cx0 * cy3 * w0 * spow w2 3%nat * w3 + sofZ 48384 * cx0 * cy3 * w0 * spow w2 2%nat * spow w3 2%nat - sofZ 13824 * cx0 * cy3 * w0 * w2 * spow w3 3%nat - sofZ 5760 * cx0 * cy3 * w0 * w2 * spow w3 2%nat * w4 + sofZ 1728 * cx0 * cy3 * w0 * w2 * w3 * spow w4 2%nat + sofZ 3072 * cx0 * cy3 * w0 * spow w3 3%nat * w4 - sofZ 1152 * cx0 * cy3 * w0 * spow w3 2%nat * spow w4 2%nat + sofZ 96 * cx0 * cy3 * w0 * w3 * spow w4 3%nat - sofZ 576 * cx0 * cy4 * spow w0 3%nat * w1 * w4 + sofZ 1056 * cx0 * cy4 * spow w0 3%nat * w2 * w4 - sofZ 480 * cx0 * cy4 * spow w0 3%nat * w3 * w4 + sofZ 4224 * cx0 * cy4 * spow w0 2%nat * spow w1 2%nat * w4 - sofZ 13440 * cx0 * cy4 * spow w0 2%nat * w1 * w2 * w4 + sofZ 6912 * cx0 * cy4 * spow w0 2%nat * w1 * w3 * w4 - sofZ 768 * cx0 * cy4 * spow w0 2%nat * w1 * spow w4 2%nat + sofZ 10368 * cx0 * cy4 * spow w0 2%nat * spow w2 2%nat * w4 - sofZ 10752 * cx0 * cy4 * spow w0 2%nat * w2 * w3 * w4 + sofZ 1344 * cx0 * cy4 * spow w0 2%nat * w2 * spow w4 2%nat + sofZ 2688 * cx0 * cy4 * spow w0 2%nat * spow w3 2%nat * w4 - sofZ 576 * cx0 * cy4 * spow w0 2%nat * w3 * spow w4 2%nat - sofZ 7680 * cx0 * cy4 * w0 * spow w1 3%nat * w4 + sofZ 34560 * cx0 * cy4 * w0 * spow w1 2%nat * w2 * w4 - sofZ 18432 * cx0 * cy4 * w0 * spow w1 2%nat * w3 * w4 + sofZ 2688 * cx0 * cy4 * w0 * spow w1 2%nat * spow w4 2%nat - sofZ 50688 * cx0 * cy4 * w0 * w1 * spow w2 2%nat * w4 + sofZ 53760 * cx0 * cy4 * w0 * w1 * w2 * w3 * w4 - sofZ 8064 * cx0 * cy4 * w0 * w1 * w2 * spow w4 2%nat - sofZ 13824 * cx0 * cy4 * w0 * w1 * spow w3 2%nat * w4 + sofZ 3840 * cx0 * cy4 * w0 * w1 * w3 * spow w4 2%nat - sofZ 192 * cx0 * cy4 * w0 * w1 * spow w4 3%nat + sofZ 24192 * cx0 * cy4 * w0 * spow w2 3%nat * w4 - sofZ 38016 * cx0 * cy4 * w0 * spow w2 2%nat * w3 * w4 + sofZ 5760 * cx0 * cy4 * w0 * spow w2 2%nat * spow w4 2%nat + sofZ 19200 * cx0 * cy4 * w0 * w2 * spow w3 2%nat * w4 - sofZ 5376 * cx0 * cy4 * w0 * w2 * w3 * spow w4 2%nat + sofZ 288 * cx0 * cy4 * w0 * w2 * spow w4 3%nat - sofZ 3072 * cx0 * cy4 * w0 * spow w3 3%nat * w4 + sofZ 1152 * cx0 * cy4 * w0 * spow w3 2%nat * spow w4 2%nat - sofZ 96 * cx0 * cy4 * w0 * w3 * spow w4 3%nat - sofZ 672 * cx1 * cy0 * spow w0 3%nat * w1 * w2 + sofZ 1248 * cx1 * cy0 * spow w0 3%nat * w1 * w3 - sofZ 576 * cx1 * cy0 * spow w0 3%nat * w1 * w4 + sofZ 4992 * cx1 * cy0 * spow w0 2%nat * spow w1 2%nat * w2 - sofZ 9216 * cx1 * cy0 * spow w0 2%nat * spow w1 2%nat * w3 + sofZ 4224 * cx1 * cy0 * spow w0 2%nat * spow w1 2%nat * w4 - sofZ 6912 * cx1 * cy0 * spow w0 2%nat * w1 * spow w2 2%nat + sofZ 16896 * cx1 * cy0 * spow w0 2%nat * w1 * w2 * w3 - sofZ 6720 * cx1 * cy0 * spow w0 2%nat * w1 * w2 * w4 - sofZ 7680 * cx1 * cy0 * spow w0 2%nat * w1 * spow w3 2%nat + sofZ 5184 * cx1 * cy0 * spow w0 2%nat * w1 * w3 * w4 - sofZ 768 * cx1 * cy0 * spow w0 2%nat * w1 * spow w4 2%nat - sofZ 9216 * cx1 * cy0 * w0 * spow w1 3%nat * w2 + sofZ 16896 * cx1 * cy0 * w0 * spow w1 3%nat * w3 - sofZ 7680 * cx1 * cy0 * w0 * spow w1 3%nat * w4 + sofZ 25344 * cx1 * cy0 * w0 * spow w1 2%nat * spow w2 2%nat - sofZ 61440 * cx1 * cy0 * w0 * spow w1 2%nat * w2 * w3 + sofZ 24192 * cx1 * cy0 * w0 * spow w1 2%nat * w2 * w4 + sofZ 27648 * cx1 * cy0 * w0 * spow w1 2%nat * spow w3 2%nat - sofZ 18432 * cx1 * cy0 * w0 * spow w1 2%nat * w3 * w4 + sofZ 2688 * cx1 * cy0 * w0 * spow w1 2%nat * spow w4 2%nat - sofZ 17280 * cx1 * cy0 * w0 * w1 * spow w2 3%nat + sofZ 51840 * cx1 * cy0 * w0 * w1 * spow w2 2%nat * w3 - sofZ 18432 * cx1 * cy0 * w0 * w1 * spow w2 2%nat * w4 - sofZ 43008 * cx1 * cy0 * w0 * w1 * w2 * spow w3 2%nat + sofZ 26880 * cx1 * cy0 * w0 * w1 * w2 * w3 * w4 - sofZ 3744 * cx1 * cy0 * w0 * w1 * w2 * spow w4 2%nat + sofZ 10752 * cx1 * cy0 * w0 * w1 * spow w3 3%nat - sofZ 9216 * cx1 * cy0 * w0 * w1 * spow w3 2%nat * w4 + sofZ 2400 * cx1 * cy0 * w0 * w1 * w3 * spow w4 2%nat - sofZ 192 * cx1 * cy0 * w0 * w1 * spow w4 3%nat + sofZ 672 * cx1 * cy2 * spow w0 3%nat * w1 * w2 - sofZ 4992 * cx1 * cy2 * spow w0 2%nat * spow w1 2%nat * w2 + sofZ 6912 * cx1 * cy2 * spow w0 2%nat * w1 * spow w2 2%nat - sofZ 6336 * cx1 * cy2 * spow w0 2%nat * w1 * w2 * w3 + sofZ 2400 * cx1 * cy2 * spow w0 2%nat * w1 * w2 * w4 + sofZ 9216 * cx1 * cy2 * w0 * spow w1 3%nat * w2 - sofZ 25344 * cx1 * cy2 * w0 * spow w1 2%nat * spow w2 2%nat + sofZ 30720 * cx1 * cy2 * w0 * spow w1 2%nat * w2 * w3 - sofZ 13824 * cx1 * cy2 * w0 * spow w1 2%nat * w2 * w4 + sofZ 17280 * cx1 * cy2 * w0 * w1 * spow w2 3%nat - sofZ 41472 * cx1 * cy2 * w0 * w1 * spow w2 2%nat * w3 + sofZ 18432 * cx1 * cy2 * w0 * w1 * spow w2 2%nat * w4 + sofZ 18432 * cx1 * cy2 * w0 * w1 * w2 * spow w3 2%nat - sofZ 13440 * cx1 * cy2 * w0 * w1 * w2 * w3 * w4 + sofZ 2016 * cx1 * cy2 * w0 * w1 * w2 * spow w4 2%nat - sofZ 27648 * cx1 * cy2 * spow w1 3%nat * w2 * w3 + sofZ 18432 * cx1 * cy2 * spow w1 3%nat * w2 * w4 + sofZ 73728 * cx1 * cy2 * spow w1 2%nat * spow w2 2%nat * w3 - sofZ 48384 * cx1 * cy2 * spow w1 2%nat * spow w2 2%nat * w4 - sofZ 43008 * cx1 * cy2 * spow w1 2%nat * w2 * spow w3 2%nat + sofZ 36864 * cx1 * cy2 * spow w1 2%nat * w2 * w3 * w4 - sofZ 5760 * cx1 * cy2 * spow w1 2%nat * w2 * spow w4 2%nat - sofZ 48384 * cx1 * cy2 * w1 * spow w2 3%nat * w3 + sofZ 31104 * cx1 * cy2 * w1 * spow w2 3%nat * w4 + sofZ 55296 * cx1 * cy2 * w1 * spow w2 2%nat * spow w3 2%nat - sofZ 46080 * cx1 * cy2 * w1 * spow w2 2%nat * w3 * w4 + sofZ 6912 * cx1 * cy2 * w1 * spow w2 2%nat * spow w4 2%nat - sofZ 15360 * cx1 * cy2 * w1 * w2 * spow w3 3%nat + sofZ 15360 * cx1 * cy2 * w1 * w2 * spow w3 2%nat * w4 - sofZ 4032 * cx1 * cy2 * w1 * w2 * w3 * spow w4 2%nat + sofZ 288 * cx1 * cy2 * w1 * w2 * spow w4 3%nat - sofZ 1248 * cx1 * cy3 * spow w0 3%nat * w1 * w3 + sofZ 9216 * cx1 * cy3 * spow w0 2%nat * spow w1 2%nat * w3 - sofZ 10560 * cx1 * cy3 * spow w0 2%nat * w1 * w2 * w3 + sofZ 7680 * cx1 * cy3 * spow w0 2%nat * w1 * spow w3 2%nat - sofZ 2592 * cx1 * cy3 * spow w0 2%nat * w1 * w3 * w4 - sofZ 16896 * cx1 * cy3 * w0 * spow w1 3%nat * w3 + sofZ 30720 * cx1 * cy3 * w0 * spow w1 2%nat * w2 * w3 - sofZ 27648 * cx1 * cy3 * w0 * spow w1 2%nat * spow w3 2%nat + sofZ 12288 * cx1 * cy3 * w0 * spow w1 2%nat * w3 * w4 - sofZ 10368 * cx1 * cy3 * w0 * w1 * spow w2 2%nat * w3 + sofZ 24576 * cx1 * cy3 * w0 * w1 * w2 * spow w3 2%nat - sofZ 13440 * cx1 * cy3 * w0 * w1 * w2 * w3 * w4 - sofZ 10752 * cx1 * cy3 * w0 * w1 * spow w3 3%nat + sofZ 9216 * cx1 * cy3 * w0 * w1 * spow w3 2%nat * w4 - sofZ 1440 * cx1 * cy3 * w0 * w1 * w3 * spow w4 2%nat + sofZ 27648 * cx1 * cy3 * spow w1 3%nat * w2 * w3 - sofZ 10752 * cx1 * cy3 * spow w1 3%nat * w3 * w4 - sofZ 73728 * cx1 * cy3 * spow w1 2%nat * spow w2 2%nat * w3 + sofZ 43008 * cx1 * cy3 * spow w1 2%nat * w2 * spow w3 2%nat + sofZ 18432 * cx1 * cy3 * spow w1 2%nat * w2 * w3 * w4 - sofZ 15360 * cx1 * cy3 * spow w1 2%nat * spow w3 2%nat * w4 + sofZ 3072 * cx1 * cy3 * spow w1 2%nat * w3 * spow w4 2%nat + sofZ 48384 * cx1 * cy3 * w1 * spow w2 3%nat * w3 - sofZ 55296 * cx1 * cy3 * w1 * spow w2 2%nat * spow w3 2%nat - sofZ 5760 * cx1 * cy3 * w1 * spow w2 2%nat * w3 * w4 + sofZ 15360 * cx1 * cy3 * w1 * w2 * spow w3 3%nat + sofZ 12288 * cx1 * cy3 * w1 * w2 * spow w3 2%nat * w4 - sofZ 2880 * cx1 * cy3 * w1 * w2 * w3 * spow w4 2%nat - sofZ 4608 * cx1 * cy3 * w1 * spow w3 3%nat * w4 + sofZ 1536 * cx1 * cy3 * w1 * spow w3 2%nat * spow w4 2%nat - sofZ 96 * cx1 * cy3 * w1 * w3 * spow w4 3%nat + sofZ 576 * cx1 * cy4 * spow w0 3%nat * w1 * w4 - sofZ 4224 * cx1 * cy4 * spow w0 2%nat * spow w1 2%nat * w4 + sofZ 4320 * cx1 * cy4 * spow w0 2%nat * w1 * w2 * w4 - sofZ 2592 * cx1 * cy4 * spow w0 2%nat * w1 * w3 * w4 + sofZ 768 * cx1 * cy4 * spow w0 2%nat * w1 * spow w4 2%nat + sofZ 7680 * cx1 * cy4 * w0 * spow w1 3%nat * w4 - sofZ 10368 * cx1 * cy4 * w0 * spow w1 2%nat * w2 * w4 + sofZ 6144 * cx1 * cy4 * w0 * spow w1 2%nat * w3 * w4 - sofZ 2688 * cx1 * cy4 * w0 * spow w1 2%nat * spow w4 2%nat + sofZ 1728 * cx1 * cy4 * w0 * w1 * w2 * spow w4 2%nat - sofZ 960 * cx1 * cy4 * w0 * w1 * w3 * spow w4 2%nat + sofZ 192 * cx1 * cy4 * w0 * w1 * spow w4 3%nat - sofZ 18432 * cx1 * cy4 * spow w1 3%nat * w2 * w4 + sofZ 10752 * cx1 * cy4 * spow w1 3%nat * w3 * w4 + sofZ 48384 * cx1 * cy4 * spow w1 2%nat * spow w2 2%nat * w4 - sofZ 55296 * cx1 * cy4 * spow w1 2%nat * w2 * w3 * w4 + sofZ 5760 * cx1 * cy4 * spow w1 2%nat * w2 * spow w4 2%nat + sofZ 15360 * cx1 * cy4 * spow w1 2%nat * spow w3 2%nat * w4 - sofZ 3072 * cx1 * cy4 * spow w1 2%nat * w3 * spow w4 2%nat - sofZ 31104 * cx1 * cy4 * w1 * spow w2 3%nat * w4 + sofZ 51840 * cx1 * cy4 * w1 * spow w2 2%nat * w3 * w4 - sofZ 6912 * cx1 * cy4 * w1 * spow w2 2%nat * spow w4 2%nat - sofZ 27648 * cx1 * cy4 * w1 * w2 * spow w3 2%nat * w4 + sofZ 6912 * cx1 * cy4 * w1 * w2 * w3 * spow w4 2%nat - sofZ 288 * cx1 * cy4 * w1 * w2 * spow w4 3%nat + sofZ 4608 * cx1 * cy4 * w1 * spow w3 3%nat * w4 - sofZ 1536 * cx1 * cy4 * w1 * spow w3 2%nat * spow w4 2%nat + sofZ 96 * cx1 * cy4 * w1 * w3 * spow w4 3%nat + sofZ 672 * cx2 * cy0 * spow w0 3%nat * w1 * w2 - sofZ 1728 * cx2 * cy0 * spow w0 3%nat * w2 * w3 + sofZ 1056 * cx2 * cy0 * spow w0 3%nat * w2 * w4 - sofZ 4992 * cx2 * cy0 * spow w0 2%nat * spow w1 2%nat * w2 + sofZ 6912 * cx2 * cy0 * spow w0 2%nat * w1 * spow w2 2%nat + sofZ 8448 * cx2 * cy0 * spow w0 2%nat * w1 * w2 * w3 - sofZ 6720 * cx2 * cy0 * spow w0 2%nat * w1 * w2 * w4 - sofZ 17280 * cx2 * cy0 * spow w0 2%nat * spow w2 2%nat * w3 + sofZ 10368 * cx2 * cy0 * spow w0 2%nat * spow w2 2%nat * w4 + sofZ 10368 * cx2 * cy0 * spow w0 2%nat * w2 * spow w3 2%nat - sofZ 8448 * cx2 * cy0 * spow w0 2%nat * w2 * w3 * w4 + sofZ 1344 * cx2 * cy0 * spow w0 2%nat * w2 * spow w4 2%nat + sofZ 9216 * cx2 * cy0 * w0 * spow w1 3%nat * w2 - sofZ 25344 * cx2 * cy0 * w0 * spow w1 2%nat * spow w2 2%nat - sofZ 7680 * cx2 * cy0 * w0 * spow w1 2%nat * w2 * w3 + sofZ 10368 * cx2 * cy0 * w0 * spow w1 2%nat * w2 * w4 + sofZ 17280 * cx2 * cy0 * w0 * w1 * spow w2 3%nat + sofZ 41472 * cx2 * cy0 * w0 * w1 * spow w2 2%nat * w3 - sofZ 32256 * cx2 * cy0 * w0 * w1 * spow w2 2%nat * w4 - sofZ 30720 * cx2 * cy0 * w0 * w1 * w2 * spow w3 2%nat + sofZ 26880 * cx2 * cy0 * w0 * w1 * w2 * w3 * w4 - sofZ 4320 * cx2 * cy0 * w0 * w1 * w2 * spow w4 2%nat - sofZ 41472 * cx2 * cy0 * w0 * spow w2 3%nat * w3 + sofZ 24192 * cx2 * cy0 * w0 * spow w2 3%nat * w4 + sofZ 48384 * cx2 * cy0 * w0 * spow w2 2%nat * spow w3 2%nat - sofZ 38016 * cx2 * cy0 * w0 * spow w2 2%nat * w3 * w4 + sofZ 5760 * cx2 * cy0 * w0 * spow w2 2%nat * spow w4 2%nat - sofZ 13824 * cx2 * cy0 * w0 * w2 * spow w3 3%nat + sofZ 13440 * cx2 * cy0 * w0 * w2 * spow w3 2%nat * w4 - sofZ 3648 * cx2 * cy0 * w0 * w2 * w3 * spow w4 2%nat + sofZ 288 * cx2 * cy0 * w0 * w2 * spow w4 3%nat - sofZ 672 * cx2 * cy1 * spow w0 3%nat * w1 * w2 + sofZ 4992 * cx2 * cy1 * spow w0 2%nat * spow w1 2%nat * w2 - sofZ 6912 * cx2 * cy1 * spow w0 2%nat * w1 * spow w2 2%nat + sofZ 6336 * cx2 * cy1 * spow w0 2%nat * w1 * w2 * w3 - sofZ 2400 * cx2 * cy1 * spow w0 2%nat * w1 * w2 * w4 - sofZ 9216 * cx2 * cy1 * w0 * spow w1 3%nat * w2 + sofZ 25344 * cx2 * cy1 * w0 * spow w1 2%nat * spow w2 2%nat - sofZ 30720 * cx2 * cy1 * w0 * spow w1 2%nat * w2 * w3 + sofZ 13824 * cx2 * cy1 * w0 * spow w1 2%nat * w2 * w4 - sofZ 17280 * cx2 * cy1 * w0 * w1 * spow w2 3%nat + sofZ 41472 * cx2 * cy1 * w0 * w1 * spow w2 2%nat * w3 - sofZ 18432 * cx2 * cy1 * w0 * w1 * spow w2 2%nat * w4 - sofZ 18432 * cx2 * cy1 * w0 * w1 * w2 * spow w3 2%nat + sofZ 13440 * cx2 * cy1 * w0 * w1 * w2 * w3 * w4 - sofZ 2016 * cx2 * cy1 * w0 * w1 * w2 * spow w4 2%nat + sofZ 27648 * cx2 * cy1 * spow w1 3%nat * w2 * w3 - sofZ 18432 * cx2 * cy1 * spow w1 3%nat * w2 * w4 - sofZ 73728 * cx2 * cy1 * spow w1 2%nat * spow w2 2%nat * w3 + sofZ 48384 * cx2 * cy1 * spow w1 2%nat * spow w2 2%nat * w4 + sofZ 43008 * cx2 * cy1 * spow w1 2%nat * w2 * spow w3 2%nat - sofZ 36864 * cx2 * cy1 * spow w1 2%nat * w2 * w3 * w4 + sofZ 5760 * cx2 * cy1 * spow w1 2%nat * w2 * spow w4 2%nat + sofZ 48384 * cx2 * cy1 * w1 * spow w2 3%nat * w3 - sofZ 31104 * cx2 * cy1 * w1 * spow w2 3%nat * w4 - sofZ 55296 * cx2 * cy1 * w1 * spow w2 2%nat * spow w3 2%nat + sofZ 46080 * cx2 * cy1 * w1 * spow w2 2%nat * w3 * w4 - sofZ 6912 * cx2 * cy1 * w1 * spow w2 2%nat * spow w4 2%nat + sofZ 15360 * cx2 * cy1 * w1 * w2 * spow w3 3%nat - sofZ 15360 * cx2 * cy1 * w1 * w2 * spow w3 2%nat * w4 + sofZ 4032 * cx2 * cy1 * w1 * w2 * w3 * spow w4 2%nat - sofZ 288 * cx2 * cy1 * w1 * w2 * spow w4 3%nat + sofZ 1728 * cx2 * cy3 * spow w0 3%nat * w2 * w3 - sofZ 14784 * cx2 * cy3 * spow w0 2%nat * w1 * w2 * w3 + sofZ 17280 * cx2 * cy3 * spow w0 2%nat * spow w2 2%nat * w3 - sofZ 10368 * cx2 * cy3 * spow w0 2%nat * w2 * spow w3 2%nat + sofZ 2688 * cx2 * cy3 * spow w0 2%nat * w2 * w3 * w4 + sofZ 38400 * cx2 * cy3 * w0 * spow w1 2%nat * w2 * w3 - sofZ 82944 * cx2 * cy3 * w0 * w1 * spow w2 2%nat * w3 + sofZ 49152 * cx2 * cy3 * w0 * w1 * w2 * spow w3 2%nat - sofZ 13440 * cx2 * cy3 * w0 * w1 * w2 * w3 * w4 + sofZ 41472 * cx2 * cy3 * w0 * spow w2 3%nat * w3 - sofZ 48384 * cx2 * cy3 * w0 * spow w2 2%nat * spow w3 2%nat + sofZ 13824 * cx2 * cy3 * w0 * spow w2 2%nat * w3 * w4 + sofZ 13824 * cx2 * cy3 * w0 * w2 * spow w3 3%nat - sofZ 7680 * cx2 * cy3 * w0 * w2 * spow w3 2%nat * w4 + sofZ 960 * cx2 * cy3 * w0 * w2 * w3 * spow w4 2%nat - sofZ 27648 * cx2 * cy3 * spow w1 3%nat * w2 * w3 + sofZ 73728 * cx2 * cy3 * spow w1 2%nat * spow w2 2%nat * w3 - sofZ 43008 * cx2 * cy3 * spow w1 2%nat * w2 * spow w3 2%nat + sofZ 13824 * cx2 * cy3 * spow w1 2%nat * w2 * w3 * w4 - sofZ 48384 * cx2 * cy3 * w1 * spow w2 3%nat * w3 + sofZ 55296 * cx2 * cy3 * w1 * spow w2 2%nat * spow w3 2%nat - sofZ 23040 * cx2 * cy3 * w1 * spow w2 2%nat * w3 * w4 - sofZ 15360 * cx2 * cy3 * w1 * w2 * spow w3 3%nat + sofZ 12288 * cx2 * cy3 * w1 * w2 * spow w3 2%nat * w4 - sofZ 1728 * cx2 * cy3 * w1 * w2 * w3 * spow w4 2%nat + sofZ 6912 * cx2 * cy3 * spow w2 3%nat * w3 * w4 - sofZ 6912 * cx2 * cy3 * spow w2 2%nat * spow w3 2%nat * w4 + sofZ 1152 * cx2 * cy3 * spow w2 2%nat * w3 * spow w4 2%nat + sofZ 1536 * cx2 * cy3 * w2 * spow w3 3%nat * w4 - sofZ 384 * cx2 * cy3 * w2 * spow w3 2%nat * spow w4 2%nat - sofZ 1056 * cx2 * cy4 * spow w0 3%nat * w2 * w4 + sofZ 9120 * cx2 * cy4 * spow w0 2%nat * w1 * w2 * w4 - sofZ 10368 * cx2 * cy4 * spow w0 2%nat * spow w2 2%nat * w4 + sofZ 5760 * cx2 * cy4 * spow w0 2%nat * w2 * w3 * w4 - sofZ 1344 * cx2 * cy4 * spow w0 2%nat * w2 * spow w4 2%nat - sofZ 24192 * cx2 * cy4 * w0 * spow w1 2%nat * w2 * w4 + sofZ 50688 * cx2 * cy4 * w0 * w1 * spow w2 2%nat * w4 - sofZ 26880 * cx2 * cy4 * w0 * w1 * w2 * w3 * w4 + sofZ 6336 * cx2 * cy4 * w0 * w1 * w2 * spow w4 2%nat - sofZ 24192 * cx2 * cy4 * w0 * spow w2 3%nat * w4 + sofZ 24192 * cx2 * cy4 * w0 * spow w2 2%nat * w3 * w4 - sofZ 5760 * cx2 * cy4 * w0 * spow w2 2%nat * spow w4 2%nat - sofZ 5760 * cx2 * cy4 * w0 * w2 * spow w3 2%nat * w4 + sofZ 2688 * cx2 * cy4 * w0 * w2 * w3 * spow w4 2%nat - sofZ 288 * cx2 * cy4 * w0 * w2 * spow w4 3%nat + sofZ 18432 * cx2 * cy4 * spow w1 3%nat * w2 * w4 - sofZ 48384 * cx2 * cy4 * spow w1 2%nat * spow w2 2%nat * w4 + sofZ 23040 * cx2 * cy4 * spow w1 2%nat * w2 * w3 * w4 - sofZ 5760 * cx2 * cy4 * spow w1 2%nat * w2 * spow w4 2%nat + sofZ 31104 * cx2 * cy4 * w1 * spow w2 3%nat * w4 - sofZ 23040 * cx2 * cy4 * w1 * spow w2 2%nat * w3 * w4 + sofZ 6912 * cx2 * cy4 * w1 * spow w2 2%nat * spow w4 2%nat + sofZ 3072 * cx2 * cy4 * w1 * w2 * spow w3 2%nat * w4 - sofZ 2304 * cx2 * cy4 * w1 * w2 * w3 * spow w4 2%nat + sofZ 288 * cx2 * cy4 * w1 * w2 * spow w4 3%nat - sofZ 6912 * cx2 * cy4 * spow w2 3%nat * w3 * w4 + sofZ 6912 * cx2 * cy4 * spow w2 2%nat * spow w3 2%nat * w4 - sofZ 1152 * cx2 * cy4 * spow w2 2%nat * w3 * spow w4 2%nat - sofZ 1536 * cx2 * cy4 * w2 * spow w3 3%nat * w4 + sofZ 384 * cx2 * cy4 * w2 * spow w3 2%nat * spow w4 2%nat - sofZ 1248 * cx3 * cy0 * spow w0 3%nat * w1 * w3 + sofZ 1728 * cx3 * cy0 * spow w0 3%nat * w2 * w3 - sofZ 480 * cx3 * cy0 * spow w0 3%nat * w3 * w4 + sofZ 9216 * cx3 * cy0 * spow w0 2%nat * spow w1 2%nat * w3 - sofZ 25344 * cx3 * cy0 * spow w0 2%nat * w1 * w2 * w3 + sofZ 7680 * cx3 * cy0 * spow w0 2%nat * w1 * spow w3 2%nat + sofZ 1728 * cx3 * cy0 * spow w0 2%nat * w1 * w3 * w4 + sofZ 17280 * cx3 * cy0 * spow w0 2%nat * spow w2 2%nat * w3 - sofZ 10368 * cx3 * cy0 * spow w0 2%nat * w2 * spow w3 2%nat - sofZ 2304 * cx3 * cy0 * spow w0 2%nat * w2 * w3 * w4 + sofZ 2688 * cx3 * cy0 * spow w0 2%nat * spow w3 2%nat * w4 - sofZ 576 * cx3 * cy0 * spow w0 2%nat * w3 * spow w4 2%nat - sofZ 16896 * cx3 * cy0 * w0 * spow w1 3%nat * w3 + sofZ 69120 * cx3 * cy0 * w0 * spow w1 2%nat * w2 * w3 - sofZ 27648 * cx3 * cy0 * w0 * spow w1 2%nat * spow w3 2%nat - sofZ 93312 * cx3 * cy0 * w0 * w1 * spow w2 2%nat * w3 + sofZ 73728 * cx3 * cy0 * w0 * w1 * w2 * spow w3 2%nat - sofZ 10752 * cx3 * cy0 * w0 * w1 * spow w3 3%nat - sofZ 4608 * cx3 * cy0 * w0 * w1 * spow w3 2%nat * w4 + sofZ 1440 * cx3 * cy0 * w0 * w1 * w3 * spow w4 2%nat + sofZ 41472 * cx3 * cy0 * w0 * spow w2 3%nat * w3 - sofZ 48384 * cx3 * cy0 * w0 * spow w2 2%nat * spow w3 2%nat + sofZ 13824 * cx3 * cy0 * w0 * w2 * spow w3 3%nat + sofZ 5760 * cx3 * cy0 * w0 * w2 * spow w3 2%nat * w4 - sofZ 1728 * cx3 * cy0 * w0 * w2 * w3 * spow w4 2%nat - sofZ 3072 * cx3 * cy0 * w0 * spow w3 3%nat * w4 + sofZ 1152 * cx3 * cy0 * w0 * spow w3 2%nat * spow w4 2%nat - sofZ 96 * cx3 * cy0 * w0 * w3 * spow w4 3%nat + sofZ 1248 * cx3 * cy1 * spow w0 3%nat * w1 * w3 - sofZ 9216 * cx3 * cy1 * spow w0 2%nat * spow w1 2%nat * w3 + sofZ 10560 * cx3 * cy1 * spow w0 2%nat * w1 * w2 * w3 - sofZ 7680 * cx3 * cy1 * spow w0 2%nat * w1 * spow w3 2%nat + sofZ 2592 * cx3 * cy1 * spow w0 2%nat * w1 * w3 * w4 + sofZ 16896 * cx3 * cy1 * w0 * spow w1 3%nat * w3 - sofZ 30720 * cx3 * cy1 * w0 * spow w1 2%nat * w2 * w3 + sofZ 27648 * cx3 * cy1 * w0 * spow w1 2%nat * spow w3 2%nat - sofZ 12288 * cx3 * cy1 * w0 * spow w1 2%nat * w3 * w4 + sofZ 10368 * cx3 * cy1 * w0 * w1 * spow w2 2%nat * w3 - sofZ 24576 * cx3 * cy1 * w0 * w1 * w2 * spow w3 2%nat + sofZ 13440 * cx3 * cy1 * w0 * w1 * w2 * w3 * w4 + sofZ 10752 * cx3 * cy1 * w0 * w1 * spow w3 3%nat - sofZ 9216 * cx3 * cy1 * w0 * w1 * spow w3 2%nat * w4 + sofZ 1440 * cx3 * cy1 * w0 * w1 * w3 * spow w4 2%nat - sofZ 27648 * cx3 * cy1 * spow w1 3%nat * w2 * w3 + sofZ 10752 * cx3 * cy1 * spow w1 3%nat * w3 * w4 + sofZ 73728 * cx3 * cy1 * spow w1 2%nat * spow w2 2%nat * w3 - sofZ 43008 * cx3 * cy1 * spow w1 2%nat * w2 * spow w3 2%nat - sofZ 18432 * cx3 * cy1 * spow w1 2%nat * w2 * w3 * w4 + sofZ 15360 * cx3 * cy1 * spow w1 2%nat * spow w3 2%nat * w4 - sofZ 3072 * cx3 * cy1 * spow w1 2%nat * w3 * spow w4 2%nat - sofZ 48384 * cx3 * cy1 * w1 * spow w2 3%nat * w3 + sofZ 55296 * cx3 * cy1 * w1 * spow w2 2%nat * spow w3 2%nat + sofZ 5760 * cx3 * cy1 * w1 * spow w2 2%nat * w3 * w4 - sofZ 15360 * cx3 * cy1 * w1 * w2 * spow w3 3%nat - sofZ 12288 * cx3 * cy1 * w1 * w2 * spow w3 2%nat * w4 + sofZ 2880 * cx3 * cy1 * w1 * w2 * w3 * spow w4 2%nat + sofZ 4608 * cx3 * cy1 * w1 * spow w3 3%nat * w4 - sofZ 1536 * cx3 * cy1 * w1 * spow w3 2%nat * spow w4 2%nat + sofZ 96 * cx3 * cy1 * w1 * w3 * spow w4 3%nat - sofZ 1728 * cx3 * cy2 * spow w0 3%nat * w2 * w3 + sofZ 14784 * cx3 * cy2 * spow w0 2%nat * w1 * w2 * w3 - sofZ 17280 * cx3 * cy2 * spow w0 2%nat * spow w2 2%nat * w3 + sofZ 10368 * cx3 * cy2 * spow w0 2%nat * w2 * spow w3 2%nat - sofZ 2688 * cx3 * cy2 * spow w0 2%nat * w2 * w3 * w4 - sofZ 38400 * cx3 * cy2 * w0 * spow w1 2%nat * w2 * w3 + sofZ 82944 * cx3 * cy2 * w0 * w1 * spow w2 2%nat * w3 - sofZ 49152 * cx3 * cy2 * w0 * w1 * w2 * spow w3 2%nat + sofZ 13440 * cx3 * cy2 * w0 * w1 * w2 * w3 * w4 - sofZ 41472 * cx3 * cy2 * w0 * spow w2 3%nat * w3 + sofZ 48384 * cx3 * cy2 * w0 * spow w2 2%nat * spow w3 2%nat - sofZ 13824 * cx3 * cy2 * w0 * spow w2 2%nat * w3 * w4 - sofZ 13824 * cx3 * cy2 * w0 * w2 * spow w3 3%nat + sofZ 7680 * cx3 * cy2 * w0 * w2 * spow w3 2%nat * w4 - sofZ 960 * cx3 * cy2 * w0 * w2 * w3 * spow w4 2%nat + sofZ 27648 * cx3 * cy2 * spow w1 3%nat * w2 * w3 - sofZ 73728 * cx3 * cy2 * spow w1 2%nat * spow w2 2%nat * w3 + sofZ 43008 * cx3 * cy2 * spow w1 2%nat * w2 * spow w3 2%nat - sofZ 13824 * cx3 * cy2 * spow w1 2%nat * w2 * w3 * w4 + sofZ 48384 * cx3 * cy2 * w1 * spow w2 3%nat * w3 - sofZ 55296 * cx3 * cy2 * w1 * spow w2 2%nat * spow w3 2%nat + sofZ 23040 * cx3 * cy2 * w1 * spow w2 2%nat * w3 * w4 + sofZ 15360 * cx3 * cy2 * w1 * w2 * spow w3 3%nat - sofZ 12288 * cx3 * cy2 * w1 * w2 * spow w3 2%nat * w4 + sofZ 1728 * cx3 * cy2 * w1 * w2 * w3 * spow w4 2%nat - sofZ 6912 * cx3 * cy2 * spow w2 3%nat * w3 * w4 + sofZ 6912 * cx3 * cy2 * spow w2 2%nat * spow w3 2%nat * w4 - sofZ 1152 * cx3 * cy2 * spow w2 2%nat * w3 * spow w4 2%nat - sofZ 1536 * cx3 * cy2 * w2 * spow w3 3%nat * w4 + sofZ 384 * cx3 * cy2 * w2 * spow w3 2%nat * spow w4 2%nat + sofZ 480 * cx3 * cy4 * spow w0 3%nat * w3 * w4 - sofZ 4320 * cx3 * cy4 * spow w0 2%nat * w1 * w3 * w4 + sofZ 4992 * cx3 * cy4 * spow w0 2%nat * w2 * w3 * w4 - sofZ 2688 * cx3 * cy4 * spow w0 2%nat * spow w3 2%nat * w4 + sofZ 576 * cx3 * cy4 * spow w0 2%nat * w3 * spow w4 2%nat + sofZ 12288 * cx3 * cy4 * w0 * spow w1 2%nat * w3 * w4 - sofZ 26880 * cx3 * cy4 * w0 * w1 * w2 * w3 * w4 + sofZ 13824 * cx3 * cy4 * w0 * w1 * spow w3 2%nat * w4 - sofZ 2880 * cx3 * cy4 * w0 * w1 * w3 * spow w4 2%nat + sofZ 13824 * cx3 * cy4 * w0 * spow w2 2%nat * w3 * w4 - sofZ 13440 * cx3 * cy4 * w0 * w2 * spow w3 2%nat * w4 + sofZ 2688 * cx3 * cy4 * w0 * w2 * w3 * spow w4 2%nat + sofZ 3072 * cx3 * cy4 * w0 * spow w3 3%nat * w4 - sofZ 1152 * cx3 * cy4 * w0 * spow w3 2%nat * spow w4 2%nat + sofZ 96 * cx3 * cy4 * w0 * w3 * spow w4 3%nat - sofZ 10752 * cx3 * cy4 * spow w1 3%nat * w3 * w4 + sofZ 32256 * cx3 * cy4 * spow w1 2%nat * w2 * w3 * w4 - sofZ 15360 * cx3 * cy4 * spow w1 2%nat * spow w3 2%nat * w4 + sofZ 3072 * cx3 * cy4 * spow w1 2%nat * w3 * spow w4 2%nat - sofZ 28800 * cx3 * cy4 * w1 * spow w2 2%nat * w3 * w4 + sofZ 24576 * cx3 * cy4 * w1 * w2 * spow w3 2%nat * w4 - sofZ 4608 * cx3 * cy4 * w1 * w2 * w3 * spow w4 2%nat - sofZ 4608 * cx3 * cy4 * w1 * spow w3 3%nat * w4 + sofZ 1536 * cx3 * cy4 * w1 * spow w3 2%nat * spow w4 2%nat - sofZ 96 * cx3 * cy4 * w1 * w3 * spow w4 3%nat + sofZ 6912 * cx3 * cy4 * spow w2 3%nat * w3 * w4 - sofZ 6912 * cx3 * cy4 * spow w2 2%nat * spow w3 2%nat * w4 + sofZ 1152 * cx3 * cy4 * spow w2 2%nat * w3 * spow w4 2%nat + sofZ 1536 * cx3 * cy4 * w2 * spow w3 3%nat * w4 - sofZ 384 * cx3 * cy4 * w2 * spow w3 2%nat * spow w4 2%nat + sofZ 576 * cx4 * cy0 * spow w0 3%nat * w1 * w4 - sofZ 1056 * cx4 * cy0 * spow w0 3%nat * w2 * w4 + sofZ 480 * cx4 * cy0 * spow w0 3%nat * w3 * w4 - sofZ 4224 * cx4 * cy0 * spow w0 2%nat * spow w1 2%nat * w4 + sofZ 13440 * cx4 * cy0 * spow w0 2%nat * w1 * w2 * w4 - sofZ 6912 * cx4 * cy0 * spow w0 2%nat * w1 * w3 * w4 + sofZ 768 * cx4 * cy0 * spow w0 2%nat * w1 * spow w4 2%nat - sofZ 10368 * cx4 * cy0 * spow w0 2%nat * spow w2 2%nat * w4 + sofZ 10752 * cx4 * cy0 * spow w0 2%nat * w2 * w3 * w4 - sofZ 1344 * cx4 * cy0 * spow w0 2%nat * w2 * spow w4 2%nat - sofZ 2688 * cx4 * cy0 * spow w0 2%nat * spow w3 2%nat * w4 + sofZ 576 * cx4 * cy0 * spow w0 2%nat * w3 * spow w4 2%nat + sofZ 7680 * cx4 * cy0 * w0 * spow w1 3%nat * w4 - sofZ 34560 * cx4 * cy0 * w0 * spow w1 2%nat * w2 * w4 + sofZ 18432 * cx4 * cy0 * w0 * spow w1 2%nat * w3 * w4 - sofZ 2688 * cx4 * cy0 * w0 * spow w1 2%nat * spow w4 2%nat + sofZ 50688 * cx4 * cy0 * w0 * w1 * spow w2 2%nat * w4 - sofZ 53760 * cx4 * cy0 * w0 * w1 * w2 * w3 * w4 + sofZ 8064 * cx4 * cy0 * w0 * w1 * w2 * spow w4 2%nat + sofZ 13824 * cx4 * cy0 * w0 * w1 * spow w3 2%nat * w4 - sofZ 3840 * cx4 * cy0 * w0 * w1 * w3 * spow w4 2%nat + sofZ 192 * cx4 * cy0 * w0 * w1 * spow w4 3%nat - sofZ 24192 * cx4 * cy0 * w0 * spow w2 3%nat * w4 + sofZ 38016 * cx4 * cy0 * w0 * spow w2 2%nat * w3 * w4 - sofZ 5760 * cx4 * cy0 * w0 * spow w2 2%nat * spow w4 2%nat - sofZ 19200 * cx4 * cy0 * w0 * w2 * spow w3 2%nat * w4 + sofZ 5376 * cx4 * cy0 * w0 * w2 * w3 * spow w4 2%nat - sofZ 288 * cx4 * cy0 * w0 * w2 * spow w4 3%nat + sofZ 3072 * cx4 * cy0 * w0 * spow w3 3%nat * w4 - sofZ 1152 * cx4 * cy0 * w0 * spow w3 2%nat * spow w4 2%nat + sofZ 96 * cx4 * cy0 * w0 * w3 * spow w4 3%nat - sofZ 576 * cx4 * cy1 * spow w0 3%nat * w1 * w4 + sofZ 4224 * cx4 * cy1 * spow w0 2%nat * spow w1 2%nat * w4 - sofZ 4320 * cx4 * cy1 * spow w0 2%nat * w1 * w2 * w4 + sofZ 2592 * cx4 * cy1 * spow w0 2%nat * w1 * w3 * w4 - sofZ 768 * cx4 * cy1 * spow w0 2%nat * w1 * spow w4 2%nat - sofZ 7680 * cx4 * cy1 * w0 * spow w1 3%nat * w4 + sofZ 10368 * cx4 * cy1 * w0 * spow w1 2%nat * w2 * w4 - sofZ 6144 * cx4 * cy1 * w0 * spow w1 2%nat * w3 * w4 + sofZ 2688 * cx4 * cy1 * w0 * spow w1 2%nat * spow w4 2%nat - sofZ 1728 * cx4 * cy1 * w0 * w1 * w2 * spow w4 2%nat + sofZ 960 * cx4 * cy1 * w0 * w1 * w3 * spow w4 2%nat - sofZ 192 * cx4 * cy1 * w0 * w1 * spow w4 3%nat + sofZ 18432 * cx4 * cy1 * spow w1 3%nat * w2 * w4 - sofZ 10752 * cx4 * cy1 * spow w1 3%nat * w3 * w4 - sofZ 48384 * cx4 * cy1 * spow w1 2%nat * spow w2 2%nat * w4 + sofZ 55296 * cx4 * cy1 * spow w1 2%nat * w2 * w3 * w4 - sofZ 5760 * cx4 * cy1 * spow w1 2%nat * w2 * spow w4 2%nat - sofZ 15360 * cx4 * cy1 * spow w1 2%nat * spow w3 2%nat * w4 + sofZ 3072 * cx4 * cy1 * spow w1 2%nat * w3 * spow w4 2%nat + sofZ 31104 * cx4 * cy1 * w1 * spow w2 3%nat * w4 - sofZ 51840 * cx4 * cy1 * w1 * spow w2 2%nat * w3 * w4 + sofZ 6912 * cx4 * cy1 * w1 * spow w2 2%nat * spow w4 2%nat + sofZ 27648 * cx4 * cy1 * w1 * w2 * spow w3 2%nat * w4 - sofZ 6912 * cx4 * cy1 * w1 * w2 * w3 * spow w4 2%nat + sofZ 288 * cx4 * cy1 * w1 * w2 * spow w4 3%nat - sofZ 4608 * cx4 * cy1 * w1 * spow w3 3%nat * w4 + sofZ 1536 * cx4 * cy1 * w1 * spow w3 2%nat * spow w4 2%nat - sofZ 96 * cx4 * cy1 * w1 * w3 * spow w4 3%nat + sofZ 1056 * cx4 * cy2 * spow w0 3%nat * w2 * w4 - sofZ 9120 * cx4 * cy2 * spow w0 2%nat * w1 * w2 * w4 + sofZ 10368 * cx4 * cy2 * spow w0 2%nat * spow w2 2%nat * w4 - sofZ 5760 * cx4 * cy2 * spow w0 2%nat * w2 * w3 * w4 + sofZ 1344 * cx4 * cy2 * spow w0 2%nat * w2 * spow w4 2%nat + sofZ 24192 * cx4 * cy2 * w0 * spow w1 2%nat * w2 * w4 - sofZ 50688 * cx4 * cy2 * w0 * w1 * spow w2 2%nat * w4 + sofZ 26880 * cx4 * cy2 * w0 * w1 * w2 * w3 * w4 - sofZ 6336 * cx4 * cy2 * w0 * w1 * w2 * spow w4 2%nat + sofZ 24192 * cx4 * cy2 * w0 * spow w2 3%nat * w4 - sofZ 24192 * cx4 * cy2 * w0 * spow w2 2%nat * w3 * w4 + sofZ 5760 * cx4 * cy2 * w0 * spow w2 2%nat * spow w4 2%nat + sofZ 5760 * cx4 * cy2 * w0 * w2 * spow w3 2%nat * w4 - sofZ 2688 * cx4 * cy2 * w0 * w2 * w3 * spow w4 2%nat + sofZ 288 * cx4 * cy2 * w0 * w2 * spow w4 3%nat - sofZ 18432 * cx4 * cy2 * spow w1 3%nat * w2 * w4 + sofZ 48384 * cx4 * cy2 * spow w1 2%nat * spow w2 2%nat * w4 - sofZ 23040 * cx4 * cy2 * spow w1 2%nat * w2 * w3 * w4 + sofZ 5760 * cx4 * cy2 * spow w1 2%nat * w2 * spow w4 2%nat - sofZ 31104 * cx4 * cy2 * w1 * spow w2 3%nat * w4 + sofZ 23040 * cx4 * cy2 * w1 * spow w2 2%nat * w3 * w4 - sofZ 6912 * cx4 * cy2 * w1 * spow w2 2%nat * spow w4 2%nat - sofZ 3072 * cx4 * cy2 * w1 * w2 * spow w3 2%nat * w4 + sofZ 2304 * cx4 * cy2 * w1 * w2 * w3 * spow w4 2%nat - sofZ 288 * cx4 * cy2 * w1 * w2 * spow w4 3%nat + sofZ 6912 * cx4 * cy2 * spow w2 3%nat * w3 * w4 - sofZ 6912 * cx4 * cy2 * spow w2 2%nat * spow w3 2%nat * w4 + sofZ 1152 * cx4 * cy2 * spow w2 2%nat * w3 * spow w4 2%nat + sofZ 1536 * cx4 * cy2 * w2 * spow w3 3%nat * w4 - sofZ 384 * cx4 * cy2 * w2 * spow w3 2%nat * spow w4 2%nat - sofZ 480 * cx4 * cy3 * spow w0 3%nat * w3 * w4 + sofZ 4320 * cx4 * cy3 * spow w0 2%nat * w1 * w3 * w4 - sofZ 4992 * cx4 * cy3 * spow w0 2%nat * w2 * w3 * w4 + sofZ 2688 * cx4 * cy3 * spow w0 2%nat * spow w3 2%nat * w4 - sofZ 576 * cx4 * cy3 * spow w0 2%nat * w3 * spow w4 2%nat - sofZ 12288 * cx4 * cy3 * w0 * spow w1 2%nat * w3 * w4 + sofZ 26880 * cx4 * cy3 * w0 * w1 * w2 * w3 * w4 - sofZ 13824 * cx4 * cy3 * w0 * w1 * spow w3 2%nat * w4 + sofZ 2880 * cx4 * cy3 * w0 * w1 * w3 * spow w4 2%nat - sofZ 13824 * cx4 * cy3 * w0 * spow w2 2%nat * w3 * w4 + sofZ 13440 * cx4 * cy3 * w0 * w2 * spow w3 2%nat * w4 - sofZ 2688 * cx4 * cy3 * w0 * w2 * w3 * spow w4 2%nat - sofZ 3072 * cx4 * cy3 * w0 * spow w3 3%nat * w4 + sofZ 1152 * cx4 * cy3 * w0 * spow w3 2%nat * spow w4 2%nat - sofZ 96 * cx4 * cy3 * w0 * w3 * spow w4 3%nat + sofZ 10752 * cx4 * cy3 * spow w1 3%nat * w3 * w4 - sofZ 32256 * cx4 * cy3 * spow w1 2%nat * w2 * w3 * w4 + sofZ 15360 * cx4 * cy3 * spow w1 2%nat * spow w3 2%nat * w4 - sofZ 3072 * cx4 * cy3 * spow w1 2%nat * w3 * spow w4 2%nat + sofZ 28800 * cx4 * cy3 * w1 * spow w2 2%nat * w3 * w4 - sofZ 24576 * cx4 * cy3 * w1 * w2 * spow w3 2%nat * w4 + sofZ 4608 * cx4 * cy3 * w1 * w2 * w3 * spow w4 2%nat + sofZ 4608 * cx4 * cy3 * w1 * spow w3 3%nat * w4 - sofZ 1536 * cx4 * cy3 * w1 * spow w3 2%nat * spow w4 2%nat + sofZ 96 * cx4 * cy3 * w1 * w3 * spow w4 3%nat - sofZ 6912 * cx4 * cy3 * spow w2 3%nat * w3 * w4 + sofZ 6912 * cx4 * cy3 * spow w2 2%nat * spow w3 2%nat * w4 - sofZ 1152 * cx4 * cy3 * spow w2 2%nat * w3 * spow w4 2%nat - sofZ 1536 * cx4 * cy3 * w2 * spow w3 3%nat * w4 + sofZ 384 * cx4 * cy3 * w2 * spow w3 2%nat * spow w4 2%nat;
     - sofZ 48 * cx0 * cy1 * spow w0 3%nat * w1 * w2 + sofZ 96 * cx0 * cy1 * spow w0 3%nat * w1 * w3 - sofZ 48 * cx0 * cy1 * spow w0 3%nat * w1 * w4 + sofZ 384 * cx0 * cy1 * spow w0 2%nat * spow w1 2%nat * w2 - sofZ 768 * cx0 * cy1 * spow w0 2%nat * spow w1 2%nat * w3 + sofZ 384 * cx0 * cy1 * spow w0 2%nat * spow w1 2%nat * w4 - sofZ 576 * cx0 * cy1 * spow w0 2%nat * w1 * spow w2 2%nat + sofZ 1536 * cx0 * cy1 * spow w0 2%nat * w1 * w2 * w3 - sofZ 672 * cx0 * cy1 * spow w0 2%nat * w1 * w2 * w4 - sofZ 768 * cx0 * cy1 * spow w0 2%nat * w1 * spow w3 2%nat + sofZ 576 * cx0 * cy1 * spow w0 2%nat * w1 * w3 * w4 - sofZ 96 * cx0 * cy1 * spow w0 2%nat * w1 * spow w4 2%nat - sofZ 768 * cx0 * cy1 * w0 * spow w1 3%nat * w2 + sofZ 1536 * cx0 * cy1 * w0 * spow w1 3%nat * w3 - sofZ 768 * cx0 * cy1 * w0 * spow w1 3%nat * w4 + sofZ 2304 * cx0 * cy1 * w0 * spow w1 2%nat * spow w2 2%nat - sofZ 6144 * cx0 * cy1 * w0 * spow w1 2%nat * w2 * w3 + sofZ 2688 * cx0 * cy1 * w0 * spow w1 2%nat * w2 * w4 + sofZ 3072 * cx0 * cy1 * w0 * spow w1 2%nat * spow w3 2%nat - sofZ 2304 * cx0 * cy1 * w0 * spow w1 2%nat * w3 * w4 + sofZ 384 * cx0 * cy1 * w0 * spow w1 2%nat * spow w4 2%nat - sofZ 1728 * cx0 * cy1 * w0 * w1 * spow w2 3%nat + sofZ 5760 * cx0 * cy1 * w0 * w1 * spow w2 2%nat * w3 - sofZ 2304 * cx0 * cy1 * w0 * w1 * spow w2 2%nat * w4 - sofZ 5376 * cx0 * cy1 * w0 * w1 * w2 * spow w3 2%nat + sofZ 3840 * cx0 * cy1 * w0 * w1 * w2 * w3 * w4 - sofZ 624 * cx0 * cy1 * w0 * w1 * w2 * spow w4 2%nat + sofZ 1536 * cx0 * cy1 * w0 * w1 * spow w3 3%nat - sofZ 1536 * cx0 * cy1 * w0 * w1 * spow w3 2%nat * w4 + sofZ 480 * cx0 * cy1 * w0 * w1 * w3 * spow w4 2%nat - sofZ 48 * cx0 * cy1 * w0 * w1 * spow w4 3%nat + sofZ 48 * cx0 * cy2 * spow w0 3%nat * w1 * w2 - sofZ 144 * cx0 * cy2 * spow w0 3%nat * w2 * w3 + sofZ 96 * cx0 * cy2 * spow w0 3%nat * w2 * w4 - sofZ 384 * cx0 * cy2 * spow w0 2%nat * spow w1 2%nat * w2 + sofZ 576 * cx0 * cy2 * spow w0 2%nat * w1 * spow w2 2%nat + sofZ 768 * cx0 * cy2 * spow w0 2%nat * w1 * w2 * w3 - sofZ 672 * cx0 * cy2 * spow w0 2%nat * w1 * w2 * w4 - sofZ 1728 * cx0 * cy2 * spow w0 2%nat * spow w2 2%nat * w3 + sofZ 1152 * cx0 * cy2 * spow w0 2%nat * spow w2 2%nat * w4 + sofZ 1152 * cx0 * cy2 * spow w0 2%nat * w2 * spow w3 2%nat - sofZ 1056 * cx0 * cy2 * spow w0 2%nat * w2 * w3 * w4 + sofZ 192 * cx0 * cy2 * spow w0 2%nat * w2 * spow w4 2%nat + sofZ 768 * cx0 * cy2 * w0 * spow w1 3%nat * w2 - sofZ 2304 * cx0 * cy2 * w0 * spow w1 2%nat * spow w2 2%nat - sofZ 768 * cx0 * cy2 * w0 * spow w1 2%nat * w2 * w3 + sofZ 1152 * cx0 * cy2 * w0 * spow w1 2%nat * w2 * w4 + sofZ 1728 * cx0 * cy2 * w0 * w1 * spow w2 3%nat + sofZ 4608 * cx0 * cy2 * w0 * w1 * spow w2 2%nat * w3 - sofZ 4032 * cx0 * cy2 * w0 * w1 * spow w2 2%nat * w4 - sofZ 3840 * cx0 * cy2 * w0 * w1 * w2 * spow w3 2%nat + sofZ 3840 * cx0 * cy2 * w0 * w1 * w2 * w3 * w4 - sofZ 720 * cx0 * cy2 * w0 * w1 * w2 * spow w4 2%nat - sofZ 5184 * cx0 * cy2 * w0 * spow w2 3%nat * w3 + sofZ 3456 * cx0 * cy2 * w0 * spow w2 3%nat * w4 + sofZ 6912 * cx0 * cy2 * w0 * spow w2 2%nat * spow w3 2%nat - sofZ 6336 * cx0 * cy2 * w0 * spow w2 2%nat * w3 * w4 + sofZ 1152 * cx0 * cy2 * w0 * spow w2 2%nat * spow w4 2%nat - sofZ 2304 * cx0 * cy2 * w0 * w2 * spow w3 3%nat + sofZ 2688 * cx0 * cy2 * w0 * w2 * spow w3 2%nat * w4 - sofZ 912 * cx0 * cy2 * w0 * w2 * w3 * spow w4 2%nat + sofZ 96 * cx0 * cy2 * w0 * w2 * spow w4 3%nat - sofZ 96 * cx0 * cy3 * spow w0 3%nat * w1 * w3 + sofZ 144 * cx0 * cy3 * spow w0 3%nat * w2 * w3 - sofZ 48 * cx0 * cy3 * spow w0 3%nat * w3 * w4 + sofZ 768 * cx0 * cy3 * spow w0 2%nat * spow w1 2%nat * w3 - sofZ 2304 * cx0 * cy3 * spow w0 2%nat * w1 * w2 * w3 + sofZ 768 * cx0 * cy3 * spow w0 2%nat * w1 * spow w3 2%nat + sofZ 192 * cx0 * cy3 * spow w0 2%nat * w1 * w3 * w4 + sofZ 1728 * cx0 * cy3 * spow w0 2%nat * spow w2 2%nat * w3 - sofZ 1152 * cx0 * cy3 * spow w0 2%nat * w2 * spow w3 2%nat - sofZ 288 * cx0 * cy3 * spow w0 2%nat * w2 * w3 * w4 + sofZ 384 * cx0 * cy3 * spow w0 2%nat * spow w3 2%nat * w4 - sofZ 96 * cx0 * cy3 * spow w0 2%nat * w3 * spow w4 2%nat - sofZ 1536 * cx0 * cy3 * w0 * spow w1 3%nat * w3 + sofZ 6912 * cx0 * cy3 * w0 * spow w1 2%nat * w2 * w3 - sofZ 3072 * cx0 * cy3 * w0 * spow w1 2%nat * spow w3 2%nat - sofZ 10368 * cx0 * cy3 * w0 * w1 * spow w2 2%nat * w3 + sofZ 9216 * cx0 * cy3 * w0 * w1 * w2 * spow w3 2%nat - sofZ 1536 * cx0 * cy3 * w0 * w1 * spow w3 3%nat - sofZ 768 * cx0 * cy3 * w0 * w1 * spow w3 2%nat * w4 + sofZ 288 * cx0 * cy3 * w0 * w1 * w3 * spow w4 2%nat + sofZ 5184 * cx0 * cy3 * w0 * spow w2 3%nat * w3 - sofZ 6912 * cx0 * cy3 * w0 * spow w2 2%nat * spow w3 2%nat + sofZ 2304 * cx0 * cy3 * w0 * w2 * spow w3 3%nat + sofZ 1152 * cx0 * cy3 * w0 * w2 * spow w3 2%nat * w4 - sofZ 432 * cx0 * cy3 * w0 * w2 * w3 * spow w4 2%nat - sofZ 768 * cx0 * cy3 * w0 * spow w3 3%nat * w4 + sofZ 384 * cx0 * cy3 * w0 * spow w3 2%nat * spow w4 2%nat - sofZ 48 * cx0 * cy3 * w0 * w3 * spow w4 3%nat + sofZ 48 * cx0 * cy4 * spow w0 3%nat * w1 * w4 - sofZ 96 * cx0 * cy4 * spow w0 3%nat * w2 * w4 + sofZ 48 * cx0 * cy4 * spow w0 3%nat * w3 * w4 - sofZ 384 * cx0 * cy4 * spow w0 2%nat * spow w1 2%nat * w4 + sofZ 1344 * cx0 * cy4 * spow w0 2%nat * w1 * w2 * w4 - sofZ 768 * cx0 * cy4 * spow w0 2%nat * w1 * w3 * w4 + sofZ 96 * cx0 * cy4 * spow w0 2%nat * w1 * spow w4 2%nat - sofZ 1152 * cx0 * cy4 * spow w0 2%nat * spow w2 2%nat * w4 + sofZ 1344 * cx0 * cy4 * spow w0 2%nat * w2 * w3 * w4 - sofZ 192 * cx0 * cy4 * spow w0 2%nat * w2 * spow w4 2%nat - sofZ 384 * cx0 * cy4 * spow w0 2%nat * spow w3 2%nat * w4 + sofZ 96 * cx0 * cy4 * spow w0 2%nat * w3 * spow w4 2%nat + sofZ 768 * cx0 * cy4 * w0 * spow w1 3%nat * w4 - sofZ 3840 * cx0 * cy4 * w0 * spow w1 2%nat * w2 * w4 + sofZ 2304 * cx0 * cy4 * w0 * spow w1 2%nat * w3 * w4 - sofZ 384 * cx0 * cy4 * w0 * spow w1 2%nat * spow w4 2%nat + sofZ 6336 * cx0 * cy4 * w0 * w1 * spow w2 2%nat * w4 - sofZ 7680 * cx0 * cy4 * w0 * w1 * w2 * w3 * w4 + sofZ 1344 * cx0 * cy4 * w0 * w1 * w2 * spow w4 2%nat + sofZ 2304 * cx0 * cy4 * w0 * w1 * spow w3 2%nat * w4 - sofZ 768 * cx0 * cy4 * w0 * w1 * w3 * spow w4 2%nat + sofZ 48 * cx0 * cy4 * w0 * w1 * spow w4 3%nat - sofZ 3456 * cx0 * cy4 * w0 * spow w2 3%nat * w4 + sofZ 6336 * cx0 * cy4 * w0 * spow w2 2%nat * w3 * w4 - sofZ 1152 * cx0 * cy4 * w0 * spow w2 2%nat * spow w4 2%nat - sofZ 3840 * cx0 * cy4 * w0 * w2 * spow w3 2%nat * w4 + sofZ 1344 * cx0 * cy4 * w0 * w2 * w3 * spow w4 2%nat - sofZ 96 * cx0 * cy4 * w0 * w2 * spow w4 3%nat + sofZ 768 * cx0 * cy4 * w0 * spow w3 3%nat * w4 - sofZ 384 * cx0 * cy4 * w0 * spow w3 2%nat * spow w4 2%nat + sofZ 48 * cx0 * cy4 * w0 * w3 * spow w4 3%nat + sofZ 48 * cx1 * cy0 * spow w0 3%nat * w1 * w2 - sofZ 96 * cx1 * cy0 * spow w0 3%nat * w1 * w3 + sofZ 48 * cx1 * cy0 * spow w0 3%nat * w1 * w4 - sofZ 384 * cx1 * cy0 * spow w0 2%nat * spow w1 2%nat * w2 + sofZ 768 * cx1 * cy0 * spow w0 2%nat * spow w1 2%nat * w3 - sofZ 384 * cx1 * cy0 * spow w0 2%nat * spow w1 2%nat * w4 + sofZ 576 * cx1 * cy0 * spow w0 2%nat * w1 * spow w2 2%nat - sofZ 1536 * cx1 * cy0 * spow w0 2%nat * w1 * w2 * w3 + sofZ 672 * cx1 * cy0 * spow w0 2%nat * w1 * w2 * w4 + sofZ 768 * cx1 * cy0 * spow w0 2%nat * w1 * spow w3 2%nat - sofZ 576 * cx1 * cy0 * spow w0 2%nat * w1 * w3 * w4 + sofZ 96 * cx1 * cy0 * spow w0 2%nat * w1 * spow w4 2%nat + sofZ 768 * cx1 * cy0 * w0 * spow w1 3%nat * w2 - sofZ 1536 * cx1 * cy0 * w0 * spow w1 3%nat * w3 + sofZ 768 * cx1 * cy0 * w0 * spow w1 3%nat * w4 - sofZ 2304 * cx1 * cy0 * w0 * spow w1 2%nat * spow w2 2%nat + sofZ 6144 * cx1 * cy0 * w0 * spow w1 2%nat * w2 * w3 - sofZ 2688 * cx1 * cy0 * w0 * spow w1 2%nat * w2 * w4 - sofZ 3072 * cx1 * cy0 * w0 * spow w1 2%nat * spow w3 2%nat + sofZ 2304 * cx1 * cy0 * w0 * spow w1 2%nat * w3 * w4 - sofZ 384 * cx1 * cy0 * w0 * spow w1 2%nat * spow w4 2%nat + sofZ 1728 * cx1 * cy0 * w0 * w1 * spow w2 3%nat - sofZ 5760 * cx1 * cy0 * w0 * w1 * spow w2 2%nat * w3 + sofZ 2304 * cx1 * cy0 * w0 * w1 * spow w2 2%nat * w4 + sofZ 5376 * cx1 * cy0 * w0 * w1 * w2 * spow w3 2%nat - sofZ 3840 * cx1 * cy0 * w0 * w1 * w2 * w3 * w4 + sofZ 624 * cx1 * cy0 * w0 * w1 * w2 * spow w4 2%nat - sofZ 1536 * cx1 * cy0 * w0 * w1 * spow w3 3%nat + sofZ 1536 * cx1 * cy0 * w0 * w1 * spow w3 2%nat * w4 - sofZ 480 * cx1 * cy0 * w0 * w1 * w3 * spow w4 2%nat + sofZ 48 * cx1 * cy0 * w0 * w1 * spow w4 3%nat - sofZ 48 * cx1 * cy2 * spow w0 3%nat * w1 * w2 + sofZ 384 * cx1 * cy2 * spow w0 2%nat * spow w1 2%nat * w2 - sofZ 576 * cx1 * cy2 * spow w0 2%nat * w1 * spow w2 2%nat + sofZ 576 * cx1 * cy2 * spow w0 2%nat * w1 * w2 * w3 - sofZ 240 * cx1 * cy2 * spow w0 2%nat * w1 * w2 * w4 - sofZ 768 * cx1 * cy2 * w0 * spow w1 3%nat * w2 + sofZ 2304 * cx1 * cy2 * w0 * spow w1 2%nat * spow w2 2%nat - sofZ 3072 * cx1 * cy2 * w0 * spow w1 2%nat * w2 * w3 + sofZ 1536 * cx1 * cy2 * w0 * spow w1 2%nat * w2 * w4 - sofZ 1728 * cx1 * cy2 * w0 * w1 * spow w2 3%nat + sofZ 4608 * cx1 * cy2 * w0 * w1 * spow w2 2%nat * w3 - sofZ 2304 * cx1 * cy2 * w0 * w1 * spow w2 2%nat * w4 - sofZ 2304 * cx1 * cy2 * w0 * w1 * w2 * spow w3 2%nat + sofZ 1920 * cx1 * cy2 * w0 * w1 * w2 * w3 * w4 - sofZ 336 * cx1 * cy2 * w0 * w1 * w2 * spow w4 2%nat + sofZ 3072 * cx1 * cy2 * spow w1 3%nat * w2 * w3 - sofZ 2304 * cx1 * cy2 * spow w1 3%nat * w2 * w4 - sofZ 9216 * cx1 * cy2 * spow w1 2%nat * spow w2 2%nat * w3 + sofZ 6912 * cx1 * cy2 * spow w1 2%nat * spow w2 2%nat * w4 + sofZ 6144 * cx1 * cy2 * spow w1 2%nat * w2 * spow w3 2%nat - sofZ 6144 * cx1 * cy2 * spow w1 2%nat * w2 * w3 * w4 + sofZ 1152 * cx1 * cy2 * spow w1 2%nat * w2 * spow w4 2%nat + sofZ 6912 * cx1 * cy2 * w1 * spow w2 3%nat * w3 - sofZ 5184 * cx1 * cy2 * w1 * spow w2 3%nat * w4 - sofZ 9216 * cx1 * cy2 * w1 * spow w2 2%nat * spow w3 2%nat + sofZ 9216 * cx1 * cy2 * w1 * spow w2 2%nat * w3 * w4 - sofZ 1728 * cx1 * cy2 * w1 * spow w2 2%nat * spow w4 2%nat + sofZ 3072 * cx1 * cy2 * w1 * w2 * spow w3 3%nat - sofZ 3840 * cx1 * cy2 * w1 * w2 * spow w3 2%nat * w4 + sofZ 1344 * cx1 * cy2 * w1 * w2 * w3 * spow w4 2%nat - sofZ 144 * cx1 * cy2 * w1 * w2 * spow w4 3%nat + sofZ 96 * cx1 * cy3 * spow w0 3%nat * w1 * w3 - sofZ 768 * cx1 * cy3 * spow w0 2%nat * spow w1 2%nat * w3 + sofZ 960 * cx1 * cy3 * spow w0 2%nat * w1 * w2 * w3 - sofZ 768 * cx1 * cy3 * spow w0 2%nat * w1 * spow w3 2%nat + sofZ 288 * cx1 * cy3 * spow w0 2%nat * w1 * w3 * w4 + sofZ 1536 * cx1 * cy3 * w0 * spow w1 3%nat * w3 - sofZ 3072 * cx1 * cy3 * w0 * spow w1 2%nat * w2 * w3 + sofZ 3072 * cx1 * cy3 * w0 * spow w1 2%nat * spow w3 2%nat - sofZ 1536 * cx1 * cy3 * w0 * spow w1 2%nat * w3 * w4 + sofZ 1152 * cx1 * cy3 * w0 * w1 * spow w2 2%nat * w3 - sofZ 3072 * cx1 * cy3 * w0 * w1 * w2 * spow w3 2%nat + sofZ 1920 * cx1 * cy3 * w0 * w1 * w2 * w3 * w4 + sofZ 1536 * cx1 * cy3 * w0 * w1 * spow w3 3%nat - sofZ 1536 * cx1 * cy3 * w0 * w1 * spow w3 2%nat * w4 + sofZ 288 * cx1 * cy3 * w0 * w1 * w3 * spow w4 2%nat - sofZ 3072 * cx1 * cy3 * spow w1 3%nat * w2 * w3 + sofZ 1536 * cx1 * cy3 * spow w1 3%nat * w3 * w4 + sofZ 9216 * cx1 * cy3 * spow w1 2%nat * spow w2 2%nat * w3 - sofZ 6144 * cx1 * cy3 * spow w1 2%nat * w2 * spow w3 2%nat - sofZ 3072 * cx1 * cy3 * spow w1 2%nat * w2 * w3 * w4 + sofZ 3072 * cx1 * cy3 * spow w1 2%nat * spow w3 2%nat * w4 - sofZ 768 * cx1 * cy3 * spow w1 2%nat * w3 * spow w4 2%nat - sofZ 6912 * cx1 * cy3 * w1 * spow w2 3%nat * w3 + sofZ 9216 * cx1 * cy3 * w1 * spow w2 2%nat * spow w3 2%nat + sofZ 1152 * cx1 * cy3 * w1 * spow w2 2%nat * w3 * w4 - sofZ 3072 * cx1 * cy3 * w1 * w2 * spow w3 3%nat - sofZ 3072 * cx1 * cy3 * w1 * w2 * spow w3 2%nat * w4 + sofZ 960 * cx1 * cy3 * w1 * w2 * w3 * spow w4 2%nat + sofZ 1536 * cx1 * cy3 * w1 * spow w3 3%nat * w4 - sofZ 768 * cx1 * cy3 * w1 * spow w3 2%nat * spow w4 2%nat + sofZ 96 * cx1 * cy3 * w1 * w3 * spow w4 3%nat - sofZ 48 * cx1 * cy4 * spow w0 3%nat * w1 * w4 + sofZ 384 * cx1 * cy4 * spow w0 2%nat * spow w1 2%nat * w4 - sofZ 432 * cx1 * cy4 * spow w0 2%nat * w1 * w2 * w4 + sofZ 288 * cx1 * cy4 * spow w0 2%nat * w1 * w3 * w4 - sofZ 96 * cx1 * cy4 * spow w0 2%nat * w1 * spow w4 2%nat - sofZ 768 * cx1 * cy4 * w0 * spow w1 3%nat * w4 + sofZ 1152 * cx1 * cy4 * w0 * spow w1 2%nat * w2 * w4 - sofZ 768 * cx1 * cy4 * w0 * spow w1 2%nat * w3 * w4 + sofZ 384 * cx1 * cy4 * w0 * spow w1 2%nat * spow w4 2%nat - sofZ 288 * cx1 * cy4 * w0 * w1 * w2 * spow w4 2%nat + sofZ 192 * cx1 * cy4 * w0 * w1 * w3 * spow w4 2%nat - sofZ 48 * cx1 * cy4 * w0 * w1 * spow w4 3%nat + sofZ 2304 * cx1 * cy4 * spow w1 3%nat * w2 * w4 - sofZ 1536 * cx1 * cy4 * spow w1 3%nat * w3 * w4 - sofZ 6912 * cx1 * cy4 * spow w1 2%nat * spow w2 2%nat * w4 + sofZ 9216 * cx1 * cy4 * spow w1 2%nat * w2 * w3 * w4 - sofZ 1152 * cx1 * cy4 * spow w1 2%nat * w2 * spow w4 2%nat - sofZ 3072 * cx1 * cy4 * spow w1 2%nat * spow w3 2%nat * w4 + sofZ 768 * cx1 * cy4 * spow w1 2%nat * w3 * spow w4 2%nat + sofZ 5184 * cx1 * cy4 * w1 * spow w2 3%nat * w4 - sofZ 10368 * cx1 * cy4 * w1 * spow w2 2%nat * w3 * w4 + sofZ 1728 * cx1 * cy4 * w1 * spow w2 2%nat * spow w4 2%nat + sofZ 6912 * cx1 * cy4 * w1 * w2 * spow w3 2%nat * w4 - sofZ 2304 * cx1 * cy4 * w1 * w2 * w3 * spow w4 2%nat + sofZ 144 * cx1 * cy4 * w1 * w2 * spow w4 3%nat - sofZ 1536 * cx1 * cy4 * w1 * spow w3 3%nat * w4 + sofZ 768 * cx1 * cy4 * w1 * spow w3 2%nat * spow w4 2%nat - sofZ 96 * cx1 * cy4 * w1 * w3 * spow w4 3%nat - sofZ 48 * cx2 * cy0 * spow w0 3%nat * w1 * w2 + sofZ 144 * cx2 * cy0 * spow w0 3%nat * w2 * w3 - sofZ 96 * cx2 * cy0 * spow w0 3%nat * w2 * w4 + sofZ 384 * cx2 * cy0 * spow w0 2%nat * spow w1 2%nat * w2 - sofZ 576 * cx2 * cy0 * spow w0 2%nat * w1 * spow w2 2%nat - sofZ 768 * cx2 * cy0 * spow w0 2%nat * w1 * w2 * w3 + sofZ 672 * cx2 * cy0 * spow w0 2%nat * w1 * w2 * w4 + sofZ 1728 * cx2 * cy0 * spow w0 2%nat * spow w2 2%nat * w3 - sofZ 1152 * cx2 * cy0 * spow w0 2%nat * spow w2 2%nat * w4 - sofZ 1152 * cx2 * cy0 * spow w0 2%nat * w2 * spow w3 2%nat + sofZ 1056 * cx2 * cy0 * spow w0 2%nat * w2 * w3 * w4 - sofZ 192 * cx2 * cy0 * spow w0 2%nat * w2 * spow w4 2%nat - sofZ 768 * cx2 * cy0 * w0 * spow w1 3%nat * w2 + sofZ 2304 * cx2 * cy0 * w0 * spow w1 2%nat * spow w2 2%nat + sofZ 768 * cx2 * cy0 * w0 * spow w1 2%nat * w2 * w3 - sofZ 1152 * cx2 * cy0 * w0 * spow w1 2%nat * w2 * w4 - sofZ 1728 * cx2 * cy0 * w0 * w1 * spow w2 3%nat - sofZ 4608 * cx2 * cy0 * w0 * w1 * spow w2 2%nat * w3 + sofZ 4032 * cx2 * cy0 * w0 * w1 * spow w2 2%nat * w4 + sofZ 3840 * cx2 * cy0 * w0 * w1 * w2 * spow w3 2%nat - sofZ 3840 * cx2 * cy0 * w0 * w1 * w2 * w3 * w4 + sofZ 720 * cx2 * cy0 * w0 * w1 * w2 * spow w4 2%nat + sofZ 5184 * cx2 * cy0 * w0 * spow w2 3%nat * w3 - sofZ 3456 * cx2 * cy0 * w0 * spow w2 3%nat * w4 - sofZ 6912 * cx2 * cy0 * w0 * spow w2 2%nat * spow w3 2%nat + sofZ 6336 * cx2 * cy0 * w0 * spow w2 2%nat * w3 * w4 - sofZ 1152 * cx2 * cy0 * w0 * spow w2 2%nat * spow w4 2%nat + sofZ 2304 * cx2 * cy0 * w0 * w2 * spow w3 3%nat - sofZ 2688 * cx2 * cy0 * w0 * w2 * spow w3 2%nat * w4 + sofZ 912 * cx2 * cy0 * w0 * w2 * w3 * spow w4 2%nat - sofZ 96 * cx2 * cy0 * w0 * w2 * spow w4 3%nat + sofZ 48 * cx2 * cy1 * spow w0 3%nat * w1 * w2 - sofZ 384 * cx2 * cy1 * spow w0 2%nat * spow w1 2%nat * w2 + sofZ 576 * cx2 * cy1 * spow w0 2%nat * w1 * spow w2 2%nat - sofZ 576 * cx2 * cy1 * spow w0 2%nat * w1 * w2 * w3 + sofZ 240 * cx2 * cy1 * spow w0 2%nat * w1 * w2 * w4 + sofZ 768 * cx2 * cy1 * w0 * spow w1 3%nat * w2 - sofZ 2304 * cx2 * cy1 * w0 * spow w1 2%nat * spow w2 2%nat + sofZ 3072 * cx2 * cy1 * w0 * spow w1 2%nat * w2 * w3 - sofZ 1536 * cx2 * cy1 * w0 * spow w1 2%nat * w2 * w4 + sofZ 1728 * cx2 * cy1 * w0 * w1 * spow w2 3%nat - sofZ 4608 * cx2 * cy1 * w0 * w1 * spow w2 2%nat * w3 + sofZ 2304 * cx2 * cy1 * w0 * w1 * spow w2 2%nat * w4 + sofZ 2304 * cx2 * cy1 * w0 * w1 * w2 * spow w3 2%nat - sofZ 1920 * cx2 * cy1 * w0 * w1 * w2 * w3 * w4 + sofZ 336 * cx2 * cy1 * w0 * w1 * w2 * spow w4 2%nat - sofZ 3072 * cx2 * cy1 * spow w1 3%nat * w2 * w3 + sofZ 2304 * cx2 * cy1 * spow w1 3%nat * w2 * w4 + sofZ 9216 * cx2 * cy1 * spow w1 2%nat * spow w2 2%nat * w3 - sofZ 6912 * cx2 * cy1 * spow w1 2%nat * spow w2 2%nat * w4 - sofZ 6144 * cx2 * cy1 * spow w1 2%nat * w2 * spow w3 2%nat + sofZ 6144 * cx2 * cy1 * spow w1 2%nat * w2 * w3 * w4 - sofZ 1152 * cx2 * cy1 * spow w1 2%nat * w2 * spow w4 2%nat - sofZ 6912 * cx2 * cy1 * w1 * spow w2 3%nat * w3 + sofZ 5184 * cx2 * cy1 * w1 * spow w2 3%nat * w4 + sofZ 9216 * cx2 * cy1 * w1 * spow w2 2%nat * spow w3 2%nat - sofZ 9216 * cx2 * cy1 * w1 * spow w2 2%nat * w3 * w4 + sofZ 1728 * cx2 * cy1 * w1 * spow w2 2%nat * spow w4 2%nat - sofZ 3072 * cx2 * cy1 * w1 * w2 * spow w3 3%nat + sofZ 3840 * cx2 * cy1 * w1 * w2 * spow w3 2%nat * w4 - sofZ 1344 * cx2 * cy1 * w1 * w2 * w3 * spow w4 2%nat + sofZ 144 * cx2 * cy1 * w1 * w2 * spow w4 3%nat - sofZ 144 * cx2 * cy3 * spow w0 3%nat * w2 * w3 + sofZ 1344 * cx2 * cy3 * spow w0 2%nat * w1 * w2 * w3 - sofZ 1728 * cx2 * cy3 * spow w0 2%nat * spow w2 2%nat * w3 + sofZ 1152 * cx2 * cy3 * spow w0 2%nat * w2 * spow w3 2%nat - sofZ 336 * cx2 * cy3 * spow w0 2%nat * w2 * w3 * w4 - sofZ 3840 * cx2 * cy3 * w0 * spow w1 2%nat * w2 * w3 + sofZ 9216 * cx2 * cy3 * w0 * w1 * spow w2 2%nat * w3 - sofZ 6144 * cx2 * cy3 * w0 * w1 * w2 * spow w3 2%nat + sofZ 1920 * cx2 * cy3 * w0 * w1 * w2 * w3 * w4 - sofZ 5184 * cx2 * cy3 * w0 * spow w2 3%nat * w3 + sofZ 6912 * cx2 * cy3 * w0 * spow w2 2%nat * spow w3 2%nat - sofZ 2304 * cx2 * cy3 * w0 * spow w2 2%nat * w3 * w4 - sofZ 2304 * cx2 * cy3 * w0 * w2 * spow w3 3%nat + sofZ 1536 * cx2 * cy3 * w0 * w2 * spow w3 2%nat * w4 - sofZ 240 * cx2 * cy3 * w0 * w2 * w3 * spow w4 2%nat + sofZ 3072 * cx2 * cy3 * spow w1 3%nat * w2 * w3 - sofZ 9216 * cx2 * cy3 * spow w1 2%nat * spow w2 2%nat * w3 + sofZ 6144 * cx2 * cy3 * spow w1 2%nat * w2 * spow w3 2%nat - sofZ 2304 * cx2 * cy3 * spow w1 2%nat * w2 * w3 * w4 + sofZ 6912 * cx2 * cy3 * w1 * spow w2 3%nat * w3 - sofZ 9216 * cx2 * cy3 * w1 * spow w2 2%nat * spow w3 2%nat + sofZ 4608 * cx2 * cy3 * w1 * spow w2 2%nat * w3 * w4 + sofZ 3072 * cx2 * cy3 * w1 * w2 * spow w3 3%nat - sofZ 3072 * cx2 * cy3 * w1 * w2 * spow w3 2%nat * w4 + sofZ 576 * cx2 * cy3 * w1 * w2 * w3 * spow w4 2%nat - sofZ 1728 * cx2 * cy3 * spow w2 3%nat * w3 * w4 + sofZ 2304 * cx2 * cy3 * spow w2 2%nat * spow w3 2%nat * w4 - sofZ 576 * cx2 * cy3 * spow w2 2%nat * w3 * spow w4 2%nat - sofZ 768 * cx2 * cy3 * w2 * spow w3 3%nat * w4 + sofZ 384 * cx2 * cy3 * w2 * spow w3 2%nat * spow w4 2%nat - sofZ 48 * cx2 * cy3 * w2 * w3 * spow w4 3%nat + sofZ 96 * cx2 * cy4 * spow w0 3%nat * w2 * w4 - sofZ 912 * cx2 * cy4 * spow w0 2%nat * w1 * w2 * w4 + sofZ 1152 * cx2 * cy4 * spow w0 2%nat * spow w2 2%nat * w4 - sofZ 720 * cx2 * cy4 * spow w0 2%nat * w2 * w3 * w4 + sofZ 192 * cx2 * cy4 * spow w0 2%nat * w2 * spow w4 2%nat + sofZ 2688 * cx2 * cy4 * w0 * spow w1 2%nat * w2 * w4 - sofZ 6336 * cx2 * cy4 * w0 * w1 * spow w2 2%nat * w4 + sofZ 3840 * cx2 * cy4 * w0 * w1 * w2 * w3 * w4 - sofZ 1056 * cx2 * cy4 * w0 * w1 * w2 * spow w4 2%nat + sofZ 3456 * cx2 * cy4 * w0 * spow w2 3%nat * w4 - sofZ 4032 * cx2 * cy4 * w0 * spow w2 2%nat * w3 * w4 + sofZ 1152 * cx2 * cy4 * w0 * spow w2 2%nat * spow w4 2%nat + sofZ 1152 * cx2 * cy4 * w0 * w2 * spow w3 2%nat * w4 - sofZ 672 * cx2 * cy4 * w0 * w2 * w3 * spow w4 2%nat + sofZ 96 * cx2 * cy4 * w0 * w2 * spow w4 3%nat - sofZ 2304 * cx2 * cy4 * spow w1 3%nat * w2 * w4 + sofZ 6912 * cx2 * cy4 * spow w1 2%nat * spow w2 2%nat * w4 - sofZ 3840 * cx2 * cy4 * spow w1 2%nat * w2 * w3 * w4 + sofZ 1152 * cx2 * cy4 * spow w1 2%nat * w2 * spow w4 2%nat - sofZ 5184 * cx2 * cy4 * w1 * spow w2 3%nat * w4 + sofZ 4608 * cx2 * cy4 * w1 * spow w2 2%nat * w3 * w4 - sofZ 1728 * cx2 * cy4 * w1 * spow w2 2%nat * spow w4 2%nat - sofZ 768 * cx2 * cy4 * w1 * w2 * spow w3 2%nat * w4 + sofZ 768 * cx2 * cy4 * w1 * w2 * w3 * spow w4 2%nat - sofZ 144 * cx2 * cy4 * w1 * w2 * spow w4 3%nat + sofZ 1728 * cx2 * cy4 * spow w2 3%nat * w3 * w4 - sofZ 2304 * cx2 * cy4 * spow w2 2%nat * spow w3 2%nat * w4 + sofZ 576 * cx2 * cy4 * spow w2 2%nat * w3 * spow w4 2%nat + sofZ 768 * cx2 * cy4 * w2 * spow w3 3%nat * w4 - sofZ 384 * cx2 * cy4 * w2 * spow w3 2%nat * spow w4 2%nat + sofZ 48 * cx2 * cy4 * w2 * w3 * spow w4 3%nat + sofZ 96 * cx3 * cy0 * spow w0 3%nat * w1 * w3 - sofZ 144 * cx3 * cy0 * spow w0 3%nat * w2 * w3 + sofZ 48 * cx3 * cy0 * spow w0 3%nat * w3 * w4 - sofZ 768 * cx3 * cy0 * spow w0 2%nat * spow w1 2%nat * w3 + sofZ 2304 * cx3 * cy0 * spow w0 2%nat * w1 * w2 * w3 - sofZ 768 * cx3 * cy0 * spow w0 2%nat * w1 * spow w3 2%nat - sofZ 192 * cx3 * cy0 * spow w0 2%nat * w1 * w3 * w4 - sofZ 1728 * cx3 * cy0 * spow w0 2%nat * spow w2 2%nat * w3 + sofZ 1152 * cx3 * cy0 * spow w0 2%nat * w2 * spow w3 2%nat + sofZ 288 * cx3 * cy0 * spow w0 2%nat * w2 * w3 * w4 - sofZ 384 * cx3 * cy0 * spow w0 2%nat * spow w3 2%nat * w4 + sofZ 96 * cx3 * cy0 * spow w0 2%nat * w3 * spow w4 2%nat + sofZ 1536 * cx3 * cy0 * w0 * spow w1 3%nat * w3 - sofZ 6912 * cx3 * cy0 * w0 * spow w1 2%nat * w2 * w3 + sofZ 3072 * cx3 * cy0 * w0 * spow w1 2%nat * spow w3 2%nat + sofZ 10368 * cx3 * cy0 * w0 * w1 * spow w2 2%nat * w3 - sofZ 9216 * cx3 * cy0 * w0 * w1 * w2 * spow w3 2%nat + sofZ 1536 * cx3 * cy0 * w0 * w1 * spow w3 3%nat + sofZ 768 * cx3 * cy0 * w0 * w1 * spow w3 2%nat * w4 - sofZ 288 * cx3 * cy0 * w0 * w1 * w3 * spow w4 2%nat - sofZ 5184 * cx3 * cy0 * w0 * spow w2 3%nat * w3 + sofZ 6912 * cx3 * cy0 * w0 * spow w2 2%nat * spow w3 2%nat - sofZ 2304 * cx3 * cy0 * w0 * w2 * spow w3 3%nat - sofZ 1152 * cx3 * cy0 * w0 * w2 * spow w3 2%nat * w4 + sofZ 432 * cx3 * cy0 * w0 * w2 * w3 * spow w4 2%nat + sofZ 768 * cx3 * cy0 * w0 * spow w3 3%nat * w4 - sofZ 384 * cx3 * cy0 * w0 * spow w3 2%nat * spow w4 2%nat + sofZ 48 * cx3 * cy0 * w0 * w3 * spow w4 3%nat - sofZ 96 * cx3 * cy1 * spow w0 3%nat * w1 * w3 + sofZ 768 * cx3 * cy1 * spow w0 2%nat * spow w1 2%nat * w3 - sofZ 960 * cx3 * cy1 * spow w0 2%nat * w1 * w2 * w3 + sofZ 768 * cx3 * cy1 * spow w0 2%nat * w1 * spow w3 2%nat - sofZ 288 * cx3 * cy1 * spow w0 2%nat * w1 * w3 * w4 - sofZ 1536 * cx3 * cy1 * w0 * spow w1 3%nat * w3 + sofZ 3072 * cx3 * cy1 * w0 * spow w1 2%nat * w2 * w3 - sofZ 3072 * cx3 * cy1 * w0 * spow w1 2%nat * spow w3 2%nat + sofZ 1536 * cx3 * cy1 * w0 * spow w1 2%nat * w3 * w4 - sofZ 1152 * cx3 * cy1 * w0 * w1 * spow w2 2%nat * w3 + sofZ 3072 * cx3 * cy1 * w0 * w1 * w2 * spow w3 2%nat - sofZ 1920 * cx3 * cy1 * w0 * w1 * w2 * w3 * w4 - sofZ 1536 * cx3 * cy1 * w0 * w1 * spow w3 3%nat + sofZ 1536 * cx3 * cy1 * w0 * w1 * spow w3 2%nat * w4 - sofZ 288 * cx3 * cy1 * w0 * w1 * w3 * spow w4 2%nat + sofZ 3072 * cx3 * cy1 * spow w1 3%nat * w2 * w3 - sofZ 1536 * cx3 * cy1 * spow w1 3%nat * w3 * w4 - sofZ 9216 * cx3 * cy1 * spow w1 2%nat * spow w2 2%nat * w3 + sofZ 6144 * cx3 * cy1 * spow w1 2%nat * w2 * spow w3 2%nat + sofZ 3072 * cx3 * cy1 * spow w1 2%nat * w2 * w3 * w4 - sofZ 3072 * cx3 * cy1 * spow w1 2%nat * spow w3 2%nat * w4 + sofZ 768 * cx3 * cy1 * spow w1 2%nat * w3 * spow w4 2%nat + sofZ 6912 * cx3 * cy1 * w1 * spow w2 3%nat * w3 - sofZ 9216 * cx3 * cy1 * w1 * spow w2 2%nat * spow w3 2%nat - sofZ 1152 * cx3 * cy1 * w1 * spow w2 2%nat * w3 * w4 + sofZ 3072 * cx3 * cy1 * w1 * w2 * spow w3 3%nat + sofZ 3072 * cx3 * cy1 * w1 * w2 * spow w3 2%nat * w4 - sofZ 960 * cx3 * cy1 * w1 * w2 * w3 * spow w4 2%nat - sofZ 1536 * cx3 * cy1 * w1 * spow w3 3%nat * w4 + sofZ 768 * cx3 * cy1 * w1 * spow w3 2%nat * spow w4 2%nat - sofZ 96 * cx3 * cy1 * w1 * w3 * spow w4 3%nat + sofZ 144 * cx3 * cy2 * spow w0 3%nat * w2 * w3 - sofZ 1344 * cx3 * cy2 * spow w0 2%nat * w1 * w2 * w3 + sofZ 1728 * cx3 * cy2 * spow w0 2%nat * spow w2 2%nat * w3 - sofZ 1152 * cx3 * cy2 * spow w0 2%nat * w2 * spow w3 2%nat + sofZ 336 * cx3 * cy2 * spow w0 2%nat * w2 * w3 * w4 + sofZ 3840 * cx3 * cy2 * w0 * spow w1 2%nat * w2 * w3 - sofZ 9216 * cx3 * cy2 * w0 * w1 * spow w2 2%nat * w3 + sofZ 6144 * cx3 * cy2 * w0 * w1 * w2 * spow w3 2%nat - sofZ 1920 * cx3 * cy2 * w0 * w1 * w2 * w3 * w4 + sofZ 5184 * cx3 * cy2 * w0 * spow w2 3%nat * w3 - sofZ 6912 * cx3 * cy2 * w0 * spow w2 2%nat * spow w3 2%nat + sofZ 2304 * cx3 * cy2 * w0 * spow w2 2%nat * w3 * w4 + sofZ 2304 * cx3 * cy2 * w0 * w2 * spow w3 3%nat - sofZ 1536 * cx3 * cy2 * w0 * w2 * spow w3 2%nat * w4 + sofZ 240 * cx3 * cy2 * w0 * w2 * w3 * spow w4 2%nat - sofZ 3072 * cx3 * cy2 * spow w1 3%nat * w2 * w3 + sofZ 9216 * cx3 * cy2 * spow w1 2%nat * spow w2 2%nat * w3 - sofZ 6144 * cx3 * cy2 * spow w1 2%nat * w2 * spow w3 2%nat + sofZ 2304 * cx3 * cy2 * spow w1 2%nat * w2 * w3 * w4 - sofZ 6912 * cx3 * cy2 * w1 * spow w2 3%nat * w3 + sofZ 9216 * cx3 * cy2 * w1 * spow w2 2%nat * spow w3 2%nat - sofZ 4608 * cx3 * cy2 * w1 * spow w2 2%nat * w3 * w4 - sofZ 3072 * cx3 * cy2 * w1 * w2 * spow w3 3%nat + sofZ 3072 * cx3 * cy2 * w1 * w2 * spow w3 2%nat * w4 - sofZ 576 * cx3 * cy2 * w1 * w2 * w3 * spow w4 2%nat + sofZ 1728 * cx3 * cy2 * spow w2 3%nat * w3 * w4 - sofZ 2304 * cx3 * cy2 * spow w2 2%nat * spow w3 2%nat * w4 + sofZ 576 * cx3 * cy2 * spow w2 2%nat * w3 * spow w4 2%nat + sofZ 768 * cx3 * cy2 * w2 * spow w3 3%nat * w4 - sofZ 384 * cx3 * cy2 * w2 * spow w3 2%nat * spow w4 2%nat + sofZ 48 * cx3 * cy2 * w2 * w3 * spow w4 3%nat - sofZ 48 * cx3 * cy4 * spow w0 3%nat * w3 * w4 + sofZ 480 * cx3 * cy4 * spow w0 2%nat * w1 * w3 * w4 - sofZ 624 * cx3 * cy4 * spow w0 2%nat * w2 * w3 * w4 + sofZ 384 * cx3 * cy4 * spow w0 2%nat * spow w3 2%nat * w4 - sofZ 96 * cx3 * cy4 * spow w0 2%nat * w3 * spow w4 2%nat - sofZ 1536 * cx3 * cy4 * w0 * spow w1 2%nat * w3 * w4 + sofZ 3840 * cx3 * cy4 * w0 * w1 * w2 * w3 * w4 - sofZ 2304 * cx3 * cy4 * w0 * w1 * spow w3 2%nat * w4 + sofZ 576 * cx3 * cy4 * w0 * w1 * w3 * spow w4 2%nat - sofZ 2304 * cx3 * cy4 * w0 * spow w2 2%nat * w3 * w4 + sofZ 2688 * cx3 * cy4 * w0 * w2 * spow w3 2%nat * w4 - sofZ 672 * cx3 * cy4 * w0 * w2 * w3 * spow w4 2%nat - sofZ 768 * cx3 * cy4 * w0 * spow w3 3%nat * w4 + sofZ 384 * cx3 * cy4 * w0 * spow w3 2%nat * spow w4 2%nat - sofZ 48 * cx3 * cy4 * w0 * w3 * spow w4 3%nat + sofZ 1536 * cx3 * cy4 * spow w1 3%nat * w3 * w4 - sofZ 5376 * cx3 * cy4 * spow w1 2%nat * w2 * w3 * w4 + sofZ 3072 * cx3 * cy4 * spow w1 2%nat * spow w3 2%nat * w4 - sofZ 768 * cx3 * cy4 * spow w1 2%nat * w3 * spow w4 2%nat + sofZ 5760 * cx3 * cy4 * w1 * spow w2 2%nat * w3 * w4 - sofZ 6144 * cx3 * cy4 * w1 * w2 * spow w3 2%nat * w4 + sofZ 1536 * cx3 * cy4 * w1 * w2 * w3 * spow w4 2%nat + sofZ 1536 * cx3 * cy4 * w1 * spow w3 3%nat * w4 - sofZ 768 * cx3 * cy4 * w1 * spow w3 2%nat * spow w4 2%nat + sofZ 96 * cx3 * cy4 * w1 * w3 * spow w4 3%nat - sofZ 1728 * cx3 * cy4 * spow w2 3%nat * w3 * w4 + sofZ 2304 * cx3 * cy4 * spow w2 2%nat * spow w3 2%nat * w4 - sofZ 576 * cx3 * cy4 * spow w2 2%nat * w3 * spow w4 2%nat - sofZ 768 * cx3 * cy4 * w2 * spow w3 3%nat * w4 + sofZ 384 * cx3 * cy4 * w2 * spow w3 2%nat * spow w4 2%nat - sofZ 48 * cx3 * cy4 * w2 * w3 * spow w4 3%nat - sofZ 48 * cx4 * cy0 * spow w0 3%nat * w1 * w4 + sofZ 96 * cx4 * cy0 * spow w0 3%nat * w2 * w4 - sofZ 48 * cx4 * cy0 * spow w0 3%nat * w3 * w4 + sofZ 384 * cx4 * cy0 * spow w0 2%nat * spow w1 2%nat * w4 - sofZ 1344 * cx4 * cy0 * spow w0 2%nat * w1 * w2 * w4 + sofZ 768 * cx4 * cy0 * spow w0 2%nat * w1 * w3 * w4 - sofZ 96 * cx4 * cy0 * spow w0 2%nat * w1 * spow w4 2%nat + sofZ 1152 * cx4 * cy0 * spow w0 2%nat * spow w2 2%nat * w4 - sofZ 1344 * cx4 * cy0 * spow w0 2%nat * w2 * w3 * w4 + sofZ 192 * cx4 * cy0 * spow w0 2%nat * w2 * spow w4 2%nat + sofZ 384 * cx4 * cy0 * spow w0 2%nat * spow w3 2%nat * w4 - sofZ 96 * cx4 * cy0 * spow w0 2%nat * w3 * spow w4 2%nat - sofZ 768 * cx4 * cy0 * w0 * spow w1 3%nat * w4 + sofZ 3840 * cx4 * cy0 * w0 * spow w1 2%nat * w2 * w4 - sofZ 2304 * cx4 * cy0 * w0 * spow w1 2%nat * w3 * w4 + sofZ 384 * cx4 * cy0 * w0 * spow w1 2%nat * spow w4 2%nat - sofZ 6336 * cx4 * cy0 * w0 * w1 * spow w2 2%nat * w4 + sofZ 7680 * cx4 * cy0 * w0 * w1 * w2 * w3 * w4 - sofZ 1344 * cx4 * cy0 * w0 * w1 * w2 * spow w4 2%nat - sofZ 2304 * cx4 * cy0 * w0 * w1 * spow w3 2%nat * w4 + sofZ 768 * cx4 * cy0 * w0 * w1 * w3 * spow w4 2%nat - sofZ 48 * cx4 * cy0 * w0 * w1 * spow w4 3%nat + sofZ 3456 * cx4 * cy0 * w0 * spow w2 3%nat * w4 - sofZ 6336 * cx4 * cy0 * w0 * spow w2 2%nat * w3 * w4 + sofZ 1152 * cx4 * cy0 * w0 * spow w2 2%nat * spow w4 2%nat + sofZ 3840 * cx4 * cy0 * w0 * w2 * spow w3 2%nat * w4 - sofZ 1344 * cx4 * cy0 * w0 * w2 * w3 * spow w4 2%nat + sofZ 96 * cx4 * cy0 * w0 * w2 * spow w4 3%nat - sofZ 768 * cx4 * cy0 * w0 * spow w3 3%nat * w4 + sofZ 384 * cx4 * cy0 * w0 * spow w3 2%nat * spow w4 2%nat - sofZ 48 * cx4 * cy0 * w0 * w3 * spow w4 3%nat + sofZ 48 * cx4 * cy1 * spow w0 3%nat * w1 * w4 - sofZ 384 * cx4 * cy1 * spow w0 2%nat * spow w1 2%nat * w4 + sofZ 432 * cx4 * cy1 * spow w0 2%nat * w1 * w2 * w4 - sofZ 288 * cx4 * cy1 * spow w0 2%nat * w1 * w3 * w4 + sofZ 96 * cx4 * cy1 * spow w0 2%nat * w1 * spow w4 2%nat + sofZ 768 * cx4 * cy1 * w0 * spow w1 3%nat * w4 - sofZ 1152 * cx4 * cy1 * w0 * spow w1 2%nat * w2 * w4 + sofZ 768 * cx4 * cy1 * w0 * spow w1 2%nat * w3 * w4 - sofZ 384 * cx4 * cy1 * w0 * spow w1 2%nat * spow w4 2%nat + sofZ 288 * cx4 * cy1 * w0 * w1 * w2 * spow w4 2%nat - sofZ 192 * cx4 * cy1 * w0 * w1 * w3 * spow w4 2%nat + sofZ 48 * cx4 * cy1 * w0 * w1 * spow w4 3%nat - sofZ 2304 * cx4 * cy1 * spow w1 3%nat * w2 * w4 + sofZ 1536 * cx4 * cy1 * spow w1 3%nat * w3 * w4 + sofZ 6912 * cx4 * cy1 * spow w1 2%nat * spow w2 2%nat * w4 - sofZ 9216 * cx4 * cy1 * spow w1 2%nat * w2 * w3 * w4 + sofZ 1152 * cx4 * cy1 * spow w1 2%nat * w2 * spow w4 2%nat + sofZ 3072 * cx4 * cy1 * spow w1 2%nat * spow w3 2%nat * w4 - sofZ 768 * cx4 * cy1 * spow w1 2%nat * w3 * spow w4 2%nat - sofZ 5184 * cx4 * cy1 * w1 * spow w2 3%nat * w4 + sofZ 10368 * cx4 * cy1 * w1 * spow w2 2%nat * w3 * w4 - sofZ 1728 * cx4 * cy1 * w1 * spow w2 2%nat * spow w4 2%nat - sofZ 6912 * cx4 * cy1 * w1 * w2 * spow w3 2%nat * w4 + sofZ 2304 * cx4 * cy1 * w1 * w2 * w3 * spow w4 2%nat - sofZ 144 * cx4 * cy1 * w1 * w2 * spow w4 3%nat + sofZ 1536 * cx4 * cy1 * w1 * spow w3 3%nat * w4 - sofZ 768 * cx4 * cy1 * w1 * spow w3 2%nat * spow w4 2%nat + sofZ 96 * cx4 * cy1 * w1 * w3 * spow w4 3%nat - sofZ 96 * cx4 * cy2 * spow w0 3%nat * w2 * w4 + sofZ 912 * cx4 * cy2 * spow w0 2%nat * w1 * w2 * w4 - sofZ 1152 * cx4 * cy2 * spow w0 2%nat * spow w2 2%nat * w4 + sofZ 720 * cx4 * cy2 * spow w0 2%nat * w2 * w3 * w4 - sofZ 192 * cx4 * cy2 * spow w0 2%nat * w2 * spow w4 2%nat - sofZ 2688 * cx4 * cy2 * w0 * spow w1 2%nat * w2 * w4 + sofZ 6336 * cx4 * cy2 * w0 * w1 * spow w2 2%nat * w4 - sofZ 3840 * cx4 * cy2 * w0 * w1 * w2 * w3 * w4 + sofZ 1056 * cx4 * cy2 * w0 * w1 * w2 * spow w4 2%nat - sofZ 3456 * cx4 * cy2 * w0 * spow w2 3%nat * w4 + sofZ 4032 * cx4 * cy2 * w0 * spow w2 2%nat * w3 * w4 - sofZ 1152 * cx4 * cy2 * w0 * spow w2 2%nat * spow w4 2%nat - sofZ 1152 * cx4 * cy2 * w0 * w2 * spow w3 2%nat * w4 + sofZ 672 * cx4 * cy2 * w0 * w2 * w3 * spow w4 2%nat - sofZ 96 * cx4 * cy2 * w0 * w2 * spow w4 3%nat + sofZ 2304 * cx4 * cy2 * spow w1 3%nat * w2 * w4 - sofZ 6912 * cx4 * cy2 * spow w1 2%nat * spow w2 2%nat * w4 + sofZ 3840 * cx4 * cy2 * spow w1 2%nat * w2 * w3 * w4 - sofZ 1152 * cx4 * cy2 * spow w1 2%nat * w2 * spow w4 2%nat + sofZ 5184 * cx4 * cy2 * w1 * spow w2 3%nat * w4 - sofZ 4608 * cx4 * cy2 * w1 * spow w2 2%nat * w3 * w4 + sofZ 1728 * cx4 * cy2 * w1 * spow w2 2%nat * spow w4 2%nat + sofZ 768 * cx4 * cy2 * w1 * w2 * spow w3 2%nat * w4 - sofZ 768 * cx4 * cy2 * w1 * w2 * w3 * spow w4 2%nat + sofZ 144 * cx4 * cy2 * w1 * w2 * spow w4 3%nat - sofZ 1728 * cx4 * cy2 * spow w2 3%nat * w3 * w4 + sofZ 2304 * cx4 * cy2 * spow w2 2%nat * spow w3 2%nat * w4 - sofZ 576 * cx4 * cy2 * spow w2 2%nat * w3 * spow w4 2%nat - sofZ 768 * cx4 * cy2 * w2 * spow w3 3%nat * w4 + sofZ 384 * cx4 * cy2 * w2 * spow w3 2%nat * spow w4 2%nat - sofZ 48 * cx4 * cy2 * w2 * w3 * spow w4 3%nat + sofZ 48 * cx4 * cy3 * spow w0 3%nat * w3 * w4 - sofZ 480 * cx4 * cy3 * spow w0 2%nat * w1 * w3 * w4 + sofZ 624 * cx4 * cy3 * spow w0 2%nat * w2 * w3 * w4 - sofZ 384 * cx4 * cy3 * spow w0 2%nat * spow w3 2%nat * w4 + sofZ 96 * cx4 * cy3 * spow w0 2%nat * w3 * spow w4 2%nat + sofZ 1536 * cx4 * cy3 * w0 * spow w1 2%nat * w3 * w4 - sofZ 3840 * cx4 * cy3 * w0 * w1 * w2 * w3 * w4 + sofZ 2304 * cx4 * cy3 * w0 * w1 * spow w3 2%nat * w4 - sofZ 576 * cx4 * cy3 * w0 * w1 * w3 * spow w4 2%nat + sofZ 2304 * cx4 * cy3 * w0 * spow w2 2%nat * w3 * w4 - sofZ 2688 * cx4 * cy3 * w0 * w2 * spow w3 2%nat * w4 + sofZ 672 * cx4 * cy3 * w0 * w2 * w3 * spow w4 2%nat + sofZ 768 * cx4 * cy3 * w0 * spow w3 3%nat * w4 - sofZ 384 * cx4 * cy3 * w0 * spow w3 2%nat * spow w4 2%nat + sofZ 48 * cx4 * cy3 * w0 * w3 * spow w4 3%nat - sofZ 1536 * cx4 * cy3 * spow w1 3%nat * w3 * w4 + sofZ 5376 * cx4 * cy3 * spow w1 2%nat * w2 * w3 * w4 - sofZ 3072 * cx4 * cy3 * spow w1 2%nat * spow w3 2%nat * w4 + sofZ 768 * cx4 * cy3 * spow w1 2%nat * w3 * spow w4 2%nat - sofZ 5760 * cx4 * cy3 * w1 * spow w2 2%nat * w3 * w4 + sofZ 6144 * cx4 * cy3 * w1 * w2 * spow w3 2%nat * w4 - sofZ 1536 * cx4 * cy3 * w1 * w2 * w3 * spow w4 2%nat - sofZ 1536 * cx4 * cy3 * w1 * spow w3 3%nat * w4 + sofZ 768 * cx4 * cy3 * w1 * spow w3 2%nat * spow w4 2%nat - sofZ 96 * cx4 * cy3 * w1 * w3 * spow w4 3%nat + sofZ 1728 * cx4 * cy3 * spow w2 3%nat * w3 * w4 - sofZ 2304 * cx4 * cy3 * spow w2 2%nat * spow w3 2%nat * w4 + sofZ 576 * cx4 * cy3 * spow w2 2%nat * w3 * spow w4 2%nat + sofZ 768 * cx4 * cy3 * w2 * spow w3 3%nat * w4 - sofZ 384 * cx4 * cy3 * w2 * spow w3 2%nat * spow w4 2%nat + sofZ 48 * cx4 * cy3 * w2 * w3 * spow w4 3%nat].

  (** internal/auto_singularity_RationalBezier.h:18-36 compute_RationalBezier_degree_2_singularities *)
  Definition rsing_2 (cx0 cy0 cx1 cy1 cx2 cy2 w0 w1 w2 : T) : list T :=
    [sofZ 4 * cx0 * cx0 * w0 * w0 * w1 * w1 - sofZ 8 * cx0 * cx1 * w0 * w0 * w1 * w1 + sofZ 4 * cx1 * cx1 * w0 * w0 * w1 * w1 + sofZ 4 * cy0 * cy0 * w0 * w0 * w1 * w1 - sofZ 8 * cy0 * cy1 * w0 * w0 * w1 * w1 + sofZ 4 * cy1 * cy1 * w0 * w0 * w1 * w1;
     - sofZ 16 * cx0 * cx0 * w0 * w0 * w1 * w1 + sofZ 8 * cx0 * cx0 * w0 * w0 * w1 * w2 + sofZ 32 * cx0 * cx1 * w0 * w0 * w1 * w1 - sofZ 8 * cx0 * cx1 * w0 * w0 * w1 * w2 - sofZ 8 * cx0 * cx2 * w0 * w0 * w1 * w2 - sofZ 16 * cx1 * cx1 * w0 * w0 * w1 * w1 + sofZ 8 * cx1 * cx2 * w0 * w0 * w1 * w2 - sofZ 16 * cy0 * cy0 * w0 * w0 * w1 * w1 + sofZ 8 * cy0 * cy0 * w0 * w0 * w1 * w2 + sofZ 32 * cy0 * cy1 * w0 * w0 * w1 * w1 - sofZ 8 * cy0 * cy1 * w0 * w0 * w1 * w2 - sofZ 8 * cy0 * cy2 * w0 * w0 * w1 * w2 - sofZ 16 * cy1 * cy1 * w0 * w0 * w1 * w1 + sofZ 8 * cy1 * cy2 * w0 * w0 * w1 * w2;
     sofZ 24 * cx0 * cx0 * w0 * w0 * w1 * w1 - sofZ 24 * cx0 * cx0 * w0 * w0 * w1 * w2 + sofZ 4 * cx0 * cx0 * w0 * w0 * w2 * w2 - sofZ 48 * cx0 * cx1 * w0 * w0 * w1 * w1 + sofZ 24 * cx0 * cx1 * w0 * w0 * w1 * w2 + sofZ 8 * cx0 * cx1 * w0 * w1 * w1 * w2 + sofZ 24 * cx0 * cx2 * w0 * w0 * w1 * w2 - sofZ 8 * cx0 * cx2 * w0 * w0 * w2 * w2 - sofZ 8 * cx0 * cx2 * w0 * w1 * w1 * w2 + sofZ 24 * cx1 * cx1 * w0 * w0 * w1 * w1 - sofZ 8 * cx1 * cx1 * w0 * w1 * w1 * w2 - sofZ 24 * cx1 * cx2 * w0 * w0 * w1 * w2 + sofZ 8 * cx1 * cx2 * w0 * w1 * w1 * w2 + sofZ 4 * cx2 * cx2 * w0 * w0 * w2 * w2 + sofZ 24 * cy0 * cy0 * w0 * w0 * w1 * w1 - sofZ 24 * cy0 * cy0 * w0 * w0 * w1 * w2 + sofZ 4 * cy0 * cy0 * w0 * w0 * w2 * w2 - sofZ 48 * cy0 * cy1 * w0 * w0 * w1 * w1 + sofZ 24 * cy0 * cy1 * w0 * w0 * w1 * w2 + sofZ 8 * cy0 * cy1 * w0 * w1 * w1 * w2 + sofZ 24 * cy0 * cy2 * w0 * w0 * w1 * w2 - sofZ 8 * cy0 * cy2 * w0 * w0 * w2 * w2 - sofZ 8 * cy0 * cy2 * w0 * w1 * w1 * w2 + sofZ 24 * cy1 * cy1 * w0 * w0 * w1 * w1 - sofZ 8 * cy1 * cy1 * w0 * w1 * w1 * w2 - sofZ 24 * cy1 * cy2 * w0 * w0 * w1 * w2 + sofZ 8 * cy1 * cy2 * w0 * w1 * w1 * w2 + sofZ 4 * cy2 * cy2 * w0 * w0 * w2 * w2;
     - sofZ 16 * cx0 * cx0 * w0 * w0 * w1 * w1 + sofZ 24 * cx0 * cx0 * w0 * w0 * w1 * w2 - sofZ 8 * cx0 * cx0 * w0 * w0 * w2 * w2 + sofZ 32 * cx0 * cx1 * w0 * w0 * w1 * w1 - sofZ 24 * cx0 * cx1 * w0 * w0 * w1 * w2 - sofZ 16 * cx0 * cx1 * w0 * w1 * w1 * w2 + sofZ 8 * cx0 * cx1 * w0 * w1 * w2 * w2 - sofZ 24 * cx0 * cx2 * w0 * w0 * w1 * w2 + sofZ 16 * cx0 * cx2 * w0 * w0 * w2 * w2 + sofZ 16 * cx0 * cx2 * w0 * w1 * w1 * w2 - sofZ 8 * cx0 * cx2 * w0 * w1 * w2 * w2 - sofZ 16 * cx1 * cx1 * w0 * w0 * w1 * w1 + sofZ 16 * cx1 * cx1 * w0 * w1 * w1 * w2 + sofZ 24 * cx1 * cx2 * w0 * w0 * w1 * w2 - sofZ 16 * cx1 * cx2 * w0 * w1 * w1 * w2 - sofZ 8 * cx1 * cx2 * w0 * w1 * w2 * w2 - sofZ 8 * cx2 * cx2 * w0 * w0 * w2 * w2 + sofZ 8 * cx2 * cx2 * w0 * w1 * w2 * w2 - sofZ 16 * cy0 * cy0 * w0 * w0 * w1 * w1 + sofZ 24 * cy0 * cy0 * w0 * w0 * w1 * w2 - sofZ 8 * cy0 * cy0 * w0 * w0 * w2 * w2 + sofZ 32 * cy0 * cy1 * w0 * w0 * w1 * w1 - sofZ 24 * cy0 * cy1 * w0 * w0 * w1 * w2 - sofZ 16 * cy0 * cy1 * w0 * w1 * w1 * w2 + sofZ 8 * cy0 * cy1 * w0 * w1 * w2 * w2 - sofZ 24 * cy0 * cy2 * w0 * w0 * w1 * w2 + sofZ 16 * cy0 * cy2 * w0 * w0 * w2 * w2 + sofZ 16 * cy0 * cy2 * w0 * w1 * w1 * w2 - sofZ 8 * cy0 * cy2 * w0 * w1 * w2 * w2 - sofZ 16 * cy1 * cy1 * w0 * w0 * w1 * w1 + sofZ 16 * cy1 * cy1 * w0 * w1 * w1 * w2 + sofZ 24 * cy1 * cy2 * w0 * w0 * w1 * w2 - sofZ 16 * cy1 * cy2 * w0 * w1 * w1 * w2 - sofZ 8 * cy1 * cy2 * w0 * w1 * w2 * w2 - sofZ 8 * cy2 * cy2 * w0 * w0 * w2 * w2 + sofZ 8 * cy2 * cy2 * w0 * w1 * w2 * w2;
     sofZ 4 * cx0 * cx0 * w0 * w0 * w1 * w1 - sofZ 8 * cx0 * cx0 * w0 * w0 * w1 * w2 + sofZ 4 * cx0 * cx0 * w0 * w0 * w2 * w2 - sofZ 8 * cx0 * cx1 * w0 * w0 * w1 * w1 + sofZ 8 * cx0 * cx1 * w0 * w0 * w1 * w2 + sofZ 8 * cx0 * cx1 * w0 * w1 * w1 * w2 - sofZ 8 * cx0 * cx1 * w0 * w1 * w2 * w2 + sofZ 8 * cx0 * cx2 * w0 * w0 * w1 * w2 - sofZ 8 * cx0 * cx2 * w0 * w0 * w2 * w2 - sofZ 8 * cx0 * cx2 * w0 * w1 * w1 * w2 + sofZ 8 * cx0 * cx2 * w0 * w1 * w2 * w2 + sofZ 4 * cx1 * cx1 * w0 * w0 * w1 * w1 - sofZ 8 * cx1 * cx1 * w0 * w1 * w1 * w2 + sofZ 4 * cx1 * cx1 * w1 * w1 * w2 * w2 - sofZ 8 * cx1 * cx2 * w0 * w0 * w1 * w2 + sofZ 8 * cx1 * cx2 * w0 * w1 * w1 * w2 + sofZ 8 * cx1 * cx2 * w0 * w1 * w2 * w2 - sofZ 8 * cx1 * cx2 * w1 * w1 * w2 * w2 + sofZ 4 * cx2 * cx2 * w0 * w0 * w2 * w2 - sofZ 8 * cx2 * cx2 * w0 * w1 * w2 * w2 + sofZ 4 * cx2 * cx2 * w1 * w1 * w2 * w2 + sofZ 4 * cy0 * cy0 * w0 * w0 * w1 * w1 - sofZ 8 * cy0 * cy0 * w0 * w0 * w1 * w2 + sofZ 4 * cy0 * cy0 * w0 * w0 * w2 * w2 - sofZ 8 * cy0 * cy1 * w0 * w0 * w1 * w1 + sofZ 8 * cy0 * cy1 * w0 * w0 * w1 * w2 + sofZ 8 * cy0 * cy1 * w0 * w1 * w1 * w2 - sofZ 8 * cy0 * cy1 * w0 * w1 * w2 * w2 + sofZ 8 * cy0 * cy2 * w0 * w0 * w1 * w2 - sofZ 8 * cy0 * cy2 * w0 * w0 * w2 * w2 - sofZ 8 * cy0 * cy2 * w0 * w1 * w1 * w2 + sofZ 8 * cy0 * cy2 * w0 * w1 * w2 * w2 + sofZ 4 * cy1 * cy1 * w0 * w0 * w1 * w1 - sofZ 8 * cy1 * cy1 * w0 * w1 * w1 * w2 + sofZ 4 * cy1 * cy1 * w1 * w1 * w2 * w2 - sofZ 8 * cy1 * cy2 * w0 * w0 * w1 * w2 + sofZ 8 * cy1 * cy2 * w0 * w1 * w1 * w2 + sofZ 8 * cy1 * cy2 * w0 * w1 * w2 * w2 - sofZ 8 * cy1 * cy2 * w1 * w1 * w2 * w2 + sofZ 4 * cy2 * cy2 * w0 * w0 * w2 * w2 - sofZ 8 * cy2 * cy2 * w0 * w1 * w2 * w2 + sofZ 4 * cy2 * cy2 * w1 * w1 * w2 * w2].

  (** internal/auto_singularity_RationalBezier.h:40-62 compute_RationalBezier_degree_3_singularities *)
  Definition rsing_3 (cx0 cy0 cx1 cy1 cx2 cy2 cx3 cy3 w0 w1 w2 w3 : T) : list T :=
    [sofZ 9 * cx0 * cx0 * w0 * w0 * w1 * w1 - sofZ 18 * cx0 * cx1 * w0 * w0 * w1 * w1 + sofZ 9 * cx1 * cx1 * w0 * w0 * w1 * w1 + sofZ 9 * cy0 * cy0 * w0 * w0 * w1 * w1 - sofZ 18 * cy0 * cy1 * w0 * w0 * w1 * w1 + sofZ 9 * cy1 * cy1 * w0 * w0 * w1 * w1;
     - sofZ 72 * cx0 * cx0 * w0 * w0 * w1 * w1 + sofZ 36 * cx0 * cx0 * w0 * w0 * w1 * w2 + sofZ 144 * cx0 * cx1 * w0 * w0 * w1 * w1 - sofZ 36 * cx0 * cx1 * w0 * w0 * w1 * w2 - sofZ 36 * cx0 * cx2 * w0 * w0 * w1 * w2 - sofZ 72 * cx1 * cx1 * w0 * w0 * w1 * w1 + sofZ 36 * cx1 * cx2 * w0 * w0 * w1 * w2 - sofZ 72 * cy0 * cy0 * w0 * w0 * w1 * w1 + sofZ 36 * cy0 * cy0 * w0 * w0 * w1 * w2 + sofZ 144 * cy0 * cy1 * w0 * w0 * w1 * w1 - sofZ 36 * cy0 * cy1 * w0 * w0 * w1 * w2 - sofZ 36 * cy0 * cy2 * w0 * w0 * w1 * w2 - sofZ 72 * cy1 * cy1 * w0 * w0 * w1 * w1 + sofZ 36 * cy1 * cy2 * w0 * w0 * w1 * w2;
     sofZ 252 * cx0 * cx0 * w0 * w0 * w1 * w1 - sofZ 252 * cx0 * cx0 * w0 * w0 * w1 * w2 + sofZ 18 * cx0 * cx0 * w0 * w0 * w1 * w3 + sofZ 36 * cx0 * cx0 * w0 * w0 * w2 * w2 - sofZ 504 * cx0 * cx1 * w0 * w0 * w1 * w1 + sofZ 252 * cx0 * cx1 * w0 * w0 * w1 * w2 - sofZ 18 * cx0 * cx1 * w0 * w0 * w1 * w3 + sofZ 54 * cx0 * cx1 * w0 * w1 * w1 * w2 + sofZ 252 * cx0 * cx2 * w0 * w0 * w1 * w2 - sofZ 72 * cx0 * cx2 * w0 * w0 * w2 * w2 - sofZ 54 * cx0 * cx2 * w0 * w1 * w1 * w2 - sofZ 18 * cx0 * cx3 * w0 * w0 * w1 * w3 + sofZ 252 * cx1 * cx1 * w0 * w0 * w1 * w1 - sofZ 54 * cx1 * cx1 * w0 * w1 * w1 * w2 - sofZ 252 * cx1 * cx2 * w0 * w0 * w1 * w2 + sofZ 54 * cx1 * cx2 * w0 * w1 * w1 * w2 + sofZ 18 * cx1 * cx3 * w0 * w0 * w1 * w3 + sofZ 36 * cx2 * cx2 * w0 * w0 * w2 * w2 + sofZ 252 * cy0 * cy0 * w0 * w0 * w1 * w1 - sofZ 252 * cy0 * cy0 * w0 * w0 * w1 * w2 + sofZ 18 * cy0 * cy0 * w0 * w0 * w1 * w3 + sofZ 36 * cy0 * cy0 * w0 * w0 * w2 * w2 - sofZ 504 * cy0 * cy1 * w0 * w0 * w1 * w1 + sofZ 252 * cy0 * cy1 * w0 * w0 * w1 * w2 - sofZ 18 * cy0 * cy1 * w0 * w0 * w1 * w3 + sofZ 54 * cy0 * cy1 * w0 * w1 * w1 * w2 + sofZ 252 * cy0 * cy2 * w0 * w0 * w1 * w2 - sofZ 72 * cy0 * cy2 * w0 * w0 * w2 * w2 - sofZ 54 * cy0 * cy2 * w0 * w1 * w1 * w2 - sofZ 18 * cy0 * cy3 * w0 * w0 * w1 * w3 + sofZ 252 * cy1 * cy1 * w0 * w0 * w1 * w1 - sofZ 54 * cy1 * cy1 * w0 * w1 * w1 * w2 - sofZ 252 * cy1 * cy2 * w0 * w0 * w1 * w2 + sofZ 54 * cy1 * cy2 * w0 * w1 * w1 * w2 + sofZ 18 * cy1 * cy3 * w0 * w0 * w1 * w3 + sofZ 36 * cy2 * cy2 * w0 * w0 * w2 * w2;
     - sofZ 504 * cx0 * cx0 * w0 * w0 * w1 * w1 + sofZ 756 * cx0 * cx0 * w0 * w0 * w1 * w2 - sofZ 108 * cx0 * cx0 * w0 * w0 * w1 * w3 - sofZ 216 * cx0 * cx0 * w0 * w0 * w2 * w2 + sofZ 36 * cx0 * cx0 * w0 * w0 * w2 * w3 + sofZ 1008 * cx0 * cx1 * w0 * w0 * w1 * w1 - sofZ 756 * cx0 * cx1 * w0 * w0 * w1 * w2 + sofZ 108 * cx0 * cx1 * w0 * w0 * w1 * w3 - sofZ 324 * cx0 * cx1 * w0 * w1 * w1 * w2 + sofZ 36 * cx0 * cx1 * w0 * w1 * w1 * w3 + sofZ 108 * cx0 * cx1 * w0 * w1 * w2 * w2 - sofZ 756 * cx0 * cx2 * w0 * w0 * w1 * w2 + sofZ 432 * cx0 * cx2 * w0 * w0 * w2 * w2 - sofZ 36 * cx0 * cx2 * w0 * w0 * w2 * w3 + sofZ 324 * cx0 * cx2 * w0 * w1 * w1 * w2 - sofZ 108 * cx0 * cx2 * w0 * w1 * w2 * w2 + sofZ 108 * cx0 * cx3 * w0 * w0 * w1 * w3 - sofZ 36 * cx0 * cx3 * w0 * w0 * w2 * w3 - sofZ 36 * cx0 * cx3 * w0 * w1 * w1 * w3 - sofZ 504 * cx1 * cx1 * w0 * w0 * w1 * w1 + sofZ 324 * cx1 * cx1 * w0 * w1 * w1 * w2 - sofZ 36 * cx1 * cx1 * w0 * w1 * w1 * w3 + sofZ 756 * cx1 * cx2 * w0 * w0 * w1 * w2 - sofZ 324 * cx1 * cx2 * w0 * w1 * w1 * w2 - sofZ 108 * cx1 * cx2 * w0 * w1 * w2 * w2 - sofZ 108 * cx1 * cx3 * w0 * w0 * w1 * w3 + sofZ 36 * cx1 * cx3 * w0 * w1 * w1 * w3 - sofZ 216 * cx2 * cx2 * w0 * w0 * w2 * w2 + sofZ 108 * cx2 * cx2 * w0 * w1 * w2 * w2 + sofZ 36 * cx2 * cx3 * w0 * w0 * w2 * w3 - sofZ 504 * cy0 * cy0 * w0 * w0 * w1 * w1 + sofZ 756 * cy0 * cy0 * w0 * w0 * w1 * w2 - sofZ 108 * cy0 * cy0 * w0 * w0 * w1 * w3 - sofZ 216 * cy0 * cy0 * w0 * w0 * w2 * w2 + sofZ 36 * cy0 * cy0 * w0 * w0 * w2 * w3 + sofZ 1008 * cy0 * cy1 * w0 * w0 * w1 * w1 - sofZ 756 * cy0 * cy1 * w0 * w0 * w1 * w2 + sofZ 108 * cy0 * cy1 * w0 * w0 * w1 * w3 - sofZ 324 * cy0 * cy1 * w0 * w1 * w1 * w2 + sofZ 36 * cy0 * cy1 * w0 * w1 * w1 * w3 + sofZ 108 * cy0 * cy1 * w0 * w1 * w2 * w2 - sofZ 756 * cy0 * cy2 * w0 * w0 * w1 * w2 + sofZ 432 * cy0 * cy2 * w0 * w0 * w2 * w2 - sofZ 36 * cy0 * cy2 * w0 * w0 * w2 * w3 + sofZ 324 * cy0 * cy2 * w0 * w1 * w1 * w2 - sofZ 108 * cy0 * cy2 * w0 * w1 * w2 * w2 + sofZ 108 * cy0 * cy3 * w0 * w0 * w1 * w3 - sofZ 36 * cy0 * cy3 * w0 * w0 * w2 * w3 - sofZ 36 * cy0 * cy3 * w0 * w1 * w1 * w3 - sofZ 504 * cy1 * cy1 * w0 * w0 * w1 * w1 + sofZ 324 * cy1 * cy1 * w0 * w1 * w1 * w2 - sofZ 36 * cy1 * cy1 * w0 * w1 * w1 * w3 + sofZ 756 * cy1 * cy2 * w0 * w0 * w1 * w2 - sofZ 324 * cy1 * cy2 * w0 * w1 * w1 * w2 - sofZ 108 * cy1 * cy2 * w0 * w1 * w2 * w2 - sofZ 108 * cy1 * cy3 * w0 * w0 * w1 * w3 + sofZ 36 * cy1 * cy3 * w0 * w1 * w1 * w3 - sofZ 216 * cy2 * cy2 * w0 * w0 * w2 * w2 + sofZ 108 * cy2 * cy2 * w0 * w1 * w2 * w2 + sofZ 36 * cy2 * cy3 * w0 * w0 * w2 * w3;
     sofZ 630 * cx0 * cx0 * w0 * w0 * w1 * w1 - sofZ 1260 * cx0 * cx0 * w0 * w0 * w1 * w2 + sofZ 270 * cx0 * cx0 * w0 * w0 * w1 * w3 + sofZ 540 * cx0 * cx0 * w0 * w0 * w2 * w2 - sofZ 180 * cx0 * cx0 * w0 * w0 * w2 * w3 + sofZ 9 * cx0 * cx0 * w0 * w0 * w3 * w3 - sofZ 1260 * cx0 * cx1 * w0 * w0 * w1 * w1 + sofZ 1260 * cx0 * cx1 * w0 * w0 * w1 * w2 - sofZ 270 * cx0 * cx1 * w0 * w0 * w1 * w3 + sofZ 810 * cx0 * cx1 * w0 * w1 * w1 * w2 - sofZ 180 * cx0 * cx1 * w0 * w1 * w1 * w3 - sofZ 540 * cx0 * cx1 * w0 * w1 * w2 * w2 + sofZ 126 * cx0 * cx1 * w0 * w1 * w2 * w3 + sofZ 1260 * cx0 * cx2 * w0 * w0 * w1 * w2 - sofZ 1080 * cx0 * cx2 * w0 * w0 * w2 * w2 + sofZ 180 * cx0 * cx2 * w0 * w0 * w2 * w3 - sofZ 810 * cx0 * cx2 * w0 * w1 * w1 * w2 + sofZ 540 * cx0 * cx2 * w0 * w1 * w2 * w2 - sofZ 36 * cx0 * cx2 * w0 * w1 * w2 * w3 - sofZ 270 * cx0 * cx3 * w0 * w0 * w1 * w3 + sofZ 180 * cx0 * cx3 * w0 * w0 * w2 * w3 - sofZ 18 * cx0 * cx3 * w0 * w0 * w3 * w3 + sofZ 180 * cx0 * cx3 * w0 * w1 * w1 * w3 - sofZ 90 * cx0 * cx3 * w0 * w1 * w2 * w3 + sofZ 630 * cx1 * cx1 * w0 * w0 * w1 * w1 - sofZ 810 * cx1 * cx1 * w0 * w1 * w1 * w2 + sofZ 180 * cx1 * cx1 * w0 * w1 * w1 * w3 + sofZ 81 * cx1 * cx1 * w1 * w1 * w2 * w2 - sofZ 1260 * cx1 * cx2 * w0 * w0 * w1 * w2 + sofZ 810 * cx1 * cx2 * w0 * w1 * w1 * w2 + sofZ 540 * cx1 * cx2 * w0 * w1 * w2 * w2 - sofZ 90 * cx1 * cx2 * w0 * w1 * w2 * w3 - sofZ 162 * cx1 * cx2 * w1 * w1 * w2 * w2 + sofZ 270 * cx1 * cx3 * w0 * w0 * w1 * w3 - sofZ 180 * cx1 * cx3 * w0 * w1 * w1 * w3 - sofZ 36 * cx1 * cx3 * w0 * w1 * w2 * w3 + sofZ 540 * cx2 * cx2 * w0 * w0 * w2 * w2 - sofZ 540 * cx2 * cx2 * w0 * w1 * w2 * w2 + sofZ 81 * cx2 * cx2 * w1 * w1 * w2 * w2 - sofZ 180 * cx2 * cx3 * w0 * w0 * w2 * w3 + sofZ 126 * cx2 * cx3 * w0 * w1 * w2 * w3 + sofZ 9 * cx3 * cx3 * w0 * w0 * w3 * w3 + sofZ 630 * cy0 * cy0 * w0 * w0 * w1 * w1 - sofZ 1260 * cy0 * cy0 * w0 * w0 * w1 * w2 + sofZ 270 * cy0 * cy0 * w0 * w0 * w1 * w3 + sofZ 540 * cy0 * cy0 * w0 * w0 * w2 * w2 - sofZ 180 * cy0 * cy0 * w0 * w0 * w2 * w3 + sofZ 9 * cy0 * cy0 * w0 * w0 * w3 * w3 - sofZ 1260 * cy0 * cy1 * w0 * w0 * w1 * w1 + sofZ 1260 * cy0 * cy1 * w0 * w0 * w1 * w2 - sofZ 270 * cy0 * cy1 * w0 * w0 * w1 * w3 + sofZ 810 * cy0 * cy1 * w0 * w1 * w1 * w2 - sofZ 180 * cy0 * cy1 * w0 * w1 * w1 * w3 - sofZ 540 * cy0 * cy1 * w0 * w1 * w2 * w2 + sofZ 126 * cy0 * cy1 * w0 * w1 * w2 * w3 + sofZ 1260 * cy0 * cy2 * w0 * w0 * w1 * w2 - sofZ 1080 * cy0 * cy2 * w0 * w0 * w2 * w2 + sofZ 180 * cy0 * cy2 * w0 * w0 * w2 * w3 - sofZ 810 * cy0 * cy2 * w0 * w1 * w1 * w2 + sofZ 540 * cy0 * cy2 * w0 * w1 * w2 * w2 - sofZ 36 * cy0 * cy2 * w0 * w1 * w2 * w3 - sofZ 270 * cy0 * cy3 * w0 * w0 * w1 * w3 + sofZ 180 * cy0 * cy3 * w0 * w0 * w2 * w3 - sofZ 18 * cy0 * cy3 * w0 * w0 * w3 * w3 + sofZ 180 * cy0 * cy3 * w0 * w1 * w1 * w3 - sofZ 90 * cy0 * cy3 * w0 * w1 * w2 * w3 + sofZ 630 * cy1 * cy1 * w0 * w0 * w1 * w1 - sofZ 810 * cy1 * cy1 * w0 * w1 * w1 * w2 + sofZ 180 * cy1 * cy1 * w0 * w1 * w1 * w3 + sofZ 81 * cy1 * cy1 * w1 * w1 * w2 * w2 - sofZ 1260 * cy1 * cy2 * w0 * w0 * w1 * w2 + sofZ 810 * cy1 * cy2 * w0 * w1 * w1 * w2 + sofZ 540 * cy1 * cy2 * w0 * w1 * w2 * w2 - sofZ 90 * cy1 * cy2 * w0 * w1 * w2 * w3 - sofZ 162 * cy1 * cy2 * w1 * w1 * w2 * w2 + sofZ 270 * cy1 * cy3 * w0 * w0 * w1 * w3 - sofZ 180 * cy1 * cy3 * w0 * w1 * w1 * w3 - sofZ 36 * cy1 * cy3 * w0 * w1 * w2 * w3 + sofZ 540 * cy2 * cy2 * w0 * w0 * w2 * w2 - sofZ 540 * cy2 * cy2 * w0 * w1 * w2 * w2 + sofZ 81 * cy2 * cy2 * w1 * w1 * w2 * w2 - sofZ 180 * cy2 * cy3 * w0 * w0 * w2 * w3 + sofZ 126 * cy2 * cy3 * w0 * w1 * w2 * w3 + sofZ 9 * cy3 * cy3 * w0 * w0 * w3 * w3;
     - sofZ 504 * cx0 * cx0 * w0 * w0 * w1 * w1 + sofZ 1260 * cx0 * cx0 * w0 * w0 * w1 * w2 - sofZ 360 * cx0 * cx0 * w0 * w0 * w1 * w3 - sofZ 720 * cx0 * cx0 * w0 * w0 * w2 * w2 + sofZ 360 * cx0 * cx0 * w0 * w0 * w2 * w3 - sofZ 36 * cx0 * cx0 * w0 * w0 * w3 * w3 + sofZ 1008 * cx0 * cx1 * w0 * w0 * w1 * w1 - sofZ 1260 * cx0 * cx1 * w0 * w0 * w1 * w2 + sofZ 360 * cx0 * cx1 * w0 * w0 * w1 * w3 - sofZ 1080 * cx0 * cx1 * w0 * w1 * w1 * w2 + sofZ 360 * cx0 * cx1 * w0 * w1 * w1 * w3 + sofZ 1080 * cx0 * cx1 * w0 * w1 * w2 * w2 - sofZ 504 * cx0 * cx1 * w0 * w1 * w2 * w3 + sofZ 36 * cx0 * cx1 * w0 * w1 * w3 * w3 - sofZ 1260 * cx0 * cx2 * w0 * w0 * w1 * w2 + sofZ 1440 * cx0 * cx2 * w0 * w0 * w2 * w2 - sofZ 360 * cx0 * cx2 * w0 * w0 * w2 * w3 + sofZ 1080 * cx0 * cx2 * w0 * w1 * w1 * w2 - sofZ 1080 * cx0 * cx2 * w0 * w1 * w2 * w2 + sofZ 144 * cx0 * cx2 * w0 * w1 * w2 * w3 + sofZ 36 * cx0 * cx2 * w0 * w2 * w2 * w3 + sofZ 360 * cx0 * cx3 * w0 * w0 * w1 * w3 - sofZ 360 * cx0 * cx3 * w0 * w0 * w2 * w3 + sofZ 72 * cx0 * cx3 * w0 * w0 * w3 * w3 - sofZ 360 * cx0 * cx3 * w0 * w1 * w1 * w3 + sofZ 360 * cx0 * cx3 * w0 * w1 * w2 * w3 - sofZ 36 * cx0 * cx3 * w0 * w1 * w3 * w3 - sofZ 36 * cx0 * cx3 * w0 * w2 * w2 * w3 - sofZ 504 * cx1 * cx1 * w0 * w0 * w1 * w1 + sofZ 1080 * cx1 * cx1 * w0 * w1 * w1 * w2 - sofZ 360 * cx1 * cx1 * w0 * w1 * w1 * w3 - sofZ 324 * cx1 * cx1 * w1 * w1 * w2 * w2 + sofZ 108 * cx1 * cx1 * w1 * w1 * w2 * w3 + sofZ 1260 * cx1 * cx2 * w0 * w0 * w1 * w2 - sofZ 1080 * cx1 * cx2 * w0 * w1 * w1 * w2 - sofZ 1080 * cx1 * cx2 * w0 * w1 * w2 * w2 + sofZ 360 * cx1 * cx2 * w0 * w1 * w2 * w3 + sofZ 648 * cx1 * cx2 * w1 * w1 * w2 * w2 - sofZ 108 * cx1 * cx2 * w1 * w1 * w2 * w3 - sofZ 360 * cx1 * cx3 * w0 * w0 * w1 * w3 + sofZ 360 * cx1 * cx3 * w0 * w1 * w1 * w3 + sofZ 144 * cx1 * cx3 * w0 * w1 * w2 * w3 - sofZ 36 * cx1 * cx3 * w0 * w1 * w3 * w3 - sofZ 108 * cx1 * cx3 * w1 * w1 * w2 * w3 - sofZ 720 * cx2 * cx2 * w0 * w0 * w2 * w2 + sofZ 1080 * cx2 * cx2 * w0 * w1 * w2 * w2 - sofZ 36 * cx2 * cx2 * w0 * w2 * w2 * w3 - sofZ 324 * cx2 * cx2 * w1 * w1 * w2 * w2 + sofZ 360 * cx2 * cx3 * w0 * w0 * w2 * w3 - sofZ 504 * cx2 * cx3 * w0 * w1 * w2 * w3 + sofZ 36 * cx2 * cx3 * w0 * w2 * w2 * w3 + sofZ 108 * cx2 * cx3 * w1 * w1 * w2 * w3 - sofZ 36 * cx3 * cx3 * w0 * w0 * w3 * w3 + sofZ 36 * cx3 * cx3 * w0 * w1 * w3 * w3 - sofZ 504 * cy0 * cy0 * w0 * w0 * w1 * w1 + sofZ 1260 * cy0 * cy0 * w0 * w0 * w1 * w2 - sofZ 360 * cy0 * cy0 * w0 * w0 * w1 * w3 - sofZ 720 * cy0 * cy0 * w0 * w0 * w2 * w2 + sofZ 360 * cy0 * cy0 * w0 * w0 * w2 * w3 - sofZ 36 * cy0 * cy0 * w0 * w0 * w3 * w3 + sofZ 1008 * cy0 * cy1 * w0 * w0 * w1 * w1 - sofZ 1260 * cy0 * cy1 * w0 * w0 * w1 * w2 + sofZ 360 * cy0 * cy1 * w0 * w0 * w1 * w3 - sofZ 1080 * cy0 * cy1 * w0 * w1 * w1 * w2 + sofZ 360 * cy0 * cy1 * w0 * w1 * w1 * w3 + sofZ 1080 * cy0 * cy1 * w0 * w1 * w2 * w2 - sofZ 504 * cy0 * cy1 * w0 * w1 * w2 * w3 + sofZ 36 * cy0 * cy1 * w0 * w1 * w3 * w3 - sofZ 1260 * cy0 * cy2 * w0 * w0 * w1 * w2 + sofZ 1440 * cy0 * cy2 * w0 * w0 * w2 * w2 - sofZ 360 * cy0 * cy2 * w0 * w0 * w2 * w3 + sofZ 1080 * cy0 * cy2 * w0 * w1 * w1 * w2 - sofZ 1080 * cy0 * cy2 * w0 * w1 * w2 * w2 + sofZ 144 * cy0 * cy2 * w0 * w1 * w2 * w3 + sofZ 36 * cy0 * cy2 * w0 * w2 * w2 * w3 + sofZ 360 * cy0 * cy3 * w0 * w0 * w1 * w3 - sofZ 360 * cy0 * cy3 * w0 * w0 * w2 * w3 + sofZ 72 * cy0 * cy3 * w0 * w0 * w3 * w3 - sofZ 360 * cy0 * cy3 * w0 * w1 * w1 * w3 + sofZ 360 * cy0 * cy3 * w0 * w1 * w2 * w3 - sofZ 36 * cy0 * cy3 * w0 * w1 * w3 * w3 - sofZ 36 * cy0 * cy3 * w0 * w2 * w2 * w3 - sofZ 504 * cy1 * cy1 * w0 * w0 * w1 * w1 + sofZ 1080 * cy1 * cy1 * w0 * w1 * w1 * w2 - sofZ 360 * cy1 * cy1 * w0 * w1 * w1 * w3 - sofZ 324 * cy1 * cy1 * w1 * w1 * w2 * w2 + sofZ 108 * cy1 * cy1 * w1 * w1 * w2 * w3 + sofZ 1260 * cy1 * cy2 * w0 * w0 * w1 * w2 - sofZ 1080 * cy1 * cy2 * w0 * w1 * w1 * w2 - sofZ 1080 * cy1 * cy2 * w0 * w1 * w2 * w2 + sofZ 360 * cy1 * cy2 * w0 * w1 * w2 * w3 + sofZ 648 * cy1 * cy2 * w1 * w1 * w2 * w2 - sofZ 108 * cy1 * cy2 * w1 * w1 * w2 * w3 - sofZ 360 * cy1 * cy3 * w0 * w0 * w1 * w3 + sofZ 360 * cy1 * cy3 * w0 * w1 * w1 * w3 + sofZ 144 * cy1 * cy3 * w0 * w1 * w2 * w3 - sofZ 36 * cy1 * cy3 * w0 * w1 * w3 * w3 - sofZ 108 * cy1 * cy3 * w1 * w1 * w2 * w3 - sofZ 720 * cy2 * cy2 * w0 * w0 * w2 * w2 + sofZ 1080 * cy2 * cy2 * w0 * w1 * w2 * w2 - sofZ 36 * cy2 * cy2 * w0 * w2 * w2 * w3 - sofZ 324 * cy2 * cy2 * w1 * w1 * w2 * w2 + sofZ 360 * cy2 * cy3 * w0 * w0 * w2 * w3 - sofZ 504 * cy2 * cy3 * w0 * w1 * w2 * w3 + sofZ 36 * cy2 * cy3 * w0 * w2 * w2 * w3 + sofZ 108 * cy2 * cy3 * w1 * w1 * w2 * w3 - sofZ 36 * cy3 * cy3 * w0 * w0 * w3 * w3 + sofZ 36 * cy3 * cy3 * w0 * w1 * w3 * w3;
     sofZ 252 * cx0 * cx0 * w0 * w0 * w1 * w1 - sofZ 756 * cx0 * cx0 * w0 * w0 * w1 * w2 + sofZ 270 * cx0 * cx0 * w0 * w0 * w1 * w3 + sofZ 540 * cx0 * cx0 * w0 * w0 * w2 * w2 - sofZ 360 * cx0 * cx0 * w0 * w0 * w2 * w3 + sofZ 54 * cx0 * cx0 * w0 * w0 * w3 * w3 - sofZ 504 * cx0 * cx1 * w0 * w0 * w1 * w1 + sofZ 756 * cx0 * cx1 * w0 * w0 * w1 * w2 - sofZ 270 * cx0 * cx1 * w0 * w0 * w1 * w3 + sofZ 810 * cx0 * cx1 * w0 * w1 * w1 * w2 - sofZ 360 * cx0 * cx1 * w0 * w1 * w1 * w3 - sofZ 1080 * cx0 * cx1 * w0 * w1 * w2 * w2 + sofZ 756 * cx0 * cx1 * w0 * w1 * w2 * w3 - sofZ 108 * cx0 * cx1 * w0 * w1 * w3 * w3 + sofZ 756 * cx0 * cx2 * w0 * w0 * w1 * w2 - sofZ 1080 * cx0 * cx2 * w0 * w0 * w2 * w2 + sofZ 360 * cx0 * cx2 * w0 * w0 * w2 * w3 - sofZ 810 * cx0 * cx2 * w0 * w1 * w1 * w2 + sofZ 1080 * cx0 * cx2 * w0 * w1 * w2 * w2 - sofZ 216 * cx0 * cx2 * w0 * w1 * w2 * w3 - sofZ 108 * cx0 * cx2 * w0 * w2 * w2 * w3 + sofZ 18 * cx0 * cx2 * w0 * w2 * w3 * w3 - sofZ 270 * cx0 * cx3 * w0 * w0 * w1 * w3 + sofZ 360 * cx0 * cx3 * w0 * w0 * w2 * w3 - sofZ 108 * cx0 * cx3 * w0 * w0 * w3 * w3 + sofZ 360 * cx0 * cx3 * w0 * w1 * w1 * w3 - sofZ 540 * cx0 * cx3 * w0 * w1 * w2 * w3 + sofZ 108 * cx0 * cx3 * w0 * w1 * w3 * w3 + sofZ 108 * cx0 * cx3 * w0 * w2 * w2 * w3 - sofZ 18 * cx0 * cx3 * w0 * w2 * w3 * w3 + sofZ 252 * cx1 * cx1 * w0 * w0 * w1 * w1 - sofZ 810 * cx1 * cx1 * w0 * w1 * w1 * w2 + sofZ 360 * cx1 * cx1 * w0 * w1 * w1 * w3 + sofZ 486 * cx1 * cx1 * w1 * w1 * w2 * w2 - sofZ 324 * cx1 * cx1 * w1 * w1 * w2 * w3 + sofZ 36 * cx1 * cx1 * w1 * w1 * w3 * w3 - sofZ 756 * cx1 * cx2 * w0 * w0 * w1 * w2 + sofZ 810 * cx1 * cx2 * w0 * w1 * w1 * w2 + sofZ 1080 * cx1 * cx2 * w0 * w1 * w2 * w2 - sofZ 540 * cx1 * cx2 * w0 * w1 * w2 * w3 - sofZ 972 * cx1 * cx2 * w1 * w1 * w2 * w2 + sofZ 324 * cx1 * cx2 * w1 * w1 * w2 * w3 + sofZ 54 * cx1 * cx2 * w1 * w2 * w2 * w3 + sofZ 270 * cx1 * cx3 * w0 * w0 * w1 * w3 - sofZ 360 * cx1 * cx3 * w0 * w1 * w1 * w3 - sofZ 216 * cx1 * cx3 * w0 * w1 * w2 * w3 + sofZ 108 * cx1 * cx3 * w0 * w1 * w3 * w3 + sofZ 324 * cx1 * cx3 * w1 * w1 * w2 * w3 - sofZ 72 * cx1 * cx3 * w1 * w1 * w3 * w3 - sofZ 54 * cx1 * cx3 * w1 * w2 * w2 * w3 + sofZ 540 * cx2 * cx2 * w0 * w0 * w2 * w2 - sofZ 1080 * cx2 * cx2 * w0 * w1 * w2 * w2 + sofZ 108 * cx2 * cx2 * w0 * w2 * w2 * w3 + sofZ 486 * cx2 * cx2 * w1 * w1 * w2 * w2 - sofZ 54 * cx2 * cx2 * w1 * w2 * w2 * w3 - sofZ 360 * cx2 * cx3 * w0 * w0 * w2 * w3 + sofZ 756 * cx2 * cx3 * w0 * w1 * w2 * w3 - sofZ 108 * cx2 * cx3 * w0 * w2 * w2 * w3 - sofZ 18 * cx2 * cx3 * w0 * w2 * w3 * w3 - sofZ 324 * cx2 * cx3 * w1 * w1 * w2 * w3 + sofZ 54 * cx2 * cx3 * w1 * w2 * w2 * w3 + sofZ 54 * cx3 * cx3 * w0 * w0 * w3 * w3 - sofZ 108 * cx3 * cx3 * w0 * w1 * w3 * w3 + sofZ 18 * cx3 * cx3 * w0 * w2 * w3 * w3 + sofZ 36 * cx3 * cx3 * w1 * w1 * w3 * w3 + sofZ 252 * cy0 * cy0 * w0 * w0 * w1 * w1 - sofZ 756 * cy0 * cy0 * w0 * w0 * w1 * w2 + sofZ 270 * cy0 * cy0 * w0 * w0 * w1 * w3 + sofZ 540 * cy0 * cy0 * w0 * w0 * w2 * w2 - sofZ 360 * cy0 * cy0 * w0 * w0 * w2 * w3 + sofZ 54 * cy0 * cy0 * w0 * w0 * w3 * w3 - sofZ 504 * cy0 * cy1 * w0 * w0 * w1 * w1 + sofZ 756 * cy0 * cy1 * w0 * w0 * w1 * w2 - sofZ 270 * cy0 * cy1 * w0 * w0 * w1 * w3 + sofZ 810 * cy0 * cy1 * w0 * w1 * w1 * w2 - sofZ 360 * cy0 * cy1 * w0 * w1 * w1 * w3 - sofZ 1080 * cy0 * cy1 * w0 * w1 * w2 * w2 + sofZ 756 * cy0 * cy1 * w0 * w1 * w2 * w3 - sofZ 108 * cy0 * cy1 * w0 * w1 * w3 * w3 + sofZ 756 * cy0 * cy2 * w0 * w0 * w1 * w2 - sofZ 1080 * cy0 * cy2 * w0 * w0 * w2 * w2 + sofZ 360 * cy0 * cy2 * w0 * w0 * w2 * w3 - sofZ 810 * cy0 * cy2 * w0 * w1 * w1 * w2 + sofZ 1080 * cy0 * cy2 * w0 * w1 * w2 * w2 - sofZ 216 * cy0 * cy2 * w0 * w1 * w2 * w3 - sofZ 108 * cy0 * cy2 * w0 * w2 * w2 * w3 + sofZ 18 * cy0 * cy2 * w0 * w2 * w3 * w3 - sofZ 270 * cy0 * cy3 * w0 * w0 * w1 * w3 + sofZ 360 * cy0 * cy3 * w0 * w0 * w2 * w3 - sofZ 108 * cy0 * cy3 * w0 * w0 * w3 * w3 + sofZ 360 * cy0 * cy3 * w0 * w1 * w1 * w3 - sofZ 540 * cy0 * cy3 * w0 * w1 * w2 * w3 + sofZ 108 * cy0 * cy3 * w0 * w1 * w3 * w3 + sofZ 108 * cy0 * cy3 * w0 * w2 * w2 * w3 - sofZ 18 * cy0 * cy3 * w0 * w2 * w3 * w3 + sofZ 252 * cy1 * cy1 * w0 * w0 * w1 * w1 - sofZ 810 * cy1 * cy1 * w0 * w1 * w1 * w2 + sofZ 360 * cy1 * cy1 * w0 * w1 * w1 * w3 + sofZ 486 * cy1 * cy1 * w1 * w1 * w2 * w2 - sofZ 324 * cy1 * cy1 * w1 * w1 * w2 * w3 + sofZ 36 * cy1 * cy1 * w1 * w1 * w3 * w3 - sofZ 756 * cy1 * cy2 * w0 * w0 * w1 * w2 + sofZ 810 * cy1 * cy2 * w0 * w1 * w1 * w2 + sofZ 1080 * cy1 * cy2 * w0 * w1 * w2 * w2 - sofZ 540 * cy1 * cy2 * w0 * w1 * w2 * w3 - sofZ 972 * cy1 * cy2 * w1 * w1 * w2 * w2 + sofZ 324 * cy1 * cy2 * w1 * w1 * w2 * w3 + sofZ 54 * cy1 * cy2 * w1 * w2 * w2 * w3 + sofZ 270 * cy1 * cy3 * w0 * w0 * w1 * w3 - sofZ 360 * cy1 * cy3 * w0 * w1 * w1 * w3 - sofZ 216 * cy1 * cy3 * w0 * w1 * w2 * w3 + sofZ 108 * cy1 * cy3 * w0 * w1 * w3 * w3 + sofZ 324 * cy1 * cy3 * w1 * w1 * w2 * w3 - sofZ 72 * cy1 * cy3 * w1 * w1 * w3 * w3 - sofZ 54 * cy1 * cy3 * w1 * w2 * w2 * w3 + sofZ 540 * cy2 * cy2 * w0 * w0 * w2 * w2 - sofZ 1080 * cy2 * cy2 * w0 * w1 * w2 * w2 + sofZ 108 * cy2 * cy2 * w0 * w2 * w2 * w3 + sofZ 486 * cy2 * cy2 * w1 * w1 * w2 * w2 - sofZ 54 * cy2 * cy2 * w1 * w2 * w2 * w3 - sofZ 360 * cy2 * cy3 * w0 * w0 * w2 * w3 + sofZ 756 * cy2 * cy3 * w0 * w1 * w2 * w3 - sofZ 108 * cy2 * cy3 * w0 * w2 * w2 * w3 - sofZ 18 * cy2 * cy3 * w0 * w2 * w3 * w3 - sofZ 324 * cy2 * cy3 * w1 * w1 * w2 * w3 + sofZ 54 * cy2 * cy3 * w1 * w2 * w2 * w3 + sofZ 54 * cy3 * cy3 * w0 * w0 * w3 * w3 - sofZ 108 * cy3 * cy3 * w0 * w1 * w3 * w3 + sofZ 18 * cy3 * cy3 * w0 * w2 * w3 * w3 + sofZ 36 * cy3 * cy3 * w1 * w1 * w3 * w3;
     - sofZ 72 * cx0 * cx0 * w0 * w0 * w1 * w1 + sofZ 252 * cx0 * cx0 * w0 * w0 * w1 * w2 - sofZ 108 * cx0 * cx0 * w0 * w0 * w1 * w3 - sofZ 216 * cx0 * cx0 * w0 * w0 * w2 * w2 + sofZ 180 * cx0 * cx0 * w0 * w0 * w2 * w3 - sofZ 36 * cx0 * cx0 * w0 * w0 * w3 * w3 + sofZ 144 * cx0 * cx1 * w0 * w0 * w1 * w1 - sofZ 252 * cx0 * cx1 * w0 * w0 * w1 * w2 + sofZ 108 * cx0 * cx1 * w0 * w0 * w1 * w3 - sofZ 324 * cx0 * cx1 * w0 * w1 * w1 * w2 + sofZ 180 * cx0 * cx1 * w0 * w1 * w1 * w3 + sofZ 540 * cx0 * cx1 * w0 * w1 * w2 * w2 - sofZ 504 * cx0 * cx1 * w0 * w1 * w2 * w3 + sofZ 108 * cx0 * cx1 * w0 * w1 * w3 * w3 - sofZ 252 * cx0 * cx2 * w0 * w0 * w1 * w2 + sofZ 432 * cx0 * cx2 * w0 * w0 * w2 * w2 - sofZ 180 * cx0 * cx2 * w0 * w0 * w2 * w3 + sofZ 324 * cx0 * cx2 * w0 * w1 * w1 * w2 - sofZ 540 * cx0 * cx2 * w0 * w1 * w2 * w2 + sofZ 144 * cx0 * cx2 * w0 * w1 * w2 * w3 + sofZ 108 * cx0 * cx2 * w0 * w2 * w2 * w3 - sofZ 36 * cx0 * cx2 * w0 * w2 * w3 * w3 + sofZ 108 * cx0 * cx3 * w0 * w0 * w1 * w3 - sofZ 180 * cx0 * cx3 * w0 * w0 * w2 * w3 + sofZ 72 * cx0 * cx3 * w0 * w0 * w3 * w3 - sofZ 180 * cx0 * cx3 * w0 * w1 * w1 * w3 + sofZ 360 * cx0 * cx3 * w0 * w1 * w2 * w3 - sofZ 108 * cx0 * cx3 * w0 * w1 * w3 * w3 - sofZ 108 * cx0 * cx3 * w0 * w2 * w2 * w3 + sofZ 36 * cx0 * cx3 * w0 * w2 * w3 * w3 - sofZ 72 * cx1 * cx1 * w0 * w0 * w1 * w1 + sofZ 324 * cx1 * cx1 * w0 * w1 * w1 * w2 - sofZ 180 * cx1 * cx1 * w0 * w1 * w1 * w3 - sofZ 324 * cx1 * cx1 * w1 * w1 * w2 * w2 + sofZ 324 * cx1 * cx1 * w1 * w1 * w2 * w3 - sofZ 72 * cx1 * cx1 * w1 * w1 * w3 * w3 + sofZ 252 * cx1 * cx2 * w0 * w0 * w1 * w2 - sofZ 324 * cx1 * cx2 * w0 * w1 * w1 * w2 - sofZ 540 * cx1 * cx2 * w0 * w1 * w2 * w2 + sofZ 360 * cx1 * cx2 * w0 * w1 * w2 * w3 + sofZ 648 * cx1 * cx2 * w1 * w1 * w2 * w2 - sofZ 324 * cx1 * cx2 * w1 * w1 * w2 * w3 - sofZ 108 * cx1 * cx2 * w1 * w2 * w2 * w3 + sofZ 36 * cx1 * cx2 * w1 * w2 * w3 * w3 - sofZ 108 * cx1 * cx3 * w0 * w0 * w1 * w3 + sofZ 180 * cx1 * cx3 * w0 * w1 * w1 * w3 + sofZ 144 * cx1 * cx3 * w0 * w1 * w2 * w3 - sofZ 108 * cx1 * cx3 * w0 * w1 * w3 * w3 - sofZ 324 * cx1 * cx3 * w1 * w1 * w2 * w3 + sofZ 144 * cx1 * cx3 * w1 * w1 * w3 * w3 + sofZ 108 * cx1 * cx3 * w1 * w2 * w2 * w3 - sofZ 36 * cx1 * cx3 * w1 * w2 * w3 * w3 - sofZ 216 * cx2 * cx2 * w0 * w0 * w2 * w2 + sofZ 540 * cx2 * cx2 * w0 * w1 * w2 * w2 - sofZ 108 * cx2 * cx2 * w0 * w2 * w2 * w3 - sofZ 324 * cx2 * cx2 * w1 * w1 * w2 * w2 + sofZ 108 * cx2 * cx2 * w1 * w2 * w2 * w3 + sofZ 180 * cx2 * cx3 * w0 * w0 * w2 * w3 - sofZ 504 * cx2 * cx3 * w0 * w1 * w2 * w3 + sofZ 108 * cx2 * cx3 * w0 * w2 * w2 * w3 + sofZ 36 * cx2 * cx3 * w0 * w2 * w3 * w3 + sofZ 324 * cx2 * cx3 * w1 * w1 * w2 * w3 - sofZ 108 * cx2 * cx3 * w1 * w2 * w2 * w3 - sofZ 36 * cx2 * cx3 * w1 * w2 * w3 * w3 - sofZ 36 * cx3 * cx3 * w0 * w0 * w3 * w3 + sofZ 108 * cx3 * cx3 * w0 * w1 * w3 * w3 - sofZ 36 * cx3 * cx3 * w0 * w2 * w3 * w3 - sofZ 72 * cx3 * cx3 * w1 * w1 * w3 * w3 + sofZ 36 * cx3 * cx3 * w1 * w2 * w3 * w3 - sofZ 72 * cy0 * cy0 * w0 * w0 * w1 * w1 + sofZ 252 * cy0 * cy0 * w0 * w0 * w1 * w2 - sofZ 108 * cy0 * cy0 * w0 * w0 * w1 * w3 - sofZ 216 * cy0 * cy0 * w0 * w0 * w2 * w2 + sofZ 180 * cy0 * cy0 * w0 * w0 * w2 * w3 - sofZ 36 * cy0 * cy0 * w0 * w0 * w3 * w3 + sofZ 144 * cy0 * cy1 * w0 * w0 * w1 * w1 - sofZ 252 * cy0 * cy1 * w0 * w0 * w1 * w2 + sofZ 108 * cy0 * cy1 * w0 * w0 * w1 * w3 - sofZ 324 * cy0 * cy1 * w0 * w1 * w1 * w2 + sofZ 180 * cy0 * cy1 * w0 * w1 * w1 * w3 + sofZ 540 * cy0 * cy1 * w0 * w1 * w2 * w2 - sofZ 504 * cy0 * cy1 * w0 * w1 * w2 * w3 + sofZ 108 * cy0 * cy1 * w0 * w1 * w3 * w3 - sofZ 252 * cy0 * cy2 * w0 * w0 * w1 * w2 + sofZ 432 * cy0 * cy2 * w0 * w0 * w2 * w2 - sofZ 180 * cy0 * cy2 * w0 * w0 * w2 * w3 + sofZ 324 * cy0 * cy2 * w0 * w1 * w1 * w2 - sofZ 540 * cy0 * cy2 * w0 * w1 * w2 * w2 + sofZ 144 * cy0 * cy2 * w0 * w1 * w2 * w3 + sofZ 108 * cy0 * cy2 * w0 * w2 * w2 * w3 - sofZ 36 * cy0 * cy2 * w0 * w2 * w3 * w3 + sofZ 108 * cy0 * cy3 * w0 * w0 * w1 * w3 - sofZ 180 * cy0 * cy3 * w0 * w0 * w2 * w3 + sofZ 72 * cy0 * cy3 * w0 * w0 * w3 * w3 - sofZ 180 * cy0 * cy3 * w0 * w1 * w1 * w3 + sofZ 360 * cy0 * cy3 * w0 * w1 * w2 * w3 - sofZ 108 * cy0 * cy3 * w0 * w1 * w3 * w3 - sofZ 108 * cy0 * cy3 * w0 * w2 * w2 * w3 + sofZ 36 * cy0 * cy3 * w0 * w2 * w3 * w3 - sofZ 72 * cy1 * cy1 * w0 * w0 * w1 * w1 + sofZ 324 * cy1 * cy1 * w0 * w1 * w1 * w2 - sofZ 180 * cy1 * cy1 * w0 * w1 * w1 * w3 - sofZ 324 * cy1 * cy1 * w1 * w1 * w2 * w2 + sofZ 324 * cy1 * cy1 * w1 * w1 * w2 * w3 - sofZ 72 * cy1 * cy1 * w1 * w1 * w3 * w3 + sofZ 252 * cy1 * cy2 * w0 * w0 * w1 * w2 - sofZ 324 * cy1 * cy2 * w0 * w1 * w1 * w2 - sofZ 540 * cy1 * cy2 * w0 * w1 * w2 * w2 + sofZ 360 * cy1 * cy2 * w0 * w1 * w2 * w3 + sofZ 648 * cy1 * cy2 * w1 * w1 * w2 * w2 - sofZ 324 * cy1 * cy2 * w1 * w1 * w2 * w3 - sofZ 108 * cy1 * cy2 * w1 * w2 * w2 * w3 + sofZ 36 * cy1 * cy2 * w1 * w2 * w3 * w3 - sofZ 108 * cy1 * cy3 * w0 * w0 * w1 * w3 + sofZ 180 * cy1 * cy3 * w0 * w1 * w1 * w3 + sofZ 144 * cy1 * cy3 * w0 * w1 * w2 * w3 - sofZ 108 * cy1 * cy3 * w0 * w1 * w3 * w3 - sofZ 324 * cy1 * cy3 * w1 * w1 * w2 * w3 + sofZ 144 * cy1 * cy3 * w1 * w1 * w3 * w3 + sofZ 108 * cy1 * cy3 * w1 * w2 * w2 * w3 - sofZ 36 * cy1 * cy3 * w1 * w2 * w3 * w3 - sofZ 216 * cy2 * cy2 * w0 * w0 * w2 * w2 + sofZ 540 * cy2 * cy2 * w0 * w1 * w2 * w2 - sofZ 108 * cy2 * cy2 * w0 * w2 * w2 * w3 - sofZ 324 * cy2 * cy2 * w1 * w1 * w2 * w2 + sofZ 108 * cy2 * cy2 * w1 * w2 * w2 * w3 + sofZ 180 * cy2 * cy3 * w0 * w0 * w2 * w3 - sofZ 504 * cy2 * cy3 * w0 * w1 * w2 * w3 + sofZ 108 * cy2 * cy3 * w0 * w2 * w2 * w3 + sofZ 36 * cy2 * cy3 * w0 * w2 * w3 * w3 + sofZ 324 * cy2 * cy3 * w1 * w1 * w2 * w3 - sofZ 108 * cy2 * cy3 * w1 * w2 * w2 * w3 - sofZ 36 * cy2 * cy3 * w1 * w2 * w3 * w3 - sofZ 36 * cy3 * cy3 * w0 * w0 * w3 * w3 + sofZ 108 * cy3 * cy3 * w0 * w1 * w3 * w3 - sofZ 36 * cy3 * cy3 * w0 * w2 * w3 * w3 - sofZ 72 * cy3 * cy3 * w1 * w1 * w3 * w3 + sofZ 36 * cy3 * cy3 * w1 * w2 * w3 * w3;
     sofZ 9 * cx0 * cx0 * w0 * w0 * w1 * w1 - sofZ 36 * cx0 * cx0 * w0 * w0 * w1 * w2 + sofZ 18 * cx0 * cx0 * w0 * w0 * w1 * w3 + sofZ 36 * cx0 * cx0 * w0 * w0 * w2 * w2 - sofZ 36 * cx0 * cx0 * w0 * w0 * w2 * w3 + sofZ 9 * cx0 * cx0 * w0 * w0 * w3 * w3 - sofZ 18 * cx0 * cx1 * w0 * w0 * w1 * w1 + sofZ 36 * cx0 * cx1 * w0 * w0 * w1 * w2 - sofZ 18 * cx0 * cx1 * w0 * w0 * w1 * w3 + sofZ 54 * cx0 * cx1 * w0 * w1 * w1 * w2 - sofZ 36 * cx0 * cx1 * w0 * w1 * w1 * w3 - sofZ 108 * cx0 * cx1 * w0 * w1 * w2 * w2 + sofZ 126 * cx0 * cx1 * w0 * w1 * w2 * w3 - sofZ 36 * cx0 * cx1 * w0 * w1 * w3 * w3 + sofZ 36 * cx0 * cx2 * w0 * w0 * w1 * w2 - sofZ 72 * cx0 * cx2 * w0 * w0 * w2 * w2 + sofZ 36 * cx0 * cx2 * w0 * w0 * w2 * w3 - sofZ 54 * cx0 * cx2 * w0 * w1 * w1 * w2 + sofZ 108 * cx0 * cx2 * w0 * w1 * w2 * w2 - sofZ 36 * cx0 * cx2 * w0 * w1 * w2 * w3 - sofZ 36 * cx0 * cx2 * w0 * w2 * w2 * w3 + sofZ 18 * cx0 * cx2 * w0 * w2 * w3 * w3 - sofZ 18 * cx0 * cx3 * w0 * w0 * w1 * w3 + sofZ 36 * cx0 * cx3 * w0 * w0 * w2 * w3 - sofZ 18 * cx0 * cx3 * w0 * w0 * w3 * w3 + sofZ 36 * cx0 * cx3 * w0 * w1 * w1 * w3 - sofZ 90 * cx0 * cx3 * w0 * w1 * w2 * w3 + sofZ 36 * cx0 * cx3 * w0 * w1 * w3 * w3 + sofZ 36 * cx0 * cx3 * w0 * w2 * w2 * w3 - sofZ 18 * cx0 * cx3 * w0 * w2 * w3 * w3 + sofZ 9 * cx1 * cx1 * w0 * w0 * w1 * w1 - sofZ 54 * cx1 * cx1 * w0 * w1 * w1 * w2 + sofZ 36 * cx1 * cx1 * w0 * w1 * w1 * w3 + sofZ 81 * cx1 * cx1 * w1 * w1 * w2 * w2 - sofZ 108 * cx1 * cx1 * w1 * w1 * w2 * w3 + sofZ 36 * cx1 * cx1 * w1 * w1 * w3 * w3 - sofZ 36 * cx1 * cx2 * w0 * w0 * w1 * w2 + sofZ 54 * cx1 * cx2 * w0 * w1 * w1 * w2 + sofZ 108 * cx1 * cx2 * w0 * w1 * w2 * w2 - sofZ 90 * cx1 * cx2 * w0 * w1 * w2 * w3 - sofZ 162 * cx1 * cx2 * w1 * w1 * w2 * w2 + sofZ 108 * cx1 * cx2 * w1 * w1 * w2 * w3 + sofZ 54 * cx1 * cx2 * w1 * w2 * w2 * w3 - sofZ 36 * cx1 * cx2 * w1 * w2 * w3 * w3 + sofZ 18 * cx1 * cx3 * w0 * w0 * w1 * w3 - sofZ 36 * cx1 * cx3 * w0 * w1 * w1 * w3 - sofZ 36 * cx1 * cx3 * w0 * w1 * w2 * w3 + sofZ 36 * cx1 * cx3 * w0 * w1 * w3 * w3 + sofZ 108 * cx1 * cx3 * w1 * w1 * w2 * w3 - sofZ 72 * cx1 * cx3 * w1 * w1 * w3 * w3 - sofZ 54 * cx1 * cx3 * w1 * w2 * w2 * w3 + sofZ 36 * cx1 * cx3 * w1 * w2 * w3 * w3 + sofZ 36 * cx2 * cx2 * w0 * w0 * w2 * w2 - sofZ 108 * cx2 * cx2 * w0 * w1 * w2 * w2 + sofZ 36 * cx2 * cx2 * w0 * w2 * w2 * w3 + sofZ 81 * cx2 * cx2 * w1 * w1 * w2 * w2 - sofZ 54 * cx2 * cx2 * w1 * w2 * w2 * w3 + sofZ 9 * cx2 * cx2 * w2 * w2 * w3 * w3 - sofZ 36 * cx2 * cx3 * w0 * w0 * w2 * w3 + sofZ 126 * cx2 * cx3 * w0 * w1 * w2 * w3 - sofZ 36 * cx2 * cx3 * w0 * w2 * w2 * w3 - sofZ 18 * cx2 * cx3 * w0 * w2 * w3 * w3 - sofZ 108 * cx2 * cx3 * w1 * w1 * w2 * w3 + sofZ 54 * cx2 * cx3 * w1 * w2 * w2 * w3 + sofZ 36 * cx2 * cx3 * w1 * w2 * w3 * w3 - sofZ 18 * cx2 * cx3 * w2 * w2 * w3 * w3 + sofZ 9 * cx3 * cx3 * w0 * w0 * w3 * w3 - sofZ 36 * cx3 * cx3 * w0 * w1 * w3 * w3 + sofZ 18 * cx3 * cx3 * w0 * w2 * w3 * w3 + sofZ 36 * cx3 * cx3 * w1 * w1 * w3 * w3 - sofZ 36 * cx3 * cx3 * w1 * w2 * w3 * w3 + sofZ 9 * cx3 * cx3 * w2 * w2 * w3 * w3 + sofZ 9 * cy0 * cy0 * w0 * w0 * w1 * w1 - sofZ 36 * cy0 * cy0 * w0 * w0 * w1 * w2 + sofZ 18 * cy0 * cy0 * w0 * w0 * w1 * w3 + sofZ 36 * cy0 * cy0 * w0 * w0 * w2 * w2 - sofZ 36 * cy0 * cy0 * w0 * w0 * w2 * w3 + sofZ 9 * cy0 * cy0 * w0 * w0 * w3 * w3 - sofZ 18 * cy0 * cy1 * w0 * w0 * w1 * w1 + sofZ 36 * cy0 * cy1 * w0 * w0 * w1 * w2 - sofZ 18 * cy0 * cy1 * w0 * w0 * w1 * w3 + sofZ 54 * cy0 * cy1 * w0 * w1 * w1 * w2 - sofZ 36 * cy0 * cy1 * w0 * w1 * w1 * w3 - sofZ 108 * cy0 * cy1 * w0 * w1 * w2 * w2 + sofZ 126 * cy0 * cy1 * w0 * w1 * w2 * w3 - sofZ 36 * cy0 * cy1 * w0 * w1 * w3 * w3 + sofZ 36 * cy0 * cy2 * w0 * w0 * w1 * w2 - sofZ 72 * cy0 * cy2 * w0 * w0 * w2 * w2 + sofZ 36 * cy0 * cy2 * w0 * w0 * w2 * w3 - sofZ 54 * cy0 * cy2 * w0 * w1 * w1 * w2 + sofZ 108 * cy0 * cy2 * w0 * w1 * w2 * w2 - sofZ 36 * cy0 * cy2 * w0 * w1 * w2 * w3 - sofZ 36 * cy0 * cy2 * w0 * w2 * w2 * w3 + sofZ 18 * cy0 * cy2 * w0 * w2 * w3 * w3 - sofZ 18 * cy0 * cy3 * w0 * w0 * w1 * w3 + sofZ 36 * cy0 * cy3 * w0 * w0 * w2 * w3 - sofZ 18 * cy0 * cy3 * w0 * w0 * w3 * w3 + sofZ 36 * cy0 * cy3 * w0 * w1 * w1 * w3 - sofZ 90 * cy0 * cy3 * w0 * w1 * w2 * w3 + sofZ 36 * cy0 * cy3 * w0 * w1 * w3 * w3 + sofZ 36 * cy0 * cy3 * w0 * w2 * w2 * w3 - sofZ 18 * cy0 * cy3 * w0 * w2 * w3 * w3 + sofZ 9 * cy1 * cy1 * w0 * w0 * w1 * w1 - sofZ 54 * cy1 * cy1 * w0 * w1 * w1 * w2 + sofZ 36 * cy1 * cy1 * w0 * w1 * w1 * w3 + sofZ 81 * cy1 * cy1 * w1 * w1 * w2 * w2 - sofZ 108 * cy1 * cy1 * w1 * w1 * w2 * w3 + sofZ 36 * cy1 * cy1 * w1 * w1 * w3 * w3 - sofZ 36 * cy1 * cy2 * w0 * w0 * w1 * w2 + sofZ 54 * cy1 * cy2 * w0 * w1 * w1 * w2 + sofZ 108 * cy1 * cy2 * w0 * w1 * w2 * w2 - sofZ 90 * cy1 * cy2 * w0 * w1 * w2 * w3 - sofZ 162 * cy1 * cy2 * w1 * w1 * w2 * w2 + sofZ 108 * cy1 * cy2 * w1 * w1 * w2 * w3 + sofZ 54 * cy1 * cy2 * w1 * w2 * w2 * w3 - sofZ 36 * cy1 * cy2 * w1 * w2 * w3 * w3 + sofZ 18 * cy1 * cy3 * w0 * w0 * w1 * w3 - sofZ 36 * cy1 * cy3 * w0 * w1 * w1 * w3 - sofZ 36 * cy1 * cy3 * w0 * w1 * w2 * w3 + sofZ 36 * cy1 * cy3 * w0 * w1 * w3 * w3 + sofZ 108 * cy1 * cy3 * w1 * w1 * w2 * w3 - sofZ 72 * cy1 * cy3 * w1 * w1 * w3 * w3 - sofZ 54 * cy1 * cy3 * w1 * w2 * w2 * w3 + sofZ 36 * cy1 * cy3 * w1 * w2 * w3 * w3 + sofZ 36 * cy2 * cy2 * w0 * w0 * w2 * w2 - sofZ 108 * cy2 * cy2 * w0 * w1 * w2 * w2 + sofZ 36 * cy2 * cy2 * w0 * w2 * w2 * w3 + sofZ 81 * cy2 * cy2 * w1 * w1 * w2 * w2 - sofZ 54 * cy2 * cy2 * w1 * w2 * w2 * w3 + sofZ 9 * cy2 * cy2 * w2 * w2 * w3 * w3 - sofZ 36 * cy2 * cy3 * w0 * w0 * w2 * w3 + sofZ 126 * cy2 * cy3 * w0 * w1 * w2 * w3 - sofZ 36 * cy2 * cy3 * w0 * w2 * w2 * w3 - sofZ 18 * cy2 * cy3 * w0 * w2 * w3 * w3 - sofZ 108 * cy2 * cy3 * w1 * w1 * w2 * w3 + sofZ 54 * cy2 * cy3 * w1 * w2 * w2 * w3 + sofZ 36 * cy2 * cy3 * w1 * w2 * w3 * w3 - sofZ 18 * cy2 * cy3 * w2 * w2 * w3 * w3 + sofZ 9 * cy3 * cy3 * w0 * w0 * w3 * w3 - sofZ 36 * cy3 * cy3 * w0 * w1 * w3 * w3 + sofZ 18 * cy3 * cy3 * w0 * w2 * w3 * w3 + sofZ 36 * cy3 * cy3 * w1 * w1 * w3 * w3 - sofZ 36 * cy3 * cy3 * w1 * w2 * w3 * w3 + sofZ 9 * cy3 * cy3 * w2 * w2 * w3 * w3].

  (** internal/auto_match_tangent_RationalBezier.h:18-37 match_tangent_RationalBezier_degree_2 *)
  Definition rtang_2 (cx0 cy0 cx1 cy1 cx2 cy2 w0 w1 w2 tcutxp tcutyp : T) : list T :=
    [- sofZ 2 * cx0 * tcutxp + sofZ 2 * cx1 * tcutxp - sofZ 2 * cy0 * tcutyp + sofZ 2 * cy1 * tcutyp;
     sofZ 2 * cx0 * tcutxp - sofZ 4 * cx1 * tcutxp + sofZ 2 * cx2 * tcutxp + sofZ 2 * cy0 * tcutyp - sofZ 4 * cy1 * tcutyp + sofZ 2 * cy2 * tcutyp].

  (** internal/auto_match_tangent_RationalBezier.h:41-61 match_tangent_RationalBezier_degree_3 *)
  Definition rtang_3 (cx0 cy0 cx1 cy1 cx2 cy2 cx3 cy3 w0 w1 w2 w3 tcutxp tcutyp : T) : list T :=
    [- sofZ 3 * cx0 * tcutxp + sofZ 3 * cx1 * tcutxp - sofZ 3 * cy0 * tcutyp + sofZ 3 * cy1 * tcutyp;
     sofZ 6 * cx0 * tcutxp - sofZ 12 * cx1 * tcutxp + sofZ 6 * cx2 * tcutxp + sofZ 6 * cy0 * tcutyp - sofZ 12 * cy1 * tcutyp + sofZ 6 * cy2 * tcutyp;
     - sofZ 3 * cx0 * tcutxp + sofZ 9 * cx1 * tcutxp - sofZ 9 * cx2 * tcutxp + sofZ 3 * cx3 * tcutxp - sofZ 3 * cy0 * tcutyp + sofZ 9 * cy1 * tcutyp - sofZ 9 * cy2 * tcutyp + sofZ 3 * cy3 * tcutyp].

  (** internal/auto_match_tangent_RationalBezier.h:65-86 match_tangent_RationalBezier_degree_4 *)
  Definition rtang_4 (cx0 cy0 cx1 cy1 cx2 cy2 cx3 cy3 cx4 cy4 w0 w1 w2 w3 w4 tcutxp tcutyp : T) : list T :=
    [- sofZ 4 * cx0 * tcutxp + sofZ 4 * cx1 * tcutxp - sofZ 4 * cy0 * tcutyp + sofZ 4 * cy1 * tcutyp;
     sofZ 12 * cx0 * tcutxp - sofZ 24 * cx1 * tcutxp + sofZ 12 * cx2 * tcutxp + sofZ 12 * cy0 * tcutyp - sofZ 24 * cy1 * tcutyp + sofZ 12 * cy2 * tcutyp;
     - sofZ 12 * cx0 * tcutxp + sofZ 36 * cx1 * tcutxp - sofZ 36 * cx2 * tcutxp + sofZ 12 * cx3 * tcutxp - sofZ 12 * cy0 * tcutyp + sofZ 36 * cy1 * tcutyp - sofZ 36 * cy2 * tcutyp + sofZ 12 * cy3 * tcutyp;
     sofZ 4 * cx0 * tcutxp - sofZ 16 * cx1 * tcutxp + sofZ 24 * cx2 * tcutxp - sofZ 16 * cx3 * tcutxp + sofZ 4 * cx4 * tcutxp + sofZ 4 * cy0 * tcutyp - sofZ 16 * cy1 * tcutyp + sofZ 24 * cy2 * tcutyp - sofZ 16 * cy3 * tcutyp + sofZ 4 * cy4 * tcutyp].
End Auto.
