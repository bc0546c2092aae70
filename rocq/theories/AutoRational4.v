(** Degree 4 of internal/auto_inflection_RationalBezier.h (a large ring identity, kept apart so that it is checked in parallel). *)
From Coq Require Import Reals ZArith List.
From Verif Require Import Monad Scalar QuadratureThms AutoFacts ModelAutoRational AutoRational.
Import ListNotations.
Local Open Scope R_scope.

Lemma rinfl_4_ok cx0 cy0 cx1 cy1 cx2 cy2 cx3 cy3 cx4 cy4 w0 w1 w2 w3 w4 t : let W := [w0; w1; w2; w3; w4] in let A := zipm W [cx0; cx1; cx2; cx3; cx4] in let B := zipm W [cy0; cy1; cy2; cy3; cy4] in
  horner (rinfl_4 cx0 cy0 cx1 cy1 cx2 cy2 cx3 cy3 cx4 cy4 w0 w1 w2 w3 w4) t = - (bsum W t ^ 2 * det3 (bsum A t) (bsum B t) (bsum W t) (bsum (hodo A) t) (bsum (hodo B) t) (bsum (hodo W) t) (bsum (hodo (hodo A)) t) (bsum (hodo (hodo B)) t) (bsum (hodo (hodo W)) t)).
Proof. unfold rinfl_4, det3. rexpand. ring. Qed.
