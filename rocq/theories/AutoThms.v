(** The polynomials of internal/auto_*_Bezier.h are what they should be: one ring identity per degree. *)
From Coq Require Import Reals Lra Lia ZArith List Bool.
From Verif Require Import Monad Scalar ScalarFacts Spec SpecFacts QuadratureThms AutoFacts ModelAuto ModelAnalysis.
Import ListNotations.
Local Open Scope R_scope.

Ltac expand := cbv [horner bsum bsum_from hodo dlist binz length Nat.sub Z.of_nat Pos.of_succ_nat Pos.succ Z.add Pos.add Pos.add_carry
  sadd ssub smul sopp sofZ R_ops].

Lemma infl_2_ok cx0 cy0 cx1 cy1 cx2 cy2 t : let X := [cx0; cx1; cx2] in let Y := [cy0; cy1; cy2] in
  horner (infl_2 cx0 cy0 cx1 cy1 cx2 cy2) t = bsum (hodo Y) t * bsum (hodo (hodo X)) t - bsum (hodo X) t * bsum (hodo (hodo Y)) t.
Proof. unfold infl_2. expand. ring. Qed.
Lemma infl_3_ok cx0 cy0 cx1 cy1 cx2 cy2 cx3 cy3 t : let X := [cx0; cx1; cx2; cx3] in let Y := [cy0; cy1; cy2; cy3] in
  horner (infl_3 cx0 cy0 cx1 cy1 cx2 cy2 cx3 cy3) t = bsum (hodo Y) t * bsum (hodo (hodo X)) t - bsum (hodo X) t * bsum (hodo (hodo Y)) t.
Proof. unfold infl_3. expand. ring. Qed.
Lemma infl_4_ok cx0 cy0 cx1 cy1 cx2 cy2 cx3 cy3 cx4 cy4 t : let X := [cx0; cx1; cx2; cx3; cx4] in let Y := [cy0; cy1; cy2; cy3; cy4] in
  horner (infl_4 cx0 cy0 cx1 cy1 cx2 cy2 cx3 cy3 cx4 cy4) t = bsum (hodo Y) t * bsum (hodo (hodo X)) t - bsum (hodo X) t * bsum (hodo (hodo Y)) t.
Proof. unfold infl_4. expand. ring. Qed.
Lemma infl_5_ok cx0 cy0 cx1 cy1 cx2 cy2 cx3 cy3 cx4 cy4 cx5 cy5 t : let X := [cx0; cx1; cx2; cx3; cx4; cx5] in let Y := [cy0; cy1; cy2; cy3; cy4; cy5] in
  horner (infl_5 cx0 cy0 cx1 cy1 cx2 cy2 cx3 cy3 cx4 cy4 cx5 cy5) t = bsum (hodo Y) t * bsum (hodo (hodo X)) t - bsum (hodo X) t * bsum (hodo (hodo Y)) t.
Proof. unfold infl_5. expand. ring. Qed.
Lemma infl_6_ok cx0 cy0 cx1 cy1 cx2 cy2 cx3 cy3 cx4 cy4 cx5 cy5 cx6 cy6 t : let X := [cx0; cx1; cx2; cx3; cx4; cx5; cx6] in let Y := [cy0; cy1; cy2; cy3; cy4; cy5; cy6] in
  horner (infl_6 cx0 cy0 cx1 cy1 cx2 cy2 cx3 cy3 cx4 cy4 cx5 cy5 cx6 cy6) t = bsum (hodo Y) t * bsum (hodo (hodo X)) t - bsum (hodo X) t * bsum (hodo (hodo Y)) t.
Proof. unfold infl_6. expand. ring. Qed.
Lemma infl_7_ok cx0 cy0 cx1 cy1 cx2 cy2 cx3 cy3 cx4 cy4 cx5 cy5 cx6 cy6 cx7 cy7 t : let X := [cx0; cx1; cx2; cx3; cx4; cx5; cx6; cx7] in let Y := [cy0; cy1; cy2; cy3; cy4; cy5; cy6; cy7] in
  horner (infl_7 cx0 cy0 cx1 cy1 cx2 cy2 cx3 cy3 cx4 cy4 cx5 cy5 cx6 cy6 cx7 cy7) t = bsum (hodo Y) t * bsum (hodo (hodo X)) t - bsum (hodo X) t * bsum (hodo (hodo Y)) t.
Proof. unfold infl_7. expand. ring. Qed.
Lemma infl_8_ok cx0 cy0 cx1 cy1 cx2 cy2 cx3 cy3 cx4 cy4 cx5 cy5 cx6 cy6 cx7 cy7 cx8 cy8 t : let X := [cx0; cx1; cx2; cx3; cx4; cx5; cx6; cx7; cx8] in let Y := [cy0; cy1; cy2; cy3; cy4; cy5; cy6; cy7; cy8] in
  horner (infl_8 cx0 cy0 cx1 cy1 cx2 cy2 cx3 cy3 cx4 cy4 cx5 cy5 cx6 cy6 cx7 cy7 cx8 cy8) t = bsum (hodo Y) t * bsum (hodo (hodo X)) t - bsum (hodo X) t * bsum (hodo (hodo Y)) t.
Proof. unfold infl_8. expand. ring. Qed.
Lemma infl_9_ok cx0 cy0 cx1 cy1 cx2 cy2 cx3 cy3 cx4 cy4 cx5 cy5 cx6 cy6 cx7 cy7 cx8 cy8 cx9 cy9 t : let X := [cx0; cx1; cx2; cx3; cx4; cx5; cx6; cx7; cx8; cx9] in let Y := [cy0; cy1; cy2; cy3; cy4; cy5; cy6; cy7; cy8; cy9] in
  horner (infl_9 cx0 cy0 cx1 cy1 cx2 cy2 cx3 cy3 cx4 cy4 cx5 cy5 cx6 cy6 cx7 cy7 cx8 cy8 cx9 cy9) t = bsum (hodo Y) t * bsum (hodo (hodo X)) t - bsum (hodo X) t * bsum (hodo (hodo Y)) t.
Proof. unfold infl_9. expand. ring. Qed.
Lemma infl_10_ok cx0 cy0 cx1 cy1 cx2 cy2 cx3 cy3 cx4 cy4 cx5 cy5 cx6 cy6 cx7 cy7 cx8 cy8 cx9 cy9 cx10 cy10 t : let X := [cx0; cx1; cx2; cx3; cx4; cx5; cx6; cx7; cx8; cx9; cx10] in let Y := [cy0; cy1; cy2; cy3; cy4; cy5; cy6; cy7; cy8; cy9; cy10] in
  horner (infl_10 cx0 cy0 cx1 cy1 cx2 cy2 cx3 cy3 cx4 cy4 cx5 cy5 cx6 cy6 cx7 cy7 cx8 cy8 cx9 cy9 cx10 cy10) t = bsum (hodo Y) t * bsum (hodo (hodo X)) t - bsum (hodo X) t * bsum (hodo (hodo Y)) t.
Proof. unfold infl_10. expand. ring. Qed.
Lemma sing_2_ok cx0 cy0 cx1 cy1 cx2 cy2 t : let X := [cx0; cx1; cx2] in let Y := [cy0; cy1; cy2] in
  horner (sing_2 cx0 cy0 cx1 cy1 cx2 cy2) t = bsum (hodo X) t * bsum (hodo X) t + bsum (hodo Y) t * bsum (hodo Y) t.
Proof. unfold sing_2. expand. ring. Qed.
Lemma sing_3_ok cx0 cy0 cx1 cy1 cx2 cy2 cx3 cy3 t : let X := [cx0; cx1; cx2; cx3] in let Y := [cy0; cy1; cy2; cy3] in
  horner (sing_3 cx0 cy0 cx1 cy1 cx2 cy2 cx3 cy3) t = bsum (hodo X) t * bsum (hodo X) t + bsum (hodo Y) t * bsum (hodo Y) t.
Proof. unfold sing_3. expand. ring. Qed.
Lemma sing_4_ok cx0 cy0 cx1 cy1 cx2 cy2 cx3 cy3 cx4 cy4 t : let X := [cx0; cx1; cx2; cx3; cx4] in let Y := [cy0; cy1; cy2; cy3; cy4] in
  horner (sing_4 cx0 cy0 cx1 cy1 cx2 cy2 cx3 cy3 cx4 cy4) t = bsum (hodo X) t * bsum (hodo X) t + bsum (hodo Y) t * bsum (hodo Y) t.
Proof. unfold sing_4. expand. ring. Qed.
Lemma sing_5_ok cx0 cy0 cx1 cy1 cx2 cy2 cx3 cy3 cx4 cy4 cx5 cy5 t : let X := [cx0; cx1; cx2; cx3; cx4; cx5] in let Y := [cy0; cy1; cy2; cy3; cy4; cy5] in
  horner (sing_5 cx0 cy0 cx1 cy1 cx2 cy2 cx3 cy3 cx4 cy4 cx5 cy5) t = bsum (hodo X) t * bsum (hodo X) t + bsum (hodo Y) t * bsum (hodo Y) t.
Proof. unfold sing_5. expand. ring. Qed.
Lemma sing_6_ok cx0 cy0 cx1 cy1 cx2 cy2 cx3 cy3 cx4 cy4 cx5 cy5 cx6 cy6 t : let X := [cx0; cx1; cx2; cx3; cx4; cx5; cx6] in let Y := [cy0; cy1; cy2; cy3; cy4; cy5; cy6] in
  horner (sing_6 cx0 cy0 cx1 cy1 cx2 cy2 cx3 cy3 cx4 cy4 cx5 cy5 cx6 cy6) t = bsum (hodo X) t * bsum (hodo X) t + bsum (hodo Y) t * bsum (hodo Y) t.
Proof. unfold sing_6. expand. ring. Qed.
Lemma tang_2_ok cx0 cy0 cx1 cy1 cx2 cy2 nx ny t : let X := [cx0; cx1; cx2] in let Y := [cy0; cy1; cy2] in
  horner (tang_2 cx0 cy0 cx1 cy1 cx2 cy2 nx ny) t = bsum (hodo X) t * nx + bsum (hodo Y) t * ny.
Proof. unfold tang_2. expand. ring. Qed.
Lemma tang_3_ok cx0 cy0 cx1 cy1 cx2 cy2 cx3 cy3 nx ny t : let X := [cx0; cx1; cx2; cx3] in let Y := [cy0; cy1; cy2; cy3] in
  horner (tang_3 cx0 cy0 cx1 cy1 cx2 cy2 cx3 cy3 nx ny) t = bsum (hodo X) t * nx + bsum (hodo Y) t * ny.
Proof. unfold tang_3. expand. ring. Qed.
Lemma tang_4_ok cx0 cy0 cx1 cy1 cx2 cy2 cx3 cy3 cx4 cy4 nx ny t : let X := [cx0; cx1; cx2; cx3; cx4] in let Y := [cy0; cy1; cy2; cy3; cy4] in
  horner (tang_4 cx0 cy0 cx1 cy1 cx2 cy2 cx3 cy3 cx4 cy4 nx ny) t = bsum (hodo X) t * nx + bsum (hodo Y) t * ny.
Proof. unfold tang_4. expand. ring. Qed.
Lemma tang_5_ok cx0 cy0 cx1 cy1 cx2 cy2 cx3 cy3 cx4 cy4 cx5 cy5 nx ny t : let X := [cx0; cx1; cx2; cx3; cx4; cx5] in let Y := [cy0; cy1; cy2; cy3; cy4; cy5] in
  horner (tang_5 cx0 cy0 cx1 cy1 cx2 cy2 cx3 cy3 cx4 cy4 cx5 cy5 nx ny) t = bsum (hodo X) t * nx + bsum (hodo Y) t * ny.
Proof. unfold tang_5. expand. ring. Qed.
Lemma tang_6_ok cx0 cy0 cx1 cy1 cx2 cy2 cx3 cy3 cx4 cy4 cx5 cy5 cx6 cy6 nx ny t : let X := [cx0; cx1; cx2; cx3; cx4; cx5; cx6] in let Y := [cy0; cy1; cy2; cy3; cy4; cy5; cy6] in
  horner (tang_6 cx0 cy0 cx1 cy1 cx2 cy2 cx3 cy3 cx4 cy4 cx5 cy5 cx6 cy6 nx ny) t = bsum (hodo X) t * nx + bsum (hodo Y) t * ny.
Proof. unfold tang_6. expand. ring. Qed.
Lemma tang_7_ok cx0 cy0 cx1 cy1 cx2 cy2 cx3 cy3 cx4 cy4 cx5 cy5 cx6 cy6 cx7 cy7 nx ny t : let X := [cx0; cx1; cx2; cx3; cx4; cx5; cx6; cx7] in let Y := [cy0; cy1; cy2; cy3; cy4; cy5; cy6; cy7] in
  horner (tang_7 cx0 cy0 cx1 cy1 cx2 cy2 cx3 cy3 cx4 cy4 cx5 cy5 cx6 cy6 cx7 cy7 nx ny) t = bsum (hodo X) t * nx + bsum (hodo Y) t * ny.
Proof. unfold tang_7. expand. ring. Qed.
Lemma tang_8_ok cx0 cy0 cx1 cy1 cx2 cy2 cx3 cy3 cx4 cy4 cx5 cy5 cx6 cy6 cx7 cy7 cx8 cy8 nx ny t : let X := [cx0; cx1; cx2; cx3; cx4; cx5; cx6; cx7; cx8] in let Y := [cy0; cy1; cy2; cy3; cy4; cy5; cy6; cy7; cy8] in
  horner (tang_8 cx0 cy0 cx1 cy1 cx2 cy2 cx3 cy3 cx4 cy4 cx5 cy5 cx6 cy6 cx7 cy7 cx8 cy8 nx ny) t = bsum (hodo X) t * nx + bsum (hodo Y) t * ny.
Proof. unfold tang_8. expand. ring. Qed.
Lemma tang_9_ok cx0 cy0 cx1 cy1 cx2 cy2 cx3 cy3 cx4 cy4 cx5 cy5 cx6 cy6 cx7 cy7 cx8 cy8 cx9 cy9 nx ny t : let X := [cx0; cx1; cx2; cx3; cx4; cx5; cx6; cx7; cx8; cx9] in let Y := [cy0; cy1; cy2; cy3; cy4; cy5; cy6; cy7; cy8; cy9] in
  horner (tang_9 cx0 cy0 cx1 cy1 cx2 cy2 cx3 cy3 cx4 cy4 cx5 cy5 cx6 cy6 cx7 cy7 cx8 cy8 cx9 cy9 nx ny) t = bsum (hodo X) t * nx + bsum (hodo Y) t * ny.
Proof. unfold tang_9. expand. ring. Qed.
Lemma tang_10_ok cx0 cy0 cx1 cy1 cx2 cy2 cx3 cy3 cx4 cy4 cx5 cy5 cx6 cy6 cx7 cy7 cx8 cy8 cx9 cy9 cx10 cy10 nx ny t : let X := [cx0; cx1; cx2; cx3; cx4; cx5; cx6; cx7; cx8; cx9; cx10] in let Y := [cy0; cy1; cy2; cy3; cy4; cy5; cy6; cy7; cy8; cy9; cy10] in
  horner (tang_10 cx0 cy0 cx1 cy1 cx2 cy2 cx3 cy3 cx4 cy4 cx5 cy5 cx6 cy6 cx7 cy7 cx8 cy8 cx9 cy9 cx10 cy10 nx ny) t = bsum (hodo X) t * nx + bsum (hodo Y) t * ny.
Proof. unfold tang_10. expand. ring. Qed.

Ltac dest_pts pts := repeat (destruct pts as [|[? [? []]] pts]; [cbn [length] in *; try lia|]); cbn [length] in *; try lia.

Lemma inflection_poly (pts : list (vec R 2)) high : (3 <= length pts <= 11)%nat -> (length pts <= 5)%nat \/ high = true ->
  exists cs (f1 f2 : R -> vec R 2), inflection_coeffs high pts = Ok cs /\ (forall t, vderiv (bernstein_curve pts) t (f1 t)) /\ (forall t, vderiv f1 t (f2 t)) /\
    forall t, rsum (length cs) (fun k => nth k cs 0 * t ^ k) = coord 2 1 (f1 t) * coord 2 0 (f2 t) - coord 2 0 (f1 t) * coord 2 1 (f2 t).
Proof.
  intros H Hh. destruct (curve_planar_derivs pts ltac:(lia)) as [D1 D2]. revert D1 D2.
  destruct pts as [|[? [? []]] pts]; [cbn [length] in H; lia|].
  destruct pts as [|[? [? []]] pts]; [cbn [length] in H; lia|].
  destruct pts as [|[? [? []]] pts]; [cbn [length] in H; lia|].
  destruct pts as [|[? [? []]] pts].
  { intros D1 D2. eexists _, _, _. split; [reflexivity|]. split; [exact D1|]. split; [exact D2|]. intros t. rewrite <- horner_sum. apply infl_2_ok. }
  destruct pts as [|[? [? []]] pts].
  { intros D1 D2. eexists _, _, _. split; [reflexivity|]. split; [exact D1|]. split; [exact D2|]. intros t. rewrite <- horner_sum. apply infl_3_ok. }
  destruct pts as [|[? [? []]] pts].
  { intros D1 D2. eexists _, _, _. split; [reflexivity|]. split; [exact D1|]. split; [exact D2|]. intros t. rewrite <- horner_sum. apply infl_4_ok. }
  destruct pts as [|[? [? []]] pts].
  { destruct Hh as [Hh | ->]; [cbn [length] in Hh; lia|]. intros D1 D2. eexists _, _, _. split; [reflexivity|]. split; [exact D1|]. split; [exact D2|]. intros t. rewrite <- horner_sum. apply infl_5_ok. }
  destruct pts as [|[? [? []]] pts].
  { destruct Hh as [Hh | ->]; [cbn [length] in Hh; lia|]. intros D1 D2. eexists _, _, _. split; [reflexivity|]. split; [exact D1|]. split; [exact D2|]. intros t. rewrite <- horner_sum. apply infl_6_ok. }
  destruct pts as [|[? [? []]] pts].
  { destruct Hh as [Hh | ->]; [cbn [length] in Hh; lia|]. intros D1 D2. eexists _, _, _. split; [reflexivity|]. split; [exact D1|]. split; [exact D2|]. intros t. rewrite <- horner_sum. apply infl_7_ok. }
  destruct pts as [|[? [? []]] pts].
  { destruct Hh as [Hh | ->]; [cbn [length] in Hh; lia|]. intros D1 D2. eexists _, _, _. split; [reflexivity|]. split; [exact D1|]. split; [exact D2|]. intros t. rewrite <- horner_sum. apply infl_8_ok. }
  destruct pts as [|[? [? []]] pts].
  { destruct Hh as [Hh | ->]; [cbn [length] in Hh; lia|]. intros D1 D2. eexists _, _, _. split; [reflexivity|]. split; [exact D1|]. split; [exact D2|]. intros t. rewrite <- horner_sum. apply infl_9_ok. }
  destruct pts as [|[? [? []]] pts].
  { destruct Hh as [Hh | ->]; [cbn [length] in Hh; lia|]. intros D1 D2. eexists _, _, _. split; [reflexivity|]. split; [exact D1|]. split; [exact D2|]. intros t. rewrite <- horner_sum. apply infl_10_ok. }
  cbn [length] in H. lia.
Qed.

Lemma singularity_poly (pts : list (vec R 2)) high : (3 <= length pts <= 7)%nat -> (length pts <= 5)%nat \/ high = true ->
  exists cs (f1 f2 : R -> vec R 2), singularity_coeffs high pts = Ok cs /\ (forall t, vderiv (bernstein_curve pts) t (f1 t)) /\ (forall t, vderiv f1 t (f2 t)) /\
    forall t, rsum (length cs) (fun k => nth k cs 0 * t ^ k) = coord 2 0 (f1 t) * coord 2 0 (f1 t) + coord 2 1 (f1 t) * coord 2 1 (f1 t).
Proof.
  intros H Hh. destruct (curve_planar_derivs pts ltac:(lia)) as [D1 D2]. revert D1 D2.
  destruct pts as [|[? [? []]] pts]; [cbn [length] in H; lia|].
  destruct pts as [|[? [? []]] pts]; [cbn [length] in H; lia|].
  destruct pts as [|[? [? []]] pts]; [cbn [length] in H; lia|].
  destruct pts as [|[? [? []]] pts].
  { intros D1 D2. eexists _, _, _. split; [reflexivity|]. split; [exact D1|]. split; [exact D2|]. intros t. rewrite <- horner_sum. apply sing_2_ok. }
  destruct pts as [|[? [? []]] pts].
  { intros D1 D2. eexists _, _, _. split; [reflexivity|]. split; [exact D1|]. split; [exact D2|]. intros t. rewrite <- horner_sum. apply sing_3_ok. }
  destruct pts as [|[? [? []]] pts].
  { intros D1 D2. eexists _, _, _. split; [reflexivity|]. split; [exact D1|]. split; [exact D2|]. intros t. rewrite <- horner_sum. apply sing_4_ok. }
  destruct pts as [|[? [? []]] pts].
  { destruct Hh as [Hh | ->]; [cbn [length] in Hh; lia|]. intros D1 D2. eexists _, _, _. split; [reflexivity|]. split; [exact D1|]. split; [exact D2|]. intros t. rewrite <- horner_sum. apply sing_5_ok. }
  destruct pts as [|[? [? []]] pts].
  { destruct Hh as [Hh | ->]; [cbn [length] in Hh; lia|]. intros D1 D2. eexists _, _, _. split; [reflexivity|]. split; [exact D1|]. split; [exact D2|]. intros t. rewrite <- horner_sum. apply sing_6_ok. }
  cbn [length] in H. lia.
Qed.

Lemma tangent_poly nx ny (pts : list (vec R 2)) high : (3 <= length pts <= 11)%nat -> (length pts <= 5)%nat \/ high = true ->
  exists cs (f1 f2 : R -> vec R 2), tangent_coeffs high pts nx ny = Ok cs /\ (forall t, vderiv (bernstein_curve pts) t (f1 t)) /\ (forall t, vderiv f1 t (f2 t)) /\
    forall t, rsum (length cs) (fun k => nth k cs 0 * t ^ k) = coord 2 0 (f1 t) * nx + coord 2 1 (f1 t) * ny.
Proof.
  intros H Hh. destruct (curve_planar_derivs pts ltac:(lia)) as [D1 D2]. revert D1 D2.
  destruct pts as [|[? [? []]] pts]; [cbn [length] in H; lia|].
  destruct pts as [|[? [? []]] pts]; [cbn [length] in H; lia|].
  destruct pts as [|[? [? []]] pts]; [cbn [length] in H; lia|].
  destruct pts as [|[? [? []]] pts].
  { intros D1 D2. eexists _, _, _. split; [reflexivity|]. split; [exact D1|]. split; [exact D2|]. intros t. rewrite <- horner_sum. apply tang_2_ok. }
  destruct pts as [|[? [? []]] pts].
  { intros D1 D2. eexists _, _, _. split; [reflexivity|]. split; [exact D1|]. split; [exact D2|]. intros t. rewrite <- horner_sum. apply tang_3_ok. }
  destruct pts as [|[? [? []]] pts].
  { intros D1 D2. eexists _, _, _. split; [reflexivity|]. split; [exact D1|]. split; [exact D2|]. intros t. rewrite <- horner_sum. apply tang_4_ok. }
  destruct pts as [|[? [? []]] pts].
  { destruct Hh as [Hh | ->]; [cbn [length] in Hh; lia|]. intros D1 D2. eexists _, _, _. split; [reflexivity|]. split; [exact D1|]. split; [exact D2|]. intros t. rewrite <- horner_sum. apply tang_5_ok. }
  destruct pts as [|[? [? []]] pts].
  { destruct Hh as [Hh | ->]; [cbn [length] in Hh; lia|]. intros D1 D2. eexists _, _, _. split; [reflexivity|]. split; [exact D1|]. split; [exact D2|]. intros t. rewrite <- horner_sum. apply tang_6_ok. }
  destruct pts as [|[? [? []]] pts].
  { destruct Hh as [Hh | ->]; [cbn [length] in Hh; lia|]. intros D1 D2. eexists _, _, _. split; [reflexivity|]. split; [exact D1|]. split; [exact D2|]. intros t. rewrite <- horner_sum. apply tang_7_ok. }
  destruct pts as [|[? [? []]] pts].
  { destruct Hh as [Hh | ->]; [cbn [length] in Hh; lia|]. intros D1 D2. eexists _, _, _. split; [reflexivity|]. split; [exact D1|]. split; [exact D2|]. intros t. rewrite <- horner_sum. apply tang_8_ok. }
  destruct pts as [|[? [? []]] pts].
  { destruct Hh as [Hh | ->]; [cbn [length] in Hh; lia|]. intros D1 D2. eexists _, _, _. split; [reflexivity|]. split; [exact D1|]. split; [exact D2|]. intros t. rewrite <- horner_sum. apply tang_9_ok. }
  destruct pts as [|[? [? []]] pts].
  { destruct Hh as [Hh | ->]; [cbn [length] in Hh; lia|]. intros D1 D2. eexists _, _, _. split; [reflexivity|]. split; [exact D1|]. split; [exact D2|]. intros t. rewrite <- horner_sum. apply tang_10_ok. }
  cbn [length] in H. lia.
Qed.

