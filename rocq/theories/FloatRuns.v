(** The statements of PropFloat for the two standard formats, and concrete curves. *)
From Coq Require Import Reals Lra Lia ZArith QArith List Bool.
From Flocq Require Import Core IEEE754.BinarySingleNaN.
From Verif Require Import Monad MonadFacts Scalar ScalarFacts Spec SpecFacts ModelCurve ModelBezier BezierThms
  ModelBSpline BSplineFacts BSplineThms BSplineThms2 SpecFloat ModelFloat FloatFacts FloatThms FloatThms2 FloatThms3 FloatCases.
Import ListNotations.
Local Open Scope R_scope.

Definition bezier_error_double := @bezier_error 53 1024 prec64 max64.
Definition bezier_error_float := @bezier_error 24 128 prec32 max32.
Definition bspline_error_double := fun d c t M => @bspline_error 53 1024 prec64 max64 d c t M tol_double.
Definition bspline_error_float := fun d c t M => @bspline_error 24 128 prec32 max32 d c t M tol_float.
Definition bspline_start_double := fun d c t => @bspline_start_exact 53 1024 prec64 max64 d c t tol_double.
Definition bspline_end_double := fun d c t => @bspline_end_exact 53 1024 prec64 max64 d c t tol_double.

Definition dofQ (q : Q) : double := @sofQ double double_ops q.
Definition dpt (x y : Q) : vec double 2 := (dofQ x, (dofQ y, tt)).

Lemma zero_value : is_finite (dofQ 0) = true /\ B2R (dofQ 0) = 0.
Proof.
  assert (E : dofQ 0 = B754_zero false). { apply B2SF_inj. vm_compute. reflexivity. }
  rewrite E. split; reflexivity.
Qed.
Ltac dval q s m e := let F := fresh "F" in let E := fresh "E" in
  destruct (float_value (dofQ q) s m e) as [F E]; [vm_compute; reflexivity|];
  first [change (bpow radix2 e) with (IZR (2 ^ e)) in E | let k := eval vm_compute in (- e)%Z in change (bpow radix2 e) with (/ IZR (2 ^ k)) in E];
  cbn [cond_Zopp] in E.

Lemma split_junction_double : forall (d : nat) (pts : list (vec double d)) (t : double) (n : nat),
  length pts = S n -> is_finite t = true -> 0 < B2R t < 1 ->
  exists (l r : list (vec double d)) (q : vec double d),
    @bz_split double (vec double d) double_ops (@vec_ops double double_ops d) (mk_bezier pts) t
      = Ok [mk_bezier l; mk_bezier r] /\
    @bz_evaluate double (vec double d) double_ops (@vec_ops double double_ops d) (mk_bezier pts) t = Ok q /\
    length l = S n /\ length r = S n /\
    let o := @p0 _ _ (@vec_ops double double_ops d) in
    nth 0 l o = nth 0 pts o /\ nth n l o = q /\ nth 0 r o = q /\ nth n r o = nth n pts o.
Proof.
  intros d pts t n Hn Ft Ht.
  destruct (@gsplit_junction double (vec double d) double_ops (@vec_ops double double_ops d) pts t n Hn)
    as (l & r & q & H); [apply (@padd_comm_num 53 1024 prec64 max64)| |exists l, r, q; exact H].
  unfold is_split_point_valid.
  assert (E0 : @sle double double_ops t (@s0 double double_ops) = false).
  { cbn [sle double_ops ieee_ops]. rewrite Bleb_correct; [|exact Ft|reflexivity]. apply Rle_bool_false.
    change (B2R (@s0 double double_ops)) with 0. lra. }
  assert (E1 : @sle double double_ops (@s1 double double_ops) t = false).
  { change (@s1 double double_ops) with (@bofZ 53 1024 prec64 max64 1).
    destruct (@one_spec 53 1024 prec64 max64) as [F1 E1].
    cbn [sle double_ops ieee_ops]. rewrite Bleb_correct; [|exact F1|exact Ft]. apply Rle_bool_false. rewrite E1. lra. }
  rewrite E0, E1. reflexivity.
Qed.

Lemma constant_not_kept : exists (a t q : double),
  is_finite a = true /\ is_finite t = true /\ 0 < B2R t < 1 /\
  @bz_evaluate double (vec double 1) double_ops (@vec_ops double double_ops 1) (mk_bezier [(a, tt); (a, tt)]) t
    = Ok (q, tt) /\
  is_finite q = true /\ B2R q < B2R a.
Proof.
  set (a := dofQ (1 # 10)). set (t := dofQ (3 # 10)).
  assert (HE : match @bz_evaluate double (vec double 1) double_ops (@vec_ops double double_ops 1)
      (mk_bezier [(a, tt); (a, tt)]) t with Ok q => B2SF (fst q) | _ => SpecFloat.S754_nan end
      = SpecFloat.S754_finite false 7205759403792793 (-56)) by (vm_compute; reflexivity).
  destruct (@bz_evaluate double (vec double 1) double_ops (@vec_ops double double_ops 1)
    (mk_bezier [(a, tt); (a, tt)]) t) as [[q []]| | |] eqn:E; try discriminate HE.
  cbn [fst] in HE. rename HE into Hq. exists a, t, q. subst a t.
  destruct (float_value q _ _ _ Hq) as [Fq Eq].
  dval (1 # 10)%Q false 7205759403792794%positive (-56)%Z.
  dval (3 # 10)%Q false 5404319552844595%positive (-54)%Z.
  change (bpow radix2 (-56)) with (/ IZR (2 ^ 56)) in Eq. cbn [cond_Zopp] in Eq.
  rewrite Eq, E0, E1. simpl IZR. split; [assumption|]. split; [assumption|]. split; [lra|].
  split; [exact E|]. split; [assumption|lra].
Qed.

Definition dspline : bspline double (vec double 2) :=
  mk_bspline [dpt 0 1; dpt 1 3; dpt 4 (-2); dpt (1 # 3) 0] (map dofQ [0; 0; 0; 1 # 2; 1; 1; 1]%Q).

Lemma small_values : forall q, In q [0; 1; 3; 4; -(2); 1 # 3; 1 # 2]%Q -> is_finite (dofQ q) = true /\ Rabs (B2R (dofQ q)) <= 4.
Proof.
  intros q [<-|[<-|[<-|[<-|[<-|[<-|[<-|[]]]]]]]].
  - destruct zero_value as [F E]. split; [exact F|]. rewrite E, Rabs_R0. lra.
  - dval 1%Q false 4503599627370496%positive (-52)%Z. split; [exact F|]. rewrite E. simpl IZR. apply Rabs_le. lra.
  - dval 3%Q false 6755399441055744%positive (-51)%Z. split; [exact F|]. rewrite E. simpl IZR. apply Rabs_le. lra.
  - dval 4%Q false 4503599627370496%positive (-50)%Z. split; [exact F|]. rewrite E. simpl IZR. apply Rabs_le. lra.
  - dval (-(2))%Q true 4503599627370496%positive (-51)%Z. split; [exact F|]. rewrite E. simpl IZR. apply Rabs_le. lra.
  - dval (1#3)%Q false 6004799503160661%positive (-54)%Z. split; [exact F|]. rewrite E. simpl IZR. apply Rabs_le. lra.
  - dval (1#2)%Q false 4503599627370496%positive (-53)%Z. split; [exact F|]. rewrite E. simpl IZR. apply Rabs_le. lra.
Qed.
Lemma u53 : unit_roundoff 53 = / 9007199254740992.
Proof. reflexivity. Qed.
Lemma big_bound e : (2 <= e)%Z -> 4 <= bpow radix2 e.
Proof. intros He. change 4 with (bpow radix2 2). now apply bpow_le. Qed.
Lemma pts_small : forall p, In p [dpt 0 1; dpt 1 3; dpt 4 (-2); dpt (1 # 3) 0] ->
  vfinite 2 p /\ forall i, (i < 2)%nat -> Rabs (coord 2 i (vreal 2 p)) <= 4.
Proof.
  assert (H : forall x y, In x [0; 1; 3; 4; -(2); 1 # 3; 1 # 2]%Q -> In y [0; 1; 3; 4; -(2); 1 # 3; 1 # 2]%Q ->
    vfinite 2 (dpt x y) /\ forall i, (i < 2)%nat -> Rabs (coord 2 i (vreal 2 (dpt x y))) <= 4).
  { intros x y Hx Hy. destruct (small_values x Hx), (small_values y Hy). split; [repeat split; assumption|].
    intros [|[|i]] Hi; [assumption|assumption|lia]. }
  intros p [<-|[<-|[<-|[<-|[]]]]]; apply H; cbn [In]; intuition.
Qed.
Lemma param_value : is_finite (dofQ (3 # 10)) = true /\ 0 <= B2R (dofQ (3 # 10)) <= / 2.
Proof. dval (3 # 10)%Q false 5404319552844595%positive (-54)%Z. rewrite E. split; [exact F|]. simpl IZR. lra. Qed.

Lemma cubic_case : let pts := [dpt 0 1; dpt 1 3; dpt 4 (-2); dpt (1 # 3) 0] in let t := dofQ (1 # 10) in
  length pts = 4%nat /\ 0 <= 4 <= bpow radix2 1023 /\ 24 * INR 3 * unit_roundoff 53 <= 1 /\
  (forall p, In p pts -> vfinite 2 p /\ forall i, (i < 2)%nat -> Rabs (coord 2 i (vreal 2 p)) <= 4) /\
  is_finite t = true /\ 0 <= B2R t <= 1.
Proof.
  cbv zeta. split; [reflexivity|]. split; [split; [lra|apply big_bound; lia]|]. rewrite u53.
  split; [simpl INR; lra|]. split; [exact pts_small|].
  dval (1 # 10)%Q false 7205759403792794%positive (-56)%Z. rewrite E. split; [exact F|]. simpl IZR. lra.
Qed.

Lemma dspline_knots : map B2R (bs_knots dspline) = [0; 0; 0; / 2; 1; 1; 1].
Proof.
  unfold dspline, mk_bspline. cbn [bs_knots map]. destruct zero_value as [_ E0].
  dval 1%Q false 4503599627370496%positive (-52)%Z. dval (1#2)%Q false 4503599627370496%positive (-53)%Z.
  rewrite E0, E, E1. simpl IZR. repeat f_equal; lra.
Qed.
Lemma spline_case : let c := dspline in let t := dofQ (3 # 10) in
  let knots := map B2R (bs_knots c) in
  let p := bspline_degree (bs_pts c) knots in
  p = 2%nat /\
  valid_bspline (bs_pts c) knots /\ knots_apart (/ IZR (10 ^ 15)) knots /\ bs_periodic c = false /\
  (forall x, In x (bs_knots c) -> is_finite x = true /\ Rabs (B2R x) <= bpow radix2 1022) /\
  0 <= 4 <= bpow radix2 1023 /\ 24 * INR p * unit_roundoff 53 <= 1 /\
  (forall a, In a (bs_pts c) -> vfinite 2 a /\ forall i, (i < 2)%nat -> Rabs (coord 2 i (vreal 2 a)) <= 4) /\
  is_finite t = true /\ lower_of (bs_pts c) knots <= B2R t <= upper_of (bs_pts c) knots /\
  nth p knots 0 < nth (p + 1) knots 0.
Proof.
  cbv zeta. rewrite dspline_knots. destruct param_value as [Ft Ht].
  set (t := dofQ (3 # 10)) in *. clearbody t.
  assert (Hs : forall i j, (i <= j < 7)%nat -> nth i [0; 0; 0; / 2; 1; 1; 1] 0 <= nth j [0; 0; 0; / 2; 1; 1; 1] 0).
  { intros i j Hij. do 7 (destruct i as [|i]; [do 7 (destruct j as [|j]; [try lia; simpl nth; lra|]); lia|]). lia. }
  split; [reflexivity|]. split.
  { constructor.
    - cbn. lia.
    - cbn. lia.
    - intros i j Hij. apply Hs. exact Hij.
    - cbn. lra. }
  split.
  { intros i j Hij. cbn [length] in Hij.
    do 7 (destruct i as [|i]; [do 7 (destruct j as [|j]; [simpl nth; change (IZR (10 ^ 15)) with 1000000000000000; lra|]); lia|]). lia. }
  split; [reflexivity|]. split.
  { intros x Hx. change (bs_knots dspline) with (map dofQ [0; 0; 0; 1 # 2; 1; 1; 1]%Q) in Hx.
    apply in_map_iff in Hx. destruct Hx as (q & <- & Hq).
    destruct (small_values q) as [F B]; [cbn [In] in *; intuition|]. split; [exact F|].
    eapply Rle_trans; [exact B|]. apply big_bound. lia. }
  split; [split; [lra|apply big_bound; lia]|]. rewrite u53. split; [cbn; lra|].
  split; [exact pts_small|]. split; [exact Ft|]. split; [cbn; lra|cbn; lra].
Qed.
Lemma clamped_case : let knots := map B2R (bs_knots dspline) in
  (forall a, In a (bs_pts dspline) -> vfinite 2 a) /\
  nth 2 knots 0 < nth 3 knots 0 /\ (forall i, (1 <= i <= 2)%nat -> nth i knots 0 = nth 2 knots 0) /\
  nth 3 knots 0 < nth 4 knots 0 /\ (forall i, (4 <= i < 6)%nat -> nth i knots 0 = nth 4 knots 0) /\
  length (bs_pts dspline) = 4%nat /\
  is_finite (dofQ 0) = true /\ B2R (dofQ 0) = nth 2 knots 0 /\
  is_finite (dofQ 1) = true /\ B2R (dofQ 1) = nth 4 knots 0.
Proof.
  cbv zeta. rewrite dspline_knots. destruct zero_value as [F0 E0]. dval 1%Q false 4503599627370496%positive (-52)%Z.
  split; [intros a Ha; apply (pts_small a Ha)|]. simpl nth. split; [lra|].
  split; [intros i Hi; destruct i as [|[|[|i]]]; [lia|reflexivity|reflexivity|lia]|].
  split; [lra|]. split; [intros i Hi; do 6 (destruct i as [|i]; [try lia; reflexivity|]); lia|].
  split; [reflexivity|]. split; [exact F0|]. split; [exact E0|]. split; [exact F|].
  rewrite E. simpl IZR. lra.
Qed.
