(** Rational curves in the two standard formats, end points, and concrete curves. *)
From Coq Require Import Reals Lra Lia ZArith QArith List Bool.
From Flocq Require Import Core IEEE754.BinarySingleNaN.
From Verif Require Import Monad MonadFacts Scalar ScalarFacts Spec SpecFacts SpecPatch ModelCurve ModelBezier BezierThms
  ModelBSpline BSplineFacts BSplineThms BSplineThms2 ModelRational PatchHull SpecFloat ModelFloat ModelFloatWrap ModelFloatRational
  FloatFacts FloatThms FloatThms2 FloatThms3 FloatCases FloatRuns FloatDeriv FloatTotal FloatRational.
Import ListNotations.
Local Open Scope R_scope.

Lemma rational_bezier_double : forall (d : nat) (c0 : rbezier double d) (t : double) (n : nat) (w0 W M : R),
  length (rb_pts c0) = S n -> length (rb_weights c0) = S n -> rb_periodic c0 = false ->
  (forall p, In p (rb_pts c0) -> vfinite d p /\ forall i, (i < d)%nat -> Rabs (coord d i (vreal d p)) <= M) ->
  (forall w, In w (rb_weights c0) -> is_finite w = true /\ w0 <= B2R w <= W) ->
  0 < w0 -> 0 <= M <= bpow radix2 1022 -> W <= bpow radix2 1022 -> W * M <= bpow radix2 1022 ->
  8 * (INR n + 1) * (4 * unit_roundoff 53 * W + 3 * underflow_error 53 1024) <= w0 ->
  is_finite t = true -> 0 <= B2R t <= 1 ->
  exists (c : rbezier double d) (q : vec double d),
    @rb_initialize double double_ops d c0 = Ok c /\ @f_rb_evaluate 53 1024 prec64 max64 d c t = Ok q /\ vfinite d q /\
    forall i, (i < d)%nat ->
      Rabs (coord d i (vreal d q) - coord d i (weighted_mean (S n) (bezier_basis (S n) (B2R t)) (map B2R (rb_weights c0)) (map (vreal d) (rb_pts c0))))
      <= W / w0 * M * ((20 * INR n + 4) * unit_roundoff 53) + (1 + (7 * INR n * (1 + M) + 5) / w0) * underflow_error 53 1024.
Proof. intros d c0 t n w0 W M. apply (@rational_bezier_error 53 1024 prec64 max64 d c0 t n w0 W M). lia. Qed.

Lemma nurbs_double : forall (d : nat) (c0 : nurbs double d) (t : double) (w0 W M : R),
  let knots := map B2R (nb_knots c0) in
  let n := length (nb_pts c0) in
  let p := bspline_degree (nb_pts c0) knots in
  length (nb_weights c0) = n -> nb_periodic c0 = false ->
  valid_bspline (nb_pts c0) knots -> knots_apart (/ IZR (10 ^ 15)) knots ->
  (forall x, In x (nb_knots c0) -> is_finite x = true /\ Rabs (B2R x) <= bpow radix2 1022) ->
  (forall a, In a (nb_pts c0) -> vfinite d a /\ forall i, (i < d)%nat -> Rabs (coord d i (vreal d a)) <= M) ->
  (forall w, In w (nb_weights c0) -> is_finite w = true /\ w0 <= B2R w <= W) ->
  0 < w0 -> 0 <= M <= bpow radix2 1022 -> W <= bpow radix2 1022 -> W * M <= bpow radix2 1022 ->
  8 * (INR p + 1) * ((14 * unit_roundoff 53 + 2 * underflow_error 53 1024) * W + 3 * underflow_error 53 1024) <= w0 ->
  is_finite t = true -> lower_of (nb_pts c0) knots <= B2R t <= upper_of (nb_pts c0) knots ->
  (nth p knots 0 < nth (p + 1) knots 0 \/ lower_of (nb_pts c0) knots < B2R t) ->
  exists (c : nurbs double d) (q : vec double d),
    @nb_initialize double double_ops d c0 = Ok c /\ @f_nb_evaluate 53 1024 prec64 max64 d c t = Ok q /\ vfinite d q /\
    forall i, (i < d)%nat ->
      Rabs (coord d i (vreal d q) - coord d i (weighted_mean n (bspline_basis n knots (B2R t)) (map B2R (nb_weights c0)) (map (vreal d) (nb_pts c0))))
      <= W / w0 * M * ((70 * INR p + 4) * unit_roundoff 53 + 10 * INR p * underflow_error 53 1024)
         + (1 + (7 * INR p * (1 + M) + 5) / w0) * underflow_error 53 1024.
Proof. intros d c0 t w0 W M. apply (@nurbs_error 53 1024 prec64 max64 d c0 t w0 W M tol_double). lia. Qed.

Lemma nurbs_float : forall (d : nat) (c0 : nurbs float32 d) (t : float32) (w0 W M : R),
  let knots := map B2R (nb_knots c0) in
  let n := length (nb_pts c0) in
  let p := bspline_degree (nb_pts c0) knots in
  length (nb_weights c0) = n -> nb_periodic c0 = false ->
  valid_bspline (nb_pts c0) knots -> knots_apart (/ IZR (10 ^ 15)) knots ->
  (forall x, In x (nb_knots c0) -> is_finite x = true /\ Rabs (B2R x) <= bpow radix2 126) ->
  (forall a, In a (nb_pts c0) -> vfinite d a /\ forall i, (i < d)%nat -> Rabs (coord d i (vreal d a)) <= M) ->
  (forall w, In w (nb_weights c0) -> is_finite w = true /\ w0 <= B2R w <= W) ->
  0 < w0 -> 0 <= M <= bpow radix2 126 -> W <= bpow radix2 126 -> W * M <= bpow radix2 126 ->
  8 * (INR p + 1) * ((14 * unit_roundoff 24 + 2 * underflow_error 24 128) * W + 3 * underflow_error 24 128) <= w0 ->
  is_finite t = true -> lower_of (nb_pts c0) knots <= B2R t <= upper_of (nb_pts c0) knots ->
  (nth p knots 0 < nth (p + 1) knots 0 \/ lower_of (nb_pts c0) knots < B2R t) ->
  exists (c : nurbs float32 d) (q : vec float32 d),
    @nb_initialize float32 float32_ops d c0 = Ok c /\ @f_nb_evaluate 24 128 prec32 max32 d c t = Ok q /\ vfinite d q /\
    forall i, (i < d)%nat ->
      Rabs (coord d i (vreal d q) - coord d i (weighted_mean n (bspline_basis n knots (B2R t)) (map B2R (nb_weights c0)) (map (vreal d) (nb_pts c0))))
      <= W / w0 * M * ((70 * INR p + 4) * unit_roundoff 24 + 10 * INR p * underflow_error 24 128)
         + (1 + (7 * INR p * (1 + M) + 5) / w0) * underflow_error 24 128.
Proof. intros d c0 t w0 W M. apply (@nurbs_error 24 128 prec32 max32 d c0 t w0 W M tol_float). lia. Qed.

(** ** End points *)
Section Ends.
  Context (prec emax : Z) {Hprec : Prec_gt_0 prec} {Hmax : Prec_lt_emax prec emax}.
  Notation num := (binary_float prec emax).
  Local Instance FO9 : ScalarOps num := ieee_ops prec emax.

  Lemma div_one (x w : num) r : is_num prec emax w 1 -> is_num prec emax x r -> is_num prec emax (Bdiv mode_NE x w) r.
  Proof.
    intros [Fw Ew] [Fx Ex]. pose proof (Bdiv_correct prec emax Hprec Hmax mode_NE x w ltac:(rewrite Ew; lra)) as H.
    rewrite Ew in H. unfold Rdiv in H. rewrite Rinv_1, Rmult_1_r in H. rewrite (fl_id prec emax _ (fmt prec emax x)) in H.
    rewrite Rlt_bool_true in H by apply abs_B2R_lt_emax. destruct H as (E & F & _).
    split; [now rewrite F|]. now rewrite E.
  Qed.

  Lemma unit_end d (c0 : rbezier num d) (t : num) n m w0 W M q :
    length (rb_pts c0) = S n -> length (rb_weights c0) = S n -> rb_periodic c0 = false -> (m <= n)%nat ->
    sized prec emax (rb_pts c0) M -> weighed prec emax (rb_weights c0) w0 W -> 0 < w0 -> 0 <= M ->
    W * M <= bpow radix2 (emax - 2) -> B2R (nth m (rb_weights c0) s0) = 1 ->
    bz_evaluate (mk_bezier (frows prec emax (rb_pts c0) (rb_weights c0))) t = Ok q -> vfinite (S d) q ->
    vreal (S d) q = vreal (S d) (nth m (frows prec emax (rb_pts c0) (rb_weights c0)) p0) ->
    exists c r, rb_initialize c0 = Ok c /\ f_rb_evaluate prec emax c t = Ok r /\ vfinite d r /\ vreal d r = vreal d (nth m (rb_pts c0) p0).
  Proof.
    intros Hn Hnw Hper Hm HS HW Hw0 HM HWM Hw1 Eq Fq Vq.
    set (pts := rb_pts c0) in *. set (ws := rb_weights c0) in *.
    assert (Hlr : length (frows prec emax pts ws) = S n) by (rewrite frows_length; lia).
    rewrite (frows_nth prec emax pts ws m) in Vq by lia.
    destruct (HW (nth m ws s0)) as [Fw _]; [apply nth_In; lia|].
    destruct (HS (nth m pts p0)) as [Fp _]; [apply nth_In; lia|].
    assert (Hc : forall i, (i < S d)%nat -> B2R (coord (S d) i q) = B2R (coord (S d) i (frow prec emax (nth m pts p0) (nth m ws s0)))).
    { intros i Hi. pose proof (vreal_coord prec emax (S d) i q) as V1.
      pose proof (vreal_coord prec emax (S d) i (frow prec emax (nth m pts p0) (nth m ws s0))) as V2.
      transitivity (coord (S d) i (vreal (S d) q)); [symmetry; exact V1|]. rewrite Vq. exact V2. }
    assert (Hlast : is_num prec emax (coord (S d) d q) 1).
    { split; [exact (proj1 (vfinite_coord prec emax (S d) q) Fq d ltac:(lia))|]. etransitivity; [exact (Hc d ltac:(lia))|]. etransitivity; [exact (f_equal B2R (frow_last prec emax (nth m pts p0) (nth m ws s0)))|exact Hw1]. }
    exists {| rb_pts := pts; rb_weights := ws; rb_hom := {| bz_pts := frows prec emax pts ws; bz_periodic := false |}; rb_periodic := false |}, (f_h_point prec emax q).
    split.
    { unfold rb_initialize, homogenize. fold pts ws. unfold zlen. rewrite Hn, Hnw, Z.eqb_refl, bind_Ok. rewrite Hper. reflexivity. }
    split.
    { unfold f_rb_evaluate, rb_validate. cbn [rb_hom rb_pts rb_weights rb_periodic bz_pts bz_periodic].
      unfold zlen. rewrite Hlr, Hn, Hnw, Z.eqb_refl. cbn [negb orb Bool.eqb]. rewrite !bind_Ok.
      unfold f_bz_evaluate. cbn [bz_periodic bz_pts]. rewrite bind_Ok.
      match goal with |- bind ?x _ = _ => replace x with (Ok q) by (symmetry; exact Eq) end. reflexivity. }
    assert (HE : forall i, (i < d)%nat -> is_num prec emax (coord d i (f_h_point prec emax q)) (B2R (coord d i (nth m pts p0)))).
    { intros i Hi. unfold f_h_point. rewrite gcoord_vmap by exact Hi. rewrite gcoord_vhead by exact Hi. rewrite gvlast_coord.
      apply div_one; [exact Hlast|]. split; [exact (proj1 (vfinite_coord prec emax (S d) q) Fq i ltac:(lia))|].
      etransitivity; [exact (Hc i ltac:(lia))|].
      etransitivity; [exact (f_equal B2R (frow_head prec emax (nth m pts p0) (nth m ws s0) i Hi))|].
      apply (one_mul prec emax); [split; [exact Fw|exact Hw1]|]. split; [|reflexivity].
      exact (proj1 (vfinite_coord prec emax d (nth m pts p0)) Fp i Hi). }
    split.
    - apply (vfinite_coord prec emax d). intros i Hi. exact (proj1 (HE i Hi)).
    - apply vec_ext. intros i Hi. rewrite !(vreal_coord prec emax). exact (proj2 (HE i Hi)).
  Qed.

  Lemma rows_finite d (pts : list (vec num d)) ws w0 W M : length ws = length pts -> sized prec emax pts M -> weighed prec emax ws w0 W ->
    0 < w0 -> 0 <= M -> W * M <= bpow radix2 (emax - 2) -> forall p, In p (frows prec emax pts ws) -> vfinite (S d) p.
  Proof.
    intros Hl HS HW Hw0 HM HWM p Hp. apply (vfinite_coord prec emax (S d)). intros i Hi.
    exact (proj1 (rows_bounded prec emax d pts ws w0 W M Hl HS HW Hw0 HM HWM p i Hp Hi)).
  Qed.

  Lemma rational_ends d (c0 : rbezier num d) (t : num) n w0 W M :
    length (rb_pts c0) = S n -> length (rb_weights c0) = S n -> rb_periodic c0 = false ->
    sized prec emax (rb_pts c0) M -> weighed prec emax (rb_weights c0) w0 W -> 0 < w0 -> 0 <= M ->
    W * M <= bpow radix2 (emax - 2) -> is_finite t = true ->
    (B2R t = 0 -> B2R (nth 0 (rb_weights c0) s0) = 1 ->
      exists c r, rb_initialize c0 = Ok c /\ f_rb_evaluate prec emax c t = Ok r /\ vfinite d r /\ vreal d r = vreal d (nth 0 (rb_pts c0) p0)) /\
    (B2R t = 1 -> B2R (nth n (rb_weights c0) s0) = 1 ->
      exists c r, rb_initialize c0 = Ok c /\ f_rb_evaluate prec emax c t = Ok r /\ vfinite d r /\ vreal d r = vreal d (nth n (rb_pts c0) p0)).
  Proof.
    intros Hn Hnw Hper HS HW Hw0 HM HWM Ft.
    assert (Hlr : length (frows prec emax (rb_pts c0) (rb_weights c0)) = S n) by (rewrite frows_length; lia).
    pose proof (rows_finite d (rb_pts c0) (rb_weights c0) w0 W M ltac:(lia) HS HW Hw0 HM HWM) as HF.
    split; intros Et Hw.
    - destruct (bezier_start_exact prec emax (S d) _ t n Hlr HF Ft Et) as (q & Eq & Fq & Vq).
      exact (unit_end d c0 t n 0 w0 W M q Hn Hnw Hper ltac:(lia) HS HW Hw0 HM HWM Hw Eq Fq Vq).
    - destruct (bezier_end_exact prec emax (S d) _ t n Hlr HF Ft Et) as (q & Eq & Fq & Vq).
      exact (unit_end d c0 t n n w0 W M q Hn Hnw Hper ltac:(lia) HS HW Hw0 HM HWM Hw Eq Fq Vq).
  Qed.
End Ends.

(** ** Concrete curves *)
Definition rcurve : rbezier double 2 :=
  {| rb_pts := [dpt 0 1; dpt 1 3; dpt 4 (-2); dpt (1 # 3) 0]; rb_weights := map dofQ [1; 1 # 2; 3; 1]%Q; rb_hom := mk_bezier []; rb_periodic := false |}.
Definition rspline : nurbs double 2 :=
  {| nb_pts := bs_pts dspline; nb_knots := bs_knots dspline; nb_weights := map dofQ [1; 1 # 2; 3; 1]%Q; nb_hom := mk_bspline [] []; nb_periodic := false |}.
Definition heavy : rbezier double 1 :=
  {| rb_pts := ([(dofQ (1 # 10), tt); (dofQ 1, tt)] : list (vec double 1)); rb_weights := map dofQ [3; 1]%Q; rb_hom := mk_bezier []; rb_periodic := false |}.

Lemma weights_case : forall w, In w (map dofQ [1; 1 # 2; 3; 1]%Q) -> is_finite w = true /\ / 2 <= B2R w <= 3.
Proof.
  dval 1%Q false 4503599627370496%positive (-52)%Z. dval 3%Q false 6755399441055744%positive (-51)%Z.
  dval (1#2)%Q false 4503599627370496%positive (-53)%Z.
  intros w Hw. cbn [map In] in Hw. destruct Hw as [<-|[<-|[<-|[<-|[]]]]]; (split; [assumption|]);
    rewrite ?E, ?E0, ?E1; simpl IZR; lra.
Qed.
Lemma eta_small : 0 < underflow_error 53 1024 <= unit_roundoff 53.
Proof. split; [apply bpow_gt_0|]. unfold underflow_error, unit_roundoff. apply bpow_le. lia. Qed.
Lemma bound12 : 3 * 4 <= bpow radix2 1022.
Proof. apply Rle_trans with (bpow radix2 4); [simpl; lra|]. apply bpow_le. lia. Qed.

Lemma rcurve_case :
  length (rb_pts rcurve) = 4%nat /\ length (rb_weights rcurve) = 4%nat /\ rb_periodic rcurve = false /\
  (forall p, In p (rb_pts rcurve) -> vfinite 2 p /\ forall i, (i < 2)%nat -> Rabs (coord 2 i (vreal 2 p)) <= 4) /\
  (forall w, In w (rb_weights rcurve) -> is_finite w = true /\ / 2 <= B2R w <= 3) /\
  0 < / 2 /\ 0 <= 4 <= bpow radix2 1022 /\ 3 <= bpow radix2 1022 /\ 3 * 4 <= bpow radix2 1022 /\
  8 * (INR 3 + 1) * (4 * unit_roundoff 53 * 3 + 3 * underflow_error 53 1024) <= / 2 /\
  is_finite (dofQ (3 # 10)) = true /\ 0 <= B2R (dofQ (3 # 10)) <= 1.
Proof.
  pose proof bound12 as HB. pose proof eta_small as [He1 He2]. rewrite u53 in *.
  repeat (split; [reflexivity|]). split; [exact pts_small|]. split; [exact weights_case|].
  split; [lra|]. split; [lra|]. split; [lra|]. split; [lra|]. split; [simpl INR; lra|].
  destruct param_value as [F E]. split; [exact F|lra].
Qed.
Lemma rspline_case :
  let knots := map B2R (nb_knots rspline) in
  let p := bspline_degree (nb_pts rspline) knots in
  length (nb_weights rspline) = length (nb_pts rspline) /\ nb_periodic rspline = false /\
  valid_bspline (nb_pts rspline) knots /\ knots_apart (/ IZR (10 ^ 15)) knots /\
  (forall x, In x (nb_knots rspline) -> is_finite x = true /\ Rabs (B2R x) <= bpow radix2 1022) /\
  (forall a, In a (nb_pts rspline) -> vfinite 2 a /\ forall i, (i < 2)%nat -> Rabs (coord 2 i (vreal 2 a)) <= 4) /\
  (forall w, In w (nb_weights rspline) -> is_finite w = true /\ / 2 <= B2R w <= 3) /\
  0 < / 2 /\ 0 <= 4 <= bpow radix2 1022 /\ 3 <= bpow radix2 1022 /\ 3 * 4 <= bpow radix2 1022 /\
  8 * (INR p + 1) * ((14 * unit_roundoff 53 + 2 * underflow_error 53 1024) * 3 + 3 * underflow_error 53 1024) <= / 2 /\
  is_finite (dofQ (3 # 10)) = true /\ lower_of (nb_pts rspline) knots <= B2R (dofQ (3 # 10)) <= upper_of (nb_pts rspline) knots /\
  nth p knots 0 < nth (p + 1) knots 0.
Proof.
  cbv zeta. pose proof bound12 as HB. pose proof eta_small as [He1 He2].
  destruct spline_case as (Hp & H1 & H2 & _ & H3 & _ & _ & H6 & H8 & H9 & H7).
  split; [reflexivity|]. split; [reflexivity|]. split; [exact H1|]. split; [exact H2|]. split; [exact H3|].
  split; [exact H6|]. split; [exact weights_case|]. split; [lra|]. split; [lra|]. split; [lra|]. split; [lra|].
  split; [|split; [exact H8|split; [exact H9|exact H7]]].
  change (bspline_degree (nb_pts rspline) (map B2R (nb_knots rspline))) with (bspline_degree (bs_pts dspline) (map B2R (bs_knots dspline))).
  rewrite Hp. rewrite u53 in *. simpl INR. lra.
Qed.

Lemma heavy_refuted : exists (c0 c : rbezier double 1) (q : vec double 1),
  rb_periodic c0 = false /\
  length (rb_pts c0) = 2%nat /\ length (rb_weights c0) = 2%nat /\
  (forall p, In p (rb_pts c0) -> vfinite 1 p /\ forall i, (i < 1)%nat -> Rabs (coord 1 i (vreal 1 p)) <= 1) /\
  (forall w, In w (rb_weights c0) -> is_finite w = true /\ 1 <= B2R w <= 3) /\
  @rb_initialize double double_ops 1 c0 = Ok c /\
  @f_rb_evaluate 53 1024 prec64 max64 1 c (B754_zero false) = Ok q /\
  vreal 1 q <> vreal 1 (nth 0 (rb_pts c0) (@p0 _ _ (@vec_ops double double_ops 1))).
Proof.
  dval 1%Q false 4503599627370496%positive (-52)%Z. dval 3%Q false 6755399441055744%positive (-51)%Z.
  dval (1 # 10)%Q false 7205759403792794%positive (-56)%Z.
  assert (HR : exists c q, @rb_initialize double double_ops 1 heavy = Ok c /\
    @f_rb_evaluate 53 1024 prec64 max64 1 c (B754_zero false) = Ok q /\ B2SF (fst q) = SpecFloat.S754_finite false 7205759403792795 (-56)).
  { assert (H : match (do c <- @rb_initialize double double_ops 1 heavy; @f_rb_evaluate 53 1024 prec64 max64 1 c (B754_zero false)) with
                | Ok q => B2SF (fst q) | _ => SpecFloat.S754_nan end = SpecFloat.S754_finite false 7205759403792795 (-56))
      by (vm_compute; reflexivity).
    destruct (@rb_initialize double double_ops 1 heavy) as [c| | |]; try discriminate H. rewrite bind_Ok in H.
    destruct (@f_rb_evaluate 53 1024 prec64 max64 1 c (B754_zero false)) as [q| | |] eqn:Eq; try discriminate H.
    exists c, q. split; [reflexivity|]. split; [exact Eq|exact H]. }
  destruct HR as (c & q & Hi & He & Hq). exists heavy, c, q.
  split; [reflexivity|]. split; [reflexivity|]. split; [reflexivity|]. split.
  { intros p Hp. unfold heavy in Hp. cbn [rb_pts In] in Hp.
    destruct Hp as [<-|[<-|[]]]; (split; [split; [assumption|exact I]|]); intros i Hi'; (destruct i as [|i]; [|lia]);
      rewrite (@vreal_coord 53 1024 prec64 max64); cbn [coord fst]; rewrite ?E, ?E1; simpl IZR; apply Rabs_le; lra. }
  split.
  { intros w Hw. unfold heavy in Hw. cbn [rb_weights map In] in Hw.
    destruct Hw as [<-|[<-|[]]]; (split; [assumption|]); rewrite ?E, ?E0; simpl IZR; lra. }
  split; [exact Hi|]. split; [exact He|].
  destruct (float_value (fst q) _ _ _ Hq) as [Fq Vq]. change (bpow radix2 (-56)) with (/ IZR (2 ^ 56)) in Vq. cbn [cond_Zopp] in Vq.
  intros HX. assert (HX1 : B2R (fst q) = B2R (dofQ (1 # 10))) by exact (f_equal fst HX).
  rewrite Vq, E1 in HX1. simpl IZR in HX1. lra.
Qed.
