(** Property theorems: save_svg.h and VectorExport.h (C104-C106).
    Statements only; the proofs are in VectorThms.v, VectorThms2.v, VectorThms3.v and VectorThms4.v.
    [drawing], [picture], [fits], [hulled] and the PostScript interpreter [ps_run] are in SpecVector.v. *)
From Coq Require Import Reals Lra Lia ZArith List String.
From Verif Require Import Monad MonadFacts Scalar ScalarFacts Spec ModelCurve ModelBezier ModelBSpline ModelRational ModelVector SpecVector
  BezierThms RationalThms ExampleFacts VectorThms VectorThms2 VectorThms3 VectorThms4.
Import ListNotations.
Local Open Scope R_scope.

Notation pt x y := ((x%R, (y%R, tt)) : vec R 2).

(** C104: the file shows the curve and its control points, all inside the view, unless all control points coincide. *)
Theorem C104_any : forall (c : vcurve R 2) (f : R -> vec R 2) (p q : vec R 2), hulled c f -> In p (vc_pts c) -> In q (vc_pts c) -> p <> q ->
  exists file, save_svg c = Ok file /\ drawing f (vc_lower c) (vc_upper c) (vc_pts c) file.
Proof. exact save_one. Qed.
Print Assumptions C104_any.
Theorem C104_bezier : forall (pts : list (vec R 2)) (p q : vec R 2), In p pts -> In q pts -> p <> q ->
  exists file, save_svg (vc_bezier (mk_bezier pts)) = Ok file /\ drawing (bernstein_curve pts) 0 1 pts file.
Proof. exact draw_bezier. Qed.
Print Assumptions C104_bezier.
Theorem C104_rational_bezier : forall (c0 : rbezier R 2) (p q : vec R 2), List.length (rb_weights c0) = List.length (rb_pts c0) -> rb_periodic c0 = false ->
  Forall (fun w => 0 < w) (rb_weights c0) -> In p (rb_pts c0) -> In q (rb_pts c0) -> p <> q ->
  let n := List.length (rb_pts c0) in
  exists c file, rb_initialize c0 = Ok c /\ save_svg (vc_rbezier c) = Ok file /\
    drawing (fun t => weighted_mean n (bezier_basis n t) (rb_weights c0) (rb_pts c0)) 0 1 (rb_pts c0) file.
Proof. exact draw_rbezier. Qed.
Print Assumptions C104_rational_bezier.
Theorem C104_bspline : forall (c : bspline R (vec R 2)) (p q : vec R 2), valid_bspline (bs_pts c) (bs_knots c) -> knots_apart (/ IZR (10 ^ 16)) (bs_knots c) -> bs_periodic c = false ->
  regular_start (bs_pts c) (bs_knots c) -> In p (bs_pts c) -> In q (bs_pts c) -> p <> q ->
  exists v f file, vc_bspline c = Ok v /\ (forall t, lower_of (bs_pts c) (bs_knots c) <= t <= upper_of (bs_pts c) (bs_knots c) -> bs_evaluate c t = Ok (f t)) /\
    save_svg v = Ok file /\ drawing f (lower_of (bs_pts c) (bs_knots c)) (upper_of (bs_pts c) (bs_knots c)) (bs_pts c) file.
Proof. exact draw_bspline. Qed.
Print Assumptions C104_bspline.
Theorem C104_nurbs : forall (c0 : nurbs R 2) (p q : vec R 2), List.length (nb_weights c0) = List.length (nb_pts c0) -> nb_periodic c0 = false ->
  valid_bspline (nb_pts c0) (nb_knots c0) -> knots_apart (/ IZR (10 ^ 16)) (nb_knots c0) ->
  nth (bspline_degree (nb_pts c0) (nb_knots c0)) (nb_knots c0) 0 < nth (bspline_degree (nb_pts c0) (nb_knots c0) + 1) (nb_knots c0) 0 -> Forall (fun w => 0 < w) (nb_weights c0) ->
  In p (nb_pts c0) -> In q (nb_pts c0) -> p <> q ->
  let n := List.length (nb_pts c0) in
  exists c v file, nb_initialize c0 = Ok c /\ vc_nurbs c = Ok v /\ save_svg v = Ok file /\
    drawing (fun t => weighted_mean n (bspline_basis n (nb_knots c0) t) (nb_weights c0) (nb_pts c0)) (lower_of (nb_pts c0) (nb_knots c0)) (upper_of (nb_pts c0) (nb_knots c0)) (nb_pts c0) file.
Proof. exact draw_nurbs. Qed.
Print Assumptions C104_nurbs.
(** A single point: division by zero. *)
Theorem C104_point_refuted : forall (c : vcurve R 2) (p : vec R 2), vc_pts c <> [] -> (forall q, In q (vc_pts c) -> q = p) -> save_svg c = NonFinite.
Proof. exact save_point. Qed.
Print Assumptions C104_point_refuted.
(** A negative weight, without a pole: the curve leaves the view. *)
Theorem C104_negative_refuted : exists c file W H it,
  rb_initialize {| rb_pts := [pt 0 0; pt 0 1; pt 1 0]; rb_weights := [1; - (1 / 4); 1]; rb_hom := mk_bezier []; rb_periodic := false |} = Ok c /\
  (forall t, weight_sum 3 (bezier_basis 3 t) (rb_weights c) <> 0) /\ save_svg (vc_rbezier c) = Ok file /\ In (SvgOpen W H) file /\ In it file /\ ~ fits W H it.
Proof. exact neg_picture. Qed.
Print Assumptions C104_negative_refuted.
Example C104_case : exists file, save_svg (vc_bezier (mk_bezier [pt 0 0; pt 1 2; pt 3 (-1)])) = Ok file /\ drawing (bernstein_curve [pt 0 0; pt 1 2; pt 3 (-1)]) 0 1 [pt 0 0; pt 1 2; pt 3 (-1)] file.
Proof. apply (C104_bezier _ (pt 0 0) (pt 1 2)); [cbn; tauto|cbn; tauto|]. intros H. apply (f_equal (coord 2 0)) in H. cbn in H. lra. Qed.
Example C104_point_case : save_svg (vc_bezier (mk_bezier [pt 1 2; pt 1 2])) = NonFinite.
Proof. apply (C104_point_refuted _ (pt 1 2)); [discriminate|]. cbn. intuition congruence. Qed.

(** C105: several curves in one file; coordinates are numbers of type double.  Control points of all curves together must not coincide. *)
Theorem C105_several : forall (cs : list (vcurve R 2)) (f : vcurve R 2 -> R -> vec R 2) (p q : vec R 2), (forall c, In c cs -> hulled c (f c)) ->
  In p (concat (map vc_pts cs)) -> In q (concat (map vc_pts cs)) -> p <> q ->
  (forall p i, In p (concat (map vc_pts cs)) -> (i < 2)%nat -> Rabs (coord 2 i p) <= IZR ((2 ^ 53 - 1) * 2 ^ 971)) ->
  exists W H k ox oy r, let shapes := fun c => picture (fun p => ((coord 2 0 p + ox) * k, (coord 2 1 p + oy) * k)) r 1000 (f c) (vc_lower c) (vc_upper c) (vc_pts c) in
    0 < k /\ Rmax W H = 1200 /\ save_svg_curves cs = Ok ([SvgOpen W H; SvgRect W H] ++ concat (map shapes cs) ++ [SvgClose]) /\ (forall c, In c cs -> Forall (fits W H) (shapes c)) /\
    exists p q i, In p (concat (map vc_pts cs)) /\ In q (concat (map vc_pts cs)) /\ (i < 2)%nat /\ (coord 2 i p - coord 2 i q) * k = 1000.
Proof. exact save_many. Qed.
Print Assumptions C105_several.
(** Two curves: a segment and a parabola. *)
Example C105_case : let a := [pt 0 0; pt 1 1] in let b := [pt 2 0; pt 3 2; pt 4 0] in
  let cs := [vc_bezier (mk_bezier a); vc_bezier (mk_bezier b)] in let f := fun c => bernstein_curve (vc_pts c) in
  (forall c, In c cs -> hulled c (f c)) /\ In (pt 0 0) (concat (map vc_pts cs)) /\ In (pt 1 1) (concat (map vc_pts cs)) /\ pt 0 0 <> pt 1 1 /\
  (forall p i, In p (concat (map vc_pts cs)) -> (i < 2)%nat -> Rabs (coord 2 i p) <= IZR ((2 ^ 53 - 1) * 2 ^ 971)).
Proof.
  intros a b cs f. split; [|split; [cbn; tauto|split; [cbn; tauto|split; [intros H; apply (f_equal (coord 2 0)) in H; cbn in H; lra|]]]].
  - intros c [<-|[<-|[]]]; apply bezier_hulled; discriminate.
  - intros p i Hp Hi. apply Rle_trans with 4; [|apply IZR_le; intros H; discriminate H].
    assert (Hc : i = 0%nat \/ i = 1%nat) by lia. cbn in Hp. repeat destruct Hp as [<-|Hp]; [..|destruct Hp]; destruct Hc as [-> | ->]; cbn; rewrite Rabs_pos_eq; lra.
Qed.

(** C106: the PostScript output.  Whatever the curve and the options, the program stops with an error before anything is painted: "stoke" is no operator. *)
Theorem C106_stoke_refuted : forall (d : nat) (c : vcurve R d) (o : R * R) (s : R) (ctrl : bool) (color : list R) (width : R) (ctrl_color : list R) (r : R) (n : Z) (toks : list (ps_token R)),
  to_eps c o s ctrl color width ctrl_color r n = Ok toks ->
  let run := ps_run ps_operator toks ps_start in fst run = false /\ ps_page (snd run) = [].
Proof. exact eps_nothing. Qed.
Print Assumptions C106_stoke_refuted.
(** Even if "stoke" meant "stroke", no control point would be painted: "arc" is missing, an empty path is filled, and five numbers per control point stay on
    the stack.  The polyline would be right. *)
Theorem C106_arc_refuted : forall (c : vcurve R 2) (f : R -> vec R 2) (o : R * R) (s cr cg cb width r g b rad : R) (n : nat),
  vc_lower c <= vc_upper c /\ (forall t, vc_lower c <= t <= vc_upper c -> vc_eval c t = Ok (f t)) -> (0 < n)%nat ->
  let M := fun p => ((coord 2 0 p + fst o) * s, (coord 2 1 p + snd o) * s) in
  exists toks st, to_eps c o s true [cr; cg; cb] width [r; g; b] rad (Z.of_nat n) = Ok toks /\ ps_run with_stoke toks ps_start = (true, st) /\
    ps_page st = [Stroked (clamp01 cr, clamp01 cg, clamp01 cb) width
                   (PsMove (fst (M (f (vc_lower c)))) (snd (M (f (vc_lower c)))) ::
                    map (fun i => let q := M (f (vc_lower c + INR i / INR n * (vc_upper c - vc_lower c))) in PsLine (fst q) (snd q)) (seq 1 n));
                  Filled (clamp01 r, clamp01 g, clamp01 b) []] /\
    List.length (ps_stack st) = (5 * List.length (vc_pts c))%nat.
Proof. exact eps_repaired. Qed.
Print Assumptions C106_arc_refuted.
(** The default colour of control points "88 88 88" is white. *)
Example C106_white : (clamp01 88, clamp01 88, clamp01 88) = (1, 1, 1).
Proof. unfold clamp01. rewrite Rmin_left, Rmax_right by lra. reflexivity. Qed.
Example C106_case : exists toks, to_eps (vc_bezier (mk_bezier [pt 0 0; pt 1 2; pt 3 (-1)])) (0, 0) 1 true [255; 0; 0] (1 / 5) [88; 88; 88] 1 1000 = Ok toks.
Proof.
  destruct (C106_arc_refuted (vc_bezier (mk_bezier [pt 0 0; pt 1 2; pt 3 (-1)])) (bernstein_curve [pt 0 0; pt 1 2; pt 3 (-1)]) (0, 0) 1 255 0 0 (1 / 5) 88 88 88 1 1000) as (toks & st & E & _).
  - apply hulled_runs, bezier_hulled. discriminate.
  - lia.
  - exists toks. exact E.
Qed.
