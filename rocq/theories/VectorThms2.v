(** save_svg: whole files. *)
From Coq Require Import Reals Lra Lia ZArith List Psatz.
From Verif Require Import Monad MonadFacts Scalar ScalarFacts Spec SpecFacts SpecPatch ModelCurve ModelBezier ModelBSpline ModelRational ModelVector SpecVector AnalysisThms2 BezierThms BSplineFacts BSplineThms BSplineThms3 RationalThms PatchHull VectorThms.
Import ListNotations.
Local Open Scope R_scope.

Lemma svg_file_value (cs : list (vcurve R 2)) (f : vcurve R 2 -> R -> vec R 2) x0 y0 x1 y1 : (forall c, In c cs -> runs c (f c)) ->
  let w := x1 - x0 in let h := y1 - y0 in let m := Rmax w h in m <> 0 ->
  let s := 1000 / m in let r := sqrt (w * w + h * h) / 100 in
  svg_file cs x0 y0 x1 y1 = Ok ([SvgOpen ((w + 2 * (m / 10)) * s) ((h + 2 * (m / 10)) * s); SvgRect ((w + 2 * (m / 10)) * s) ((h + 2 * (m / 10)) * s)]
    ++ concat (map (fun c => picture (place (- x0 + m / 10, - y0 + m / 10) s) (r * s) 1000 (f c) (vc_lower c) (vc_upper c) (vc_pts c)) cs) ++ [SvgClose]).
Proof.
  intros Hr w h m Hm s r. unfold svg_file. cbn [sofZ R_ops]. rewrite smax_R. cbn [ssub R_ops]. fold w h m.
  rewrite !ddiv_R by (assumption || lra). rewrite !bind_Ok. fold s. cbn [ssqrt sadd smul R_ops]. fold r.
  rewrite (mapM_Ok _ (fun c => picture (place (- x0 + m / 10, - y0 + m / 10) s) (r * s) 1000 (f c) (vc_lower c) (vc_upper c) (vc_pts c))).
  2:{ intros c Hc. change 1000%Z with (Z.of_nat 1000). cbn [sopp R_ops]. apply to_svg_value; [now apply Hr|lia]. }
  rewrite bind_Ok. reflexivity.
Qed.
Lemma svg_file_zero (cs : list (vcurve R 2)) x0 y0 x1 y1 : Rmax (x1 - x0) (y1 - y0) = 0 -> svg_file cs x0 y0 x1 y1 = NonFinite.
Proof.
  intros Hm. unfold svg_file. cbn [sofZ R_ops]. rewrite smax_R. cbn [ssub R_ops]. rewrite Hm. rewrite ddiv_R by lra. rewrite bind_Ok. unfold ddiv. cbn [seq_ R_ops].
  rewrite Reqb_true by reflexivity. reflexivity.
Qed.

Lemma max_affine a b e s : 0 < s -> Rmax ((a + e) * s) ((b + e) * s) = (Rmax a b + e) * s.
Proof. intros Hs. unfold Rmax. destruct (Rle_dec a b); destruct (Rle_dec _ _); nra. Qed.

Lemma hulled_runs c f : hulled c f -> runs c f /\ forall t, vc_lower c <= t <= vc_upper c -> convex_comb (vc_pts c) (f t).
Proof. intros [Hl H]. split; [split; [exact Hl|]|]; intros t Ht; apply H, Ht. Qed.

Lemma svg_file_fits (cs : list (vcurve R 2)) (f : vcurve R 2 -> R -> vec R 2) x0 y0 x1 y1 : (forall c, In c cs -> hulled c (f c)) ->
  0 < Rmax (x1 - x0) (y1 - y0) ->
  (forall c p, In c cs -> In p (vc_pts c) -> x0 <= coord 2 0 p <= x1 /\ y0 <= coord 2 1 p <= y1) ->
  exists W H k ox oy r, k = 1000 / Rmax (x1 - x0) (y1 - y0) /\ 0 < k /\ Rmax W H = 1200 /\ svg_file cs x0 y0 x1 y1 = Ok ([SvgOpen W H; SvgRect W H]
    ++ concat (map (fun c => picture (fun p => ((coord 2 0 p + ox) * k, (coord 2 1 p + oy) * k)) r 1000 (f c) (vc_lower c) (vc_upper c) (vc_pts c)) cs) ++ [SvgClose]) /\
  forall c it, In c cs -> In it (picture (fun p => ((coord 2 0 p + ox) * k, (coord 2 1 p + oy) * k)) r 1000 (f c) (vc_lower c) (vc_upper c) (vc_pts c)) -> fits W H it.
Proof.
  intros Hc Hm Hb. set (w := x1 - x0) in *. set (h := y1 - y0) in *. set (m := Rmax w h) in *. set (s := 1000 / m). set (r := sqrt (w * w + h * h) / 100).
  assert (Hs : 0 < s) by (apply Rdiv_lt_0_compat; lra).
  exists ((w + 2 * (m / 10)) * s), ((h + 2 * (m / 10)) * s), s, (- x0 + m / 10), (- y0 + m / 10), (r * s). split; [reflexivity|]. split; [exact Hs|]. split; [|split].
  - transitivity ((m + 2 * (m / 10)) * s); [apply max_affine; exact Hs|unfold s; field; lra].
  - apply (svg_file_value cs f); [intros c Hi; apply hulled_runs, Hc, Hi|fold w h m; lra].
  - intros c it Hi Hit. destruct (hulled_runs _ _ (Hc c Hi)) as [Hr Hh]. pose proof (picture_fits c (f c) x0 y0 x1 y1 m s 1000 ltac:(lia) Hr Hh Hs Hm (Rmax_l _ _) (Rmax_r _ _) (fun p Hp => Hb c p Hi Hp)) as F.
    rewrite Forall_forall in F. apply F. exact Hit.
Qed.

Lemma box_positive (l : list (vec R 2)) p q x0 y0 x1 y1 : In p l -> In q l -> p <> q -> (forall p, In p l -> x0 <= coord 2 0 p <= x1 /\ y0 <= coord 2 1 p <= y1) -> 0 < Rmax (x1 - x0) (y1 - y0).
Proof.
  intros Hp Hq Hne Hb. destruct (Rlt_le_dec 0 (Rmax (x1 - x0) (y1 - y0))) as [H|H]; [exact H|]. exfalso. apply Hne.
  pose proof (Rmax_l (x1 - x0) (y1 - y0)). pose proof (Rmax_r (x1 - x0) (y1 - y0)). pose proof (Hb p Hp). pose proof (Hb q Hq).
  apply vec_ext. intros [|[|i]] Hi; [lra|lra|lia].
Qed.

Lemma spans (l : list (vec R 2)) x0 y0 x1 y1 k : 0 < Rmax (x1 - x0) (y1 - y0) -> k = 1000 / Rmax (x1 - x0) (y1 - y0) ->
  (exists p, In p l /\ coord 2 0 p = x0) -> (exists p, In p l /\ coord 2 1 p = y0) -> (exists p, In p l /\ coord 2 0 p = x1) -> (exists p, In p l /\ coord 2 1 p = y1) ->
  exists p q i, In p l /\ In q l /\ (i < 2)%nat /\ (coord 2 i p - coord 2 i q) * k = 1000.
Proof.
  intros Hm -> (a & Ia & Ea) (b & Ib & Eb) (c & Ic & Ec) (e & Ie & Ee). unfold Rmax in *. destruct (Rle_dec (x1 - x0) (y1 - y0)).
  - exists e, b, 1%nat. split; [exact Ie|]. split; [exact Ib|]. split; [lia|]. rewrite Ee, Eb. field. lra.
  - exists c, a, 0%nat. split; [exact Ic|]. split; [exact Ia|]. split; [lia|]. rewrite Ec, Ea. field. lra.
Qed.

Lemma save_one (c : vcurve R 2) f p q : hulled c f -> In p (vc_pts c) -> In q (vc_pts c) -> p <> q ->
  exists file, save_svg c = Ok file /\ drawing f (vc_lower c) (vc_upper c) (vc_pts c) file.
Proof.
  intros Hc Hp Hq Hne. unfold save_svg. cbn [Nat.eqb assert_]. rewrite bind_Ok. assert (Hn : vc_pts c <> []) by (intros E; rewrite E in Hp; destruct Hp).
  destruct (col_min_spec 0 (vc_pts c) Hn) as (x0 & E1 & B1 & A1). destruct (col_min_spec 1 (vc_pts c) Hn) as (y0 & E2 & B2 & A2).
  destruct (col_max_spec 0 (vc_pts c) Hn) as (x1 & E3 & B3 & A3). destruct (col_max_spec 1 (vc_pts c) Hn) as (y1 & E4 & B4 & A4).
  rewrite E1, bind_Ok, E2, bind_Ok, E3, bind_Ok, E4, bind_Ok.
  assert (Hb : forall p, In p (vc_pts c) -> x0 <= coord 2 0 p <= x1 /\ y0 <= coord 2 1 p <= y1) by (intros a Ha; split; split; auto).
  destruct (svg_file_fits [c] (fun _ => f) x0 y0 x1 y1) as (W & H & k & ox & oy & r & Ek & Hk & Hm & E & F).
  - intros b [<-|[]]. exact Hc.
  - exact (box_positive _ p q _ _ _ _ Hp Hq Hne Hb).
  - intros b a [<-|[]]. apply Hb.
  - cbn [map concat] in E. rewrite app_nil_r in E. eexists. split; [exact E|].
    exists W, H, k, ox, oy, r. cbv zeta. split; [exact Hk|]. split; [exact Hm|]. split; [reflexivity|].
    split; [apply Forall_forall; intros it; apply F; now left|].
    exact (spans (vc_pts c) x0 y0 x1 y1 k (box_positive _ p q _ _ _ _ Hp Hq Hne Hb) Ek A1 A2 A3 A4).
Qed.
Lemma save_point (c : vcurve R 2) p : vc_pts c <> [] -> (forall q, In q (vc_pts c) -> q = p) -> save_svg c = NonFinite.
Proof.
  intros Hn Hq. unfold save_svg. cbn [Nat.eqb assert_]. rewrite bind_Ok.
  destruct (col_min_spec 0 (vc_pts c) Hn) as (x0 & E1 & _ & a1 & I1 & V1). destruct (col_min_spec 1 (vc_pts c) Hn) as (y0 & E2 & _ & a2 & I2 & V2).
  destruct (col_max_spec 0 (vc_pts c) Hn) as (x1 & E3 & _ & a3 & I3 & V3). destruct (col_max_spec 1 (vc_pts c) Hn) as (y1 & E4 & _ & a4 & I4 & V4).
  rewrite E1, bind_Ok, E2, bind_Ok, E3, bind_Ok, E4, bind_Ok. apply Hq in I1, I2, I3, I4. subst a1 a2 a3 a4. rewrite <- V1, <- V2, <- V3, <- V4.
  apply svg_file_zero. rewrite !Rminus_diag_eq by reflexivity. apply Rmax_left. lra.
Qed.

Lemma abs_bounds x b : Rabs x <= b -> - b <= x <= b.
Proof. unfold Rabs. destruct Rcase_abs; lra. Qed.

(** ** Several curves *)
Definition box_step (box : res (R * R * R * R)) (c : vcurve R 2) : res (R * R * R * R) :=
  do '(xmin, ymin, xmax, ymax) <- box;
  do _ <- assert_ (2 =? 2)%nat;
  do x0 <- col_min 0 (vc_pts c);
  do y0 <- col_min 1 (vc_pts c);
  do x1 <- col_max 0 (vc_pts c);
  do y1 <- col_max 1 (vc_pts c);
  Ok (smin xmin x0, smin ymin y0, smax xmax x1, smax ymax y1).
Lemma box_fold (cs : list (vcurve R 2)) : (forall c, In c cs -> vc_pts c <> []) -> forall a0 b0 a1 b1, exists x0 y0 x1 y1,
  fold_left box_step cs (Ok (a0, b0, a1, b1)) = Ok (x0, y0, x1, y1) /\ x0 <= a0 /\ y0 <= b0 /\ a1 <= x1 /\ b1 <= y1 /\
  (forall c p, In c cs -> In p (vc_pts c) -> x0 <= coord 2 0 p <= x1 /\ y0 <= coord 2 1 p <= y1) /\
  (x0 = a0 \/ exists p, In p (concat (map vc_pts cs)) /\ coord 2 0 p = x0) /\ (y0 = b0 \/ exists p, In p (concat (map vc_pts cs)) /\ coord 2 1 p = y0) /\
  (x1 = a1 \/ exists p, In p (concat (map vc_pts cs)) /\ coord 2 0 p = x1) /\ (y1 = b1 \/ exists p, In p (concat (map vc_pts cs)) /\ coord 2 1 p = y1).
Proof.
  induction cs as [|c cs IH]; intros Hn a0 b0 a1 b1.
  - exists a0, b0, a1, b1. split; [reflexivity|]. split; [lra|]. split; [lra|]. split; [lra|]. split; [lra|]. split; [intros c p []|]. repeat split; now left.
  - assert (Hc := Hn c (or_introl eq_refl)).
    destruct (col_min_spec 0 (vc_pts c) Hc) as (u0 & E1 & B1 & A1). destruct (col_min_spec 1 (vc_pts c) Hc) as (v0 & E2 & B2 & A2).
    destruct (col_max_spec 0 (vc_pts c) Hc) as (u1 & E3 & B3 & A3). destruct (col_max_spec 1 (vc_pts c) Hc) as (v1 & E4 & B4 & A4).
    cbn [fold_left]. unfold box_step at 2. cbn [Nat.eqb assert_]. rewrite !bind_Ok. rewrite E1, bind_Ok, E2, bind_Ok, E3, bind_Ok, E4, bind_Ok. rewrite !smin_R, !smax_R.
    destruct (IH (fun c Hc => Hn c (or_intror Hc)) (Rmin a0 u0) (Rmin b0 v0) (Rmax a1 u1) (Rmax b1 v1)) as (x0 & y0 & x1 & y1 & E & H1 & H2 & H3 & H4 & Hb & T1 & T2 & T3 & T4).
    exists x0, y0, x1, y1. split; [exact E|]. pose proof (Rmin_l a0 u0). pose proof (Rmin_r a0 u0). pose proof (Rmin_l b0 v0). pose proof (Rmin_r b0 v0).
    pose proof (Rmax_l a1 u1). pose proof (Rmax_r a1 u1). pose proof (Rmax_l b1 v1). pose proof (Rmax_r b1 v1).
    split; [lra|]. split; [lra|]. split; [lra|]. split; [lra|].
    assert (K : forall a, In a (vc_pts c) -> In a (concat (map vc_pts (c :: cs)))) by (intros a Ha; cbn [map concat]; apply in_or_app; now left).
    assert (K' : forall a, In a (concat (map vc_pts cs)) -> In a (concat (map vc_pts (c :: cs)))) by (intros a Ha; cbn [map concat]; apply in_or_app; now right).
    split; [intros b p [<-|Hi] Hp; [|now apply (Hb b)]; pose proof (B1 p Hp); pose proof (B2 p Hp); pose proof (B3 p Hp); pose proof (B4 p Hp); split; lra|].
    repeat split.
    + destruct T1 as [->|(a & Ia & Ea)]; [|right; eauto]. destruct A1 as (a & Ia & Ea). unfold Rmin. destruct Rle_dec; [now left|right; eauto].
    + destruct T2 as [->|(a & Ia & Ea)]; [|right; eauto]. destruct A2 as (a & Ia & Ea). unfold Rmin. destruct Rle_dec; [now left|right; eauto].
    + destruct T3 as [->|(a & Ia & Ea)]; [|right; eauto]. destruct A3 as (a & Ia & Ea). unfold Rmax. destruct Rle_dec; [right; eauto|now left].
    + destruct T4 as [->|(a & Ia & Ea)]; [|right; eauto]. destruct A4 as (a & Ia & Ea). unfold Rmax. destruct Rle_dec; [right; eauto|now left].
Qed.
(** The box is attained, so the picture is as large as possible. *)
Lemma save_many (cs : list (vcurve R 2)) (f : vcurve R 2 -> R -> vec R 2) p q : (forall c, In c cs -> hulled c (f c)) ->
  In p (concat (map vc_pts cs)) -> In q (concat (map vc_pts cs)) -> p <> q ->
  (forall p i, In p (concat (map vc_pts cs)) -> (i < 2)%nat -> Rabs (coord 2 i p) <= IZR ((2 ^ 53 - 1) * 2 ^ 971)) ->
  exists W H k ox oy r, let shapes := fun c => picture (fun p => ((coord 2 0 p + ox) * k, (coord 2 1 p + oy) * k)) r 1000 (f c) (vc_lower c) (vc_upper c) (vc_pts c) in
    0 < k /\ Rmax W H = 1200 /\ save_svg_curves cs = Ok ([SvgOpen W H; SvgRect W H] ++ concat (map shapes cs) ++ [SvgClose]) /\ (forall c, In c cs -> Forall (fits W H) (shapes c)) /\
    exists p q i, In p (concat (map vc_pts cs)) /\ In q (concat (map vc_pts cs)) /\ (i < 2)%nat /\ (coord 2 i p - coord 2 i q) * k = 1000.
Proof.
  intros Hc Hp Hq Hne Hbig. change (IZR ((2 ^ 53 - 1) * 2 ^ 971)) with (snummax : R) in Hbig. unfold save_svg_curves. cbn [sopp R_ops]. set (big := snummax) in *.
  assert (Hn : forall c, In c cs -> vc_pts c <> []).
  { intros c Hi E. destruct (Hc c Hi) as [Hl H]. destruct (H (vc_lower c)) as (_ & w & _ & S & _); [lra|]. rewrite E in S. change (0 = 1) in S. lra. }
  destruct (box_fold cs Hn big big (- big) (- big)) as (x0 & y0 & x1 & y1 & E & L1 & L2 & L3 & L4 & Hb & T1 & T2 & T3 & T4).
  match goal with |- context [fold_left ?g cs ?a] => change (fold_left g cs a) with (fold_left box_step cs a) end. rewrite E, bind_Ok.
  assert (Hall : forall a, In a (concat (map vc_pts cs)) -> x0 <= coord 2 0 a <= x1 /\ y0 <= coord 2 1 a <= y1).
  { intros a Ha. apply in_concat in Ha. destruct Ha as (l & Hl & Ha). apply in_map_iff in Hl. destruct Hl as (c & <- & Hi). now apply (Hb c). }
  pose proof (box_positive _ p q x0 y0 x1 y1 Hp Hq Hne Hall) as Hpos.
  pose proof (Hbig p 0%nat Hp ltac:(lia)) as P0. pose proof (Hbig p 1%nat Hp ltac:(lia)) as P1. apply abs_bounds in P0, P1. pose proof (Hall p Hp) as Hpp.
  destruct (svg_file_fits cs f x0 y0 x1 y1 Hc) as (W & H & k & ox & oy & r & Ek & Hk & Hm & Ev & F).
  - exact Hpos.
  - exact Hb.
  - exists W, H, k, ox, oy, r. cbv zeta. split; [exact Hk|]. split; [exact Hm|]. split; [exact Ev|]. split; [intros c Hi; apply Forall_forall; intros it; now apply F|].
    apply (spans (concat (map vc_pts cs)) x0 y0 x1 y1 k Hpos Ek).
    + destruct T1 as [T|T]; [|exact T]. exists p. split; [exact Hp|lra].
    + destruct T2 as [T|T]; [|exact T]. exists p. split; [exact Hp|lra].
    + destruct T3 as [T|T]; [|exact T]. exists p. split; [exact Hp|lra].
    + destruct T4 as [T|T]; [|exact T]. exists p. split; [exact Hp|lra].
Qed.
