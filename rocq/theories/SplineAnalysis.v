(** Analysis of B-splines: what compute_inflections and compute_singularities report about the pieces between the knots. *)
From Coq Require Import Reals Lra Lia ZArith List Psatz Sorted.
From Verif Require Import Monad MonadFacts LoopFacts Scalar ScalarFacts Spec SpecFacts SpecAnalysis SpecSplineAnalysis BezierFacts BezierThms ModelCurve ModelBezier ModelBSpline
  ModelRoots ModelAnalysis AutoFacts AutoThms AnalysisThms AnalysisThms2 SpecRoots RootsThms AnalysisThms3 BSplineConvert TurningThms4.
Import ListNotations.
Local Open Scope R_scope.

Lemma for_nat_post_i {S} (Inv : Z -> S -> Prop) n lo body (s : S) x : Inv lo s ->
  (forall i s s', (lo <= i < lo + Z.of_nat n)%Z -> Inv i s -> body i s = Ok s' -> Inv (i + 1)%Z s') ->
  for_nat n lo body s = Ok x -> Inv (lo + Z.of_nat n)%Z x.
Proof.
  revert lo s; induction n as [|n IH]; intros lo s H0 Hs E; simpl in E.
  - inversion E; subst. now replace (lo + Z.of_nat 0)%Z with lo by lia.
  - destruct (body lo s) as [y| | |] eqn:Eb; simpl in E; try discriminate.
    replace (lo + Z.of_nat (Datatypes.S n))%Z with (lo + 1 + Z.of_nat n)%Z by lia.
    apply (IH (lo + 1)%Z y); [apply (Hs lo s); [lia|exact H0|exact Eb]| |exact E].
    intros i s1 s2 Hi. apply Hs. lia.
Qed.

(** Piece [j] reports [t]. *)
Definition piece_hit {B} (analyse : B -> R -> R -> res (list R)) (segs : list B) (bounds : list R) (a b : R) (j : nat) (t : R) : Prop :=
  let x := nth j bounds 0 in let y := nth (j + 1) bounds 0 in
  a <= y /\ x <= b /\ exists seg ts, nth_error segs j = Some seg /\ analyse seg (Rmax ((a - x) / (y - x)) 0) (Rmin ((b - x) / (y - x)) 1) = Ok ts /\
  exists u, In u ts /\ t = u * (y - x) + x.
Definition piece_done {B} (analyse : B -> R -> R -> res (list R)) (segs : list B) (bounds : list R) (a b : R) (j : nat) : Prop :=
  let x := nth j bounds 0 in let y := nth (j + 1) bounds 0 in
  a <= y -> x <= b -> exists seg ts, nth_error segs j = Some seg /\ analyse seg (Rmax ((a - x) / (y - x)) 0) (Rmin ((b - x) / (y - x)) 1) = Ok ts.

Lemma piece_step {B} (analyse : B -> R -> R -> res (list R)) segs bounds a b k acc : length bounds = S (length segs) -> (k < length segs)%nat -> nth k bounds 0 < nth (k + 1) bounds 0 ->
  (do t_min <- get bounds (Z.of_nat k); do t_max <- get bounds (Z.of_nat k + 1);
   if ((t_max <? a) || (b <? t_min))%S then Ok acc
   else
     do nl <- ddiv (a - t_min)%S (t_max - t_min)%S; do nu <- ddiv (b - t_min)%S (t_max - t_min)%S;
     do curve <- get segs (Z.of_nat k);
     do ts <- analyse curve (smax nl s0) (smin nu s1);
     Ok (acc ++ map (fun t => (t * (t_max - t_min) + t_min)%S) ts)) =
  let x := nth k bounds 0 in let y := nth (k + 1) bounds 0 in
  if Rlt_dec y a then Ok acc else if Rlt_dec b x then Ok acc else
  match nth_error segs k with
  | Some seg => do ts <- analyse seg (Rmax ((a - x) / (y - x)) 0) (Rmin ((b - x) / (y - x)) 1); Ok (acc ++ map (fun t => t * (y - x) + x) ts)
  | None => Undef
  end.
Proof.
  intros HL Hk Hi. rewrite (get_nth bounds (Z.of_nat k) 0) by (unfold zlen; lia). rewrite bind_Ok.
  rewrite (get_nth bounds (Z.of_nat k + 1) 0) by (unfold zlen; lia). rewrite bind_Ok, Nat2Z.id. replace (Z.to_nat (Z.of_nat k + 1)) with (k + 1)%nat by lia.
  cbv zeta. set (x := nth k bounds 0) in *. set (y := nth (k + 1) bounds 0) in *. cbn [slt R_ops].
  destruct (Rltb_spec y a), (Rlt_dec y a); try lra; cbn [orb]; [reflexivity|].
  destruct (Rltb_spec b x), (Rlt_dec b x); try lra; cbn [orb]; [reflexivity|].
  cbn [ssub R_ops]. rewrite !ddiv_R by lra. rewrite !bind_Ok. unfold get. destruct (Z.ltb_spec (Z.of_nat k) 0); [lia|]. rewrite Nat2Z.id.
  destruct (nth_error segs k) as [seg|]; [|reflexivity]. rewrite bind_Ok, smax_R, smin_R. reflexivity.
Qed.

Section Pieces.
  Context {B : Type} (analyse : B -> R -> R -> res (list R)) (segs : list B) (bounds : list R) (a b : R).
  Hypothesis HL : length bounds = S (length segs).
  Hypothesis Hinc : forall j, (j < length segs)%nat -> nth j bounds 0 < nth (j + 1) bounds 0.

  Lemma pieces_assert : (zlen bounds =? zlen segs + 1)%Z = true.
  Proof. apply Z.eqb_eq. unfold zlen. lia. Qed.

  Lemma pieces_in l : piecewise_analysis analyse segs bounds a b = Ok l ->
    StronglySorted Rlt l /\ (forall t, In t l <-> exists j, (j < length segs)%nat /\ piece_hit analyse segs bounds a b j t) /\
    forall j, (j < length segs)%nat -> piece_done analyse segs bounds a b j.
  Proof.
    intros E. unfold piecewise_analysis in E. rewrite pieces_assert in E. cbn [assert_ bind] in E. apply bind_inv in E. destruct E as (r & Er & E). injection E as <-.
    destruct (sorted_unique_spec r) as [S1 S2]. split; [exact S1|].
    assert (H : (forall t, In t r <-> exists j, (j < Z.to_nat (zlen segs))%nat /\ piece_hit analyse segs bounds a b j t) /\
                forall j, (j < Z.to_nat (zlen segs))%nat -> piece_done analyse segs bounds a b j).
    { unfold for_up in Er. apply (for_nat_post_i (fun i acc => (forall t, In t acc <-> exists j, (j < Z.to_nat i)%nat /\ piece_hit analyse segs bounds a b j t) /\
        forall j, (j < Z.to_nat i)%nat -> piece_done analyse segs bounds a b j)) in Er.
      - replace (0 + Z.of_nat (Z.to_nat (zlen segs - 0)))%Z with (zlen segs) in Er by (unfold zlen; lia). exact Er.
      - split; [|intros j Hj; cbn in Hj; lia]. intros t. split; [intros []|]. intros (j & Hj & _). cbn in Hj. lia.
      - intros i acc acc' Hi [HI HD] Eb. unfold zlen in Hi. destruct (Z_of_nat_complete i) as [k ->]; [lia|].
        replace (Z.to_nat (Z.of_nat k + 1)) with (S k) by lia. rewrite Nat2Z.id in HI, HD.
        pose proof (Hinc k ltac:(lia)) as Hk. rewrite piece_step in Eb by (assumption || lia). cbv zeta in Eb.
        assert (Hsk : ~ (a <= nth (k + 1) bounds 0 /\ nth k bounds 0 <= b) -> acc' = acc ->
          (forall t, In t acc' <-> exists j, (j < S k)%nat /\ piece_hit analyse segs bounds a b j t) /\ (forall j, (j < S k)%nat -> piece_done analyse segs bounds a b j)).
        { intros Hno ->. split.
          - intros t. rewrite HI. split; intros (j & Hj & Hh).
            + exists j. split; [lia|exact Hh].
            + exists j. split; [|exact Hh]. destruct (Nat.eq_dec j k) as [->|]; [|lia]. exfalso. apply Hno. destruct Hh as (H1 & H2 & _). split; assumption.
          - intros j Hj. destruct (Nat.eq_dec j k) as [->|]; [|apply HD; lia]. intros H1 H2. exfalso. apply Hno. split; assumption. }
        destruct (Rlt_dec _ a) as [Q|Q]; [apply Hsk; [lra|congruence]|]. destruct (Rlt_dec b _) as [Q'|Q']; [apply Hsk; [lra|congruence]|].
        destruct (nth_error segs k) as [seg|] eqn:Es; [|discriminate]. apply bind_inv in Eb. destruct Eb as (ts & Et & Eb). injection Eb as <-. split.
        + intros t. rewrite in_app_iff, HI, in_map_iff. split.
          * intros [(j & Hj & Hh)|(u & Eu & Hu)]; [exists j; split; [lia|exact Hh]|]. exists k. split; [lia|]. split; [lra|]. split; [lra|].
            exists seg, ts. split; [exact Es|]. split; [exact Et|]. exists u. split; [exact Hu|]. now rewrite <- Eu.
          * intros (j & Hj & Hh). destruct (Nat.eq_dec j k) as [->|]; [right|left; exists j; split; [lia|exact Hh]].
            destruct Hh as (_ & _ & seg' & ts' & Es' & Et' & u & Hu & ->). assert (seg' = seg) by congruence. subst seg'. assert (ts' = ts) by congruence. subst ts'.
            exists u. split; [reflexivity|exact Hu].
        + intros j Hj. destruct (Nat.eq_dec j k) as [->|]; [|apply HD; lia]. intros _ _. exists seg, ts. split; assumption. }
    unfold zlen in H. rewrite Nat2Z.id in H. destruct H as [H1 H2]. split; [|exact H2]. intros t. rewrite S2. apply H1.
  Qed.

  Lemma pieces_succeed : (forall j, (j < length segs)%nat -> piece_done analyse segs bounds a b j) -> exists l, piecewise_analysis analyse segs bounds a b = Ok l.
  Proof.
    intros HD. unfold piecewise_analysis. rewrite pieces_assert. cbn [assert_ bind].
    match goal with |- context [for_up 0 ?n ?B ?s] => destruct (for_up_inv (fun _ _ => True) 0 n B s) as (r & Er & _) end; [unfold zlen; lia|exact I| |].
    - intros i acc Hi _. unfold zlen in Hi. destruct (Z_of_nat_complete i) as [k ->]; [lia|]. pose proof (Hinc k ltac:(lia)) as Hk.
      rewrite piece_step by (assumption || lia). cbv zeta. destruct (Rlt_dec _ a) as [Q|Q]; [eauto|]. destruct (Rlt_dec b _) as [Q'|Q']; [eauto|].
      destruct (HD k ltac:(lia) ltac:(lra) ltac:(lra)) as (seg & ts & -> & ->). rewrite bind_Ok. eauto.
    - rewrite Er. cbn [bind]. eauto.
  Qed.
End Pieces.

(** * Functions that agree on an interval *)
Lemma zero_flat (D D1 D2 : R -> R) : (forall t, derivable_pt_lim D t (D1 t)) -> (forall t, derivable_pt_lim D1 t (D2 t)) ->
  (forall t, 0 <= t < 1 -> D t = 0) -> forall t, 0 <= t <= 1 -> D1 t = 0 /\ D2 t = 0.
Proof.
  intros H1 H2 H0.
  assert (E1 : D 1 = 0).
  { destruct (Req_dec (D 1) 0) as [E|E]; [exact E|exfalso].
    assert (Hc : continuity_pt D 1) by (apply derivable_continuous_pt; exists (D1 1); apply H1).
    destruct (Hc (Rabs (D 1))) as (dl & Hd & Hl); [now apply Rabs_pos_lt|]. cbn in Hl. unfold R_dist in Hl.
    set (x := 1 - Rmin dl 1 / 2). assert (Hm : 0 < Rmin dl 1 <= 1 /\ Rmin dl 1 <= dl) by (repeat split; [apply Rmin_pos; lra|apply Rmin_r|apply Rmin_l]).
    specialize (Hl x). rewrite (H0 x) in Hl by (unfold x; lra). replace (0 - D 1) with (- D 1) in Hl by ring. rewrite Rabs_Ropp in Hl.
    assert (Rabs (D 1) < Rabs (D 1)); [|lra]. apply Hl. split; [split; [exact I|unfold x; lra]|]. unfold x. rewrite Rabs_left; lra. }
  assert (HD : forall t, 0 <= t <= 1 -> D t = 0) by (intros t Ht; destruct (Req_dec t 1) as [->|]; [exact E1|apply H0; lra]).
  assert (F : forall G G1, (forall t, derivable_pt_lim G t (G1 t)) -> (forall t, 0 <= t <= 1 -> G t = 0) -> forall t, 0 <= t <= 1 -> G1 t = 0).
  { intros G G1 HG HZ t Ht. apply (deriv_within_unique 0 1 (fun x => 0 <= x <= 1) G t); [lra|exact Ht|auto| |].
    - apply deriv_within_of_deriv, HG.
    - apply (deriv_within_ext (fun x => 0 <= x <= 1) (fun _ => 0)); [now rewrite HZ|intros x Hx; now rewrite HZ|].
      apply deriv_within_of_deriv, derivable_pt_lim_const. }
  intros t Ht. split; [apply (F D D1); assumption|]. apply (F D1 D2); [assumption|now apply (F D D1)|assumption].
Qed.

Lemma affine_deriv (f : R -> R) x h u l : derivable_pt_lim f (x + u * h) l -> derivable_pt_lim (fun v => f (x + v * h)) u (h * l).
Proof.
  intros H. replace (h * l) with (l * h) by ring. apply (derivable_pt_lim_comp (fun v => x + v * h) f u h l); [|exact H].
  replace h with (0 + (1 * h + u * 0)) at 1 by ring. apply (derivable_pt_lim_plus (fun _ => x)); [apply derivable_pt_lim_const|].
  apply (derivable_pt_lim_mult id (fun _ => h)); [apply derivable_pt_lim_id|apply derivable_pt_lim_const].
Qed.

Lemma piece_derivs (B B1 B2 g g1 g2 : R -> vec R 2) x h : derivs2 B B1 B2 -> derivs2 g g1 g2 -> (forall u, 0 <= u < 1 -> B u = g (x + u * h)) ->
  forall u i, 0 <= u <= 1 -> (i < 2)%nat -> coord 2 i (B1 u) = h * coord 2 i (g1 (x + u * h)) /\ coord 2 i (B2 u) = h * h * coord 2 i (g2 (x + u * h)).
Proof.
  intros [HB1 HB2] [Hg1 Hg2] He u i Hu Hi.
  destruct (zero_flat (fun v => coord 2 i (B v) - coord 2 i (g (x + v * h))) (fun v => coord 2 i (B1 v) - h * coord 2 i (g1 (x + v * h)))
    (fun v => coord 2 i (B2 v) - h * (h * coord 2 i (g2 (x + v * h))))) with (t := u) as [E1 E2].
  - intros t. apply (derivable_pt_lim_minus (fun v => coord 2 i (B v)) (fun v => coord 2 i (g (x + v * h)))); [exact (HB1 t i Hi)|].
    apply (affine_deriv (fun v => coord 2 i (g v))). exact (Hg1 _ i Hi).
  - intros t. apply (derivable_pt_lim_minus (fun v => coord 2 i (B1 v)) (fun v => h * coord 2 i (g1 (x + v * h)))); [exact (HB2 t i Hi)|].
    apply (derivable_pt_lim_scal (fun v => coord 2 i (g1 (x + v * h)))). apply (affine_deriv (fun v => coord 2 i (g1 v))). exact (Hg2 _ i Hi).
  - intros t Ht. rewrite He by exact Ht. ring.
  - exact Hu.
  - split; [lra|]. replace (h * h * coord 2 i (g2 (x + u * h))) with (h * (h * coord 2 i (g2 (x + u * h)))) by ring. lra.
Qed.

(** * The pieces of a B-spline *)
Lemma spline_pieces (c : bspline R (vec R 2)) : plain_bspline c -> (2 <= bspline_degree (bs_pts c) (bs_knots c))%nat ->
  exists segs bounds, bs_convert_to_Bezier c = Ok (segs, bounds) /\ length bounds = S (length segs) /\
    (forall j, (j < length segs)%nat -> nth j bounds 0 < nth (j + 1) bounds 0) /\
    (forall x y, neighbours c x y <-> exists j, (j < length segs)%nat /\ x = nth j bounds 0 /\ y = nth (j + 1) bounds 0) /\
    forall j, (j < length segs)%nat -> let x := nth j bounds 0 in let y := nth (j + 1) bounds 0 in
      exists l F1 F2, nth_error segs j = Some (mk_bezier l) /\ length l = S (bspline_degree (bs_pts c) (bs_knots c)) /\ derivs2 (bernstein_curve l) F1 F2 /\
      (exists g g1 g2, piece c x y g g1 g2) /\
      forall g g1 g2, piece c x y g g1 g2 -> forall u i, 0 <= u <= 1 -> (i < 2)%nat ->
        coord 2 i (F1 u) = (y - x) * coord 2 i (g1 (x + u * (y - x))) /\ coord 2 i (F2 u) = (y - x) * (y - x) * coord 2 i (g2 (x + u * (y - x))).
Proof.
  intros (Hv & Ha & Hper & Hs) Hp2. destruct (bspline_convert 2 c Hv Ha Hs) as (segs & bounds & E & HL & B0 & BN & Hin & Hinc & Hp).
  exists segs, bounds. split; [exact E|]. split; [exact HL|]. split; [exact Hinc|]. split.
  - intros x y. split.
    + intros (Hx & Hy & Hxy & Hyu & Hno). assert (Ix : In x bounds) by (apply Hin; split; [exact Hx|lra]). assert (Iy : In y bounds) by (apply Hin; split; [exact Hy|lra]).
      destruct (In_nth _ _ 0 Ix) as (i & Hi & Ei). destruct (In_nth _ _ 0 Iy) as (k & Hk & Ek).
      assert (Hik : (i < k)%nat) by (apply (bounds_lt bounds (length segs)); [assumption|assumption|lia|lia|lra]).
      exists i. split; [lia|]. split; [now symmetry|]. destruct (Nat.eq_dec (i + 1) k) as [->|Q]; [now symmetry|]. exfalso.
      assert (In (nth (i + 1) bounds 0) bounds) by (apply nth_In; lia). apply (Hno (nth (i + 1) bounds 0)); [now apply Hin|].
      pose proof (Hinc i ltac:(lia)). pose proof (Hinc (i + 1)%nat ltac:(lia)). pose proof (bounds_le bounds (length segs) (i + 1 + 1) k HL Hinc ltac:(lia)). lra.
    + intros (j & Hj & -> & ->). assert (I1 : In (nth j bounds 0) bounds) by (apply nth_In; lia). assert (I2 : In (nth (j + 1) bounds 0) bounds) by (apply nth_In; lia).
      pose proof (Hinc j Hj). split; [now apply Hin|]. split; [now apply Hin|]. apply Hin in I1, I2. split; [lra|]. split; [lra|]. intros u Hu Hxu.
      assert (Iu : In u bounds) by (apply Hin; split; [exact Hu|lra]). destruct (In_nth _ _ 0 Iu) as (k & Hk & Ek). rewrite <- Ek in Hxu.
      assert (j < k)%nat by (apply (bounds_lt bounds (length segs)); [assumption|assumption|lia|lia|lra]).
      assert (k < j + 1)%nat by (apply (bounds_lt bounds (length segs)); [assumption|assumption|lia|lia|lra]). lia.
  - intros j Hj. cbv zeta. destruct (Hp j Hj) as (l & El & Hl & Hx). set (x := nth j bounds 0) in *. set (y := nth (j + 1) bounds 0) in *. specialize (Hinc j Hj) as Hxy. fold x y in Hxy.
    pose proof (curve_planar_derivs l ltac:(lia)) as HD. cbv zeta in HD.
    match type of HD with (forall t, vderiv _ t (?a t)) /\ (forall s, vderiv _ s (?b s)) => exists l, a, b; change (derivs2 (bernstein_curve l) a b) in HD; set (F1 := a) in *; set (F2 := b) in * end.
    split; [exact El|]. split; [exact Hl|]. split; [exact HD|].
    assert (Hne : l <> []) by (destruct l; [discriminate|congruence]).
    assert (Hc : mk_bspline (bs_pts c) (bs_knots c) = c) by (destruct c; cbn in *; rewrite Hper; reflexivity). rewrite Hc in Hx. split.
    + exists (fun t => bernstein_curve l (- (x / (y - x)) + t * / (y - x))), (fun t => pmul (/ (y - x)) (F1 (- (x / (y - x)) + t * / (y - x)))),
        (fun t => pmul (/ (y - x)) (pmul (/ (y - x)) (F2 (- (x / (y - x)) + t * / (y - x))))). destruct HD as [D1 D2]. split; [split|].
      * intros t i Hi. rewrite coord_mul by exact Hi. apply (affine_deriv (fun v => coord 2 i (bernstein_curve l v))). exact (D1 _ i Hi).
      * intros t i Hi. rewrite !coord_mul by exact Hi. eapply derivable_pt_lim_ext; [intros v; symmetry; apply coord_mul; exact Hi|].
        apply (derivable_pt_lim_scal (fun v => coord 2 i (F1 (- (x / (y - x)) + v * / (y - x))))). apply (affine_deriv (fun v => coord 2 i (F1 v))). exact (D2 _ i Hi).
      * intros t Ht. rewrite <- (Hx t) by (left; exact Ht). rewrite bezier_bernstein by exact Hne. do 2 f_equal. field. lra.
    + intros g g1 g2 [Hg Hge] u i Hu Hi. apply (piece_derivs (bernstein_curve l) F1 F2 g g1 g2 x (y - x)); try assumption. intros v Hv'.
      specialize (Hx (x + v * (y - x))). rewrite Hge, bezier_bernstein in Hx by (assumption || nra).
      replace ((x + v * (y - x) - x) / (y - x)) with v in Hx by (field; lra). assert (Oi : forall a b : vec R 2, Ok a = Ok b -> a = b) by congruence.
      apply Oi, Hx. left. nra.
Qed.

Lemma coord2_ext (v w : vec R 2) : (forall i, (i < 2)%nat -> coord 2 i v = coord 2 i w) -> v = w.
Proof. intros H. apply (@vec_ext 2). exact H. Qed.

(** A polynomial identity on the unit interval holds everywhere. *)
Lemma poly_everywhere cs ks s : length cs = length ks -> (forall t, 0 <= t <= 1 -> rsum (length cs) (fun k => nth k cs 0 * t ^ k) = s * rsum (length ks) (fun k => nth k ks 0 * t ^ k)) ->
  forall t, rsum (length cs) (fun k => nth k cs 0 * t ^ k) = s * rsum (length ks) (fun k => nth k ks 0 * t ^ k).
Proof.
  intros HL H t. rewrite <- rsum_scale, <- HL. apply rsum_eq. intros i Hi.
  rewrite (poly_unique (length cs) (fun i => nth i cs 0) (fun i => s * nth i ks 0)); [ring| |exact Hi].
  intros u Hu. rewrite H by lra. rewrite <- rsum_scale, <- HL. apply rsum_eq. intros. ring.
Qed.

Lemma inflection_extends high (l : list (vec R 2)) F1 F2 ks : (4 <= length l <= 11)%nat -> (length l <= 5)%nat \/ high = true -> derivs2 (bernstein_curve l) F1 F2 ->
  length ks = (2 * length l - 5)%nat -> (forall u, 0 <= u <= 1 -> cross2 (F1 u) (F2 u) = rsum (length ks) (fun k => nth k ks 0 * u ^ k)) ->
  forall u, cross2 (F1 u) (F2 u) = rsum (length ks) (fun k => nth k ks 0 * u ^ k).
Proof.
  intros HL Hh HD Lk HC u. destruct (inflection_poly l high ltac:(lia) Hh) as (cs & g1 & g2 & Ec & G1 & G2 & Hp).
  pose proof (infl_length high l cs ltac:(lia) Ec) as Lc.
  assert (K : forall t, rsum (length cs) (fun k => nth k cs 0 * t ^ k) = - cross2 (F1 t) (F2 t)).
  { intros t. rewrite Hp. unfold cross2. destruct (derivs2_unique _ _ _ _ _ HD (conj G1 G2) t 0%nat ltac:(lia)) as [-> ->].
    destruct (derivs2_unique _ _ _ _ _ HD (conj G1 G2) t 1%nat ltac:(lia)) as [-> ->]. ring. }
  pose proof (poly_everywhere cs ks (-1) ltac:(lia)) as P. rewrite <- (Ropp_involutive (cross2 _ _)), <- K, P; [ring|].
  intros t Ht. rewrite K, HC by exact Ht. ring.
Qed.
Lemma speed_extends high (l : list (vec R 2)) F1 F2 ks : (4 <= length l <= 7)%nat -> (length l <= 5)%nat \/ high = true -> derivs2 (bernstein_curve l) F1 F2 ->
  length ks = (2 * length l - 3)%nat -> (forall u, 0 <= u <= 1 -> norm2 (F1 u) ^ 2 = rsum (length ks) (fun k => nth k ks 0 * u ^ k)) ->
  forall u, norm2 (F1 u) ^ 2 = rsum (length ks) (fun k => nth k ks 0 * u ^ k).
Proof.
  intros HL Hh HD Lk HC u. destruct (singularity_poly l high ltac:(lia) Hh) as (cs & g1 & g2 & Ec & G1 & G2 & Hp).
  pose proof (sing_length high l cs ltac:(lia) Ec) as Lc.
  assert (K : forall t, rsum (length cs) (fun k => nth k cs 0 * t ^ k) = norm2 (F1 t) ^ 2).
  { intros t. rewrite Hp. unfold norm2. rewrite pow2_sqrt by (apply Rplus_le_le_0_compat; apply pow2_ge_0). destruct (derivs2_unique _ _ _ _ _ HD (conj G1 G2) t 0%nat ltac:(lia)) as [-> _].
    destruct (derivs2_unique _ _ _ _ _ HD (conj G1 G2) t 1%nat ltac:(lia)) as [-> _]. ring. }
  pose proof (poly_everywhere cs ks 1 ltac:(lia)) as P. rewrite <- K, P; [ring|]. intros t Ht. rewrite K, HC by exact Ht. ring.
Qed.

(** The assertion of PolynomialRootFinder. *)
Lemma solve_strict eigen cs a b l : (4 <= length cs)%nat -> catch_infinite (solve eigen (Ok cs) a b) = Ok l -> a < b.
Proof.
  intros HL E. destruct (Rlt_dec a b) as [Q|Q]; [exact Q|exfalso]. unfold solve in E. rewrite bind_Ok in E.
  destruct (length cs - 1)%nat as [|[|[|n]]] eqn:En; try lia. cbn [find_roots] in E.
  rewrite (get_nth cs _ 0) in E by (unfold zlen; lia). rewrite bind_Ok in E. cbn [slt R_ops] in E. destruct (Rltb_spec a b); [lra|]. discriminate.
Qed.
Lemma inflections_strict eigen high (c : bezier (vec R 2)) a b l : (5 <= length (bz_pts c) <= 11)%nat -> (length (bz_pts c) <= 5)%nat \/ high = true ->
  bz_compute_inflections eigen high c a b = Ok l -> a < b.
Proof.
  intros HL Hh E. destruct (inflection_poly (bz_pts c) high ltac:(lia) Hh) as (cs & g1 & g2 & Ec & _). pose proof (infl_length high (bz_pts c) cs ltac:(lia) Ec) as Lc.
  unfold bz_compute_inflections in E. replace (zlen (bz_pts c) - 1 <=? 2)%Z with false in E by (symmetry; apply Z.leb_gt; unfold zlen; lia). rewrite Ec in E.
  apply bind_inv in E. destruct E as (l0 & E0 & _). apply (solve_strict eigen cs a b l0); [lia|exact E0].
Qed.
Lemma singularities_strict eigen high (c : bezier (vec R 2)) a b l : (4 <= length (bz_pts c) <= 7)%nat -> (length (bz_pts c) <= 5)%nat \/ high = true ->
  bz_compute_singularities eigen high c a b = Ok l -> a < b.
Proof.
  intros HL Hh E. destruct (singularity_poly (bz_pts c) high ltac:(lia) Hh) as (cs & g1 & g2 & Ec & _). pose proof (sing_length high (bz_pts c) cs ltac:(lia) Ec) as Lc.
  unfold bz_compute_singularities in E. rewrite Ec in E. apply bind_inv in E. destruct E as (l0 & E0 & _). apply (solve_strict eigen cs a b l0); [lia|]. now rewrite E0.
Qed.

(** Local and global parameters. *)
Lemma local_range a b x y u : x < y -> (Rmax ((a - x) / (y - x)) 0 <= u <= Rmin ((b - x) / (y - x)) 1 <-> a <= u * (y - x) + x <= b /\ 0 <= u <= 1).
Proof.
  intros Hxy. set (h := y - x). assert (Hh : 0 < h) by (unfold h; lra).
  assert (Q1 : forall z, z / h <= u <-> z <= u * h). { intros z. split; intros H; [apply (Rmult_le_compat_r h) in H; [|lra]; replace (z / h * h) with z in H by (field; lra); lra|]. apply (Rmult_le_reg_r h); [lra|]. replace (z / h * h) with z by (field; lra). lra. }
  assert (Q2 : forall z, u <= z / h <-> u * h <= z). { intros z. split; intros H; [apply (Rmult_le_compat_r h) in H; [|lra]; replace (z / h * h) with z in H by (field; lra); lra|]. apply (Rmult_le_reg_r h); [lra|]. replace (z / h * h) with z by (field; lra). lra. }
  split.
  - intros [H1 H2]. pose proof (Rmax_l ((a - x) / h) 0). pose proof (Rmax_r ((a - x) / h) 0). pose proof (Rmin_l ((b - x) / h) 1). pose proof (Rmin_r ((b - x) / h) 1).
    assert (H5 : (a - x) / h <= u) by lra. assert (H6 : u <= (b - x) / h) by lra. apply Q1 in H5. apply Q2 in H6. split; lra.
  - intros [H1 H2]. split; [apply Rmax_lub; [apply Q1; lra|lra]|apply Rmin_glb; [apply Q2; lra|lra]].
Qed.

(** What the pieces report, when each of them reports the parameters with property [P]. *)
Lemma hits_report {B} (analyse : B -> R -> R -> res (list R)) segs bounds (P : R -> R -> R -> Prop) a b l :
  length bounds = S (length segs) -> (forall j, (j < length segs)%nat -> nth j bounds 0 < nth (j + 1) bounds 0) ->
  (forall j seg nl nu ts, (j < length segs)%nat -> nth_error segs j = Some seg -> nl = Rmax ((a - nth j bounds 0) / (nth (j + 1) bounds 0 - nth j bounds 0)) 0 ->
    nu = Rmin ((b - nth j bounds 0) / (nth (j + 1) bounds 0 - nth j bounds 0)) 1 -> analyse seg nl nu = Ok ts ->
    forall u, In u ts <-> nl <= u <= nu /\ P (nth j bounds 0) (nth (j + 1) bounds 0) (u * (nth (j + 1) bounds 0 - nth j bounds 0) + nth j bounds 0)) ->
  piecewise_analysis analyse segs bounds a b = Ok l ->
  StronglySorted Rlt l /\ forall t, In t l <-> a <= t <= b /\ exists j, (j < length segs)%nat /\ nth j bounds 0 <= t <= nth (j + 1) bounds 0 /\ P (nth j bounds 0) (nth (j + 1) bounds 0) t.
Proof.
  intros HL Hinc HP E. destruct (pieces_in analyse segs bounds a b HL Hinc l E) as (S1 & S2 & S3). split; [exact S1|]. intros t. rewrite S2. split.
  - intros (j & Hj & _ & _ & seg & ts & Es & Et & u & Hu & ->). pose proof (Hinc j Hj) as Hxy.
    apply (HP j seg _ _ ts Hj Es eq_refl eq_refl Et) in Hu. destruct Hu as [Hu Pu]. apply local_range in Hu; [|exact Hxy]. destruct Hu as [Hu Hu']. split; [exact Hu|].
    exists j. split; [exact Hj|]. split; [nra|exact Pu].
  - intros (Ht & j & Hj & Hxt & Pt). pose proof (Hinc j Hj) as Hxy. exists j. split; [exact Hj|]. unfold piece_hit. cbv zeta.
    set (x := nth j bounds 0) in *. set (y := nth (j + 1) bounds 0) in *.
    split; [lra|]. split; [lra|]. destruct (S3 j Hj) as (seg & ts & Es & Et); [fold y; lra|fold x; lra|]. fold x y in Et. exists seg, ts. split; [exact Es|]. split; [exact Et|].
    exists ((t - x) / (y - x)). assert (Eu : (t - x) / (y - x) * (y - x) + x = t) by (field; lra). split; [|now symmetry].
    apply (HP j seg _ _ ts Hj Es eq_refl eq_refl Et). fold x y. rewrite Eu. split; [|exact Pt]. apply local_range; [exact Hxy|]. rewrite Eu. split; [exact Ht|].
    split; [apply Rmult_le_pos; [lra|left; apply Rinv_0_lt_compat; lra]|]. apply (Rmult_le_reg_r (y - x)); [lra|]. replace ((t - x) / (y - x) * (y - x)) with (t - x) by (field; lra). lra.
Qed.

(** * Theorems *)
Lemma cross_local (F1 F2 g1 g2 : R -> vec R 2) h u v : (forall i, (i < 2)%nat -> coord 2 i (F1 u) = h * coord 2 i (g1 v) /\ coord 2 i (F2 u) = h * h * coord 2 i (g2 v)) ->
  cross2 (F1 u) (F2 u) = h ^ 3 * cross2 (g1 v) (g2 v).
Proof. intros H. unfold cross2. destruct (H 0%nat) as [-> ->]; [lia|]. destruct (H 1%nat) as [-> ->]; [lia|]. ring. Qed.
Lemma norm_local (F1 g1 : R -> vec R 2) h u v : (forall i, (i < 2)%nat -> coord 2 i (F1 u) = h * coord 2 i (g1 v)) -> norm2 (F1 u) ^ 2 = h ^ 2 * norm2 (g1 v) ^ 2.
Proof.
  intros H. unfold norm2. rewrite !pow2_sqrt by (apply Rplus_le_le_0_compat; apply pow2_ge_0). rewrite (H 0%nat), (H 1%nat) by lia. ring.
Qed.

Lemma inflects_local (c : bspline R (vec R 2)) x y F1 F2 u : x < y -> (exists g g1 g2, piece c x y g g1 g2) ->
  (forall g g1 g2, piece c x y g g1 g2 -> forall u i, 0 <= u <= 1 -> (i < 2)%nat ->
    coord 2 i (F1 u) = (y - x) * coord 2 i (g1 (x + u * (y - x))) /\ coord 2 i (F2 u) = (y - x) * (y - x) * coord 2 i (g2 (x + u * (y - x)))) ->
  0 <= u <= 1 -> (cross2 (F1 u) (F2 u) = 0 <-> inflects c x y (u * (y - x) + x)).
Proof.
  intros Hxy (g & g1 & g2 & Hg) Hu Hr. replace (u * (y - x) + x) with (x + u * (y - x)) by ring. assert (Hh : 0 < (y - x) ^ 3) by (apply pow_lt; lra). split.
  - intros H0. exists g, g1, g2. split; [exact Hg|]. rewrite (cross_local F1 F2 g1 g2 (y - x) u (x + u * (y - x))) in H0 by (intros i Hi; apply (Hu g g1 g2 Hg); assumption).
    apply Rmult_integral in H0. destruct H0; [lra|assumption].
  - intros (g' & g1' & g2' & Hg' & H0). rewrite (cross_local F1 F2 g1' g2' (y - x) u (x + u * (y - x))) by (intros i Hi; apply (Hu g' g1' g2' Hg'); assumption). rewrite H0. ring.
Qed.
Lemma stops_local (c : bspline R (vec R 2)) x y F1 F2 u : x < y ->
  (forall g g1 g2, piece c x y g g1 g2 -> forall u i, 0 <= u <= 1 -> (i < 2)%nat ->
    coord 2 i (F1 u) = (y - x) * coord 2 i (g1 (x + u * (y - x))) /\ coord 2 i (F2 u) = (y - x) * (y - x) * coord 2 i (g2 (x + u * (y - x)))) ->
  0 <= u <= 1 -> stops c x y (u * (y - x) + x) -> F1 u = p0.
Proof.
  intros Hxy Hu Hr. replace (u * (y - x) + x) with (x + u * (y - x)) by ring. intros (g & g1 & g2 & Hg & H0). apply coord2_ext. intros i Hi.
  destruct (Hu g g1 g2 Hg u i Hr Hi) as [-> _]. rewrite H0. change (vec R 2) with (vec R 2). rewrite !coord_0 by exact Hi. ring.
Qed.

Lemma spline_cubic eigen high (c : bspline R (vec R 2)) a b : plain_bspline c -> bspline_degree (bs_pts c) (bs_knots c) = 3%nat ->
  (forall x y, neighbours c x y -> exists k0 k1 k2, inflection_polynomial c x y [k0; k1; k2] /\ clear_quadratic (1 / 10 ^ 8) k2 k1 k0) ->
  exists l, bs_compute_inflections eigen high c a b = Ok l /\ StronglySorted Rlt l /\
    forall t, In t l <-> a <= t <= b /\ exists x y, neighbours c x y /\ x <= t <= y /\ inflects c x y t.
Proof.
  intros Hc Hp Hk. destruct (spline_pieces c Hc ltac:(lia)) as (segs & bounds & E & HL & Hinc & Hn & Hs). unfold bs_compute_inflections. rewrite E, bind_Ok.
  assert (HA : forall j seg nl nu, (j < length segs)%nat -> nth_error segs j = Some seg -> exists ts, bz_compute_inflections eigen high seg nl nu = Ok ts /\ forall u, In u ts <-> nl <= u <= nu /\
    (0 <= u <= 1 -> inflects c (nth j bounds 0) (nth (j + 1) bounds 0) (u * (nth (j + 1) bounds 0 - nth j bounds 0) + nth j bounds 0)) /\ (~ 0 <= u <= 1 -> In u ts)).
  { intros j seg nl nu Hj Es. destruct (Hs j Hj) as (l & F1 & F2 & El & Ll & HD & Hex & Hg). assert (seg = mk_bezier l) by congruence. subst seg. pose proof (Hinc j Hj) as Hxy.
    set (x := nth j bounds 0) in *. set (y := nth (j + 1) bounds 0) in *.
    destruct (Hk x y) as (k0 & k1 & k2 & (g & g1 & g2 & Hpc & Hpoly) & Hcl); [apply Hn; exists j; auto|].
    destruct (cubic_inflections eigen high (mk_bezier l) F1 F2 k0 k1 k2 nl nu) as (ts & Et & _ & _ & It); [cbn [bz_pts mk_bezier]; lia|exact HD| |exact Hcl|].
    - intros t. rewrite (inflection_extends false l F1 F2 [k0; k1; k2]); [unfold rsum; cbn; ring|lia|left; lia|exact HD|cbn [length]; lia|].
      intros u Hu. rewrite <- Hpoly by exact Hu. apply cross_local. intros i Hi. apply (Hg g g1 g2 Hpc); assumption.
    - exists ts. split; [exact Et|]. intros u. split.
      + intros Hu. pose proof (proj1 (It u) Hu) as [Q1 Q2]. split; [exact Q1|]. split; [|auto]. intros Hr. apply (inflects_local c x y F1 F2); assumption.
      + intros (Q1 & Q2 & Q3). destruct (Rle_dec 0 u) as [R1|R1]; [|apply Q3; lra]. destruct (Rle_dec u 1) as [R2|R2]; [|apply Q3; lra].
        apply It. split; [exact Q1|]. apply (inflects_local c x y F1 F2); auto. }
  destruct (pieces_succeed (bz_compute_inflections eigen high) segs bounds a b HL Hinc) as (l & Er).
  { intros j Hj _ _. destruct (Hs j Hj) as (l & F1 & F2 & El & _). destruct (HA j (mk_bezier l) (Rmax ((a - nth j bounds 0) / (nth (j + 1) bounds 0 - nth j bounds 0)) 0)
      (Rmin ((b - nth j bounds 0) / (nth (j + 1) bounds 0 - nth j bounds 0)) 1) Hj El) as (ts & Et & _). eauto. }
  exists l. split; [exact Er|]. destruct (hits_report (bz_compute_inflections eigen high) segs bounds (inflects c) a b l HL Hinc) as [S1 S2]; [|exact Er|].
  - intros j seg nl nu ts Hj Es En Eu Et u. destruct (HA j seg nl nu Hj Es) as (ts' & Et' & It). assert (ts' = ts) by congruence. subst ts'. rewrite It. split.
    + intros (Q1 & Q2 & _). split; [exact Q1|]. apply Q2. rewrite En, Eu in Q1. now apply (local_range a b _ _ u (Hinc j Hj)) in Q1.
    + intros (Q1 & Q2). split; [exact Q1|]. split; [auto|]. intros Q3. exfalso. apply Q3. rewrite En, Eu in Q1. now apply (local_range a b _ _ u (Hinc j Hj)) in Q1.
  - split; [exact S1|]. intros t. rewrite S2. split; intros [Ht H]; (split; [exact Ht|]).
    + destruct H as (j & Hj & H1 & H2). exists (nth j bounds 0), (nth (j + 1) bounds 0). split; [apply Hn; exists j; auto|]. split; assumption.
    + destruct H as (x & y & Hxy & H1 & H2). apply Hn in Hxy. destruct Hxy as (j & Hj & -> & ->). exists j. auto.
Qed.

Section High.
  Variables (eigen : list (list R) -> res (list (R * R))) (high : bool) (c : bspline R (vec R 2)) (ks : R -> R -> list R) (a b : R) (l : list R).
  Let p := bspline_degree (bs_pts c) (bs_knots c).
  Hypothesis Hc : plain_bspline c.
  Hypothesis Hhigh : (p <= 4)%nat \/ high = true.
  Hypothesis Hsol : eigenvalue_solver Ok eigen.
  Hypothesis Hnt : forall m e, eigen m <> Throw e.

  Lemma spline_high : (4 <= p <= 10)%nat ->
    (forall x y, neighbours c x y -> length (ks x y) = (2 * p - 3)%nat /\ inflection_polynomial c x y (ks x y) /\ 1 / 10 ^ 8 <= Rabs (nth (2 * p - 4) (ks x y) 0)) ->
    bs_compute_inflections eigen high c a b = Ok l ->
    StronglySorted Rlt l /\ (forall x y t, neighbours c x y -> x <= t <= y -> a <= t <= b -> inflects c x y t -> In t l) /\
    forall t, In t l <-> a <= t <= b /\ exists x y, neighbours c x y /\ x <= t <= y /\ nearly_real_root (1 / 10 ^ 8) (2 * p - 4) (ks x y) ((t - x) / (y - x)).
  Proof.
    intros Hp Hk Er. destruct (spline_pieces c Hc ltac:(fold p; lia)) as (segs & bounds & E & HL & Hinc & Hn & Hs). unfold bs_compute_inflections in Er. rewrite E, bind_Ok in Er.
    assert (HA : forall j seg nl nu ts, (j < length segs)%nat -> nth_error segs j = Some seg -> bz_compute_inflections eigen high seg nl nu = Ok ts ->
      (forall u, In u ts <-> nl <= u <= nu /\ nearly_real_root (1 / 10 ^ 8) (2 * p - 4) (ks (nth j bounds 0) (nth (j + 1) bounds 0)) u) /\
      forall u, 0 <= u <= 1 -> nl <= u <= nu -> inflects c (nth j bounds 0) (nth (j + 1) bounds 0) (u * (nth (j + 1) bounds 0 - nth j bounds 0) + nth j bounds 0) -> In u ts).
    { intros j seg nl nu ts Hj Es Et. destruct (Hs j Hj) as (pl & F1 & F2 & El & Ll & HD & Hex & Hg). assert (seg = mk_bezier pl) by congruence. subst seg. pose proof (Hinc j Hj) as Hxy.
      set (x := nth j bounds 0) in *. set (y := nth (j + 1) bounds 0) in *. fold p in Ll.
      destruct (Hk x y) as (Lk & (g & g1 & g2 & Hpc & Hpoly) & Hlead); [apply Hn; exists j; auto|].
      assert (Hlt : nl < nu) by (apply (inflections_strict eigen high (mk_bezier pl) nl nu ts); [cbn [bz_pts mk_bezier]; lia|cbn [bz_pts mk_bezier]; destruct Hhigh; [left; lia|auto]|exact Et]).
      replace (2 * p - 4)%nat with (length (ks x y) - 1)%nat by lia.
      destruct (high_inflections eigen high (mk_bezier pl) F1 F2 (ks x y) nl nu ts) as (_ & Q1 & Q2); try assumption; cbn [bz_pts mk_bezier];
        [destruct Hhigh; [left; lia|auto]|lia|lia| |replace (length (ks x y) - 1)%nat with (2 * p - 4)%nat by lia; exact Hlead|].
      - apply (inflection_extends high pl F1 F2 (ks x y)); [lia|destruct Hhigh; [left; lia|auto]|exact HD|lia|].
        intros u Hu. rewrite <- Hpoly by exact Hu. apply cross_local. intros i Hi. apply (Hg g g1 g2 Hpc); assumption.
      - split; [exact Q2|]. intros u Hr Hu Hi. apply Q1; [exact Hu|]. apply (inflects_local c x y F1 F2); assumption. }
    destruct (hits_report (bz_compute_inflections eigen high) segs bounds (fun x y t => nearly_real_root (1 / 10 ^ 8) (2 * p - 4) (ks x y) ((t - x) / (y - x))) a b l HL Hinc) as [S1 S2]; [|exact Er|].
    { intros j seg nl nu ts Hj Es En Eu Et u. destruct (HA j seg nl nu ts Hj Es Et) as [It _]. rewrite It. pose proof (Hinc j Hj).
      match goal with |- context [nearly_real_root _ _ _ (?w / _)] => replace (w / (nth (j + 1) bounds 0 - nth j bounds 0)) with u by (field; lra) end. reflexivity. }
    split; [exact S1|]. split.
    - intros x y t Hxy Ht Hab Hi. apply Hn in Hxy. destruct Hxy as (j & Hj & Ex & Ey). pose proof (Hinc j Hj) as Hlt. rewrite <- Ex, <- Ey in Hlt.
      destruct (pieces_in _ segs bounds a b HL Hinc l Er) as (_ & I2 & I3). apply I2. exists j. split; [exact Hj|]. unfold piece_hit. cbv zeta. rewrite <- Ex, <- Ey.
      split; [lra|]. split; [lra|]. destruct (I3 j Hj) as (seg & ts & Es & Et); [rewrite <- Ey; lra|rewrite <- Ex; lra|]. rewrite <- Ex, <- Ey in Et. exists seg, ts. split; [exact Es|]. split; [exact Et|].
      exists ((t - x) / (y - x)). assert (Eu : (t - x) / (y - x) * (y - x) + x = t) by (field; lra). split; [|now symmetry].
      assert (Hr : 0 <= (t - x) / (y - x) <= 1).
      { split; [apply Rmult_le_pos; [lra|left; apply Rinv_0_lt_compat; lra]|]. apply (Rmult_le_reg_r (y - x)); [lra|]. replace ((t - x) / (y - x) * (y - x)) with (t - x) by (field; lra). lra. }
      destruct (HA j seg _ _ ts Hj Es Et) as [_ K]. apply K; [exact Hr| |rewrite <- Ex, <- Ey, Eu; exact Hi]. apply local_range; [lra|]. rewrite Eu. split; assumption.
    - intros t. rewrite S2. split; intros [Ht H]; (split; [exact Ht|]).
      + destruct H as (j & Hj & H1 & H2). exists (nth j bounds 0), (nth (j + 1) bounds 0). split; [apply Hn; exists j; auto|]. split; assumption.
      + destruct H as (x & y & Hxy & H1 & H2). apply Hn in Hxy. destruct Hxy as (j & Hj & -> & ->). exists j. auto.
  Qed.

  Lemma spline_speed : (3 <= p <= 6)%nat ->
    (forall x y, neighbours c x y -> length (ks x y) = (2 * p - 1)%nat /\ speed_polynomial c x y (ks x y) /\ 1 / 10 ^ 8 <= Rabs (nth (2 * p - 2) (ks x y) 0)) ->
    bs_compute_singularities eigen high c a b = Ok l ->
    StronglySorted Rlt l /\ (forall x y t, neighbours c x y -> x <= t <= y -> a <= t <= b -> stops c x y t -> In t l) /\
    forall t, In t l <-> a <= t <= b /\ exists x y, neighbours c x y /\ x <= t <= y /\ nearly_real_root (1 / 10 ^ 8) (2 * p - 2) (ks x y) ((t - x) / (y - x)).
  Proof.
    intros Hp Hk Er. destruct (spline_pieces c Hc ltac:(fold p; lia)) as (segs & bounds & E & HL & Hinc & Hn & Hs). unfold bs_compute_singularities in Er. rewrite E, bind_Ok in Er.
    assert (HA : forall j seg nl nu ts, (j < length segs)%nat -> nth_error segs j = Some seg -> bz_compute_singularities eigen high seg nl nu = Ok ts ->
      (forall u, In u ts <-> nl <= u <= nu /\ nearly_real_root (1 / 10 ^ 8) (2 * p - 2) (ks (nth j bounds 0) (nth (j + 1) bounds 0)) u) /\
      forall u, 0 <= u <= 1 -> nl <= u <= nu -> stops c (nth j bounds 0) (nth (j + 1) bounds 0) (u * (nth (j + 1) bounds 0 - nth j bounds 0) + nth j bounds 0) -> In u ts).
    { intros j seg nl nu ts Hj Es Et. destruct (Hs j Hj) as (pl & F1 & F2 & El & Ll & HD & Hex & Hg). assert (seg = mk_bezier pl) by congruence. subst seg. pose proof (Hinc j Hj) as Hxy.
      set (x := nth j bounds 0) in *. set (y := nth (j + 1) bounds 0) in *. fold p in Ll.
      destruct (Hk x y) as (Lk & (g & g1 & g2 & Hpc & Hpoly) & Hlead); [apply Hn; exists j; auto|].
      assert (Hlt : nl < nu) by (apply (singularities_strict eigen high (mk_bezier pl) nl nu ts); [cbn [bz_pts mk_bezier]; lia|cbn [bz_pts mk_bezier]; destruct Hhigh; [left; lia|auto]|exact Et]).
      replace (2 * p - 2)%nat with (length (ks x y) - 1)%nat by lia.
      destruct (high_singularities eigen high (mk_bezier pl) F1 F2 (ks x y) nl nu ts) as (_ & Q1 & Q2); try assumption; cbn [bz_pts mk_bezier];
        [destruct Hhigh; [left; lia|auto]|lia|lia| |replace (length (ks x y) - 1)%nat with (2 * p - 2)%nat by lia; exact Hlead|].
      - apply (speed_extends high pl F1 F2 (ks x y)); [lia|destruct Hhigh; [left; lia|auto]|exact HD|lia|].
        intros u Hu. rewrite <- Hpoly by exact Hu. apply norm_local. intros i Hi. apply (Hg g g1 g2 Hpc); assumption.
      - split; [exact Q2|]. intros u Hr Hu Hi. apply Q1; [exact Hu|]. apply (stops_local c x y F1 F2); assumption. }
    destruct (hits_report (bz_compute_singularities eigen high) segs bounds (fun x y t => nearly_real_root (1 / 10 ^ 8) (2 * p - 2) (ks x y) ((t - x) / (y - x))) a b l HL Hinc) as [S1 S2]; [|exact Er|].
    { intros j seg nl nu ts Hj Es En Eu Et u. destruct (HA j seg nl nu ts Hj Es Et) as [It _]. rewrite It. pose proof (Hinc j Hj).
      match goal with |- context [nearly_real_root _ _ _ (?w / _)] => replace (w / (nth (j + 1) bounds 0 - nth j bounds 0)) with u by (field; lra) end. reflexivity. }
    split; [exact S1|]. split.
    - intros x y t Hxy Ht Hab Hi. apply Hn in Hxy. destruct Hxy as (j & Hj & Ex & Ey). pose proof (Hinc j Hj) as Hlt. rewrite <- Ex, <- Ey in Hlt.
      destruct (pieces_in _ segs bounds a b HL Hinc l Er) as (_ & I2 & I3). apply I2. exists j. split; [exact Hj|]. unfold piece_hit. cbv zeta. rewrite <- Ex, <- Ey.
      split; [lra|]. split; [lra|]. destruct (I3 j Hj) as (seg & ts & Es & Et); [rewrite <- Ey; lra|rewrite <- Ex; lra|]. rewrite <- Ex, <- Ey in Et. exists seg, ts. split; [exact Es|]. split; [exact Et|].
      exists ((t - x) / (y - x)). assert (Eu : (t - x) / (y - x) * (y - x) + x = t) by (field; lra). split; [|now symmetry].
      assert (Hr : 0 <= (t - x) / (y - x) <= 1).
      { split; [apply Rmult_le_pos; [lra|left; apply Rinv_0_lt_compat; lra]|]. apply (Rmult_le_reg_r (y - x)); [lra|]. replace ((t - x) / (y - x) * (y - x)) with (t - x) by (field; lra). lra. }
      destruct (HA j seg _ _ ts Hj Es Et) as [_ K]. apply K; [exact Hr| |rewrite <- Ex, <- Ey, Eu; exact Hi]. apply local_range; [lra|]. rewrite Eu. split; assumption.
    - intros t. rewrite S2. split; intros [Ht H]; (split; [exact Ht|]).
      + destruct H as (j & Hj & H1 & H2). exists (nth j bounds 0), (nth (j + 1) bounds 0). split; [apply Hn; exists j; auto|]. split; assumption.
      + destruct H as (x & y & Hxy & H1 & H2). apply Hn in Hxy. destruct Hxy as (j & Hj & -> & ->). exists j. auto.
  Qed.
End High.

(** An interval that starts or ends at an interior knot runs into the assertion. *)
Lemma spline_knot eigen high (c : bspline R (vec R 2)) a b u l : plain_bspline c -> In u (bs_knots c) ->
  lower_of (bs_pts c) (bs_knots c) < u < upper_of (bs_pts c) (bs_knots c) -> (u = a /\ a <= b) \/ (u = b /\ a <= b) ->
  let p := bspline_degree (bs_pts c) (bs_knots c) in (p <= 4)%nat \/ high = true ->
  ((4 <= p <= 10)%nat -> bs_compute_inflections eigen high c a b <> Ok l) /\ ((3 <= p <= 6)%nat -> bs_compute_singularities eigen high c a b <> Ok l).
Proof.
  intros Hc Hu Hlu Hab p Hhigh.
  assert (K : forall (analyse : bezier (vec R 2) -> R -> R -> res (list R)), (2 <= p)%nat -> (forall pl nl nu ts, length pl = S p -> analyse (mk_bezier pl) nl nu = Ok ts -> nl < nu) ->
    (do '(segs, bounds) <- bs_convert_to_Bezier c; piecewise_analysis analyse segs bounds a b) <> Ok l).
  { intros analyse Hp Hst Er. destruct (spline_pieces c Hc Hp) as (segs & bounds & E & HL & Hinc & Hn & Hs). rewrite E, bind_Ok in Er.
    destruct (pieces_in _ segs bounds a b HL Hinc l Er) as (_ & _ & I3).
    assert (Hd : forall j, (j < length segs)%nat -> a <= nth (j + 1) bounds 0 -> nth j bounds 0 <= b ->
      Rmax ((a - nth j bounds 0) / (nth (j + 1) bounds 0 - nth j bounds 0)) 0 < Rmin ((b - nth j bounds 0) / (nth (j + 1) bounds 0 - nth j bounds 0)) 1).
    { intros j Hj H1 H2. destruct (I3 j Hj H1 H2) as (seg & ts & Es & Et). destruct (Hs j Hj) as (pl & F1 & F2 & El & Ll & _). assert (seg = mk_bezier pl) by congruence. subst seg.
      exact (Hst pl _ _ ts Ll Et). }
    assert (Hb : exists k, (0 < k < length segs)%nat /\ nth k bounds 0 = u).
    { destruct Hc as (Hv & Ha & Hper & Hs'). destruct (bspline_convert 2 c Hv Ha Hs') as (segs' & bounds' & E' & _ & B0 & BN & Hin & _). assert (segs' = segs /\ bounds' = bounds) as [-> ->] by (split; congruence).
      assert (Iu : In u bounds) by (apply Hin; split; [exact Hu|lra]). destruct (In_nth _ _ 0 Iu) as (k & Hk & Ek). exists k. split; [|exact Ek].
      destruct (Nat.eq_dec k 0) as [->|]; [lra|]. destruct (Nat.eq_dec k (length segs)) as [->|]; [lra|]. lia. }
    destruct Hb as (k & Hk & Ek). destruct Hab as [[Ea Hab]|[Eb Hab]].
    - pose proof (Hinc (k - 1)%nat ltac:(lia)) as H1. specialize (Hd (k - 1)%nat ltac:(lia)). replace (k - 1 + 1)%nat with k in * by lia. rewrite Ek in *. subst a. specialize (Hd ltac:(lra) ltac:(lra)).
      replace ((u - nth (k - 1) bounds 0) / (u - nth (k - 1) bounds 0)) with 1 in Hd by (field; lra). pose proof (Rmax_l 1 0). pose proof (Rmin_r ((b - nth (k - 1) bounds 0) / (u - nth (k - 1) bounds 0)) 1). lra.
    - pose proof (Hinc k ltac:(lia)) as H1. specialize (Hd k ltac:(lia)). rewrite Ek in *. subst b. specialize (Hd ltac:(lra) ltac:(lra)).
      replace ((u - u) / (nth (k + 1) bounds 0 - u)) with 0 in Hd by (field; lra). pose proof (Rmax_r ((a - u) / (nth (k + 1) bounds 0 - u)) 0). pose proof (Rmin_l 0 1). lra. }
  split; intros Hp; apply K; try lia; intros pl nl nu ts Ll Et.
  - apply (inflections_strict eigen high (mk_bezier pl) nl nu ts); [cbn [bz_pts mk_bezier]; lia|cbn [bz_pts mk_bezier]; destruct Hhigh; [left; lia|auto]|exact Et].
  - apply (singularities_strict eigen high (mk_bezier pl) nl nu ts); [cbn [bz_pts mk_bezier]; lia|cbn [bz_pts mk_bezier]; destruct Hhigh; [left; lia|auto]|exact Et].
Qed.
Lemma pieces_exist (c : bspline R (vec R 2)) x y : plain_bspline c -> (2 <= bspline_degree (bs_pts c) (bs_knots c))%nat -> neighbours c x y ->
  (exists g g1 g2, piece c x y g g1 g2) /\ forall g g1 g2 g' g1' g2', piece c x y g g1 g2 -> piece c x y g' g1' g2' -> forall t, x <= t <= y -> g1 t = g1' t /\ g2 t = g2' t.
Proof.
  intros Hc Hp Hn'. destruct (spline_pieces c Hc Hp) as (segs & bounds & E & HL & Hinc & Hn & Hs). apply Hn in Hn'. destruct Hn' as (j & Hj & -> & ->).
  destruct (Hs j Hj) as (pl & F1 & F2 & _ & _ & _ & Hex & Hg). split; [exact Hex|]. specialize (Hinc j Hj). set (x := nth j bounds 0) in *. set (y := nth (j + 1) bounds 0) in *.
  intros g g1 g2 g' g1' g2' P P' t Ht. assert (Hr : 0 <= (t - x) / (y - x) <= 1).
  { split; [apply Rmult_le_pos; [lra|left; apply Rinv_0_lt_compat; lra]|]. apply (Rmult_le_reg_r (y - x)); [lra|]. replace ((t - x) / (y - x) * (y - x)) with (t - x) by (field; lra). lra. }
  split; apply coord2_ext; intros i Hi; destruct (Hg g g1 g2 P _ i Hr Hi) as [A1 A2]; destruct (Hg g' g1' g2' P' _ i Hr Hi) as [B1 B2];
    replace (x + (t - x) / (y - x) * (y - x)) with t in * by (field; lra).
  - rewrite A1 in B1. apply Rmult_eq_reg_l in B1; lra.
  - rewrite A2 in B2. apply Rmult_eq_reg_l in B2; [exact B2|]. nra.
Qed.
