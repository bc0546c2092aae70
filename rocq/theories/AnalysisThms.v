(** Inflections, singularities and turning angle reduction: polynomials of rational curves, order and range of the results. *)
From Coq Require Import Reals Lra Lia ZArith QArith List Bool Sorted.
From Verif Require Import Monad MonadFacts Scalar ScalarFacts Spec SpecFacts LineThms QuadratureThms ExportThms RationalThms ModelBezier
  ModelBSpline ModelRational ModelRoots ModelAuto ModelAutoRational ModelAnalysis AutoFacts AutoThms AutoRational AutoRational4
  BSplineConvert RationalThms3 SpecAnalysis.
Import ListNotations.
Local Open Scope R_scope.

(** * The polynomials of rational curves *)
Ltac split_ws ws HL := repeat (let w := fresh "w" in destruct ws as [|w ws]; [try (exfalso; cbn [length] in HL; lia)|try (exfalso; cbn [length] in HL; lia)]).
Lemma rinfl_any (pts : list (vec R 2)) ws : (3 <= length pts <= 5)%nat -> length ws = length pts ->
  let A := zipm ws (map (coord 2 0) pts) in let B := zipm ws (map (coord 2 1) pts) in
  exists cs, rinflection_coeffs pts ws = Ok cs /\ forall t,
    horner cs t = - (bsum ws t ^ 2 * det3 (bsum A t) (bsum B t) (bsum ws t) (bsum (hodo A) t) (bsum (hodo B) t) (bsum (hodo ws) t)
           (bsum (hodo (hodo A)) t) (bsum (hodo (hodo B)) t) (bsum (hodo (hodo ws)) t)).
Proof.
  intros H HL.
  destruct pts as [|[x0 [y0 []]] [|[x1 [y1 []]] [|[x2 [y2 []]] [|[x3 [y3 []]] [|[x4 [y4 []]] [|? pts]]]]]]; try (exfalso; cbn [length] in H; lia).
  - split_ws ws HL. eexists. split; [reflexivity|]. intros t. apply rinfl_2_ok.
  - split_ws ws HL. eexists. split; [reflexivity|]. intros t. apply rinfl_3_ok.
  - split_ws ws HL. eexists. split; [reflexivity|]. intros t. apply rinfl_4_ok.
Qed.
Lemma rsing_any (pts : list (vec R 2)) ws : (3 <= length pts <= 4)%nat -> length ws = length pts ->
  let A := zipm ws (map (coord 2 0) pts) in let B := zipm ws (map (coord 2 1) pts) in
  exists cs, rsingularity_coeffs pts ws = Ok cs /\ forall t,
    horner cs t = (bsum (hodo A) t * bsum ws t - bsum A t * bsum (hodo ws) t) ^ 2 + (bsum (hodo B) t * bsum ws t - bsum B t * bsum (hodo ws) t) ^ 2.
Proof.
  intros H HL.
  destruct pts as [|[x0 [y0 []]] [|[x1 [y1 []]] [|[x2 [y2 []]] [|[x3 [y3 []]] [|? pts]]]]]; try (exfalso; cbn [length] in H; lia).
  - split_ws ws HL. eexists. split; [reflexivity|]. intros t. apply rsing_2_ok.
  - split_ws ws HL. eexists. split; [reflexivity|]. intros t. apply rsing_3_ok.
Qed.

Lemma rinflection_poly (pts : list (vec R 2)) ws : (3 <= length pts <= 5)%nat -> length ws = length pts ->
  let W t := weight_sum (length pts) (bezier_basis (length pts) t) ws in
  exists cs (f1 f2 : R -> vec R 2), rinflection_coeffs pts ws = Ok cs /\ forall t, W t <> 0 ->
    vderiv (fun x => weighted_mean (length pts) (bezier_basis (length pts) x) ws pts) t (f1 t) /\ vderiv f1 t (f2 t) /\
    rsum (length cs) (fun k => nth k cs 0 * t ^ k)
      = W t ^ 5 * (coord 2 1 (f1 t) * coord 2 0 (f2 t) - coord 2 0 (f1 t) * coord 2 1 (f2 t)).
Proof.
  intros H HL W. pose proof (rational_planar_derivs pts ws ltac:(lia) HL) as D. cbv zeta in D.
  destruct (rinfl_any pts ws H HL) as (cs & Ec & Eh).
  eexists cs, (q1 _ _), (q2 _ _ _). split; [exact Ec|]. intros t Hw. destruct (D t Hw) as (D1 & D2 & E & _).
  split; [exact D1|]. split; [exact D2|]. rewrite <- horner_sum, Eh. symmetry. exact E.
Qed.
Lemma rsingularity_poly (pts : list (vec R 2)) ws : (3 <= length pts <= 4)%nat -> length ws = length pts ->
  let W t := weight_sum (length pts) (bezier_basis (length pts) t) ws in
  exists cs (f1 : R -> vec R 2), rsingularity_coeffs pts ws = Ok cs /\ forall t, W t <> 0 ->
    vderiv (fun x => weighted_mean (length pts) (bezier_basis (length pts) x) ws pts) t (f1 t) /\
    rsum (length cs) (fun k => nth k cs 0 * t ^ k) = W t ^ 4 * (coord 2 0 (f1 t) * coord 2 0 (f1 t) + coord 2 1 (f1 t) * coord 2 1 (f1 t)).
Proof.
  intros H HL W. pose proof (rational_planar_derivs pts ws ltac:(lia) HL) as D. cbv zeta in D.
  destruct (rsing_any pts ws H HL) as (cs & Ec & Eh).
  eexists cs, (q1 _ _). split; [exact Ec|]. intros t Hw. destruct (D t Hw) as (D1 & D2 & _ & E).
  split; [exact D1|]. rewrite <- horner_sum, Eh. symmetry. exact E.
Qed.
(** The weights are not used. *)
Lemma rtangent_unweighted (pts : list (vec R 2)) ws nx ny : (3 <= length pts <= 5)%nat -> length ws = length pts ->
  rtangent_coeffs pts ws nx ny = tangent_coeffs false pts nx ny.
Proof.
  intros H HL.
  destruct pts as [|[x0 [y0 []]] [|[x1 [y1 []]] [|[x2 [y2 []]] [|[x3 [y3 []]] [|[x4 [y4 []]] [|? pts]]]]]]; try (exfalso; cbn [length] in H; lia);
    split_ws ws HL; reflexivity.
Qed.
Lemma rtangent_wrong : exists (pts : list (vec R 2)) ws nx ny cs t v, length ws = length pts /\ Forall (fun w => 0 < w) ws /\ 0 < t < 1 /\
  rtangent_coeffs pts ws nx ny = Ok cs /\ rsum (length cs) (fun k => nth k cs 0 * t ^ k) = 0 /\
  vderiv (fun x => weighted_mean (length pts) (bezier_basis (length pts) x) ws pts) t v /\ coord 2 0 v * nx + coord 2 1 v * ny <> 0.
Proof.
  set (pts := [(0, (0, tt)); (1, (0, tt)); (1, (1, tt))] : list (vec R 2)).
  pose proof (rational_planar_derivs pts [1; 1; 3] ltac:(cbn; lia) eq_refl (1 / 2)) as D. cbv zeta in D.
  exists pts, [1; 1; 3], 1, (-1). eexists _, (1 / 2). eexists.
  split; [reflexivity|]. split; [repeat constructor; lra|]. split; [lra|]. split; [reflexivity|].
  split; [rewrite <- horner_sum; cbv [horner rtang_2 sadd ssub smul sopp sofZ R_ops]; lra|].
  assert (Ew : bsum [1; 1; 3] (1 / 2) = 3 / 2) by (rexpand; lra).
  split.
  - apply D. change (length pts) with (length [1; 1; 3]). rewrite weight_sum_bsum by discriminate. lra.
  - unfold q1, q0, hom3. cbn [vhead vlast coord fst snd]. unfold pts. cbn [map coord fst snd zipm hodo dlist length Nat.sub Z.of_nat]. cbn. rexpand.
    simpl. intros E. field_simplify in E. lra.
Qed.

(** * Sorting *)
Lemma ins_in x y (l : list R) : In y (ins x l) <-> y = x \/ In y l.
Proof.
  induction l as [|a l IH]; cbn [ins In]; [intuition|]. destruct (sle x a); cbn [In]; [intuition|]. rewrite IH. intuition.
Qed.
Lemma std_sort_in y (l : list R) : In y (std_sort l) <-> In y l.
Proof. unfold std_sort. induction l as [|a l IH]; cbn [fold_right In]; [tauto|]. rewrite ins_in, IH. intuition. Qed.
Lemma ins_sorted x (l : list R) : StronglySorted Rle l -> StronglySorted Rle (ins x l).
Proof.
  induction l as [|a l IH]; intros H; cbn [ins]; [repeat constructor|]. simpl sle. destruct (Rleb_spec x a) as [Hle|Hgt].
  - constructor; [exact H|]. constructor; [exact Hle|]. inversion H; subst. eapply Forall_impl; [|eassumption]. intros b Hb. lra.
  - inversion H; subst. constructor; [now apply IH|]. apply Forall_forall. intros b Hb. apply ins_in in Hb. destruct Hb as [-> |Hb]; [lra|].
    rewrite Forall_forall in H3. auto.
Qed.
Lemma std_sort_sorted (l : list R) : StronglySorted Rle (std_sort l).
Proof. unfold std_sort. induction l; cbn [fold_right]; [constructor|now apply ins_sorted]. Qed.
Lemma std_unique_spec (l : list R) : StronglySorted Rle l ->
  StronglySorted Rlt (std_unique l) /\ (forall x, In x (std_unique l) <-> In x l).
Proof.
  induction l as [|a [|b l] IH]; intros H.
  - split; [constructor|tauto].
  - split; [repeat constructor|tauto].
  - inversion H as [|? ? Hs Hf]; subst. destruct (IH Hs) as [I1 I2]. cbn [std_unique] in *. simpl seq_. destruct (Reqb_spec a b) as [-> |Hne].
    + split; [exact I1|]. intros x. rewrite I2. cbn [In]. tauto.
    + split.
      * constructor; [exact I1|]. apply Forall_forall. intros y Hy. apply I2 in Hy.
        inversion Hs as [|? ? Hs2 Hf2]; subst. inversion Hf as [|? ? Hab _]; subst. destruct Hy as [<- |Hy]; [lra|].
        rewrite Forall_forall in Hf2. specialize (Hf2 y Hy). lra.
      * intros x. change (In x (a :: std_unique (b :: l)) <-> In x (a :: b :: l)). cbn [In] in *. rewrite (I2 x). tauto.
Qed.
Lemma sorted_unique_spec (l : list R) : StronglySorted Rlt (sorted_unique l) /\ (forall x, In x (sorted_unique l) <-> In x l).
Proof.
  unfold sorted_unique. destruct (std_unique_spec _ (std_sort_sorted l)) as [H1 H2]. split; [exact H1|].
  intros x. rewrite H2. apply std_sort_in.
Qed.

(** * Range *)
Lemma solve_range eigen cs a b l : solve eigen cs a b = Ok l -> Forall (fun x => a <= x <= b) l.
Proof.
  intros E. unfold solve in E. apply bind_inv in E. destruct E as (c & _ & E). apply Forall_forall. intros x Hx.
  destruct (roots_range _ _ _ _ _ _ _ _ _ E Hx) as [[]|H]. exact H.
Qed.
Lemma catch_range r a b l : (forall l, r = Ok l -> Forall (fun x => a <= x <= b) l) -> catch_infinite r = Ok l -> Forall (fun x : R => a <= x <= b) l.
Proof. intros H E. destruct r as [l'|[]| |]; cbn [catch_infinite] in E; try discriminate; [apply H; exact E|]. injection E as <-. constructor. Qed.
Lemma sorted_unique_range a b (l : list R) : Forall (fun x => a <= x <= b) l -> in_range a b (sorted_unique l).
Proof.
  intros H. destruct (sorted_unique_spec l) as [H1 H2]. split; [exact H1|]. apply Forall_forall. intros x Hx. apply H2 in Hx.
  rewrite Forall_forall in H. auto.
Qed.
Lemma solved_range eigen cs a b l : (do r <- catch_infinite (solve eigen cs a b); Ok (sorted_unique r)) = Ok l -> in_range a b l.
Proof.
  intros E. apply bind_inv in E. destruct E as (r & Er & E). injection E as <-. apply sorted_unique_range.
  eapply catch_range; [|exact Er]. intros l'. apply solve_range.
Qed.
Lemma solved_range' eigen cs a b l : (do r <- solve eigen cs a b; Ok (sorted_unique r)) = Ok l -> in_range a b l.
Proof.
  intros E. apply bind_inv in E. destruct E as (r & Er & E). injection E as <-. apply sorted_unique_range.
  eapply solve_range; exact Er.
Qed.
Lemma nil_range a b : in_range a b [].
Proof. split; constructor. Qed.

Lemma bz_infl_range eigen high c a b l : bz_compute_inflections eigen high c a b = Ok l -> in_range a b l.
Proof. unfold bz_compute_inflections. destruct (_ <=? _)%Z; [intros E; injection E as <-; apply nil_range|apply solved_range]. Qed.
Lemma bz3_infl_range eigen c a b l : bz3_compute_inflections eigen c a b = Ok l -> in_range a b l.
Proof. apply solved_range. Qed.
Lemma bz_sing_range eigen high c a b l : bz_compute_singularities eigen high c a b = Ok l -> in_range a b l.
Proof. apply solved_range'. Qed.
Lemma rb_infl_range eigen c a b l : rb_compute_inflections eigen c a b = Ok l -> in_range a b l.
Proof. unfold rb_compute_inflections. destruct (_ <=? _)%Z; [intros E; injection E as <-; apply nil_range|apply solved_range]. Qed.
Lemma rb_sing_range eigen c a b l : rb_compute_singularities eigen c a b = Ok l -> in_range a b l.
Proof. apply solved_range'. Qed.
Lemma reduce_range eigen st t0 t1 cs a b l : a <= b -> reduce_with eigen st t0 t1 cs a b = Ok l -> in_range a b l.
Proof.
  intros Hab E. unfold reduce_with in E. destruct (_ || _) in E.
  - apply bind_inv in E. destruct E as (m & Em & E). injection E as <-. rewrite ddiv_nz in Em by (cbn; lra). apply Ok_inj in Em. cbn in Em.
    split; [apply SSorted_cons; [apply SSorted_nil|constructor]|constructor; [lra|constructor]].
  - apply bind_inv in E. destruct E as (u0 & _ & E). apply bind_inv in E. destruct E as (u1 & _ & E). apply bind_inv in E. destruct E as (nx & _ & E).
    apply bind_inv in E. destruct E as (ny & _ & E). now apply solved_range in E.
Qed.
Lemma bz_reduce_range eigen high c a b l : a <= b -> bz_reduce_turning_angle eigen high c a b = Ok l -> in_range a b l.
Proof.
  intros Hab. unfold bz_reduce_turning_angle. destruct (_ <? _)%Z; [intros E; injection E as <-; apply nil_range|].
  intros E. apply bind_inv in E. destruct E as (t0 & _ & E). apply bind_inv in E. destruct E as (t1 & _ & E). eapply reduce_range; eassumption.
Qed.
Lemma bz2_reduce_range eigen c a b l : a <= b -> bz2_reduce_turning_angle eigen c a b = Ok l -> in_range a b l.
Proof. intros Hab E. apply bind_inv in E. destruct E as (t0 & _ & E). apply bind_inv in E. destruct E as (t1 & _ & E). eapply reduce_range; eassumption. Qed.
Lemma bz3_reduce_range eigen c a b l : a <= b -> bz3_reduce_turning_angle eigen c a b = Ok l -> in_range a b l.
Proof. intros Hab E. apply bind_inv in E. destruct E as (t0 & _ & E). apply bind_inv in E. destruct E as (t1 & _ & E). eapply reduce_range; eassumption. Qed.
Lemma rb_reduce_range eigen c a b l : a <= b -> rb_reduce_turning_angle eigen c a b = Ok l -> in_range a b l.
Proof.
  intros Hab. unfold rb_reduce_turning_angle. destruct (_ <? _)%Z; [intros E; injection E as <-; apply nil_range|].
  intros E. apply bind_inv in E. destruct E as (t0 & _ & E). apply bind_inv in E. destruct E as (t1 & _ & E). eapply reduce_range; eassumption.
Qed.

Lemma piecewise_range {B} (analyse : B -> R -> R -> res (list R)) segs bounds a b l :
  (forall c x y l, x <= y -> analyse c x y = Ok l -> in_range x y l) ->
  (forall j, (j < length segs)%nat -> nth j bounds 0 < nth (j + 1) bounds 0) ->
  a <= b -> piecewise_analysis analyse segs bounds a b = Ok l -> in_range a b l.
Proof.
  intros HA HB Hab E. unfold piecewise_analysis in E. apply bind_inv in E. destruct E as (u & Eu & E).
  apply bind_inv in E. destruct E as (r & Er & E). injection E as <-. apply sorted_unique_range.
  assert (Hlen : length bounds = S (length segs)).
  { destruct (zlen bounds =? zlen segs + 1)%Z eqn:Ez; [|discriminate]. apply Z.eqb_eq in Ez. unfold zlen in Ez. lia. }
  revert Er. apply (for_up_post (fun acc => Forall (fun x => a <= x <= b) acc)); [constructor|].
  intros i acc acc' Hi Hacc Eb. unfold zlen in Hi.
  assert (Hb : forall k, (0 <= k < Z.of_nat (length bounds))%Z -> get bounds k = Ok (nth (Z.to_nat k) bounds 0)).
  { intros k Hk. apply MonadFacts.get_nth. exact Hk. }
  rewrite !Hb, !bind_Ok in Eb by lia. specialize (HB (Z.to_nat i) ltac:(lia)). replace (Z.to_nat (i + 1)) with (Z.to_nat i + 1)%nat in Eb by lia.
  set (lo := nth (Z.to_nat i) bounds 0) in *. set (hi := nth (Z.to_nat i + 1) bounds 0) in *. clearbody lo hi.
  simpl slt in Eb. destruct (Rltb_spec hi a) as [Hs|Hs]; cbn [orb] in Eb; [injection Eb as <-; exact Hacc|].
  destruct (Rltb_spec b lo) as [Hs'|Hs']; cbn [orb] in Eb; [injection Eb as <-; exact Hacc|].
  rewrite !ddiv_nz, !bind_Ok in Eb by (cbn; lra). apply bind_inv in Eb. destruct Eb as (cv & _ & Eb).
  apply bind_inv in Eb. destruct Eb as (ts & Et & Eb). injection Eb as <-.
  assert (D : 0 < hi - lo) by lra.
  assert (Hn : smax ((a - lo) / (hi - lo)) 0 = Rmax ((a - lo) / (hi - lo)) 0).
  { unfold smax. simpl slt. unfold Rmax. destruct (Rltb_spec ((a - lo) / (hi - lo)) 0), (Rle_dec ((a - lo) / (hi - lo)) 0); lra. }
  assert (Hm : smin ((b - lo) / (hi - lo)) 1 = Rmin ((b - lo) / (hi - lo)) 1).
  { unfold smin. simpl slt. unfold Rmin. destruct (Rltb_spec 1 ((b - lo) / (hi - lo))), (Rle_dec ((b - lo) / (hi - lo)) 1); lra. }
  assert (E1 : forall x, (x - lo) / (hi - lo) * (hi - lo) = x - lo) by (intros x; field; lra).
  change (@sdiv R R_ops) with Rdiv in Et. change (@ssub R R_ops) with Rminus in Et.
  change (@s0 R R_ops) with 0 in Et. change (@s1 R R_ops) with 1 in Et. rewrite Hn, Hm in Et.
  apply HA in Et.
  - destruct Et as [_ Ht]. apply Forall_app. split; [exact Hacc|]. apply Forall_map. eapply Forall_impl; [|exact Ht].
    intros x [Hx1 Hx2]. cbn [smul sadd ssub R_ops].
    pose proof (Rmax_l ((a - lo) / (hi - lo)) 0). pose proof (Rmin_l ((b - lo) / (hi - lo)) 1).
    assert ((a - lo) / (hi - lo) * (hi - lo) <= x * (hi - lo)) by (apply Rmult_le_compat_r; lra).
    assert (x * (hi - lo) <= (b - lo) / (hi - lo) * (hi - lo)) by (apply Rmult_le_compat_r; lra).
    rewrite E1 in *. lra.
  - apply Rmax_lub; apply Rmin_glb; try lra.
    + apply Rmult_le_reg_r with (hi - lo); [exact D|]. rewrite !E1. lra.
    + apply Rmult_le_reg_r with (hi - lo); [exact D|]. rewrite E1. lra.
    + apply Rmult_le_reg_r with (hi - lo); [exact D|]. rewrite E1. lra.
Qed.
