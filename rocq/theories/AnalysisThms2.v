(** Analysis of quadratic and cubic curves; failures. *)
From Coq Require Import Reals Lra Lia ZArith QArith List Bool Sorted.
From Verif Require RootsThms.
From Verif Require Import Monad MonadFacts Scalar ScalarFacts Spec SpecFacts LineThms QuadratureThms ExportThms RationalThms ModelBezier
  ModelBSpline ModelRational ModelRoots ModelAuto ModelAutoRational ModelAnalysis AutoFacts AutoThms BezierThms
  BSplineConvert RationalThms3 SpecAnalysis AnalysisThms.
Import ListNotations.
Local Open Scope R_scope.

Lemma tol8_R : (tol8 : R) = 1 / 10 ^ 8.
Proof. unfold tol8. cbn [sofQ R_ops Qnum Qden]. replace (IZR (Zpos (10 ^ 8))) with (10 ^ 8); [reflexivity|]. change (10 ^ 8)%positive with 100000000%positive. lra. Qed.
Lemma tol8_pos : 0 < tol8.
Proof. rewrite tol8_R. lra. Qed.

Lemma solve_quadratic eigen c0 c1 c2 a b : clear_quadratic (1 / 10 ^ 8) c2 c1 c0 ->
  exists l, solve eigen (Ok [c0; c1; c2]) a b = Ok l /\ forall x, In x l <-> c0 + c1 * x + c2 * x ^ 2 = 0 /\ a <= x <= b.
Proof.
  intros H. rewrite <- tol8_R in H. pose proof tol8_pos as Hp. unfold solve. rewrite bind_Ok.
  change (length [c0; c1; c2] - 1)%nat with 2%nat. cbn [find_roots].
  destruct H as [[H1 H2]|[[H1 H2]|(H1 & H2 & H3)]].
  - destruct (roots2 c0 c1 c2 [] a b tol8 [] Hp H1 H2) as (l & El & _ & Hl). exists l. split; [exact El|exact Hl].
  - rewrite roots2_drop by (rewrite H1, Rabs_R0; exact Hp).
    destruct (roots1 c0 c1 [c2] a b tol8 [] Hp H2) as (l & El & Hl & _). exists l. split; [exact El|]. intros x. rewrite Hl, H1.
    replace (c0 + c1 * x + 0 * x ^ 2) with (c0 + c1 * x) by ring. reflexivity.
  - rewrite roots2_drop by (rewrite H1, Rabs_R0; exact Hp). rewrite roots1_drop by (rewrite H2, Rabs_R0; exact Hp). rewrite roots0.
    destruct (Rlt_dec (Rabs c0) tol8) as [H|H]; [lra|]. exists []. split; [reflexivity|]. intros x. cbn [In]. split; [tauto|]. intros [E _].
    assert (E' : c0 = 0) by (rewrite H1, H2 in E; lra). rewrite E', Rabs_R0 in H3. lra.
Qed.

Lemma solve_linear eigen c0 c1 a b : 1 / 10 ^ 8 <= Rabs c1 ->
  exists l, solve eigen (Ok [c0; c1]) a b = Ok l /\ forall x, In x l <-> c0 + c1 * x = 0 /\ a <= x <= b.
Proof.
  intros H. rewrite <- tol8_R in H. pose proof tol8_pos as Hp. unfold solve. rewrite bind_Ok.
  change (length [c0; c1] - 1)%nat with 1%nat. cbn [find_roots].
  destruct (roots1 c0 c1 [] a b tol8 [] Hp H) as (l & El & Hl & _). exists l. split; [exact El|]. exact Hl.
Qed.

Lemma vderiv_unique {d} (f : R -> vec R d) t v w i : (i < d)%nat -> vderiv f t v -> vderiv f t w -> coord d i v = coord d i w.
Proof. intros Hi H1 H2. eapply uniqueness_limite; [apply H1|apply H2]; exact Hi. Qed.
Lemma derivs2_unique f f1 f2 g1 g2 : derivs2 f f1 f2 -> derivs2 f g1 g2 -> forall t i, (i < 2)%nat ->
  coord 2 i (f1 t) = coord 2 i (g1 t) /\ coord 2 i (f2 t) = coord 2 i (g2 t).
Proof.
  intros [A1 A2] [B1 B2] t i Hi.
  assert (E : forall s, coord 2 i (f1 s) = coord 2 i (g1 s)) by (intros s; now apply (vderiv_unique f s)).
  split; [apply E|]. pose proof (A2 t i Hi) as P. pose proof (B2 t i Hi) as Q.
  eapply uniqueness_limite; [exact P|]. intros e He. destruct (Q e He) as [dl Hd]. exists dl. intros h H0 H1. rewrite !E. now apply Hd.
Qed.
Lemma quadratic_unique a b c a' b' c' : (forall t, a + b * t + c * t ^ 2 = a' + b' * t + c' * t ^ 2) -> a = a' /\ b = b' /\ c = c'.
Proof. intros H. pose proof (H 0). pose proof (H 1). pose proof (H (-1)). lra. Qed.

Lemma sorted_solved (r : res (list R)) l (P : R -> Prop) : r = Ok l -> (forall x, In x l <-> P x) ->
  exists l', (do x <- r; Ok (sorted_unique x)) = Ok l' /\ StronglySorted Rlt l' /\ forall x, In x l' <-> P x.
Proof.
  intros -> H. rewrite bind_Ok. exists (sorted_unique l). split; [reflexivity|]. destruct (sorted_unique_spec l) as [H1 H2].
  split; [exact H1|]. intros x. now rewrite H2.
Qed.

Lemma four_points (pts : list (vec R 2)) : length pts = 4%nat -> exists p q r s, pts = [p; q; r; s].
Proof. intros H. destruct pts as [|p [|q [|r [|s [|? ?]]]]]; try discriminate. eauto. Qed.
Lemma three_points (pts : list (vec R 2)) : length pts = 3%nat -> exists p q r, pts = [p; q; r].
Proof. intros H. destruct pts as [|p [|q [|r [|? ?]]]]; try discriminate. eauto. Qed.

(** * Cubic inflections *)
Lemma cubic_coeffs high (pts : list (vec R 2)) : length pts = 4%nat -> exists c0 c1 c2, inflection_coeffs high pts = Ok [c0; c1; c2].
Proof.
  intros H. destruct (four_points pts H) as (p & q & r & s & ->). destruct p as [? [? []]], q as [? [? []]], r as [? [? []]], s as [? [? []]].
  do 3 eexists. reflexivity.
Qed.
Lemma clear_opp e a b c : clear_quadratic e a b c -> clear_quadratic e (- a) (- b) (- c).
Proof.
  unfold clear_quadratic. rewrite !Rabs_Ropp. replace (- b * - b - 4 * - a * - c) with (b * b - 4 * a * c) by ring.
  intros [H|[[-> H]|(-> & -> & H)]]; [left; exact H|right; left; split; [lra|exact H]|right; right; repeat split; try lra].
Qed.
Lemma cubic_inflections eigen high c f1 f2 k0 k1 k2 a b :
  length (bz_pts c) = 4%nat -> derivs2 (bernstein_curve (bz_pts c)) f1 f2 ->
  (forall t, cross2 (f1 t) (f2 t) = k0 + k1 * t + k2 * t ^ 2) -> clear_quadratic (1 / 10 ^ 8) k2 k1 k0 ->
  exists l, bz_compute_inflections eigen high c a b = Ok l /\ bz3_compute_inflections eigen c a b = Ok l /\
    StronglySorted Rlt l /\ forall t, In t l <-> a <= t <= b /\ cross2 (f1 t) (f2 t) = 0.
Proof.
  intros HL HD HC HQ. destruct (inflection_poly (bz_pts c) false ltac:(lia) ltac:(lia)) as (cs & g1 & g2 & Ec & G1 & G2 & Hp).
  destruct (cubic_coeffs false _ HL) as (c0 & c1 & c2 & Ec').
  assert (Eh : inflection_coeffs high (bz_pts c) = Ok [c0; c1; c2]).
  { rewrite <- Ec'. destruct (four_points _ HL) as (p & q & r & s & ->). destruct p as [? [? []]], q as [? [? []]], r as [? [? []]], s as [? [? []]]. reflexivity. }
  assert (cs = [c0; c1; c2]) as -> by congruence.
  assert (Hk : forall t, c0 + c1 * t + c2 * t ^ 2 = - k0 + - k1 * t + - k2 * t ^ 2).
  { intros t. transitivity (rsum (length [c0; c1; c2]) (fun k => nth k [c0; c1; c2] 0 * t ^ k)).
    - unfold rsum. cbn [length psum nth padd p0 scal_point_ops pow]. cbn. ring.
    - rewrite Hp. replace (- k0 + - k1 * t + - k2 * t ^ 2) with (- (k0 + k1 * t + k2 * t ^ 2)) by ring. rewrite <- HC. unfold cross2.
      destruct (derivs2_unique _ _ _ _ _ HD (conj G1 G2) t 0%nat ltac:(lia)) as [-> ->].
      destruct (derivs2_unique _ _ _ _ _ HD (conj G1 G2) t 1%nat ltac:(lia)) as [-> ->]. ring. }
  destruct (quadratic_unique _ _ _ _ _ _ Hk) as (-> & -> & ->). clear Hk.
  destruct (solve_quadratic eigen (- k0) (- k1) (- k2) a b (clear_opp _ _ _ _ HQ)) as (l & El & Hl).
  destruct (sorted_solved _ l (fun t => a <= t <= b /\ cross2 (f1 t) (f2 t) = 0) El) as (l' & E' & S' & I').
  { intros t. rewrite Hl, HC. split; intros [? ?]; split; lra. }
  exists l'. unfold bz_compute_inflections, bz3_compute_inflections. rewrite Eh, Ec.
  replace (zlen (bz_pts c) - 1 <=? 2)%Z with false by (symmetry; apply Z.leb_gt; unfold zlen; lia).
  assert (Ecat : catch_infinite (solve eigen (Ok [- k0; - k1; - k2]) a b) = Ok l) by now rewrite El.
  rewrite Ecat. rewrite El in E'. auto.
Qed.

(** * Singularities of a quadratic curve *)
Lemma quad_coeffs high (pts : list (vec R 2)) : length pts = 3%nat -> exists c0 c1 c2, singularity_coeffs high pts = Ok [c0; c1; c2].
Proof.
  intros H. destruct (three_points pts H) as (p & q & r & ->). destruct p as [? [? []]], q as [? [? []]], r as [? [? []]].
  do 3 eexists. reflexivity.
Qed.
Lemma quadratic_singularities eigen high c f1 f2 a b :
  length (bz_pts c) = 3%nat -> derivs2 (bernstein_curve (bz_pts c)) f1 f2 -> 1 / 10 ^ 8 <= norm2 (f2 0) ^ 2 ->
  exists l, bz_compute_singularities eigen high c a b = Ok l /\
    StronglySorted Rlt l /\ forall t, In t l <-> a <= t <= b /\ coord 2 0 (f1 t) = 0 /\ coord 2 1 (f1 t) = 0.
Proof.
  intros HL HD HN. destruct (curve_planar_derivs (bz_pts c) ltac:(lia)) as [D1 D2].
  pose proof (derivs2_unique _ _ _ _ _ HD (conj D1 D2)) as U.
  destruct (three_points _ HL) as (p & q & r & Ep). destruct p as [x0 [y0 []]], q as [x1 [y1 []]], r as [x2 [y2 []]].
  rewrite Ep in U. set (A := 2 * (x1 - x0)). set (B := 2 * (x2 - 2 * x1 + x0)). set (A' := 2 * (y1 - y0)). set (B' := 2 * (y2 - 2 * y1 + y0)).
  assert (Ux : forall t, coord 2 0 (f1 t) = A + B * t /\ coord 2 0 (f2 t) = B).
  { intros t. destruct (U t 0%nat ltac:(lia)) as [-> ->]. unfold A, B. cbn. split; ring. }
  assert (Uy : forall t, coord 2 1 (f1 t) = A' + B' * t /\ coord 2 1 (f2 t) = B').
  { intros t. destruct (U t 1%nat ltac:(lia)) as [-> ->]. unfold A', B'. cbn. split; ring. }
  unfold norm2 in HN. rewrite pow2_sqrt in HN by (apply Rplus_le_le_0_compat; apply pow2_ge_0). rewrite (proj2 (Ux 0)), (proj2 (Uy 0)) in HN.
  assert (Ec : singularity_coeffs high (bz_pts c) = Ok [A ^ 2 + A' ^ 2; 2 * (A * B + A' * B'); B ^ 2 + B' ^ 2]).
  { rewrite Ep. cbn [singularity_coeffs]. f_equal. unfold sing_2. unfold A, B, A', B'. cbn [sadd ssub smul sopp sofZ R_ops].
    repeat (apply f_equal2; [ring|]). reflexivity. }
  assert (HQ : clear_quadratic (1 / 10 ^ 8) (B ^ 2 + B' ^ 2) (2 * (A * B + A' * B')) (A ^ 2 + A' ^ 2)).
  { left. split; [rewrite Rabs_right; nra|]. 
    replace (2 * (A * B + A' * B') * (2 * (A * B + A' * B')) - 4 * (B ^ 2 + B' ^ 2) * (A ^ 2 + A' ^ 2)) with (- (4 * (A * B' - A' * B) ^ 2)) by ring.
    pose proof (pow2_ge_0 (A * B' - A' * B)). destruct (Req_dec ((A * B' - A' * B) ^ 2) 0); [right; left; lra|left; lra]. }
  destruct (solve_quadratic eigen _ _ _ a b HQ) as (l & El & Hl).
  destruct (sorted_solved _ l (fun t => a <= t <= b /\ coord 2 0 (f1 t) = 0 /\ coord 2 1 (f1 t) = 0) El) as (l' & E' & S' & I').
  { intros t. rewrite Hl, (proj1 (Ux t)), (proj1 (Uy t)).
    replace (A ^ 2 + A' ^ 2 + 2 * (A * B + A' * B') * t + (B ^ 2 + B' ^ 2) * t ^ 2) with ((A + B * t) ^ 2 + (A' + B' * t) ^ 2) by ring.
    split; [intros [H1 H2]; split; [exact H2|]; rewrite <- !Rsqr_pow2 in H1; split; [eapply Rplus_sqr_eq_0_l; exact H1|rewrite Rplus_comm in H1; eapply Rplus_sqr_eq_0_l; exact H1]|]. intros (H1 & H2 & H3). split; [rewrite H2, H3; ring|exact H1]. }
  exists l'. unfold bz_compute_singularities. rewrite Ec. auto.
Qed.

(** * Turning angle *)
Lemma pnorm_norm2 (v : vec R 2) : pnorm v = norm2 v.
Proof. destruct v as [x [y []]]. unfold pnorm, norm2, sqnorm. cbn. f_equal. ring. Qed.

Lemma reduce_solved eigen st t0 t1 cs a b l (P : R -> Prop) :
  1 / 10 ^ 8 <= norm2 t0 -> 1 / 10 ^ 8 <= norm2 t1 -> (st = true -> 2 / 10 ^ 8 <= norm2 (padd t0 t1)) ->
  solve eigen (cs (- coord 2 1 (bisector t0 t1) / 2) (coord 2 0 (bisector t0 t1) / 2)) a b = Ok l ->
  (forall x, In x l <-> P x) ->
  exists l', reduce_with eigen st t0 t1 cs a b = Ok l' /\ StronglySorted Rlt l' /\ forall x, In x l' <-> P x.
Proof.
  intros H0 H1 H2 El Hl. unfold reduce_with. rewrite !pnorm_norm2.
  rewrite !tol8_R. change (@slt R R_ops) with Rltb. rewrite !Rltb_false by assumption. cbn [orb].
  assert (Hs : (st && Rltb (norm2 (padd t0 t1)) (smul (sofZ 2) (1 / 10 ^ 8)))%bool = false).
  { destruct st; [|reflexivity]. cbn [andb]. apply Rltb_false. specialize (H2 eq_refl). cbn [smul sofZ R_ops]. lra. }
  rewrite Hs. unfold pdivs. cbn [seq_ R_ops s0]. rewrite !Reqb_false by lra. rewrite !bind_Ok. rewrite !ddiv_nz by (cbn; lra). rewrite !bind_Ok.
  apply (sorted_solved _ l); [|exact Hl].
  match goal with |- catch_infinite ?x = _ => assert (E : x = Ok l); [|rewrite E; reflexivity] end.
  rewrite <- El. unfold bisector. assert (N0 : norm2 t0 <> 0) by lra. assert (N1 : norm2 t1 <> 0) by lra.
  revert N0 N1. generalize (norm2 t0) as m, (norm2 t1) as m'. intros m m' N0 N1.
  destruct t0 as [u [v []]], t1 as [u' [v' []]]. f_equal. cbn. f_equal; field; auto.
Qed.

Lemma bezier_tangent (pts : list (vec R 2)) f1 f2 t : (3 <= length pts)%nat -> derivs2 (bernstein_curve pts) f1 f2 ->
  bz_evaluate_derivative (mk_bezier pts) t = Ok (f1 t).
Proof.
  intros H [D1 D2]. assert (Hne : pts <> []) by (destruct pts; [cbn in H; lia|discriminate]).
  destruct (bezier_derivatives 2 pts Hne) as (g & g1 & g2 & Eg & E1 & _ & G & _).
  rewrite E1. f_equal. apply vec_ext. intros i Hi. pose proof (G t i Hi) as P. pose proof (D1 t i Hi) as Q.
  eapply uniqueness_limite; [exact P|]. intros e He. destruct (Q e He) as [dl Hd]. exists dl. intros h H0 H1.
  assert (EG : forall s, g s = bernstein_curve pts s).
  { intros s. specialize (Eg s). rewrite bezier_bernstein in Eg by exact Hne. now apply Ok_inj in Eg. }
  rewrite !EG. now apply Hd.
Qed.

Lemma quad_tangent_coeffs high nx ny (pts : list (vec R 2)) : length pts = 3%nat -> exists c0 c1, tangent_coeffs high pts nx ny = Ok [c0; c1].
Proof.
  intros H. destruct (three_points pts H) as (p & q & r & ->). destruct p as [? [? []]], q as [? [? []]], r as [? [? []]].
  do 2 eexists. reflexivity.
Qed.
Lemma cubic_tangent_coeffs high nx ny (pts : list (vec R 2)) : length pts = 4%nat -> exists c0 c1 c2, tangent_coeffs high pts nx ny = Ok [c0; c1; c2].
Proof.
  intros H. destruct (four_points pts H) as (p & q & r & s & ->). destruct p as [? [? []]], q as [? [? []]], r as [? [? []]], s as [? [? []]].
  do 3 eexists. reflexivity.
Qed.
Lemma tangent_high high nx ny (pts : list (vec R 2)) : (3 <= length pts <= 4)%nat -> tangent_coeffs high pts nx ny = tangent_coeffs false pts nx ny.
Proof.
  intros H. destruct pts as [|[? [? []]] [|[? [? []]] [|[? [? []]] [|[? [? []]] [|? ?]]]]]; try (exfalso; cbn [length] in H; lia); reflexivity.
Qed.

Lemma quadratic_reduce eigen high (pts : list (vec R 2)) f1 f2 a b : length pts = 3%nat -> derivs2 (bernstein_curve pts) f1 f2 ->
  1 / 10 ^ 8 <= norm2 (f1 a) -> 1 / 10 ^ 8 <= norm2 (f1 b) ->
  2 / 10 ^ 8 <= Rabs (cross2 (f2 0) (bisector (f1 a) (f1 b))) ->
  exists l, bz_reduce_turning_angle eigen high (mk_bezier pts) a b = Ok l /\ bz2_reduce_turning_angle eigen (mk_bezier pts) a b = Ok l /\
    StronglySorted Rlt l /\ forall t, In t l <-> a <= t <= b /\ cross2 (f1 t) (bisector (f1 a) (f1 b)) = 0.
Proof.
  intros HL HD Ha Hb HC. set (s := bisector (f1 a) (f1 b)) in *.
  destruct (tangent_poly (- coord 2 1 s / 2) (coord 2 0 s / 2) pts false ltac:(lia) ltac:(lia)) as (cs & g1 & g2 & Ec & G1 & G2 & Hp).
  destruct (quad_tangent_coeffs false (- coord 2 1 s / 2) (coord 2 0 s / 2) pts HL) as (c0 & c1 & Ec').
  assert (cs = [c0; c1]) as -> by congruence.
  assert (Hk : forall t, c0 + c1 * t = - (cross2 (f1 t) s / 2)).
  { intros t. transitivity (rsum (length [c0; c1]) (fun k => nth k [c0; c1] 0 * t ^ k)).
    - unfold rsum. cbn. ring.
    - rewrite Hp. unfold cross2. destruct (derivs2_unique _ _ _ _ _ HD (conj G1 G2) t 0%nat ltac:(lia)) as [-> _].
      destruct (derivs2_unique _ _ _ _ _ HD (conj G1 G2) t 1%nat ltac:(lia)) as [-> _]. field. }
  assert (H1 : c1 = - (cross2 (f2 0) s / 2)).
  { apply (uniqueness_limite (fun t => c0 + c1 * t) 0).
    - apply (RationalThms.derivable_pt_lim_val _ _ (0 + (0 * 0 + c1 * 1))); [|ring].
      apply (derivable_pt_lim_plus (fun _ => c0) (fun t => c1 * t)); [apply derivable_pt_lim_const|].
      apply (derivable_pt_lim_mult (fun _ => c1) (fun t => t)); [apply derivable_pt_lim_const|apply derivable_pt_lim_id].
    - destruct HD as [_ D2]. pose proof (D2 0 0%nat ltac:(lia)) as P. pose proof (D2 0 1%nat ltac:(lia)) as Q.
      intros e He. 
      assert (L : derivable_pt_lim (fun t => - / 2 * (coord 2 1 s * coord 2 0 (f1 t) - coord 2 0 s * coord 2 1 (f1 t))) 0 (- / 2 * (coord 2 1 s * coord 2 0 (f2 0) - coord 2 0 s * coord 2 1 (f2 0)))).
      { apply derivable_pt_lim_scal. apply (derivable_pt_lim_minus (fun t => coord 2 1 s * coord 2 0 (f1 t)) (fun t => coord 2 0 s * coord 2 1 (f1 t))); now apply derivable_pt_lim_scal. }
      destruct (L e He) as [dl Hd]. exists dl. intros h h0 h1. rewrite !Hk. specialize (Hd h h0 h1). unfold cross2.
      match goal with |- Rabs ?x < _ => match type of Hd with Rabs ?y < _ => replace x with y; [exact Hd|] end end. field. exact h0. }
  assert (HC1 : 1 / 10 ^ 8 <= Rabs c1).
  { rewrite H1, Rabs_Ropp. replace (cross2 (f2 0) s / 2) with (/ 2 * cross2 (f2 0) s) by field. rewrite Rabs_mult, (Rabs_right (/ 2)) by lra. lra. }
  destruct (solve_linear eigen c0 c1 a b HC1) as (l & El & Hl).
  rewrite <- Ec in El. 
  destruct (reduce_solved eigen false (f1 a) (f1 b) (tangent_coeffs false pts) a b l (fun t => a <= t <= b /\ cross2 (f1 t) s = 0)) as (l' & E' & S' & I'); try assumption.
  { discriminate. } { intros x. rewrite Hl, Hk. split; intros [? ?]; split; lra. }
  exists l'. assert (G : bz2_reduce_turning_angle eigen (mk_bezier pts) a b = Ok l').
  { unfold bz2_reduce_turning_angle. rewrite !(proj1 (proj2 (bezier_deg2 _ _ _ HL))), !(bezier_tangent pts f1 f2) by (assumption || lia). exact E'. }
  split; [|auto]. unfold bz_reduce_turning_angle. replace (zlen (bz_pts (mk_bezier pts)) - 1 <? 2)%Z with false by (symmetry; apply Z.ltb_ge; unfold zlen; cbn [bz_pts mk_bezier]; lia).
  rewrite !(bezier_tangent pts f1 f2), !bind_Ok by (assumption || lia). cbn [bz_pts mk_bezier].
  rewrite <- E'. unfold reduce_with. destruct (_ || _); [reflexivity|].
  destruct (pdivs _ _); cbn [bind]; try reflexivity. destruct (pdivs _ _); cbn [bind]; try reflexivity.
  destruct (ddiv _ _); cbn [bind]; try reflexivity. destruct (ddiv _ _); cbn [bind]; try reflexivity.
  rewrite tangent_high by lia. reflexivity.
Qed.

Lemma cubic_reduce eigen high (pts : list (vec R 2)) f1 f2 k0 k1 k2 a b : length pts = 4%nat -> derivs2 (bernstein_curve pts) f1 f2 ->
  1 / 10 ^ 8 <= norm2 (f1 a) -> 1 / 10 ^ 8 <= norm2 (f1 b) ->
  (forall t, cross2 (f1 t) (bisector (f1 a) (f1 b)) / 2 = k0 + k1 * t + k2 * t ^ 2) -> clear_quadratic (1 / 10 ^ 8) k2 k1 k0 ->
  exists l, bz_reduce_turning_angle eigen high (mk_bezier pts) a b = Ok l /\
    (2 / 10 ^ 8 <= norm2 (padd (f1 a) (f1 b)) -> bz3_reduce_turning_angle eigen (mk_bezier pts) a b = Ok l) /\
    StronglySorted Rlt l /\ forall t, In t l <-> a <= t <= b /\ cross2 (f1 t) (bisector (f1 a) (f1 b)) = 0.
Proof.
  intros HL HD Ha Hb HC HQ. set (s := bisector (f1 a) (f1 b)) in *.
  destruct (tangent_poly (- coord 2 1 s / 2) (coord 2 0 s / 2) pts false ltac:(lia) ltac:(lia)) as (cs & g1 & g2 & Ec & G1 & G2 & Hp).
  destruct (cubic_tangent_coeffs false (- coord 2 1 s / 2) (coord 2 0 s / 2) pts HL) as (c0 & c1 & c2 & Ec').
  assert (cs = [c0; c1; c2]) as -> by congruence.
  assert (Hk : forall t, c0 + c1 * t + c2 * t ^ 2 = - k0 + - k1 * t + - k2 * t ^ 2).
  { intros t. transitivity (rsum (length [c0; c1; c2]) (fun k => nth k [c0; c1; c2] 0 * t ^ k)).
    - unfold rsum. cbn. ring.
    - rewrite Hp. replace (- k0 + - k1 * t + - k2 * t ^ 2) with (- (k0 + k1 * t + k2 * t ^ 2)) by ring. rewrite <- HC.
      unfold cross2. destruct (derivs2_unique _ _ _ _ _ HD (conj G1 G2) t 0%nat ltac:(lia)) as [-> _].
      destruct (derivs2_unique _ _ _ _ _ HD (conj G1 G2) t 1%nat ltac:(lia)) as [-> _]. field. }
  destruct (quadratic_unique _ _ _ _ _ _ Hk) as (-> & -> & ->). clear Hk.
  destruct (solve_quadratic eigen (- k0) (- k1) (- k2) a b (clear_opp _ _ _ _ HQ)) as (l & El & Hl).
  rewrite <- Ec in El. set (P := fun t => a <= t <= b /\ cross2 (f1 t) s = 0).
  assert (HP : forall x, In x l <-> P x).
  { intros x. unfold P. rewrite Hl. specialize (HC x). split; intros [? ?]; split; lra. }
  destruct (reduce_solved eigen false (f1 a) (f1 b) (tangent_coeffs false pts) a b l P) as (l' & E' & S' & I'); try assumption; try discriminate.
  exists l'. split; [|split; [|split; [exact S'|exact I']]].
  - unfold bz_reduce_turning_angle. replace (zlen (bz_pts (mk_bezier pts)) - 1 <? 2)%Z with false by (symmetry; apply Z.ltb_ge; unfold zlen; cbn [bz_pts mk_bezier]; lia).
    rewrite !(bezier_tangent pts f1 f2), !bind_Ok by (assumption || lia). cbn [bz_pts mk_bezier].
    rewrite <- E'. unfold reduce_with. destruct (_ || _); [reflexivity|].
    destruct (pdivs _ _); cbn [bind]; try reflexivity. destruct (pdivs _ _); cbn [bind]; try reflexivity.
    destruct (ddiv _ _); cbn [bind]; try reflexivity. destruct (ddiv _ _); cbn [bind]; try reflexivity.
    rewrite tangent_high by lia. reflexivity.
  - intros Hs. unfold bz3_reduce_turning_angle. rewrite !(proj1 (proj2 (bezier_deg3 _ _ _ HL))), !(bezier_tangent pts f1 f2), !bind_Ok by (assumption || lia).
    rewrite <- E'. cbn [bz_pts mk_bezier]. unfold reduce_with. 
    assert (B : slt (pnorm (padd (f1 a) (f1 b))) (smul (sofZ 2) tol8) = false).
    { rewrite pnorm_norm2, tol8_R. apply Rltb_false. cbn [smul sofZ R_ops]. lra. }
    rewrite B. cbn [andb]. reflexivity.
Qed.

(** * Failures *)
Lemma no_infinite (r : res (list R)) : (do l <- catch_infinite r; Ok (sorted_unique l)) <> Throw infinite_root_error.
Proof. destruct r as [?|[]| |]; cbn; discriminate. Qed.

(** Constant curves of degree 2..4: the singularity polynomial vanishes and nothing catches the exception. *)
Lemma constant_singularities eigen high n (p : vec R 2) a b : (3 <= n <= 5)%nat -> a < b ->
  bz_compute_singularities eigen high (mk_bezier (repeat p n)) a b = Throw infinite_root_error.
Proof.
  intros Hn Hab. pose proof tol8_pos as Hp. unfold bz_compute_singularities. cbn [bz_pts mk_bezier].
  assert (E : exists cs, singularity_coeffs high (repeat p n) = Ok cs /\ (1 <= length cs)%nat /\ Forall (fun x => x = 0) cs).
  { destruct p as [x [y []]]. destruct n as [|[|[|[|[|[|n]]]]]]; try (exfalso; lia); eexists; (split; [reflexivity|]);
      (split; [cbn; lia|]); repeat (apply Forall_cons; [cbn [sadd ssub smul sopp sofZ R_ops]; ring|]); apply Forall_nil. }
  destruct E as (cs & -> & Hl & Hz). unfold solve. rewrite bind_Ok.
  assert (G : forall k, (k < length cs)%nat -> get cs (Z.of_nat k) = Ok 0).
  { intros k Hk. rewrite (RationalFacts.get_nth cs k 0 Hk). f_equal. rewrite Forall_forall in Hz. apply Hz. now apply nth_In. }
  assert (S : forall k, (k < length cs)%nat -> find_roots eigen k cs [] a b tol8 = Throw infinite_root_error).
  { assert (A : slt (sabs 0) tol8 = true) by (rewrite sabs_R, Rabs_R0; now apply Rltb_true).
    assert (F0 : find_roots_0 cs [] a b tol8 = Throw infinite_root_error).
    { unfold find_roots_0. pose proof (G 0%nat ltac:(lia)) as Gk. cbn [Z.of_nat Pos.of_succ_nat Pos.succ] in Gk. rewrite Gk, bind_Ok, A. reflexivity. }
    assert (F1 : (1 < length cs)%nat -> find_roots_1 cs [] a b tol8 = Throw infinite_root_error).
    { intros H. unfold find_roots_1. pose proof (G 1%nat ltac:(lia)) as Gk. cbn [Z.of_nat Pos.of_succ_nat Pos.succ] in Gk. rewrite Gk, bind_Ok, A. exact F0. }
    assert (F2 : (2 < length cs)%nat -> find_roots_2 cs [] a b tol8 = Throw infinite_root_error).
    { intros H. unfold find_roots_2. pose proof (G 2%nat ltac:(lia)) as Gk. cbn [Z.of_nat Pos.of_succ_nat Pos.succ] in Gk. rewrite Gk, bind_Ok, A. apply F1. lia. }
    induction k as [|k IH]; intros Hk; [exact F0|]. destruct k as [|[|k]]; [apply F1; lia|apply F2; lia|].
    rewrite RootsThms.find_roots_high by (lia || exact Hab). replace (nth (S (S (S k))) cs 0) with 0 by (symmetry; rewrite Forall_forall in Hz; apply Hz; now apply nth_In).
    rewrite Rabs_R0. destruct (Rlt_dec 0 tol8); [|contradiction]. replace (S (S (S k)) - 1)%nat with (S (S k)) by lia. apply IH. lia. }
  rewrite S by lia. reflexivity.
Qed.

Lemma linear_singularities eigen high (p q : vec R 2) a b : bz_compute_singularities eigen high (mk_bezier [p; q]) a b = Throw not_implemented_error.
Proof. destruct p as [? [? []]], q as [? [? []]]. reflexivity. Qed.

(** * Piecewise curves *)
Lemma bs_analysis_range eigen high (c : bspline R (vec R 2)) a b l :
  valid_bspline (bs_pts c) (bs_knots c) -> knots_apart (/ IZR (10 ^ 16)) (bs_knots c) ->
  nth (bspline_degree (bs_pts c) (bs_knots c)) (bs_knots c) 0 < nth (bspline_degree (bs_pts c) (bs_knots c) + 1) (bs_knots c) 0 ->
  a <= b ->
  bs_compute_inflections eigen high c a b = Ok l \/ bs_reduce_turning_angle eigen high c a b = Ok l \/ bs_compute_singularities eigen high c a b = Ok l ->
  in_range a b l.
Proof.
  intros Hv Hk Hn Hab H. destruct (bspline_convert 2 c Hv Hk Hn) as (segs & bounds & E & _ & _ & _ & _ & HB & _).
  unfold bs_compute_inflections, bs_reduce_turning_angle, bs_compute_singularities in H. rewrite E, !bind_Ok in H.
  destruct H as [H|[H|H]]; revert H; apply piecewise_range; auto.
  - intros ? ? ? ? _. apply bz_infl_range.
  - intros ? ? ? ?. apply bz_reduce_range.
  - intros ? ? ? ? _. apply bz_sing_range.
Qed.
Lemma nb_analysis_range eigen (c cn : nurbs R 2) a b l :
  nb_fresh c -> Forall (fun w => 0 < w) (nb_weights c) -> nb_initialize (nb_set_periodic c false) = Ok cn ->
  valid_bspline (nb_pts c) (nb_knots c) -> knots_apart (/ IZR (10 ^ 16)) (nb_knots c) ->
  nth (bspline_degree (nb_pts c) (nb_knots c)) (nb_knots c) 0 < nth (bspline_degree (nb_pts c) (nb_knots c) + 1) (nb_knots c) 0 ->
  a <= b ->
  nb_compute_inflections eigen c a b = Ok l \/ nb_reduce_turning_angle eigen c a b = Ok l \/ nb_compute_singularities eigen c a b = Ok l ->
  in_range a b l.
Proof.
  intros Hf Hw Hi Hv Hk Hn Hab H. destruct (nurbs_convert c cn Hf Hw Hi Hv Hk Hn) as (segs & bounds & E & _ & _ & _ & _ & HB & _).
  unfold nb_compute_inflections, nb_reduce_turning_angle, nb_compute_singularities in H. rewrite E, !bind_Ok in H.
  destruct H as [H|[H|H]]; revert H; apply piecewise_range; auto.
  - intros ? ? ? ? _. apply rb_infl_range.
  - intros ? ? ? ?. apply rb_reduce_range.
  - intros ? ? ? ? _. apply rb_sing_range.
Qed.

(** * A small cubic whose inflection is missed *)
Definition small_s : list (vec R 2) := [(0, (0, tt)); (1 / 10 ^ 6, (1 / 10 ^ 6, tt)); (2 / 10 ^ 6, (- (1 / 10 ^ 6), tt)); (3 / 10 ^ 6, (0, tt))].
Lemma small_missed : exists f1 f2, derivs2 (bernstein_curve small_s) f1 f2 /\
  cross2 (f1 (1 / 2)) (f2 (1 / 2)) = 0 /\ cross2 (f1 0) (f2 0) < 0 < cross2 (f1 1) (f2 1) /\ norm2 (f1 (1 / 2)) <> 0 /\
  forall eigen high, bz_compute_inflections eigen high (mk_bezier small_s) 0 1 = Ok [] /\ bz3_compute_inflections eigen (mk_bezier small_s) 0 1 = Ok [].
Proof.
  destruct (curve_planar_derivs small_s) as [D1 D2]; [cbn; lia|]. eexists _, _. split; [split; [exact D1|exact D2]|].
  split; [unfold cross2; cbn; lra|]. split; [unfold cross2; cbn; lra|]. split.
  { unfold norm2. intros E. apply sqrt_eq_0 in E; [|apply Rplus_le_le_0_compat; apply pow2_ge_0].
    match type of E with ?x ^ 2 + ?y ^ 2 = 0 => assert (Hx : x = 3 / 10 ^ 6) by (cbn; lra); pose proof (pow2_ge_0 y) end. rewrite Hx in E. lra. }
  intros eigen high.
  assert (S : forall h, solve eigen (inflection_coeffs h small_s) 0 1 = Throw infinite_root_error).
  { intros h. unfold small_s. cbn [inflection_coeffs]. unfold solve. rewrite bind_Ok. unfold infl_3.
    match goal with |- find_roots eigen _ [?x; ?y; ?z] _ _ _ _ = _ => set (c0 := x); set (c1 := y); set (c2 := z) end.
    change (length [c0; c1; c2] - 1)%nat with 2%nat. cbn [find_roots].
    assert (H0 : c0 = 54 / 10 ^ 12) by (unfold c0; cbn [sadd ssub smul sopp sofZ R_ops]; lra).
    assert (H1 : c1 = - 108 / 10 ^ 12) by (unfold c1; cbn [sadd ssub smul sopp sofZ R_ops]; lra).
    assert (H2 : c2 = 0) by (unfold c2; cbn [sadd ssub smul sopp sofZ R_ops]; lra).
    rewrite H0, H1, H2. rewrite roots2_drop, roots1_drop, roots0; rewrite ?tol8_R.
    - destruct (Rlt_dec _ _) as [_|H]; [reflexivity|]. exfalso. apply H. rewrite Rabs_right; lra.
    - rewrite Rabs_left; lra.
    - rewrite Rabs_R0; lra. }
  unfold bz_compute_inflections, bz3_compute_inflections. cbn [bz_pts mk_bezier]. rewrite !S. split; reflexivity.
Qed.

Lemma bz_analysis_range eigen high c a b l : a <= b ->
  bz_compute_inflections eigen high c a b = Ok l \/ bz_reduce_turning_angle eigen high c a b = Ok l \/
  bz_compute_singularities eigen high c a b = Ok l \/ bz3_compute_inflections eigen c a b = Ok l \/
  bz2_reduce_turning_angle eigen c a b = Ok l \/ bz3_reduce_turning_angle eigen c a b = Ok l -> in_range a b l.
Proof.
  intros Hab [H|[H|[H|[H|[H|H]]]]]; [eapply bz_infl_range|eapply bz_reduce_range|eapply bz_sing_range|eapply bz3_infl_range|
    eapply bz2_reduce_range|eapply bz3_reduce_range]; eassumption.
Qed.
Lemma rb_analysis_range eigen c a b l : a <= b ->
  rb_compute_inflections eigen c a b = Ok l \/ rb_reduce_turning_angle eigen c a b = Ok l \/ rb_compute_singularities eigen c a b = Ok l ->
  in_range a b l.
Proof. intros Hab [H|[H|H]]; [eapply rb_infl_range|eapply rb_reduce_range|eapply rb_sing_range]; eassumption. Qed.
Lemma inflections_caught eigen high (c : bezier (vec R 2)) a b :
  bz_compute_inflections eigen high c a b <> Throw infinite_root_error /\ bz3_compute_inflections eigen c a b <> Throw infinite_root_error.
Proof. split; [unfold bz_compute_inflections; destruct (_ <=? _)%Z; [discriminate|]|]; apply no_infinite. Qed.
