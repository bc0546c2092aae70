(** Concrete splines for the theorems of SplineAnalysis.v. *)
From Coq Require Import Reals Lra Lia ZArith List Psatz Sorted.
From Coquelicot Require Import Coquelicot.
From Verif Require Import Monad MonadFacts LoopFacts Scalar ScalarFacts Spec SpecFacts SpecAnalysis SpecSplineAnalysis BezierFacts BezierThms ModelCurve ModelBezier ModelBSpline BSplineMath Polar BSplineThms BSplineThms2
  ModelRoots ModelAnalysis AutoFacts AutoThms AnalysisThms AnalysisThms2 SpecRoots RootsThms AnalysisThms3 BSplineConvert TurningThms3 TurningThms4 ExampleFacts SplineAnalysis.
Import ListNotations.
Local Open Scope R_scope.

(** One solver for all curves with the polynomial [s * ks], on all intervals. *)
Lemma uniform_solver ks s m vals : length ks = S m -> (3 <= m)%nat -> s = 1 \/ s = -1 -> 1 / 10 ^ 8 <= Rabs (nth m ks 0) ->
  (forall x y, In (x, y) vals <-> cpoly m ks (x, y) = Complex.RtoC 0) ->
  exists eigen, eigenvalue_solver Ok eigen /\ (forall m e, eigen m <> Throw e) /\
    forall cs a b, length cs = S m -> (forall t, 0 < t < 1 -> rsum (length cs) (fun k => nth k cs 0 * t ^ k) = s * rsum (length ks) (fun k => nth k ks 0 * t ^ k)) -> a < b ->
    exists l, solve eigen (Ok cs) a b = Ok l.
Proof.
  intros Lk Hm Hs Hlead Hv. set (c0 := map (Rmult s) ks). assert (L0 : length c0 = S m) by (unfold c0; rewrite map_length; exact Lk).
  assert (N0 : forall i, (i <= m)%nat -> nth i c0 0 = s * nth i ks 0). { intros i Hi. unfold c0. rewrite (nth_indep _ 0 (s * 0)) by (rewrite map_length; lia). apply map_nth. }
  assert (Hl' : 1 / 10 ^ 8 <= Rabs (nth m c0 0)). { rewrite N0 by lia. rewrite Rabs_mult. destruct Hs as [->| ->]; [rewrite Rabs_R1|rewrite (Rabs_left (-1)) by lra]; lra. }
  assert (Hnz : nth m c0 0 <> 0) by (intros E; rewrite E, Rabs_R0 in Hl'; lra).
  exists (fun M => if list_eq_dec (list_eq_dec Req_EM_T) M (comp_matrix m c0) then Ok vals else Undef). split; [|split].
  - intros M vs E. destruct (list_eq_dec _ M _) as [->|] in E; [|discriminate]. injection E as <-. intros a b. rewrite Hv, (companion_eigen m c0) by (lia || exact Hnz). split; intros H.
    + rewrite (cpoly_scale m c0 ks s) by exact N0. rewrite H. apply Complex.Cmult_0_r.
    + rewrite (cpoly_scale m ks c0 s) by (intros i Hi; rewrite N0 by exact Hi; destruct Hs; subst s; lra). rewrite H. apply Complex.Cmult_0_r.
  - intros M e. destruct (list_eq_dec _ _ _); discriminate.
  - intros cs a b Lc Hp Hab. assert (cs = c0).
    { apply (nth_ext _ _ 0 0); [lia|]. intros i Hi. rewrite N0 by lia. apply (poly_unique (length cs) (fun i => nth i cs 0) (fun i => s * nth i ks 0)); [|lia].
      intros t Ht. rewrite (Hp t Ht), <- rsum_scale, Lc, Lk. apply rsum_eq. intros j _. ring. }
    subst cs. eexists. unfold solve. rewrite bind_Ok, L0. replace (S m - 1)%nat with m by lia. rewrite find_roots_high by (lia || exact Hab). rewrite tol8_R. destruct (Rlt_dec _ _); [exfalso; lra|].
    unfold find_roots_companion. rewrite (companion_ok m c0) by (lia || exact Hnz). rewrite bind_Ok. destruct (list_eq_dec _ _ _); [|contradiction]. rewrite bind_Ok. reflexivity.
Qed.

Section Uniform.
  Variables (high : bool) (c : bspline R (vec R 2)) (ks : list R) (vals : list (R * R)).
  Let p := bspline_degree (bs_pts c) (bs_knots c).
  Hypothesis Hc : plain_bspline c.
  Hypothesis Hhigh : (p <= 4)%nat \/ high = true.

  Lemma full_interval segs bounds j : bs_convert_to_Bezier c = Ok (segs, bounds) -> length bounds = S (length segs) -> (forall j, (j < length segs)%nat -> nth j bounds 0 < nth (j + 1) bounds 0) -> (j < length segs)%nat ->
    (forall x y, neighbours c x y <-> exists j, (j < length segs)%nat /\ x = nth j bounds 0 /\ y = nth (j + 1) bounds 0) ->
    let x := nth j bounds 0 in let y := nth (j + 1) bounds 0 in
    Rmax ((lower_of (bs_pts c) (bs_knots c) - x) / (y - x)) 0 < Rmin ((upper_of (bs_pts c) (bs_knots c) - x) / (y - x)) 1.
  Proof.
    intros E HL Hinc Hj Hn x y. assert (Hxy : neighbours c x y) by (apply Hn; exists j; auto). destruct Hxy as (_ & _ & H1 & H2 & _). specialize (Hinc j Hj). fold x y in Hinc.
    assert (Q : 0 < / (y - x)) by (apply Rinv_0_lt_compat; lra). unfold Rdiv. rewrite (Rmax_right _ 0) by nra. apply Rmin_glb_lt; [|lra]. apply Rmult_lt_0_compat; [lra|exact Q].
  Qed.

  Lemma uniform_inflections : (4 <= p <= 10)%nat -> length ks = (2 * p - 3)%nat -> (forall x y, neighbours c x y -> inflection_polynomial c x y ks) ->
    1 / 10 ^ 8 <= Rabs (nth (2 * p - 4) ks 0) -> (forall x y, In (x, y) vals <-> cpoly (2 * p - 4) ks (x, y) = Complex.RtoC 0) ->
    exists eigen l, eigenvalue_solver Ok eigen /\ (forall m e, eigen m <> Throw e) /\
      bs_compute_inflections eigen high c (lower_of (bs_pts c) (bs_knots c)) (upper_of (bs_pts c) (bs_knots c)) = Ok l.
  Proof.
    intros Hp Lk Hk Hlead Hv. destruct (uniform_solver ks (-1) (2 * p - 4) vals ltac:(lia) ltac:(lia) (or_intror eq_refl) Hlead Hv) as (eigen & H1 & H2 & H3). exists eigen.
    destruct (spline_pieces c Hc ltac:(fold p; lia)) as (segs & bounds & E & HL & Hinc & Hn & Hs).
    destruct (pieces_succeed (bz_compute_inflections eigen high) segs bounds (lower_of (bs_pts c) (bs_knots c)) (upper_of (bs_pts c) (bs_knots c)) HL Hinc) as (l & El).
    - intros j Hj _ _. destruct (Hs j Hj) as (pl & F1 & F2 & El & Ll & HD & Hex & Hg). fold p in Ll. pose proof (full_interval segs bounds j E HL Hinc Hj Hn) as Hlt. cbv zeta in *. exists (mk_bezier pl).
      set (x := nth j bounds 0) in *. set (y := nth (j + 1) bounds 0) in *. destruct (Hk x y) as (g & g1 & g2 & Hpc & Hpoly); [apply Hn; exists j; auto|].
      destruct (inflection_poly pl high ltac:(lia)) as (cs & f1 & f2 & Ec & G1 & G2 & Hq); [destruct Hhigh; [left; lia|auto]|]. pose proof (infl_length high pl cs ltac:(lia) Ec) as Lc.
      edestruct (H3 cs) as (ts & Et); [lia| |exact Hlt|].
      { intros t Ht. rewrite Hq, <- Hpoly by lra. unfold cross2.
        destruct (derivs2_unique _ _ _ _ _ HD (conj G1 G2) t 0%nat ltac:(lia)) as [<- <-]. destruct (derivs2_unique _ _ _ _ _ HD (conj G1 G2) t 1%nat ltac:(lia)) as [<- <-].
        destruct (Hg g g1 g2 Hpc t 0%nat ltac:(lra) ltac:(lia)) as [-> ->]. destruct (Hg g g1 g2 Hpc t 1%nat ltac:(lra) ltac:(lia)) as [-> ->]. ring. }
      exists (sorted_unique ts). split; [exact El|]. unfold bz_compute_inflections. cbn [bz_pts mk_bezier]. replace (zlen pl - 1 <=? 2)%Z with false by (symmetry; apply Z.leb_gt; unfold zlen; lia).
      rewrite Ec, Et. reflexivity.
    - exists l. split; [exact H1|]. split; [exact H2|]. unfold bs_compute_inflections. rewrite E, bind_Ok. exact El.
  Qed.
  Lemma uniform_singularities : (3 <= p <= 6)%nat -> length ks = (2 * p - 1)%nat -> (forall x y, neighbours c x y -> speed_polynomial c x y ks) ->
    1 / 10 ^ 8 <= Rabs (nth (2 * p - 2) ks 0) -> (forall x y, In (x, y) vals <-> cpoly (2 * p - 2) ks (x, y) = Complex.RtoC 0) ->
    exists eigen l, eigenvalue_solver Ok eigen /\ (forall m e, eigen m <> Throw e) /\
      bs_compute_singularities eigen high c (lower_of (bs_pts c) (bs_knots c)) (upper_of (bs_pts c) (bs_knots c)) = Ok l.
  Proof.
    intros Hp Lk Hk Hlead Hv. destruct (uniform_solver ks 1 (2 * p - 2) vals ltac:(lia) ltac:(lia) (or_introl eq_refl) Hlead Hv) as (eigen & H1 & H2 & H3). exists eigen.
    destruct (spline_pieces c Hc ltac:(fold p; lia)) as (segs & bounds & E & HL & Hinc & Hn & Hs).
    destruct (pieces_succeed (bz_compute_singularities eigen high) segs bounds (lower_of (bs_pts c) (bs_knots c)) (upper_of (bs_pts c) (bs_knots c)) HL Hinc) as (l & El).
    - intros j Hj _ _. destruct (Hs j Hj) as (pl & F1 & F2 & El & Ll & HD & Hex & Hg). fold p in Ll. pose proof (full_interval segs bounds j E HL Hinc Hj Hn) as Hlt. cbv zeta in *. exists (mk_bezier pl).
      set (x := nth j bounds 0) in *. set (y := nth (j + 1) bounds 0) in *. destruct (Hk x y) as (g & g1 & g2 & Hpc & Hpoly); [apply Hn; exists j; auto|].
      destruct (singularity_poly pl high ltac:(lia)) as (cs & f1 & f2 & Ec & G1 & G2 & Hq); [destruct Hhigh; [left; lia|auto]|]. pose proof (sing_length high pl cs ltac:(lia) Ec) as Lc.
      edestruct (H3 cs) as (ts & Et); [lia| |exact Hlt|].
      { intros t Ht. rewrite Hq, <- Hpoly by lra. unfold norm2. rewrite pow2_sqrt by (apply Rplus_le_le_0_compat; apply pow2_ge_0).
        destruct (derivs2_unique _ _ _ _ _ HD (conj G1 G2) t 0%nat ltac:(lia)) as [<- _]. destruct (derivs2_unique _ _ _ _ _ HD (conj G1 G2) t 1%nat ltac:(lia)) as [<- _].
        destruct (Hg g g1 g2 Hpc t 0%nat ltac:(lra) ltac:(lia)) as [-> _]. destruct (Hg g g1 g2 Hpc t 1%nat ltac:(lra) ltac:(lia)) as [-> _]. ring. }
      exists (sorted_unique ts). split; [exact El|]. unfold bz_compute_singularities. cbn [bz_pts mk_bezier]. rewrite Ec, Et. reflexivity.
    - exists l. split; [exact H1|]. split; [exact H2|]. unfold bs_compute_singularities. rewrite E, bind_Ok. exact El.
  Qed.
End Uniform.

(** * Values *)
Ltac spline_value c k t Hpl :=
  let Hv := fresh in let Ha := fresh in let Hp := fresh in let Hs := fresh in
  destruct Hpl as (Hv & Ha & Hp & Hs); rewrite bspline_eval; [|exact Hv|exact Ha|exact Hp| |left; left; exact Hs];
  [f_equal; rewrite <- (tri_bspline_curve c k t Hv);
    [unfold bspline_degree; apply vec_ext; let i := fresh "i" in let Hi := fresh in intros i Hi; cbn [repeat tri length c mk_bspline bs_pts bs_knots map Nat.sub]; unfold alU, knot_of, pts_at;
      repeat match goal with |- context [Z.to_nat ?z] => let n := eval vm_compute in (Z.to_nat z) in progress change (Z.to_nat z) with n end;
      cbn [nth c mk_bspline bs_knots bs_pts map]; do 4 (rewrite ?coord_add, ?coord_mul by exact Hi);
      destruct i as [|[|i]]; [| |lia]; cbn [coord fst snd P2 sadd smul R_ops]; field
    |cbn; lia
    |left; unfold knot_of; repeat match goal with |- context [Z.to_nat ?z] => let n := eval vm_compute in (Z.to_nat z) in progress change (Z.to_nat z) with n end;
      cbn [nth c mk_bspline bs_knots map]; lra]
  |change (lower_of (bs_pts c) (bs_knots c)) with 0; change (upper_of (bs_pts c) (bs_knots c)) with 2; lra].

(** A graph with second derivative -1, 1, -3 at 0, 1, 2. *)
Definition wave : bspline R (vec R 2) := mk_bspline [P2 0 0; P2 (1 / 3) 0; P2 1 (- (1 / 3)); P2 (5 / 3) 0; P2 2 (- (1 / 3))] (map IZR [0; 0; 0; 0; 1; 2; 2; 2; 2]%Z).
Definition wave_l (t : R) : vec R 2 := P2 t (t ^ 3 / 3 - t ^ 2 / 2).
Definition wave_r (t : R) : vec R 2 := P2 t (- (1 / 6) + (t - 1) ^ 2 / 2 - 2 / 3 * (t - 1) ^ 3).
Lemma wave_plain : plain_bspline wave.
Proof. split; [apply valid_of_Z; reflexivity|]. split; [apply apart_of_Z|]. split; [reflexivity|]. cbn. lra. Qed.
Lemma wave_left t : 0 <= t < 1 -> bs_evaluate wave t = Ok (wave_l t).
Proof. intros Ht. pose proof wave_plain as Hpl. unfold wave_l. spline_value wave 3%Z t Hpl. Qed.
Lemma wave_right t : 1 <= t < 2 -> bs_evaluate wave t = Ok (wave_r t).
Proof. intros Ht. pose proof wave_plain as Hpl. unfold wave_r. spline_value wave 4%Z t Hpl. Qed.

(** The two neighbouring pairs of the knots 0, 1, 2. *)
Lemma neighbours_02 (c : bspline R (vec R 2)) : (forall u, In u (bs_knots c) <-> u = 0 \/ u = 1 \/ u = 2) -> lower_of (bs_pts c) (bs_knots c) = 0 -> upper_of (bs_pts c) (bs_knots c) = 2 ->
  forall x y, neighbours c x y <-> (x = 0 /\ y = 1) \/ (x = 1 /\ y = 2).
Proof.
  intros Hk Hl Hu x y. unfold neighbours. rewrite Hl, Hu, (Hk x), (Hk y). split.
  - intros (Hx & Hy & H1 & H2 & H3). assert (~ x < 1 < y) by (apply H3; apply Hk; auto). lra.
  - intros H. split; [lra|]. split; [lra|]. split; [lra|]. split; [lra|]. intros u Hu'. apply Hk in Hu'. lra.
Qed.
Ltac derive := first [apply derivable_pt_lim_id | apply derivable_pt_lim_const | apply is_derive_Reals; auto_derive; [exact I|field]].
Ltac derivs := split; intros t i Hi; (destruct i as [|[|i]]; [| |lia]); cbn [coord fst snd P2]; derive.

Lemma wave_knots u : In u (bs_knots wave) <-> u = 0 \/ u = 1 \/ u = 2.
Proof. cbn. intuition auto. Qed.
Lemma wave_neighbours x y : neighbours wave x y <-> (x = 0 /\ y = 1) \/ (x = 1 /\ y = 2).
Proof. apply neighbours_02; [exact wave_knots|reflexivity|reflexivity]. Qed.
Lemma wave_piece_l : piece wave 0 1 wave_l (fun t => P2 1 (t ^ 2 - t)) (fun t => P2 0 (2 * t - 1)).
Proof. unfold wave_l. split; [derivs|exact wave_left]. Qed.
Lemma wave_piece_r : piece wave 1 2 wave_r (fun t => P2 1 ((t - 1) - 2 * (t - 1) ^ 2)) (fun t => P2 0 (1 - 4 * (t - 1))).
Proof. unfold wave_r. split; [derivs|exact wave_right]. Qed.
Lemma wave_case : plain_bspline wave /\ bspline_degree (bs_pts wave) (bs_knots wave) = 3%nat /\
  (forall x y, neighbours wave x y -> exists k0 k1 k2, inflection_polynomial wave x y [k0; k1; k2] /\ clear_quadratic (1 / 10 ^ 8) k2 k1 k0) /\
  neighbours wave 0 1 /\ neighbours wave 1 2 /\ inflects wave 0 1 (1 / 2) /\ inflects wave 1 2 (5 / 4).
Proof.
  split; [exact wave_plain|]. split; [reflexivity|]. split; [|split; [apply wave_neighbours; auto|split; [apply wave_neighbours; auto|split]]].
  - intros x y H. apply wave_neighbours in H. destruct H as [[-> ->]|[-> ->]].
    + exists (-1), 2, 0. split; [|right; left; split; [reflexivity|rewrite Rabs_right; lra]]. eexists _, _, _. split; [exact wave_piece_l|]. intros u _. unfold cross2, rsum. cbn. ring.
    + exists 1, (-4), 0. split; [|right; left; split; [reflexivity|rewrite Rabs_left; lra]]. eexists _, _, _. split; [exact wave_piece_r|]. intros u _. unfold cross2, rsum. cbn. ring.
  - eexists _, _, _. split; [exact wave_piece_l|]. unfold cross2. cbn. field.
  - eexists _, _, _. split; [exact wave_piece_r|]. unfold cross2. cbn. field.
Qed.

(** Back and forth along a segment: speed zero at 0, 1 and 2. *)
Definition pause : bspline R (vec R 2) := mk_bspline [P2 0 0; P2 0 0; P2 (-1) (- (4 / 3)); P2 0 0; P2 0 0] (map IZR [0; 0; 0; 0; 1; 2; 2; 2; 2]%Z).
Definition pause_l (t : R) : vec R 2 := P2 (t ^ 3 - 3 / 2 * t ^ 2) (4 / 3 * t ^ 3 - 2 * t ^ 2).
Definition pause_r (t : R) : vec R 2 := P2 (- (1 / 2) + 3 / 2 * (t - 1) ^ 2 - (t - 1) ^ 3) (- (2 / 3) + 2 * (t - 1) ^ 2 - 4 / 3 * (t - 1) ^ 3).
Lemma pause_plain : plain_bspline pause.
Proof. split; [apply valid_of_Z; reflexivity|]. split; [apply apart_of_Z|]. split; [reflexivity|]. cbn. lra. Qed.
Lemma pause_neighbours x y : neighbours pause x y <-> (x = 0 /\ y = 1) \/ (x = 1 /\ y = 2).
Proof. apply neighbours_02; [exact wave_knots|reflexivity|reflexivity]. Qed.
Lemma pause_piece_l : piece pause 0 1 pause_l (fun t => P2 (3 * t ^ 2 - 3 * t) (4 * t ^ 2 - 4 * t)) (fun t => P2 (6 * t - 3) (8 * t - 4)).
Proof. unfold pause_l. split; [derivs|]. intros t Ht. pose proof pause_plain as Hpl. spline_value pause 3%Z t Hpl. Qed.
Lemma pause_piece_r : piece pause 1 2 pause_r (fun t => P2 (3 * (t - 1) - 3 * (t - 1) ^ 2) (4 * (t - 1) - 4 * (t - 1) ^ 2)) (fun t => P2 (3 - 6 * (t - 1)) (4 - 8 * (t - 1))).
Proof. unfold pause_r. split; [derivs|]. intros t Ht. pose proof pause_plain as Hpl. spline_value pause 4%Z t Hpl. Qed.
Lemma pause_speed x y : neighbours pause x y -> speed_polynomial pause x y [0; 0; 25; -50; 25].
Proof.
  intros H. apply pause_neighbours in H. destruct H as [[-> ->]|[-> ->]]; (eexists _, _, _; split; [first [exact pause_piece_l|exact pause_piece_r]|]); intros u _;
    unfold norm2; rewrite pow2_sqrt by (apply Rplus_le_le_0_compat; apply pow2_ge_0); unfold rsum; cbn; ring.
Qed.
Lemma pause_case : plain_bspline pause /\ bspline_degree (bs_pts pause) (bs_knots pause) = 3%nat /\
  (forall x y, neighbours pause x y -> speed_polynomial pause x y [0; 0; 25; -50; 25]) /\ 1 / 10 ^ 8 <= Rabs (nth 4 [0; 0; 25; -50; 25] 0) /\
  (exists eigen l, eigenvalue_solver Ok eigen /\ (forall m e, eigen m <> Throw e) /\ bs_compute_singularities eigen false pause 0 2 = Ok l) /\
  neighbours pause 0 1 /\ stops pause 0 1 1.
Proof.
  assert (Hl : 1 / 10 ^ 8 <= Rabs (nth 4 [0; 0; 25; -50; 25] 0)) by (cbn [nth]; rewrite Rabs_right; lra).
  split; [exact pause_plain|]. split; [reflexivity|]. split; [exact pause_speed|]. split; [exact Hl|]. split; [|split; [apply pause_neighbours; auto|]].
  - apply (uniform_singularities false pause [0; 0; 25; -50; 25] [(0, 0); (0, 0); (1, 0); (1, 0)] pause_plain); [left; cbn; lia|cbn; lia|reflexivity|exact pause_speed|exact Hl|].
    apply (roots_of 4 [0; 0; 25; -50; 25] 25); [lra|expand_roots].
  - eexists _, _, _. split; [exact pause_piece_l|]. apply coord2_ext. intros i Hi. destruct i as [|[|i]]; [| |lia]; cbn; ring.
Qed.

(** Two copies of (t^3, t^4 + t^2/2), joined at the knot 1. *)
Definition stairs : bspline R (vec R 2) := mk_bspline [P2 0 0; P2 0 0; P2 0 (1 / 12); P2 (1 / 4) (1 / 4); P2 1 (3 / 2); P2 1 (3 / 2); P2 1 (19 / 12); P2 (5 / 4) (7 / 4); P2 2 3]
  (map IZR [0; 0; 0; 0; 0; 1; 1; 1; 1; 2; 2; 2; 2; 2]%Z).
Definition stairs_l (t : R) : vec R 2 := P2 (t ^ 3) (t ^ 4 + t ^ 2 / 2).
Definition stairs_r (t : R) : vec R 2 := P2 (1 + (t - 1) ^ 3) (3 / 2 + (t - 1) ^ 4 + (t - 1) ^ 2 / 2).
Lemma stairs_plain : plain_bspline stairs.
Proof. split; [apply valid_of_Z; reflexivity|]. split; [apply apart_of_Z|]. split; [reflexivity|]. cbn. lra. Qed.
Lemma stairs_neighbours x y : neighbours stairs x y <-> (x = 0 /\ y = 1) \/ (x = 1 /\ y = 2).
Proof. apply neighbours_02; [|reflexivity|reflexivity]. intros u. cbn. intuition auto. Qed.
Lemma stairs_piece_l : piece stairs 0 1 stairs_l (fun t => P2 (3 * t ^ 2) (4 * t ^ 3 + t)) (fun t => P2 (6 * t) (12 * t ^ 2 + 1)).
Proof. unfold stairs_l. split; [derivs|]. intros t Ht. pose proof stairs_plain as Hpl. spline_value stairs 4%Z t Hpl. Qed.
Lemma stairs_piece_r : piece stairs 1 2 stairs_r (fun t => P2 (3 * (t - 1) ^ 2) (4 * (t - 1) ^ 3 + (t - 1))) (fun t => P2 (6 * (t - 1)) (12 * (t - 1) ^ 2 + 1)).
Proof. unfold stairs_r. split; [derivs|]. intros t Ht. pose proof stairs_plain as Hpl. spline_value stairs 8%Z t Hpl. Qed.
Lemma stairs_poly x y : neighbours stairs x y -> inflection_polynomial stairs x y [0; 0; -3; 0; 12].
Proof.
  intros H. apply stairs_neighbours in H. destruct H as [[-> ->]|[-> ->]]; (eexists _, _, _; split; [first [exact stairs_piece_l|exact stairs_piece_r]|]); intros u _;
    unfold cross2, rsum; cbn; ring.
Qed.
Lemma stairs_case : plain_bspline stairs /\ bspline_degree (bs_pts stairs) (bs_knots stairs) = 4%nat /\
  (forall x y, neighbours stairs x y -> inflection_polynomial stairs x y [0; 0; -3; 0; 12]) /\ 1 / 10 ^ 8 <= Rabs (nth 4 [0; 0; -3; 0; 12] 0) /\
  (exists eigen l, eigenvalue_solver Ok eigen /\ (forall m e, eigen m <> Throw e) /\ bs_compute_inflections eigen false stairs 0 2 = Ok l) /\
  neighbours stairs 1 2 /\ inflects stairs 1 2 (3 / 2).
Proof.
  assert (Hl : 1 / 10 ^ 8 <= Rabs (nth 4 [0; 0; -3; 0; 12] 0)) by (cbn [nth]; rewrite Rabs_right; lra).
  split; [exact stairs_plain|]. split; [reflexivity|]. split; [exact stairs_poly|]. split; [exact Hl|]. split; [|split; [apply stairs_neighbours; auto|]].
  - apply (uniform_inflections false stairs [0; 0; -3; 0; 12] [(0, 0); (0, 0); (1 / 2, 0); (- (1 / 2), 0)] stairs_plain); [left; cbn; lia|cbn; lia|reflexivity|exact stairs_poly|exact Hl|].
    apply (roots_of 4 [0; 0; -3; 0; 12] 12); [lra|expand_roots].
  - eexists _, _, _. split; [exact stairs_piece_r|]. unfold cross2. cbn. field.
Qed.
(** The second half of [pause] cannot be analysed. *)
Lemma pause_knot eigen high l : bs_compute_singularities eigen high pause 1 2 <> Ok l.
Proof.
  destruct (spline_knot eigen high pause 1 2 1 l pause_plain) as [_ H]; [apply wave_knots; auto| |left; lra|left; cbn; lia|apply H; cbn; lia].
  change (lower_of _ _) with 0. change (upper_of _ _) with 2. lra.
Qed.
Lemma pause_refutes : exists (c : bspline R (vec R 2)) (a b : R), plain_bspline c /\ bspline_degree (bs_pts c) (bs_knots c) = 3%nat /\
  lower_of (bs_pts c) (bs_knots c) <= a < b /\ b <= upper_of (bs_pts c) (bs_knots c) /\ stops c a b b /\ neighbours c a b /\
  forall eigen high l, bs_compute_singularities eigen high c a b <> Ok l.
Proof.
  exists pause, 1, 2. split; [exact pause_plain|]. split; [reflexivity|]. change (lower_of _ _) with 0. change (upper_of _ _) with 2. split; [lra|]. split; [lra|]. split; [|split; [apply pause_neighbours; auto|exact pause_knot]].
  eexists _, _, _. split; [exact pause_piece_r|]. apply coord2_ext. intros i Hi. destruct i as [|[|i]]; [| |lia]; cbn; ring.
Qed.
