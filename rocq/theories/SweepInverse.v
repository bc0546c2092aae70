(** Extrusion, revolution and offset patches: inverse evaluation, finite differences, flags. *)
From Coq Require Import Reals Lra Lia ZArith Psatz QArith.
From Coquelicot Require Import Coquelicot.
From Verif Require Import Monad MonadFacts Scalar ScalarFacts Spec SpecFacts SpecGeom SpecPatch SpecPrimitive ModelCurve ModelPatchBase ModelLine ModelPrimitive ModelSweep
  CurveThms LineThms IntersectThms TrigFacts PrimitiveFacts CircleThms QuadricThms PrimitiveRefute SweepThms.
Local Open Scope R_scope.
Ltac vext ::= apply vec_ext; intros ? Hidx; repeat first [rewrite coord_add by exact Hidx | rewrite coord_sub by exact Hidx | rewrite coord_mul by exact Hidx | rewrite coord_0 by exact Hidx].

(** Newton's iteration stops at once at a solution. *)
Lemma newton_exact {d} (s : patch_ops R (vec R d)) p u v tol a b e f : 0 < tol -> s_eval s u v = Ok p -> patch_newton_raphson s p (u, v) 20 tol a b e f = Ok ((u, v), true).
Proof.
  intros Ht E. unfold patch_newton_raphson, forb_up. change (Z.to_nat (20 - 0)) with (S 19). cbn [forb_nat fst snd]. unfold patch_newton_step. rewrite E. cbn [bind].
  rewrite pnorm_edist, edist_refl. cbn [slt R_ops]. rewrite Rltb_true by exact Ht. reflexivity.
Qed.
Lemma tol100_pos : 0 < (seps * sofZ 100)%S.
Proof. rewrite seps_R. cbn [smul sofZ R_ops]. apply Rmult_lt_0_compat; [|lra]. apply Rinv_0_lt_compat. apply IZR_lt. reflexivity. Qed.

(** ** Extrusion *)
(** The profile's inverse evaluation returns the parameter of a nearest point of the range. *)
Definition inverse_nearest {d} (pr : profile R (vec R d)) (g : R -> vec R d) (lo hi : R) : Prop :=
  forall p, exists t, pr_inverse pr p lo hi = Ok t /\ lo <= t <= hi /\ forall x, lo <= x <= hi -> edist p (g t) <= edist p (g x).

Section Extrusion.
  Context {d : nat} (c : extrusion R (vec R d)) (pr : profile R (vec R d)) (g g1 g2 : R -> vec R d).
  Context (Hp : ex_profile c = Some pr) (Hg : profile_is pr g g1 g2).
  Notation n := (ex_direction c).
  Notation o := (ex_location c).
  Context (Hn : inner n n = 1).
  Context (lo hi k us vs : R) (Hnear : inverse_nearest pr g lo hi) (Hu : lo <= us <= hi).
  Context (Hflat : forall x, lo <= x <= hi -> inner (g x) n = k).
  Let p := padd (padd o (g us)) (pmul vs n).

  Lemma ex_step_flat prev : exists u, ex_step c pr p lo hi prev = Ok (u, vs + inner o n) /\ lo <= u <= hi /\ g u = g us.
  Proof.
    unfold ex_step. set (q := psub (psub p o) (pmul prev n)). destruct (Hnear q) as (u & E & Ru & N).
    exists u. rewrite E. cbn [bind]. destruct (Hg u) as (-> & _). cbn [bind].
    assert (Eg : g u = g us).
    { specialize (N us Hu). pose proof (edist_pos d q (g u)). pose proof (edist_pos d q (g us)).
      assert (N2 : edist q (g u) ^ 2 <= edist q (g us) ^ 2) by nra. clear N. rewrite !edist_inner in N2.
      assert (Eq : q = padd (g us) (pmul (vs - prev) n)) by (unfold q, p; vext; ring). rewrite Eq in N2. pose proof (Hflat u Ru) as F1. pose proof (Hflat us Hu) as F2.
      assert (E1 : inner (psub (padd (g us) (pmul (vs - prev) n)) (g us)) (psub (padd (g us) (pmul (vs - prev) n)) (g us)) = (vs - prev) ^ 2).
      { bilin. rewrite Hn. rewrite (inner_comm _ n (g us)). ring. }
      assert (E2 : inner (psub (padd (g us) (pmul (vs - prev) n)) (g u)) (psub (padd (g us) (pmul (vs - prev) n)) (g u)) = edist (g us) (g u) ^ 2 + (vs - prev) ^ 2).
      { rewrite edist_inner. bilin. rewrite Hn, (inner_comm _ n (g us)), (inner_comm _ n (g u)), F1, F2. ring. }
      rewrite E1, E2 in N2. symmetry. apply edist_eq0. pose proof (edist_pos d (g us) (g u)). nra. }
    split; [|split; assumption]. do 2 f_equal. rewrite pdot_inner, Eg. unfold p. bilin. rewrite Hn. ring.
  Qed.
  Lemma ex_loop_flat m prev : exists u, ex_loop (S m) c pr p lo hi prev = Ok (u, vs + inner o n) /\ lo <= u <= hi /\ g u = g us.
  Proof.
    cbn [ex_loop]. destruct (ex_step_flat prev) as (u & E & Ru & Eu). rewrite E. cbn [bind]. destruct (_ <? _)%S; [|now exists u].
    destruct (ex_step_flat (vs + inner o n)) as (w & E' & Rw & Ew). exists w. split; [|split; assumption].
    destruct m; cbn [ex_loop]; rewrite E'; cbn [bind]; [reflexivity|].
    rewrite sabs_R. cbn [ssub slt R_ops]. replace (vs + inner o n - (vs + inner o n)) with 0 by ring. rewrite Rabs_R0, Rltb_false; [reflexivity|]. cbn [sofQ R_ops]. unfold Q2R. cbn. lra.
  Qed.
  (** What the code computes: the height is off by the component of the location along the direction. *)
  Lemma extrusion_inverse min_v max_v : min_v <= max_v -> exists u, ex_inverse_evaluate c p lo hi min_v max_v = Ok ((u, Rmin max_v (Rmax min_v (vs + inner o n))), true) /\
    lo <= u <= hi /\ g u = g us.
  Proof.
    intros Hv. destruct (ex_loop_flat 18 min_v) as (u & E & Ru & Eu). exists u. split; [|split; assumption].
    unfold ex_inverse_evaluate. rewrite Hp. cbn [not_null bind]. rewrite E. cbn [bind]. rewrite smin_R, smax_R. cbn [sle R_ops].
    set (v := Rmin _ _). assert (min_v <= v <= max_v) by (unfold v, Rmin, Rmax; destruct (Rle_dec min_v _); destruct (Rle_dec max_v _); lra).
    rewrite !Rleb_true by lra. reflexivity.
  Qed.
  Lemma extrusion_round_trip min_v max_v : inner o n = 0 -> min_v <= vs <= max_v -> exists u, ex_inverse_evaluate c p lo hi min_v max_v = Ok ((u, vs), true) /\
    lo <= u <= hi /\ ex_evaluate c u vs = Ok p.
  Proof.
    intros H0 Hv. destruct (extrusion_inverse min_v max_v ltac:(lra)) as (u & E & Ru & Eu). exists u. rewrite E, H0. split; [|split; [exact Ru|]].
    - do 3 f_equal. unfold Rmin, Rmax. destruct (Rle_dec min_v _); destruct (Rle_dec max_v _); lra.
    - unfold ex_evaluate. rewrite Hp. cbn [not_null bind]. destruct (Hg u) as (-> & _). cbn [bind]. now rewrite Eu.
  Qed.
End Extrusion.

(** A line as a profile. *)
Definition line_profile {d} (l : line R (vec R d)) : profile R (vec R d) :=
  {| pr_ops := ln_ops l; pr_inverse := fun p lo hi => ln_approximate_inverse_evaluate l p lo hi 3; pr_periodic := false |}.
Lemma line_profile_is {d} (l : line R (vec R d)) : profile_is (line_profile l) (fun t => padd (ln_location l) (pmul t (ln_direction l))) (fun _ => ln_direction l) (fun _ => p0).
Proof. intros t. repeat split. Qed.
Lemma line_profile_nearest {d} (l : line R (vec R d)) lo hi : ln_direction l <> p0 -> lo <= hi ->
  inverse_nearest (line_profile l) (fun t => padd (ln_location l) (pmul t (ln_direction l))) lo hi.
Proof.
  intros Hd Hl p. destruct (line_nearest d l p lo hi 3 Hd Hl) as (t & E & Rt & N). exists t. split; [exact E|]. split; [exact Rt|]. intros x Hx. exact (N x _ _ Hx eq_refl eq_refl).
Qed.

(** Moving the surface along its direction breaks inverse evaluation. *)
Lemma extrusion_location_refuted : exists (c : extrusion R (vec R 3)) u v q, ex_initialize c = Ok c /\ inner (ex_direction c) (ex_direction c) = 1 /\
  b_ulo (ex_bounds c) <= u <= b_uhi (ex_bounds c) /\ b_vlo (ex_bounds c) <= v <= b_vhi (ex_bounds c) /\ ex_evaluate c u v = Ok q /\
  exists u' v' q', ex_inverse_evaluate c q (b_ulo (ex_bounds c)) (b_uhi (ex_bounds c)) (b_vlo (ex_bounds c)) (b_vhi (ex_bounds c)) = Ok ((u', v'), true) /\
    ex_evaluate c u' v' = Ok q' /\ edist q q' = 1.
Proof.
  set (l := {| ln_location := pt3 0 0 0; ln_direction := pt3 1 0 0; ln_lower := 0; ln_upper := 1 |}).
  set (c := {| ex_location := pt3 0 0 1; ex_direction := pt3 0 0 1; ex_profile := Some (line_profile l); ex_bounds := {| b_ulo := 0; b_uhi := 1; b_vlo := 0; b_vhi := 1 |};
    ex_periodic_u := false; ex_periodic_v := false |} : extrusion R (vec R 3)).
  exists c, 0, 0, (pt3 0 0 1).
  assert (Eev : forall u v, ex_evaluate c u v = Ok (pt3 u 0 (1 + v))).
  { intros u v. unfold ex_evaluate, c. cbn [ex_profile not_null bind line_profile pr_ops ln_ops c_eval ln_evaluate ex_location ex_direction]. f_equal. v3eq; ring. }
  split; [|split; [|split; [|split; [|split]]]].
  - unfold ex_initialize, c. cbn [ex_profile not_null bind ex_direction ex_bounds b_ulo b_uhi b_vlo b_vhi sle R_ops]. rewrite !Rleb_true by lra. unfold sqnorm. rewrite pdot_inner, inner3. 
    cbn [ssub s1 slt R_ops]. replace (0 * 0 + 0 * 0 + 1 * 1 - 1) with 0 by ring. rewrite sabs_R, Rabs_R0, Rltb_true by apply prim_tol_pos. reflexivity.
  - cbn [c ex_direction]. rewrite inner3. ring.
  - cbn. lra.
  - cbn. lra.
  - rewrite Eev. do 2 f_equal. do 2 f_equal. ring.
  - assert (Hd : ln_direction l <> p0) by (intros E; apply (f_equal fst) in E; cbn in E; lra).
    assert (Hn1 : inner (ex_direction c) (ex_direction c) = 1) by (cbn [c ex_direction]; rewrite inner3; ring).
    assert (Hfl : forall x, 0 <= x <= 1 -> inner (padd (ln_location l) (pmul x (ln_direction l))) (ex_direction c) = 0).
    { intros x _. cbn [c ex_direction l ln_location ln_direction]. unfold inner, rsum. cbn. ring. }
    destruct (extrusion_inverse c (line_profile l) _ _ _ eq_refl (line_profile_is l) Hn1 0 1 0 0 0 (line_profile_nearest l 0 1 Hd ltac:(lra)) ltac:(lra) Hfl 0 1 ltac:(lra)) as (u & E & Ru & Eu).
    exists u, 1, (pt3 u 0 (1 + 1)). split; [|split; [apply Eev|]].
    + assert (Eq : padd (padd (ex_location c) (padd (ln_location l) (pmul 0 (ln_direction l)))) (pmul 0 (ex_direction c)) = pt3 0 0 1) by (v3eq; ring).
      rewrite Eq in E. change (b_ulo (ex_bounds c)) with 0. change (b_uhi (ex_bounds c)) with 1. change (b_vlo (ex_bounds c)) with 0. change (b_vhi (ex_bounds c)) with 1. rewrite E. do 3 f_equal.
      replace (inner (ex_location c) (ex_direction c)) with 1 by (cbn [c ex_direction ex_location]; rewrite inner3; ring).
      unfold Rmin, Rmax. destruct (Rle_dec 0 _); destruct (Rle_dec 1 _); lra.
    + assert (u = 0) as -> by (apply (f_equal fst) in Eu; cbn in Eu; lra).
      unfold edist, rsum. cbn. replace (0 + (0 - 0) * ((0 - 0) * 1) + (0 - 0) * ((0 - 0) * 1) + (1 - (1 + 1)) * ((1 - (1 + 1)) * 1)) with 1 by ring. apply sqrt_1.
Qed.

(** A profile that leans towards the direction: twenty iterations are not enough, and success is reported. *)
Section Skew.
  Let l : line R (vec R 3) := {| ln_location := pt3 0 0 0; ln_direction := pt3 7 0 24; ln_lower := - 1; ln_upper := 1 |}.
  Let c : extrusion R (vec R 3) := {| ex_location := pt3 0 0 0; ex_direction := pt3 0 0 1; ex_profile := Some (line_profile l);
    ex_bounds := {| b_ulo := - 1; b_uhi := 1; b_vlo := - 1; b_vhi := 1 |}; ex_periodic_u := false; ex_periodic_v := false |}.
  Lemma skew_step prev : - 1 <= prev <= 1 -> ex_step c (line_profile l) (pt3 0 0 0) (- 1) 1 prev = Ok (- (24 / 625) * prev, 576 / 625 * prev).
  Proof.
    intros Hp. unfold ex_step. cbn [line_profile pr_inverse]. unfold ln_approximate_inverse_evaluate, ddiv. unfold sqnorm. rewrite !pdot_inner. 
    replace (inner (psub (psub (psub (pt3 0 0 0) (ex_location c)) (pmul prev (ex_direction c))) (ln_location l)) (ln_direction l)) with (- 24 * prev)
      by (unfold c, l, inner, rsum; cbn; ring).
    replace (inner (ln_direction l) (ln_direction l)) with 625 by (unfold l; cbn [ln_direction]; rewrite inner3; ring).
    cbn [seq_ s0 sdiv slt R_ops]. rewrite Reqb_false by lra. cbn [bind]. replace (- 24 * prev / 625) with (- (24 / 625) * prev) by field.
    rewrite !Rltb_false by lra. cbn [bind line_profile pr_ops ln_ops c_eval ln_evaluate]. do 2 f_equal. unfold c, l. cbn. field.
  Qed.
  Lemma skew_loop n prev : - 1 <= prev < 0 -> / 1000000 < 49 / 625 * - prev * (576 / 625) ^ n ->
    ex_loop n c (line_profile l) (pt3 0 0 0) (- 1) 1 prev = Ok (- (24 / 625) * (prev * (576 / 625) ^ n), 576 / 625 * (prev * (576 / 625) ^ n)).
  Proof.
    revert prev. induction n as [|n IH]; intros prev Hp Ht; cbn [ex_loop]; rewrite skew_step by lra; cbn [bind].
    - do 2 f_equal; cbn; ring.
    - rewrite sabs_R. cbn [ssub slt sofQ R_ops]. replace (576 / 625 * prev - prev) with (49 / 625 * prev * - 1) by field.
      assert (Hpow : 0 < (576 / 625) ^ n <= 1). { split; [apply pow_lt; lra|]. replace 1 with (1 ^ n) by apply pow1. apply pow_incr. lra. }
      rewrite Rltb_true.
      + rewrite IH; [do 2 f_equal; cbn [pow]; ring|lra|]. replace (49 / 625 * - (576 / 625 * prev) * (576 / 625) ^ n) with (49 / 625 * - prev * (576 / 625) ^ S n) by (cbn [pow]; field). exact Ht.
      + rewrite Rabs_pos_eq by lra. unfold Q2R. cbn [Qnum Qden]. apply Rlt_le_trans with (49 / 625 * - prev * (576 / 625) ^ S n); [cbn [pow] in *; lra|].
        cbn [pow]. assert (0 <= 49 / 625 * - prev) by lra. assert (576 / 625 * (576 / 625) ^ n <= 1) by lra. nra.
  Qed.
End Skew.
Lemma extrusion_skew_refuted : exists (c : extrusion R (vec R 3)) u v q, ex_initialize c = Ok c /\ inner (ex_direction c) (ex_direction c) = 1 /\ ex_location c = p0 /\
  b_ulo (ex_bounds c) <= u <= b_uhi (ex_bounds c) /\ b_vlo (ex_bounds c) <= v <= b_vhi (ex_bounds c) /\ ex_evaluate c u v = Ok q /\
  exists u' v' q', ex_inverse_evaluate c q (b_ulo (ex_bounds c)) (b_uhi (ex_bounds c)) (b_vlo (ex_bounds c)) (b_vhi (ex_bounds c)) = Ok ((u', v'), true) /\
    ex_evaluate c u' v' = Ok q' /\ 1 / 20 < edist q q'.
Proof.
  set (l := {| ln_location := pt3 0 0 0; ln_direction := pt3 7 0 24; ln_lower := - 1; ln_upper := 1 |}).
  set (c := {| ex_location := pt3 0 0 0; ex_direction := pt3 0 0 1; ex_profile := Some (line_profile l); ex_bounds := {| b_ulo := - 1; b_uhi := 1; b_vlo := - 1; b_vhi := 1 |};
    ex_periodic_u := false; ex_periodic_v := false |} : extrusion R (vec R 3)).
  exists c, 0, 0, (pt3 0 0 0).
  assert (Eev : forall u v, ex_evaluate c u v = Ok (pt3 (7 * u) 0 (24 * u + v))).
  { intros u v. unfold ex_evaluate, c. cbn [ex_profile not_null bind line_profile pr_ops ln_ops c_eval ln_evaluate ex_location ex_direction]. f_equal. v3eq; ring. }
  assert (Hk : 211 / 1000 < (576 / 625) ^ 19 < 213 / 1000) by (cbn [pow]; lra). set (w := (576 / 625) ^ 19) in *.
  split; [|split; [|split; [|split; [|split; [|split]]]]].
  - unfold ex_initialize, c. cbn [ex_profile not_null bind ex_direction ex_bounds b_ulo b_uhi b_vlo b_vhi sle R_ops]. rewrite !Rleb_true by lra. unfold sqnorm. rewrite pdot_inner, inner3.
    cbn [ssub s1 slt R_ops]. replace (0 * 0 + 0 * 0 + 1 * 1 - 1) with 0 by ring. rewrite sabs_R, Rabs_R0, Rltb_true by apply prim_tol_pos. reflexivity.
  - cbn [c ex_direction]. rewrite inner3. ring.
  - reflexivity.
  - cbn. lra.
  - cbn. lra.
  - rewrite Eev. do 2 f_equal; [ring|]. do 2 f_equal. ring.
  - exists (- (24 / 625) * (- 1 * w)), (576 / 625 * (- 1 * w)). eexists. split; [|split; [apply Eev|]].
    + unfold ex_inverse_evaluate. change (ex_profile c) with (Some (line_profile l)). cbn [not_null bind].
      change (b_ulo (ex_bounds c)) with (- 1). change (b_uhi (ex_bounds c)) with 1. change (b_vlo (ex_bounds c)) with (- 1). change (b_vhi (ex_bounds c)) with 1.
      assert (Hs : ex_loop 19 c (line_profile l) (pt3 0 0 0) (- 1) 1 (- 1) = Ok (- (24 / 625) * (- 1 * w), 576 / 625 * (- 1 * w))) by (apply (skew_loop 19 (- 1)); fold w; lra).
      rewrite Hs. cbn [bind]. rewrite smin_R, smax_R. rewrite Rmax_right, Rmin_right by lra. cbn [sle R_ops]. rewrite !Rleb_true by lra. reflexivity.
    + replace (1 / 20) with (sqrt (1 / 20 * (1 / 20))) by (apply sqrt_square; lra). apply sqrt_lt_1_alt. split; [lra|]. unfold rsum. cbn. nra.
Qed.

(** ** Revolution of a profile in a half plane through the axis *)
Section RevolutionInverse.
  Context (c : revolution R) (pr : profile R (vec R 3)) (g g1 g2 : R -> vec R 3).
  Context (Hp : re_profile c = Some pr) (Hg : profile_is pr g g1 g2).
  Notation a := (re_axis c).
  Notation o := (re_location c).
  Context (e : vec R 3) (r z : R -> R) (min_v max_v : R).
  Context (Hf : orthonormal2 a e) (Hgv : forall v, g v = padd o (padd (pmul (r v) e) (pmul (z v) a))) (Hr : forall v, min_v <= v <= max_v -> 0 < r v).
  Definition half (q : vec R 3) : Prop := exists x y, 0 < x /\ q = padd o (padd (pmul x e) (pmul y a)).

  Lemma cross_lin (x y w : R) : cross3 a (padd (pmul x e) (padd (pmul w (cross3 a e)) (pmul y a))) = padd (pmul x (cross3 a e)) (pmul (- w) e).
  Proof.
    destruct Hf as (Ha & He & Hae). transitivity (padd (pmul x (cross3 a e)) (pmul w (cross3 a (cross3 a e)))).
    - generalize a. intros b. v3 b. v3 e. v3eq; ring.
    - rewrite (cross_twice a e Ha), pdot_inner, inner_comm, Hae. vext. ring.
  Qed.
  Lemma rotate_gen u (x w y : R) : rotate3 u a (padd (pmul x e) (padd (pmul w (cross3 a e)) (pmul y a))) =
    padd (pmul (x * cos u - w * sin u) e) (padd (pmul (x * sin u + w * cos u) (cross3 a e)) (pmul y a)).
  Proof.
    destruct Hf as (Ha & He & Hae). unfold rotate3. rewrite cross_lin.
    assert (Ed : pdot a (padd (pmul x e) (padd (pmul w (cross3 a e)) (pmul y a))) = y).
    { rewrite pdot_inner. bilin. rewrite Hae, Ha, <- pdot_inner. replace (pdot a (cross3 a e)) with 0 by (generalize a; intros b; v3 b; v3 e; cbn; ring). ring. }
    rewrite Ed. cbn [scos ssin s1 ssub smul R_ops R_trig]. vext. ring.
  Qed.
  Lemma rotate_at u (x y : R) : rotate3 u a (padd (pmul x e) (pmul y a)) = padd (pmul (x * cos u) e) (padd (pmul (x * sin u) (cross3 a e)) (pmul y a)).
  Proof.
    replace (padd (pmul x e) (pmul y a)) with (padd (pmul x e) (padd (pmul 0 (cross3 a e)) (pmul y a))) by (vext; ring). rewrite rotate_gen. vext. ring.
  Qed.
  Lemma re_eval0 v : re_evaluate c 0 v = Ok (g v).
  Proof.
    rewrite (re_eval c pr g g1 g2 Hp Hg). f_equal. rewrite Hgv. replace (psub (padd o (padd (pmul (r v) e) (pmul (z v) a))) o) with (padd (pmul (r v) e) (pmul (z v) a)) by (vext; ring).
    rewrite rotate_at, cos_0, sin_0. vext. ring.
  Qed.
  Lemma pivot_half : min_v <= max_v -> exists q, re_pivot c min_v max_v = Ok q /\ half q.
  Proof.
    intros Hv. unfold re_pivot.
    destruct (for_up_inv (fun (i : Z) (q : vec R 3) => exists x y : R, (0 <= x) /\ ((0 < i)%Z -> 0 < x) /\ q = padd (pmul (IZR i) o) (padd (pmul x e) (pmul y a))) 0 10
      (fun i q => (do t <- ddiv (sofZ i) (sofZ 9 : R); do e <- re_evaluate c s0 (min_v * (s1 - t) + max_v * t)%S; Ok (padd q e))) p0) as (q & E & x & y & _ & Hx & Eq).
    - lia.
    - exists 0, 0. split; [lra|]. split; [lia|]. vext. ring.
    - intros i q Hi (x & y & Hx & _ & ->). unfold ddiv. cbn [seq_ s0 s1 sofZ sdiv sadd ssub smul R_ops]. rewrite Reqb_false by lra. cbn [bind].
      assert (0 <= IZR i <= 9) by (split; apply IZR_le; lia). set (t := IZR i / 9). assert (0 <= t <= 1) by (unfold t; lra).
      rewrite re_eval0. cbn [bind]. eexists. split; [reflexivity|]. set (w := min_v * (1 - t) + max_v * t). assert (Hw : min_v <= w <= max_v) by (unfold w; nra).
      rewrite Hgv. exists (x + r w), (y + z w). pose proof (Hr w Hw). split; [lra|]. split; [lra|]. vext. rewrite plus_IZR. ring.
    - rewrite E. cbn [bind]. unfold pdivs. cbn [seq_ s0 s1 sofZ sdiv R_ops]. rewrite Reqb_false by lra. eexists. split; [reflexivity|]. specialize (Hx ltac:(lia)).
      exists (x / 10), (y / 10). split; [lra|]. rewrite Eq. vext. field.
  Qed.
  Lemma norm_pos_mul (x : R) (w : vec R 3) : 0 < x -> inner w w = 1 -> normalized3 (pmul x w) = w.
  Proof.
    intros Hx Hw. rewrite normalized3_R. unfold sqnorm. rewrite pdot_inner. bilin. rewrite Hw. replace (x * (x * 1)) with (x * x) by ring. rewrite sqrt_square by lra.
    vext. field. lra.
  Qed.
  Lemma cross_unit : inner (cross3 a e) (cross3 a e) = 1 /\ inner (cross3 a e) a = 0 /\ inner (cross3 a e) e = 0.
  Proof.
    destruct Hf as (Ha & He & Hae). revert Ha He Hae. generalize a. intros b. v3 b. v3 e. cbn [cross3]. rewrite !inner3c. intros Ha He Hae.
    assert (E : b0 * b0 = 1 - b1 * b1 - b2 * b2) by lra. assert (E2 : b0 * e0 = - (b1 * e1) - b2 * e2) by lra. assert (E3 : e0 * e0 = 1 - e1 * e1 - e2 * e2) by lra.
    split; [|split; cbn; ring]. cbn.
    transitivity ((b0 * b0 + b1 * b1 + b2 * b2) * (e0 * e0 + e1 * e1 + e2 * e2) - (b0 * e0 + b1 * e1 + b2 * e2) ^ 2); [ring|]. rewrite Ha, He, Hae. ring.
  Qed.

  Context (Hinv : forall v, min_v <= v <= max_v -> exists t, pr_inverse pr (g v) min_v max_v = Ok t /\ min_v <= t <= max_v /\ g t = g v).
  Context (min_u max_u us vs : R) (Hus : min_u <= us <= max_u) (Hvs : min_v <= vs <= max_v).
  Context (p : vec R 3) (Ep : re_evaluate c us vs = Ok p).

  Lemma re_point u v : re_evaluate c u v = Ok (padd o (padd (pmul (r v * cos u) e) (padd (pmul (r v * sin u) (cross3 a e)) (pmul (z v) a)))).
  Proof.
    rewrite (re_eval c pr g g1 g2 Hp Hg). do 2 f_equal. rewrite Hgv. replace (psub (padd o (padd (pmul (r v) e) (pmul (z v) a))) o) with (padd (pmul (r v) e) (pmul (z v) a)) by (vext; ring).
    apply rotate_at.
  Qed.
  Lemma half_step q : half q -> exists u v, re_step c pr p min_u max_u min_v max_v q = Ok (u, v, g vs) /\
    min_u <= u <= max_u /\ min_v <= v <= max_v /\ re_evaluate c u v = Ok p.
  Proof.
    intros (x & y & Hx & ->). destruct Hf as (Ha & He & Hae). destruct cross_unit as (C1 & C2 & C3). pose proof (Hr vs Hvs) as Hrv. rewrite re_point in Ep. apply Ok_inj in Ep.
    unfold re_step. replace (psub (padd o (padd (pmul x e) (pmul y a))) o) with (padd (pmul x e) (pmul y a)) by (vext; ring).
    replace (pdot (padd (pmul x e) (pmul y a)) a) with y by (rewrite pdot_inner; bilin; rewrite (inner_comm _ e a), Ha, Hae; ring).
    replace (psub (padd (pmul x e) (pmul y a)) (pmul y a)) with (pmul x e) by (vext; ring).
    assert (Ecr : cross3 a (pmul x e) = pmul x (cross3 a e)) by (generalize a; intros b; v3 b; v3 e; v3eq; ring).
    rewrite Ecr, !norm_pos_mul by assumption. rewrite !pdot_inner.
    assert (Eps : psub p o = padd (pmul (r vs * cos us) e) (padd (pmul (r vs * sin us) (cross3 a e)) (pmul (z vs) a))) by (rewrite <- Ep; vext; ring).
    rewrite Eps.
    assert (I1 : inner (padd (pmul (r vs * cos us) e) (padd (pmul (r vs * sin us) (cross3 a e)) (pmul (z vs) a))) e = r vs * cos us) by (bilin; rewrite He, C3, Hae; ring).
    assert (I2 : inner (padd (pmul (r vs * cos us) e) (padd (pmul (r vs * sin us) (cross3 a e)) (pmul (z vs) a))) (cross3 a e) = r vs * sin us)
      by (bilin; rewrite C1, (inner_comm _ e), C3, (inner_comm _ a), C2; ring).
    rewrite I1, I2. cbn [satan2 R_trig]. destruct (atan2_of_polar (r vs) us Hrv) as [A1 A2]. set (t := Ratan2 _ _) in *.
    destruct (clip_angle t min_u max_u ltac:(lra)) as (u & Eu & Ru & Nu & _). rewrite Eu. cbn [bind]. specialize (Nu us Hus).
    assert (Et : cos (us - t) = 1) by (rewrite cos_minus, A1, A2; apply cs1). rewrite Et in Nu. destruct (cos_diff_1 u t Nu) as [U1 U2]. rewrite A1 in U1. rewrite A2 in U2.
    assert (Eback : padd o (rotate3 (- u) a (padd (pmul (r vs * cos us) e) (padd (pmul (r vs * sin us) (cross3 a e)) (pmul (z vs) a)))) = g vs).
    { rewrite Hgv, rotate_gen, cos_neg, sin_neg, U1, U2. pose proof (cs1 us) as Hcs. f_equal.
      replace (r vs * cos us * cos us - r vs * sin us * - sin us) with (r vs) by (transitivity (r vs * (cos us * cos us + sin us * sin us)); [rewrite Hcs; ring|ring]).
      vext. ring. }
    cbn [sopp R_ops] in *. rewrite Eback. destruct (Hinv vs Hvs) as (v & Ev & Rv & Gv). rewrite Ev. cbn [bind].
    change s0 with 0. rewrite re_eval0. cbn [bind]. exists u, v. rewrite Gv. split; [reflexivity|]. split; [exact Ru|]. split; [exact Rv|].
    rewrite (re_eval c pr g g1 g2 Hp Hg), Gv. rewrite Hgv. replace (psub (padd o (padd (pmul (r vs) e) (pmul (z vs) a))) o) with (padd (pmul (r vs) e) (pmul (z vs) a)) by (vext; ring).
    rewrite rotate_at, U1, U2. now rewrite Ep.
  Qed.
  Lemma g_half v : min_v <= v <= max_v -> half (g v).
  Proof. intros H. exists (r v), (z v). split; [now apply Hr|apply Hgv]. Qed.
  Lemma revolution_round_trip fuel : (2 <= fuel)%nat -> exists u v, re_inverse_evaluate fuel c p min_u max_u min_v max_v = Ok ((u, v), true) /\
    min_u <= u <= max_u /\ min_v <= v <= max_v /\ re_evaluate c u v = Ok p.
  Proof.
    intros Hfu. destruct fuel as [|[|fuel]]; [lia|lia|]. unfold re_inverse_evaluate. rewrite Hp. cbn [not_null bind].
    destruct (pivot_half ltac:(lra)) as (q & Eq & Hq). rewrite Eq. cbn [bind].
    assert (Hl : exists u v, re_loop (S (S fuel)) c pr p min_u max_u min_v max_v q = Ok (u, v) /\ min_u <= u <= max_u /\ min_v <= v <= max_v /\ re_evaluate c u v = Ok p).
    { cbn [re_loop]. destruct (half_step q Hq) as (u & v & E & Ru & Rv & Ee). rewrite E. cbn [bind]. destruct (_ <? _)%S; [|now exists u, v].
      destruct (half_step (g vs) (g_half vs Hvs)) as (u' & v' & E' & Ru' & Rv' & Ee'). rewrite E'. cbn [bind]. exists u', v'.
      unfold sqnorm. rewrite pdot_inner. replace (inner (psub (g vs) (g vs)) (psub (g vs) (g vs))) with 0 by (bilin; ring).
      cbn [slt R_ops]. rewrite Rltb_false; [now repeat split|]. pose proof tol100_pos. lra. }
    destruct Hl as (u & v & El & Ru & Rv & Ee). rewrite El. cbn [bind].
    assert (En : patch_newton_raphson (re_ops c) p (u, v) 20 (seps * sofZ 100)%S min_u max_u min_v max_v = Ok ((u, v), true)).
    { apply newton_exact; [apply tol100_pos|exact Ee]. }
    rewrite En. cbn [bind fst snd sle R_ops]. rewrite !Rleb_true by lra. cbn [assert_ bind]. now exists u, v.
  Qed.
End RevolutionInverse.

(** ** Offset *)
Lemma offset_inverse (c : offset R) b p min_u max_u min_v max_v u v conv : of_base c = Some b ->
  bs_inverse b p min_u max_u min_v max_v = Ok ((u, v), conv) -> min_u <= u <= max_u -> min_v <= v <= max_v -> of_evaluate c u v = Ok p ->
  of_inverse_evaluate c p min_u max_u min_v max_v = Ok ((u, v), true).
Proof.
  intros Hb E Hu Hv Ee. unfold of_inverse_evaluate. rewrite Hb. cbn [not_null bind]. rewrite E. cbn [bind fst snd].
  assert (Eg : patch_inverse_guess (of_ops c) p u v min_u max_u min_v max_v 20 (seps * sofZ 100)%S = Ok ((u, v), true)).
  { unfold patch_inverse_guess. rewrite !smax_R, !smin_R. rewrite (Rmin_right max_u u), (Rmax_right min_u u), (Rmin_right max_v v), (Rmax_right min_v v) by lra.
    rewrite newton_exact by (apply tol100_pos || exact Ee). cbn [bind fst snd sle R_ops]. rewrite !Rleb_true by lra. reflexivity. }
  rewrite Eg. destruct conv; reflexivity.
Qed.

(** Central differences: by the mean value theorem every coordinate is the derivative at a point within the step. *)
Lemma mvt_central (f f' : R -> R) u h : 0 < h -> (forall x, u - h <= x <= u + h -> derivable_pt_lim f x (f' x)) ->
  exists x, u - h < x < u + h /\ (f (u + h) - f (u - h)) / (2 * h) = f' x.
Proof.
  intros Hh D.
  destruct (MVT_cor2 f f' (u - h) (u + h) ltac:(lra) D) as (x & E & Hx).
  exists x. split; [exact Hx|]. rewrite E. field. lra.
Qed.
Lemma central_near (F F' : R -> vec R 3) u h : 0 < h -> (forall x, u - h <= x <= u + h -> vderiv F x (F' x)) ->
  near_value F' u h (pmul (1 / (h * 2)) (psub (F (u + h)) (F (u - h)))).
Proof.
  intros Hh D i Hi. destruct (mvt_central (fun s => coord 3 i (F s)) (fun s => coord 3 i (F' s)) u h Hh) as (x & Hx & E); [intros x Hx; now apply D|].
  exists x. split; [exact Hx|]. rewrite <- E, coord_mul, coord_sub by exact Hi. field. lra.
Qed.
Lemma fd_step_eq lo hi : ((hi - lo) * sofQ (1 # 1000000))%S = fd_step lo hi.
Proof. unfold fd_step. cbn [smul ssub sofQ R_ops]. unfold Q2R. cbn. lra. Qed.
Lemma offset_duu (c : offset R) u v F F' : of_base c <> None -> b_ulo (of_bounds c) < b_uhi (of_bounds c) ->
  let h := fd_step (b_ulo (of_bounds c)) (b_uhi (of_bounds c)) in
  (forall x, u - h <= x <= u + h -> of_du c x v = Ok (F x) /\ vderiv F x (F' x)) -> exists q, of_duu c u v = Ok q /\ near_value F' u h q.
Proof.
  intros Hb Hl h HF. assert (Hh : 0 < h) by (unfold h, fd_step; lra). unfold of_duu. rewrite fd_step_eq. fold h.
  destruct (of_base c) as [b|]; [|congruence]. cbn [not_null bind sadd ssub R_ops]. rewrite (proj1 (HF (u - h) ltac:(lra))), (proj1 (HF (u + h) ltac:(lra))). cbn [bind].
  unfold pdivs. cbn [seq_ s0 s1 smul sdiv sofZ R_ops]. rewrite Reqb_false by lra. eexists. split; [reflexivity|]. apply central_near; [exact Hh|]. intros x Hx. now apply HF.
Qed.
Lemma offset_dvv (c : offset R) u v F F' : of_base c <> None -> b_vlo (of_bounds c) < b_vhi (of_bounds c) ->
  let h := fd_step (b_vlo (of_bounds c)) (b_vhi (of_bounds c)) in
  (forall x, v - h <= x <= v + h -> of_dv c u x = Ok (F x) /\ vderiv F x (F' x)) -> exists q, of_dvv c u v = Ok q /\ near_value F' v h q.
Proof.
  intros Hb Hl h HF. assert (Hh : 0 < h) by (unfold h, fd_step; lra). unfold of_dvv. rewrite fd_step_eq. fold h.
  destruct (of_base c) as [b|]; [|congruence]. cbn [not_null bind sadd ssub R_ops]. rewrite (proj1 (HF (v - h) ltac:(lra))), (proj1 (HF (v + h) ltac:(lra))). cbn [bind].
  unfold pdivs. cbn [seq_ s0 s1 smul sdiv sofZ R_ops]. rewrite Reqb_false by lra. eexists. split; [reflexivity|]. apply central_near; [exact Hh|]. intros x Hx. now apply HF.
Qed.
Lemma offset_duv (c : offset R) u v F F' : of_base c <> None -> b_vlo (of_bounds c) < b_vhi (of_bounds c) ->
  let h := fd_step (b_vlo (of_bounds c)) (b_vhi (of_bounds c)) in
  (forall x, v - h <= x <= v + h -> of_du c u x = Ok (F x) /\ vderiv F x (F' x)) -> exists q, of_duv c u v = Ok q /\ near_value F' v h q.
Proof.
  intros Hb Hl h HF. assert (Hh : 0 < h) by (unfold h, fd_step; lra). unfold of_duv. rewrite fd_step_eq. fold h.
  destruct (of_base c) as [b|]; [|congruence]. cbn [not_null bind sadd ssub R_ops]. rewrite (proj1 (HF (v - h) ltac:(lra))), (proj1 (HF (v + h) ltac:(lra))). cbn [bind].
  unfold pdivs. cbn [seq_ s0 s1 smul sdiv sofZ R_ops]. rewrite Reqb_false by lra. eexists. split; [reflexivity|]. apply central_near; [exact Hh|]. intros x Hx. now apply HF.
Qed.

(** A cylinder as a base surface. *)
Definition cylinder_base (c : rotsurf R (vec R 3)) : base_surface R :=
  {| bs_ops := rv_ops c cy_evaluate cy_du cy_dv cy_duu cy_dvv cy_duv; bs_inverse := cy_inverse_evaluate c; bs_periodic_u := rv_periodic_u c; bs_periodic_v := rv_periodic_v c |}.

(** The second derivative of the offset of a cylinder is off by the factor sin h / h. *)
Definition cyl1 : rotsurf R (vec R 3) := std_surf 1 0 0 (2 * PI) 0 1 true false.
Definition offset1 (b : bounds4 R) (pu pv : bool) : offset R := {| of_base := Some (cylinder_base cyl1); of_offset := 1; of_bounds := b; of_periodic_u := pu; of_periodic_v := pv |}.
Lemma cyl1_du u v : cy_du cyl1 u v = Ok (pt3 (- sin u) (cos u) 0).
Proof. unfold cy_du. f_equal. unfold cyl1, std_surf. v3eq; ring. Qed.
Lemma cyl1_duu u v : cy_duu cyl1 u v = Ok (pt3 (- cos u) (- sin u) 0).
Proof. unfold cy_duu. f_equal. unfold cyl1, std_surf. v3eq; ring. Qed.
Lemma cyl1_eval u v : cy_evaluate cyl1 u v = Ok (pt3 (cos u) (sin u) v).
Proof. unfold cy_evaluate. f_equal. unfold cyl1, std_surf. v3eq; ring. Qed.
Lemma norm_n u : sqnorm (pt3 (cos u) (sin u) 0) = 1.
Proof. unfold sqnorm. rewrite pdot_inner, inner3. pose proof (cs1 u). lra. Qed.
Lemma offset1_eval b pu pv u v : of_evaluate (offset1 b pu pv) u v = Ok (pt3 (2 * cos u) (2 * sin u) v).
Proof.
  unfold of_evaluate. cbn [offset1 of_base not_null bind cylinder_base bs_ops rv_ops s_eval s_du s_dv of_offset]. rewrite cyl1_eval, cyl1_du. cbn [bind cy_dv].
  assert (Ec : cross3 (pt3 (- sin u) (cos u) 0) (rv_z cyl1) = pt3 (cos u) (sin u) 0) by (unfold cyl1, std_surf; v3eq; ring).
  rewrite Ec, normalized3_R, norm_n, sqrt_1. f_equal. v3eq; field.
Qed.
Lemma offset1_du b pu pv u v : of_du (offset1 b pu pv) u v = Ok (pt3 (- 2 * sin u) (2 * cos u) 0).
Proof.
  unfold of_du. cbn [offset1 of_base not_null bind cylinder_base bs_ops rv_ops s_du s_dv s_duu s_duv of_offset]. rewrite cyl1_du, cyl1_duu. cbn [bind cy_dv cy_duv].
  assert (Ec : cross3 (pt3 (- sin u) (cos u) 0) (rv_z cyl1) = pt3 (cos u) (sin u) 0) by (unfold cyl1, std_surf; v3eq; ring).
  rewrite Ec. unfold of_formula, pdivs. rewrite norm_n. cbn [ssqrt seq_ s0 s1 smul sdiv R_ops]. rewrite sqrt_1, !Reqb_false by lra. cbn [bind]. f_equal.
  assert (Er : padd (cross3 (pt3 (- cos u) (- sin u) 0) (rv_z cyl1)) (cross3 (pt3 (- sin u) (cos u) 0) p0) = pt3 (- sin u) (cos u) 0) by (unfold cyl1, std_surf; v3eq; ring).
  rewrite Er. replace (pdot (pt3 (- sin u) (cos u) 0) (pt3 (cos u) (sin u) 0)) with 0 by (cbn; ring). v3eq; field.
Qed.
Lemma offset_second_refuted : exists (c : offset R) f fu q q', of_initialize c = Ok c /\
  (forall u v, of_evaluate c u v = Ok (f u v) /\ of_du c u v = Ok (fu u v) /\ vderiv (fun x => f x v) u (fu u v)) /\
  vderiv (fun x => fu x 0) 0 q /\ of_duu c 0 0 = Ok q' /\ q' <> q.
Proof.
  pose proof PI_RGT_0 as HP. exists (offset1 {| b_ulo := 0; b_uhi := 2 * PI; b_vlo := 0; b_vhi := 1 |} true false), (fun u v => pt3 (2 * cos u) (2 * sin u) v), (fun u v => pt3 (- 2 * sin u) (2 * cos u) 0), (pt3 (- 2) 0 0).
  set (h := fd_step 0 (2 * PI)). assert (Hh : 0 < h) by (unfold h, fd_step; lra). exists (pt3 (- 2 * (sin h / h)) 0 0).
  split; [|split; [|split; [|split]]].
  - unfold of_initialize, offset1. cbn [of_base not_null bind cylinder_base bs_periodic_u bs_periodic_v bs_ops rv_ops s_ulo s_uhi of_bounds b_ulo b_uhi of_periodic_u of_periodic_v cyl1 std_surf rv_bounds rv_periodic_u rv_periodic_v].
    destruct (true && _ && _); reflexivity.
  - intros u v. split; [apply offset1_eval|]. split; [apply offset1_du|].
    eapply (vderiv_at3 (pt3 0 0 v) (pt3 2 0 0) (pt3 0 2 0) p0 cos sin (fun _ => 0) u (- sin u) (cos u) 0).
    + apply derivable_pt_lim_cos.
    + apply derivable_pt_lim_sin.
    + apply derivable_pt_lim_const.
    + intros s. unfold at3. v3eq; ring.
    + unfold at3. v3eq; ring.
  - eapply (vderiv_at3 p0 (pt3 0 2 0) (pt3 (- 2) 0 0) p0 cos sin (fun _ => 0) 0 (- sin 0) (cos 0) 0).
    + apply derivable_pt_lim_cos.
    + apply derivable_pt_lim_sin.
    + apply derivable_pt_lim_const.
    + intros s. unfold at3. v3eq; ring.
    + unfold at3. rewrite sin_0, cos_0. v3eq; ring.
  - unfold of_duu. change (b_ulo (of_bounds (offset1 _ true false))) with 0. change (b_uhi (of_bounds (offset1 _ true false))) with (2 * PI). rewrite fd_step_eq. fold h.
    cbn [offset1 of_base not_null bind]. change {| of_base := Some (cylinder_base cyl1); of_offset := 1; of_bounds := _; of_periodic_u := true; of_periodic_v := false |}
      with (offset1 {| b_ulo := 0; b_uhi := 2 * PI; b_vlo := 0; b_vhi := 1 |} true false). rewrite !offset1_du. cbn [bind]. unfold pdivs. cbn [seq_ s0 s1 smul sdiv sofZ sadd ssub R_ops].
    rewrite Reqb_false by lra. f_equal. replace (0 - h) with (- h) by ring. rewrite Rplus_0_l, sin_neg, cos_neg. v3eq; field; lra.
  - intros E. apply (f_equal fst) in E. cbn in E. pose proof (sin_lt_x h Hh). assert (sin h / h < 1); [|lra]. apply (Rmult_lt_reg_r h); [exact Hh|]. unfold Rdiv. rewrite Rmult_assoc, Rinv_l by lra. lra.
Qed.

(** ** Flags *)
Lemma profile_flag_spec {d} (pr : profile R (vec R d)) (g g1 g2 : R -> vec R d) lo hi : profile_is pr g g1 g2 -> exists f, profile_flag pr lo hi = Ok f /\
  (f = true <-> pr_periodic pr = true /\ edist (g lo) (g hi) ^ 2 < eps10).
Proof.
  intros Hg. unfold profile_flag. destruct (pr_periodic pr).
  - destruct (Hg lo) as (-> & _). destruct (Hg hi) as (-> & _). cbn [bind]. eexists. split; [reflexivity|]. rewrite sqnorm_edist, edist_sym. cbn [slt R_ops]. rewrite prim_tol_R. fold eps10.
    unfold Rltb. destruct (Rlt_dec _ _); split; intros; try split; try tauto; try discriminate.
  - exists false. split; [reflexivity|]. split; [discriminate|tauto].
Qed.
Lemma extrusion_initialize d (c : extrusion R (vec R d)) pr g g1 g2 : ex_profile c = Some pr -> profile_is pr g g1 g2 -> inner (ex_direction c) (ex_direction c) = 1 ->
  b_ulo (ex_bounds c) <= b_uhi (ex_bounds c) -> b_vlo (ex_bounds c) <= b_vhi (ex_bounds c) ->
  exists f, ex_initialize c = Ok {| ex_location := ex_location c; ex_direction := ex_direction c; ex_profile := ex_profile c; ex_bounds := ex_bounds c; ex_periodic_u := f; ex_periodic_v := false |} /\
    (f = true <-> pr_periodic pr = true /\ edist (g (b_ulo (ex_bounds c))) (g (b_uhi (ex_bounds c))) ^ 2 < eps10).
Proof.
  intros Hp Hg Hn Hu Hv. destruct (profile_flag_spec pr g g1 g2 (b_ulo (ex_bounds c)) (b_uhi (ex_bounds c)) Hg) as (f & E & Hf). exists f. split; [|exact Hf].
  unfold ex_initialize. rewrite Hp. cbn [not_null bind sle R_ops]. unfold sqnorm. rewrite pdot_inner, Hn. cbn [ssub s1 slt R_ops]. rewrite sabs_R, Rminus_diag_eq, Rabs_R0 by reflexivity.
  rewrite Rltb_true by apply prim_tol_pos. rewrite !Rleb_true by assumption. cbn [assert_ bind]. rewrite E. reflexivity.
Qed.
Lemma revolution_initialize (c : revolution R) pr g g1 g2 : re_profile c = Some pr -> profile_is pr g g1 g2 -> inner (re_axis c) (re_axis c) = 1 ->
  b_ulo (re_bounds c) <= b_uhi (re_bounds c) -> b_vlo (re_bounds c) <= b_vhi (re_bounds c) ->
  exists fu fv, re_initialize c = Ok {| re_location := re_location c; re_axis := re_axis c; re_profile := re_profile c; re_bounds := re_bounds c; re_periodic_u := fu; re_periodic_v := fv |} /\
    (fu = true <-> whole_turns eps10 (b_ulo (re_bounds c)) (b_uhi (re_bounds c))) /\
    (fv = true <-> pr_periodic pr = true /\ edist (g (b_vlo (re_bounds c))) (g (b_vhi (re_bounds c))) ^ 2 < eps10).
Proof.
  intros Hp Hg Hn Hu Hv. destruct (profile_flag_spec pr g g1 g2 (b_vlo (re_bounds c)) (b_vhi (re_bounds c)) Hg) as (f & E & Hf).
  destruct (winding_spec (b_ulo (re_bounds c)) (b_uhi (re_bounds c))) as (fu & Eu & Hfu).
  exists fu, f. split; [|split; [unfold eps10; rewrite <- prim_tol_R; exact Hfu|exact Hf]].
  unfold re_initialize. rewrite Hp. cbn [not_null bind sle R_ops]. unfold sqnorm. rewrite pdot_inner, Hn. cbn [ssub s1 slt R_ops]. rewrite sabs_R, Rminus_diag_eq, Rabs_R0 by reflexivity.
  rewrite Rltb_true by apply prim_tol_pos. rewrite !Rleb_true by assumption. cbn [assert_ bind]. rewrite Eu. cbn [bind]. rewrite E. reflexivity.
Qed.
(** initialize of the offset surface keeps a flag that no longer applies. *)
Lemma offset_flag_refuted : exists (c c1 c2 : offset R) b f, of_base c = Some b /\ (forall u v, of_evaluate c2 u v = Ok (f u v)) /\
  of_periodic_u c = false /\ of_initialize c = Ok c1 /\ of_initialize (of_set_bounds c1 {| b_ulo := 0; b_uhi := PI; b_vlo := 0; b_vhi := 1 |}) = Ok c2 /\
  of_periodic_u c2 = true /\ f (b_ulo (of_bounds c2)) 0 <> f (b_uhi (of_bounds c2)) 0.
Proof.
  set (b1 := {| b_ulo := 0; b_uhi := 2 * PI; b_vlo := 0; b_vhi := 1 |}). set (b2 := {| b_ulo := 0; b_uhi := PI; b_vlo := 0; b_vhi := 1 |}). pose proof tol100_pos as Ht.
  exists (offset1 b1 false false), (offset1 b1 true false), (offset1 b2 true false), (cylinder_base cyl1), (fun u v => pt3 (2 * cos u) (2 * sin u) v).
  split; [reflexivity|]. split; [intros; apply offset1_eval|]. split; [reflexivity|]. split; [|split; [|split]].
  - unfold of_initialize, offset1, b1. cbn [of_base not_null bind cylinder_base bs_periodic_u bs_periodic_v bs_ops rv_ops s_ulo s_uhi of_bounds b_ulo b_uhi of_periodic_u of_periodic_v cyl1 std_surf rv_bounds rv_periodic_u rv_periodic_v].
    rewrite !sabs_R. cbn [ssub slt R_ops]. rewrite !Rminus_diag_eq, Rabs_R0, Rltb_true by (reflexivity || exact Ht). reflexivity.
  - unfold of_initialize, offset1, of_set_bounds, b2. cbn [of_base not_null bind cylinder_base bs_periodic_u bs_periodic_v bs_ops rv_ops s_ulo s_uhi of_bounds b_ulo b_uhi of_periodic_u of_periodic_v cyl1 std_surf rv_bounds rv_periodic_u rv_periodic_v of_offset].
    destruct (true && _ && _); reflexivity.
  - reflexivity.
  - intros E. apply (f_equal fst) in E. cbn in E. rewrite cos_0, cos_PI in E. lra.
Qed.

Lemma offset_derivatives' (c : offset R) b f fu fv fuu fvv fuv : of_base c = Some b -> base_is b f fu fv fuu fvv fuv ->
  exists q, (forall u v, of_evaluate c u v = Ok (q u v)) /\ forall u v, partials f fu fv fuu fvv fuv u v -> cross_vec (fu u v) (fv u v) <> p0 ->
    exists qu qv, of_du c u v = Ok qu /\ of_dv c u v = Ok qv /\ vderiv (fun x => q x v) u qu /\ vderiv (fun y => q u y) v qv.
Proof. intros Hb Hf. exists (of_pt c f fu fv). split; [intros; eapply of_eval; eassumption|]. intros. eapply offset_derivatives; eassumption. Qed.
Lemma extrusion_null d (c : extrusion R (vec R d)) : ex_profile c = None -> forall u v p a b e f,
  ex_initialize c = Throw invalid_setting_error /\ ex_evaluate c u v = Throw invalid_setting_error /\ ex_du c u v = Throw invalid_setting_error /\
  ex_duu c u v = Throw invalid_setting_error /\ ex_inverse_evaluate c p a b e f = Throw invalid_setting_error.
Proof. intros H u v p a b e f. unfold ex_initialize, ex_evaluate, ex_du, ex_duu, ex_inverse_evaluate. rewrite H. repeat split; reflexivity. Qed.
Lemma nearest_exact {d} (pr : profile R (vec R d)) g lo hi : inverse_nearest pr g lo hi -> forall v, lo <= v <= hi -> exists t, pr_inverse pr (g v) lo hi = Ok t /\ lo <= t <= hi /\ g t = g v.
Proof.
  intros H v Hv. destruct (H (g v)) as (t & E & Ht & N). exists t. split; [exact E|]. split; [exact Ht|]. specialize (N v Hv). rewrite edist_refl in N. pose proof (edist_pos d (g v) (g t)).
  symmetry. apply edist_eq0. lra.
Qed.
