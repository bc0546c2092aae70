(** get_turning_angle of Bezier curves. *)
From Coq Require Import Reals Lra Lia ZArith List Psatz Permutation.
From Verif Require Import Monad MonadFacts LoopFacts Scalar ScalarFacts Spec SpecFacts SpecGeom SpecAnalysis SpecTurning Polar BezierMath BezierFacts BezierThms BezierThms2 ModelCurve ModelBezier
  ModelPrimitive TrigFacts EllipseThms AnalysisThms AnalysisThms2 ModelTurning TurningFacts TurningThms.
Import ListNotations.
Local Open Scope R_scope.

(** ** Triangles of the Bezier algorithm *)
Lemma tri_albz_perm {d} (c : Z -> vec R d) l l' : Permutation l l' -> forall j, tri albz c l j = tri albz c l' j.
Proof.
  induction 1 as [|x l l' H IH|x y l|l l' l'' H1 IH1 H2 IH2]; intros j; [reflexivity| | |].
  - cbn [tri]. unfold albz. now rewrite !IH.
  - cbn [tri]. unfold albz. apply vec_ext; intros i Hi. rewrite !coord_add, !coord_mul, !coord_add, !coord_mul by assumption. cbn [sadd smul R_ops]. ring.
  - now rewrite IH1.
Qed.
Definition delta {d} (c : Z -> vec R d) (j : Z) : vec R d := psub (c j) (c (j - 1)%Z).
Lemma tri_delta {d} (c : Z -> vec R d) l j : tri albz (delta c) l j = psub (tri albz c l j) (tri albz c l (j - 1)).
Proof.
  revert j; induction l as [|x l IH]; intros j; [reflexivity|]. cbn [tri]. rewrite !IH. unfold albz.
  apply vec_ext; intros i Hi. rewrite !coord_add, !coord_sub, !coord_mul, !coord_add, !coord_sub, !coord_mul by assumption. cbn [sadd ssub smul R_ops]. ring.
Qed.
Lemma tri_edge {d} (c : Z -> vec R d) x y l j : psub (tri albz c (y :: l) j) (tri albz c (x :: l) j) = pmul (y - x) (tri albz (delta c) l j).
Proof.
  rewrite tri_delta. cbn [tri]. unfold albz. apply vec_ext; intros i Hi. rewrite !coord_sub, !coord_mul, !coord_add, !coord_sub, !coord_mul by assumption.
  cbn [sadd ssub smul R_ops]. ring.
Qed.
Lemma tri_convex_list {d} (Q : vec R d -> Prop) c l J : convexP Q -> (forall j, (J - Z.of_nat (length l) <= j <= J)%Z -> Q (c j)) -> (forall x, In x l -> 0 <= x <= 1) -> Q (tri albz c l J).
Proof.
  intros HQ. revert J. induction l as [|x l IH]; intros J Hc Hl; [apply Hc; cbn [length]; lia|]. cbn [tri]. unfold albz. cbn [length] in Hc. apply HQ.
  - apply Hl. now left.
  - apply IH; [intros j Hj; apply Hc; lia|]. intros y Hy. apply Hl. now right.
  - apply IH; [intros j Hj; apply Hc; lia|]. intros y Hy. apply Hl. now right.
Qed.
Lemma tri_cont {d} (c : Z -> vec R d) i m j : (i < d)%nat -> continuity (fun t => coord d i (tri albz c (repeat t m) j)).
Proof.
  intros Hi. revert j. induction m as [|m IH]; intros j.
  - apply continuity_const. intros x y. reflexivity.
  - intros t. apply (cont_ext (fun t => (1 - t) * coord d i (tri albz c (repeat t m) (j - 1)) + t * coord d i (tri albz c (repeat t m) j))).
    + intros u. cbn [repeat tri]. unfold albz. rewrite coord_add, !coord_mul by assumption. reflexivity.
    + apply continuity_pt_plus; apply continuity_pt_mult; try apply IH.
      * apply continuity_pt_minus; [apply continuity_pt_const; intros x y; reflexivity|apply derivable_continuous, derivable_id].
      * apply derivable_continuous, derivable_id.
Qed.
Lemma tri_index {d} (c c' : Z -> vec R d) s l j : (forall k, c k = c' (k + s)%Z) -> tri albz c l j = tri albz c' l (j + s).
Proof.
  intros H. revert j. induction l as [|x l IH]; intros j; [apply H|]. cbn [tri]. unfold albz. rewrite !IH. now replace (j - 1 + s)%Z with (j + s - 1)%Z by lia.
Qed.

(** The derivative of a Bezier curve is [n] times the blossom of the edges. *)
Definition hodo (pts : list (vec R 2)) (l : list R) : vec R 2 := tri albz (delta (pt_at pts)) l (Z.of_nat (length pts - 1)).
Lemma tri_scale {d} (c : Z -> vec R d) k l j : tri albz (fun i => pmul k (c i)) l j = pmul k (tri albz c l j).
Proof.
  revert j; induction l as [|x l IH]; intros j; [reflexivity|]. cbn [tri]. rewrite !IH. unfold albz.
  apply vec_ext; intros i Hi. rewrite !coord_add, !coord_mul, !coord_add, !coord_mul by assumption. cbn [sadd smul R_ops]. ring.
Qed.
Lemma derivative_hodo (pts : list (vec R 2)) n f1 t : length pts = S (S n) -> vderiv (bernstein_curve pts) t (f1 t) ->
  f1 t = pmul (IZR (Z.of_nat (S n))) (hodo pts (repeat t n)).
Proof.
  intros Hn H. apply vec_ext; intros i Hi. apply (vderiv_unique (bernstein_curve pts) t); [exact Hi|exact H|].
  unfold hodo. rewrite <- tri_scale. replace (length pts - 1)%nat with (S n) by lia.
  pose proof (tri_vderiv (pt_at pts) n t) as V. rewrite (tri_index _ (fun i => pmul (IZR (Z.of_nat (S n))) (delta (pt_at pts) i)) 1) in V.
  - replace (Z.of_nat n + 1)%Z with (Z.of_nat (S n)) in V by lia. intros k Hk. specialize (V k Hk).
    eapply derivable_pt_lim_ext; [|exact V]. intros x. cbv beta. now rewrite (tri_pts_curve pts (S n)).
  - intros k. unfold delta. now replace (k + 1 - 1)%Z with k by lia.
Qed.
Lemma advancing_hodo n pts l : advancing n pts -> (length l + 2 = length pts)%nat -> (forall x, In x l -> 0 <= x <= 1) -> 0 < inner n (hodo pts l).
Proof.
  intros Ha Hl Hx. unfold hodo. apply (tri_convex_list (fun v => 0 < inner n v)); [|intros j Hj|exact Hx].
  - intros t a b Ht H1 H2. rewrite inner_2 in *. rewrite !coord_add, !coord_mul by lia. cbn [sadd smul R_ops].
    set (A := coord 2 0 n * coord 2 0 a + coord 2 1 n * coord 2 1 a) in *. set (B := coord 2 0 n * coord 2 0 b + coord 2 1 n * coord 2 1 b) in *.
    replace (_ + _) with ((1 - t) * A + t * B) by (unfold A, B; ring). destruct (Rle_dec t (1 / 2)); nra.
  - unfold delta, pt_at. specialize (Ha (Z.to_nat (j - 1))). replace (S (Z.to_nat (j - 1))) with (Z.to_nat j) in Ha by lia. apply Ha. lia.
Qed.

(** ** Polygons *)
Definition edge (pts : list (vec R 2)) (i : nat) : vec R 2 := psub (nth (S i) pts p0) (nth i pts p0).
Lemma get_nth {A} (l : list A) (a : A) i : (i < length l)%nat -> get l (Z.of_nat i) = Ok (nth i l a).
Proof.
  intros H. unfold get. destruct (Z.ltb_spec (Z.of_nat i) 0); [lia|]. rewrite Nat2Z.id. now rewrite (nth_error_nth' l a H).
Qed.
Lemma polygon_sum (pts : list (vec R 2)) (I : nat -> R -> Prop) n : length pts = S (S n) -> I O 0 ->
  (forall i th, (i < n)%nat -> I i th -> I (S i) (th + turn (edge pts i) (edge pts (S i)))) ->
  exists th, polygon_turning pts = Ok th /\ I n th.
Proof.
  intros Hn H0 HS. unfold polygon_turning.
  match goal with |- context [for_up 1 ?e ?B ?s] => destruct (for_up_inv (fun i th => I (Z.to_nat (i - 1)) th) 1 e B s) as (th & E & H) end.
  - unfold zlen. lia.
  - exact H0.
  - intros i th Hi Hth. unfold zlen in Hi. destruct (Z_of_nat_complete (i - 1)) as [k Hk]; [lia|].
    rewrite Hk in Hth |- *. replace i with (Z.of_nat (S k)) in * by lia. rewrite Nat2Z.id in *.
    rewrite (get_nth pts p0) by lia. rewrite bind_Ok. rewrite (get_nth pts p0) by lia. rewrite bind_Ok. replace (Z.of_nat (S k) + 1)%Z with (Z.of_nat (S (S k))) by lia.
    rewrite (get_nth pts p0) by lia. rewrite bind_Ok. eexists. split; [reflexivity|].
    replace (Z.to_nat (Z.of_nat (S (S k)) - 1)) with (S k) by lia. apply (HS k th); [lia|exact Hth].
  - exists th. split; [exact E|]. replace (Z.to_nat (zlen pts - 1 - 1)) with n in H by (unfold zlen; lia). exact H.
Qed.
Lemma polygon_advancing u pts n : length pts = S (S n) -> advancing u pts -> polygon_turning pts = Ok (side u (edge pts n) - side u (edge pts 0)).
Proof.
  intros Hn Ha. destruct (polygon_sum pts (fun i th => th = side u (edge pts i) - side u (edge pts 0)) n Hn) as (th & E & ->).
  - ring.
  - intros i th Hi ->. rewrite (side_turn u); [ring| |]; apply Ha; lia.
  - exact E.
Qed.
Lemma heading_turn v w phi : heading v phi -> 0 < norm2 v -> 0 < norm2 w -> heading w (phi + turn v w).
Proof.
  intros Hv Nv Nw. pose proof (atan2_heading w) as Hw. set (b := Ratan2 _ _) in Hw. destruct (turn_heading v w phi b Hv Hw Nv Nw) as [E1 E2].
  assert (K1 : cos (phi + turn v w) = cos b). { rewrite cos_plus, E1, E2. replace b with (phi + (b - phi)) at 3 by ring. rewrite (cos_plus phi). ring. }
  assert (K2 : sin (phi + turn v w) = sin b). { rewrite sin_plus, E1, E2. replace b with (phi + (b - phi)) at 3 by ring. rewrite (sin_plus phi). ring. }
  unfold heading. rewrite K1, K2. exact Hw.
Qed.
Lemma polygon_heading pts n : length pts = S (S n) -> (forall i, (i <= n)%nat -> 0 < norm2 (edge pts i)) ->
  exists th, polygon_turning pts = Ok th /\ forall phi, heading (edge pts 0) phi -> heading (edge pts n) (phi + th).
Proof.
  intros Hn Hz. apply (polygon_sum pts (fun i th => forall phi, heading (edge pts 0) phi -> heading (edge pts i) (phi + th)) n Hn).
  - intros phi H. now rewrite Rplus_0_r.
  - intros i th Hi H phi Hp. rewrite <- Rplus_assoc. apply heading_turn; [now apply H|apply Hz; lia|apply Hz; lia].
Qed.

Lemma turn_zero : turn (p0 : vec R 2) p0 = 0.
Proof. unfold turn. rewrite !coord_0 by lia. cbn [smul ssub sadd s0 R_ops satan2 R_trig]. replace (0 * 0 - 0 * 0) with 0 by ring. replace (0 * 0 + 0 * 0) with 0 by ring. unfold Ratan2. repeat (destruct (Rlt_dec _ _) || destruct (Rle_dec _ _) || destruct (Req_EM_T _ _)); try lra. Qed.

(** ** The generic class *)
Lemma segment_edges (cv : bezier (vec R 2)) n t0 t1 : length (bz_pts cv) = S (S n) -> 0 <= t0 <= t1 -> t1 <= 1 ->
  exists l, bz_subcurve cv t0 t1 = Ok (mk_bezier l) /\ length l = S (S n) /\
    (forall s, bernstein_curve l s = bernstein_curve (bz_pts cv) (t0 + s * (t1 - t0))) /\
    forall i, (i <= n)%nat -> edge l i = pmul (t1 - t0) (hodo (bz_pts cv) (repeat t1 i ++ repeat t0 (n - i))).
Proof.
  intros Hn H0 H1. assert (Hne : bz_pts cv <> []) by (destruct (bz_pts cv); [discriminate|congruence]).
  destruct (bz_subcurve_correct cv t0 t1 (Z.of_nat (S n)) _ (arr_pts (bz_pts cv) (S n) Hn)) as (l & E & Hl); [lia|lra|lra|].
  destruct (bezier_subcurve 2 cv t0 t1 Hne H0 H1) as (l' & E' & Hl' & Hv). rewrite E in E'. injection E' as <-.
  exists l. split; [exact E|]. split; [congruence|]. split; [exact Hv|]. intros i Hi. unfold edge, hodo. rewrite Hn. replace (S (S n) - 1)%nat with (S n) by lia.
  assert (Hg : forall k, (k <= S n)%nat -> nth k l p0 = tri albz (pt_at (bz_pts cv)) (repeat t1 k ++ repeat t0 (S n - k)) (Z.of_nat (S n))).
  { intros k Hk. pose proof (arr_get _ _ _ (Z.of_nat k) Hl) as G. rewrite (get_nth l p0) in G by lia. specialize (G ltac:(lia)).
    assert (Oi : forall a b : vec R 2, Ok a = Ok b -> a = b) by congruence. apply Oi in G. rewrite G.
    rewrite Nat2Z.id. now replace (Z.to_nat (Z.of_nat (S n) - Z.of_nat k)) with (S n - k)%nat by lia. }
  rewrite !Hg by lia. replace (S n - S i)%nat with (n - i)%nat by lia. cbn [repeat app].
  rewrite (tri_albz_perm _ (repeat t1 i ++ repeat t0 (S n - i)) (t0 :: repeat t1 i ++ repeat t0 (n - i))).
  - apply tri_edge.
  - replace (S n - i)%nat with (S (n - i)) by lia. cbn [repeat]. symmetry. apply Permutation_middle.
Qed.
Lemma in_repeat2 (a b x : R) i j : In x (repeat a i ++ repeat b j) -> x = a \/ x = b.
Proof. intros H. apply in_app_or in H. destruct H as [H|H]; apply repeat_spec in H; auto. Qed.
Lemma side_scale n v k : 0 < k -> side n (pmul k v) = side n v.
Proof.
  intros Hk. unfold side. f_equal. rewrite !inner_2. unfold cross2. rewrite !coord_mul by lia. cbn [smul R_ops].
  set (A := coord 2 0 n * coord 2 0 v + coord 2 1 n * coord 2 1 v). set (B := coord 2 0 n * coord 2 1 v - coord 2 1 n * coord 2 0 v).
  replace (coord 2 0 n * (k * coord 2 1 v) - coord 2 1 n * (k * coord 2 0 v)) with (k * B) by (unfold B; ring).
  replace (coord 2 0 n * (k * coord 2 0 v) + coord 2 1 n * (k * coord 2 1 v)) with (k * A) by (unfold A; ring).
  unfold Rdiv. destruct (Req_dec A 0) as [->|HA]; [rewrite Rmult_0_r, Rinv_0; ring|field; lra].
Qed.
Lemma inner_scale (n v : vec R 2) k : inner n (pmul k v) = k * inner n v.
Proof. rewrite !inner_2, !coord_mul by lia. cbn [smul R_ops]. ring. Qed.
Lemma segment_advancing u (cv : bezier (vec R 2)) n l t0 t1 : length (bz_pts cv) = S (S n) -> advancing u (bz_pts cv) -> 0 <= t0 < t1 -> t1 <= 1 -> length l = S (S n) ->
  (forall i, (i <= n)%nat -> edge l i = pmul (t1 - t0) (hodo (bz_pts cv) (repeat t1 i ++ repeat t0 (n - i)))) -> advancing u l.
Proof.
  intros Hn Ha H0 H1 Hl He i Hi. fold (edge l i). rewrite He by lia. rewrite inner_scale. apply Rmult_lt_0_compat; [lra|].
  apply advancing_hodo; [exact Ha|rewrite app_length, !repeat_length; lia|]. intros x Hx. apply in_repeat2 in Hx. destruct Hx; subst; lra.
Qed.
Lemma bezier_advancing u (pts : list (vec R 2)) f1 a b : advancing u pts -> (2 <= length pts)%nat -> (forall t, vderiv (bernstein_curve pts) t (f1 t)) -> 0 <= a <= b -> b <= 1 ->
  turning f1 a b (side u (f1 b) - side u (f1 a)) /\ forall t, 0 <= t <= 1 -> 0 < inner u (f1 t).
Proof.
  intros Ha Hl Hf H0 H1. destruct (length pts) as [|[|n]] eqn:Hn; try lia.
  assert (Hin : forall t, 0 <= t <= 1 -> 0 < inner u (f1 t)).
  { intros t Ht. rewrite (derivative_hodo pts n f1 t Hn (Hf t)), inner_scale. apply Rmult_lt_0_compat; [apply IZR_lt; lia|].
    apply advancing_hodo; [exact Ha|rewrite repeat_length; lia|]. intros x Hx. apply repeat_spec in Hx. subst; lra. }
  split; [|exact Hin]. apply side_turning; [lra| |intros t Ht; apply Hin; lra].
  intros i Hi t. apply (cont_ext (fun t => IZR (Z.of_nat (S n)) * coord 2 i (hodo pts (repeat t n)))).
  - intros x. rewrite (derivative_hodo pts n f1 x Hn (Hf x)), coord_mul by exact Hi. reflexivity.
  - apply continuity_pt_mult; [apply continuity_pt_const; intros x y; reflexivity|]. now apply tri_cont.
Qed.
Lemma bezier_turning u (cv : bezier (vec R 2)) f1 t0 t1 : (2 <= length (bz_pts cv))%nat -> advancing u (bz_pts cv) -> (forall t, vderiv (bernstein_curve (bz_pts cv)) t (f1 t)) ->
  0 <= t0 <= t1 -> t1 <= 1 -> exists theta, bz_turning_angle cv t0 t1 = Ok theta /\ turning f1 t0 t1 theta.
Proof.
  intros Hl Ha Hf H0 H1. destruct (length (bz_pts cv)) as [|[|n]] eqn:Hn; try lia.
  destruct (segment_edges cv n t0 t1 Hn H0 H1) as (l & E & Hll & _ & He). unfold bz_turning_angle. cbn [Nat.eqb negb]. rewrite E, bind_Ok. cbn [bz_pts mk_bezier].
  destruct (Req_dec t0 t1) as [->|Hne].
  - exists 0. split; [|apply turning_point]. assert (Ez : forall i, (i <= n)%nat -> edge l i = p0).
    { intros i Hi. rewrite He by exact Hi. apply vec_ext; intros k Hk. rewrite coord_mul, coord_0 by exact Hk. cbn [smul s0 R_ops]. ring. }
    destruct (polygon_sum l (fun _ th => th = 0) n Hll) as (th & Eth & ->); [reflexivity| |exact Eth]. intros i th Hi ->. rewrite !Ez by lia. rewrite turn_zero. ring.
  - pose proof (segment_advancing u cv n l t0 t1 Hn Ha ltac:(lra) H1 Hll He) as Hal. rewrite (polygon_advancing u l n Hll Hal). eexists. split; [reflexivity|].
    rewrite !He by lia. rewrite Nat.sub_diag, Nat.sub_0_r. cbn [repeat app]. rewrite app_nil_r, !side_scale by lra.
    assert (Hsc : 0 < IZR (Z.of_nat (S n))) by (apply IZR_lt; lia).
    rewrite <- (side_scale u (hodo (bz_pts cv) (repeat t1 n)) _ Hsc), <- (side_scale u (hodo (bz_pts cv) (repeat t0 n)) _ Hsc).
    rewrite <- !(derivative_hodo (bz_pts cv) n f1 _ Hn (Hf _)). apply (bezier_advancing u (bz_pts cv) f1); try assumption; try lra. lia.
Qed.
(** The result takes the direction at the start to the direction at the end. *)
Lemma bezier_heading (cv : bezier (vec R 2)) f1 l t0 t1 : (2 <= length (bz_pts cv))%nat -> (forall t, vderiv (bernstein_curve (bz_pts cv)) t (f1 t)) -> 0 <= t0 < t1 -> t1 <= 1 ->
  bz_subcurve cv t0 t1 = Ok (mk_bezier l) -> (forall i, (S i < length l)%nat -> nth (S i) l p0 <> nth i l p0) ->
  exists theta, bz_turning_angle cv t0 t1 = Ok theta /\ forall phi, heading (f1 t0) phi -> heading (f1 t1) (phi + theta).
Proof.
  intros Hl Hf H0 H1 El Hz. destruct (length (bz_pts cv)) as [|[|n]] eqn:Hn; try lia.
  destruct (segment_edges cv n t0 t1 Hn) as (l' & E & Hll & _ & He); [lra|lra|]. rewrite El in E. injection E as <-. unfold bz_turning_angle. cbn [Nat.eqb negb]. rewrite El, bind_Ok. cbn [bz_pts mk_bezier].
  assert (Hp : forall i, (i <= n)%nat -> 0 < norm2 (edge l i)).
  { intros i Hi. destruct (norm2_pos (edge l i)) as [P|P]; [exact P|]. exfalso. apply (Hz i); [lia|]. pose proof (norm2_sq (edge l i)) as Q. rewrite <- P in Q.
    assert (A : coord 2 0 (edge l i) = 0) by nra. assert (B : coord 2 1 (edge l i) = 0) by nra. unfold edge in A, B. rewrite coord_sub in A, B by lia. cbn [ssub R_ops] in A, B.
    apply vec_ext; intros k Hk. destruct k as [|[|k]]; [lra|lra|lia]. }
  destruct (polygon_heading l n Hll Hp) as (th & E & Hh). exists th. split; [exact E|]. intros phi Hphi.
  assert (Hsc : 0 < IZR (Z.of_nat (S n))) by (apply IZR_lt; lia). set (N := IZR (Z.of_nat (S n))) in *.
  assert (K : forall t i, (i <= n)%nat -> hodo (bz_pts cv) (repeat t n) = hodo (bz_pts cv) (repeat t1 i ++ repeat t0 (n - i)) -> f1 t = pmul (N / (t1 - t0)) (edge l i) /\ edge l i = pmul ((t1 - t0) / N) (f1 t)).
  { intros t i Hi Hh'. rewrite (derivative_hodo (bz_pts cv) n f1 t Hn (Hf t)), He by exact Hi. fold N. rewrite Hh'.
    split; apply vec_ext; intros k Hk; rewrite !coord_mul by exact Hk; cbn [smul R_ops]; field; lra. }
  destruct (K t0 0%nat) as [_ K0]; [lia|rewrite Nat.sub_0_r; reflexivity|]. destruct (K t1 n) as [K1 _]; [lia|rewrite Nat.sub_diag; cbn [repeat]; now rewrite app_nil_r|].
  rewrite K1. apply heading_scale; [apply Rlt_le, Rdiv_lt_0_compat; lra|]. apply Hh. rewrite K0. apply heading_scale; [apply Rlt_le, Rdiv_lt_0_compat; lra|]. exact Hphi.
Qed.
Lemma bezier_turning_throws d (cv : bezier (vec R d)) t0 t1 : d = 2%nat -> t1 < t0 \/ t0 < 0 \/ 1 < t1 -> bz_turning_angle cv t0 t1 = Throw invalid_setting_error.
Proof. intros -> H. unfold bz_turning_angle. cbn [Nat.eqb negb]. now rewrite bezier_subcurve_throws. Qed.
