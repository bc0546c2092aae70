(** Exported classes; PostScript. *)
From Coq Require Import Reals Lra Lia ZArith List Psatz String.
From Verif Require Import Monad MonadFacts Scalar ScalarFacts Spec SpecFacts SpecPatch ModelCurve ModelBezier ModelBSpline ModelRational ModelVector SpecVector AnalysisThms2 BezierThms BSplineFacts BSplineThms BSplineThms3 RationalFacts RationalThms PatchHull VectorThms VectorThms2.
Import ListNotations.
Local Open Scope R_scope.

Lemma weight_sum_pos n b ws : (forall i, (i < n)%nat -> 0 <= b i) -> 0 < rsum n b -> List.length ws = n -> Forall (fun w => 0 < w) ws -> 0 < weight_sum n b ws.
Proof.
  intros B0 B1 Hw HF. rewrite Forall_forall in HF. unfold weight_sum.
  assert (A : forall m, (m <= n)%nat -> 0 <= rsum m (fun i => b i * nth i ws 0) /\ (rsum m (fun i => b i * nth i ws 0) = 0 -> rsum m b = 0)).
  { induction m as [|m IH]; intros Hm.
    - split; [right; reflexivity|reflexivity].
    - destruct (IH ltac:(lia)) as [I1 I2]. rewrite !rsum_S. assert (Hb : 0 <= b m) by (apply B0; lia). assert (Hx : 0 < nth m ws 0) by (apply HF, nth_In; lia).
      pose proof (Rmult_le_pos _ _ Hb (Rlt_le _ _ Hx)) as Hp. split; [lra|]. intros E. assert (Em : b m * nth m ws 0 = 0) by lra.
      rewrite I2 by lra. destruct (Rmult_integral _ _ Em); lra. }
  destruct (A n (Nat.le_refl _)) as [H0 H1]. destruct (Rle_lt_or_eq_dec _ _ H0) as [H|H]; [exact H|]. symmetry in H. apply H1 in H. lra.
Qed.

Lemma weighted_convex {d} n b ws (pts : list (vec R d)) : simplex n b -> length ws = n -> length pts = n -> Forall (fun w => 0 < w) ws ->
  0 < weight_sum n b ws /\ convex_comb pts (weighted_mean n b ws pts).
Proof.
  intros [B0 B1] Hw Hp HF. rewrite Forall_forall in HF.
  assert (Hs : 0 < weight_sum n b ws) by (apply weight_sum_pos; [exact B0|lra|exact Hw|now apply Forall_forall]).
  split; [exact Hs|]. exists (fun i => / weight_sum n b ws * (b i * nth i ws 0)). rewrite Hp. split; [|split].
  - intros i Hi. apply Rmult_le_pos; [left; now apply Rinv_0_lt_compat|]. apply Rmult_le_pos; [now apply B0|left; apply HF, nth_In; lia].
  - rewrite rsum_scal. fold (weight_sum n b ws). apply Rinv_l. lra.
  - unfold weighted_mean. apply vec_ext. intros k Hk. rewrite coord_mul, !coord_psum by exact Hk. rewrite <- rsum_scal. apply rsum_ext. intros i Hi. rewrite !coord_mul by exact Hk. ring.
Qed.

Lemma bezier_hulled (pts : list (vec R 2)) : pts <> [] -> hulled (vc_bezier (mk_bezier pts)) (bernstein_curve pts).
Proof.
  intros Hn. split; cbn [vc_bezier vc_lower vc_upper vc_eval vc_pts s0 s1 R_ops]; [lra|]. intros t Ht. destruct (bezier_convex 2 pts t Hn Ht) as (q & E & Hc).
  rewrite bezier_bernstein in E |- * by exact Hn. split; [reflexivity|]. assert (Eq : bernstein_curve pts t = q) by congruence. now rewrite Eq.
Qed.
Lemma rbezier_hulled (c0 : rbezier R 2) : rb_pts c0 <> [] -> List.length (rb_weights c0) = List.length (rb_pts c0) -> rb_periodic c0 = false -> Forall (fun w => 0 < w) (rb_weights c0) ->
  exists c, rb_initialize c0 = Ok c /\ rb_pts c = rb_pts c0 /\
    hulled (vc_rbezier c) (fun t => let n := List.length (rb_pts c0) in weighted_mean n (bezier_basis n t) (rb_weights c0) (rb_pts c0)).
Proof.
  intros Hn Hl Hp HF. set (n := List.length (rb_pts c0)). destruct (rational_bezier_eval 2 c0 0 Hn Hl Hp) as (c & Hi & _).
  assert (Ep : rb_pts c = rb_pts c0) by (rewrite rb_init_ok in Hi by exact Hl; now injection Hi as <-).
  exists c. split; [exact Hi|]. split; [exact Ep|]. split; cbn [vc_rbezier vc_lower vc_upper vc_eval vc_pts s0 s1 R_ops]; [lra|]. intros t Ht.
  assert (Sx : simplex n (bezier_basis n t)).
  { destruct n as [|m] eqn:En; [unfold n in En; destruct (rb_pts c0); [congruence|discriminate]|]. now apply bezier_simplex. }
  destruct (weighted_convex n _ (rb_weights c0) (rb_pts c0) Sx Hl eq_refl HF) as [Hw Hc]. rewrite Ep. split; [|exact Hc].
  destruct (rational_bezier_eval 2 c0 t Hn Hl Hp) as (c' & Hi' & Ev & _). rewrite Hi in Hi'. assert (Ec : c = c') by congruence. rewrite Ec. apply Ev. fold n. lra.
Qed.

Lemma curve_bounds (c : bspline R (vec R 2)) : valid_bspline (bs_pts c) (bs_knots c) ->
  bs_lower c = Ok (lower_of (bs_pts c) (bs_knots c)) /\ bs_upper c = Ok (upper_of (bs_pts c) (bs_knots c)).
Proof.
  intros Hv. destruct (valid_rep c Hv) as [Hr _]. rewrite (rep_lower _ _ _ _ _ Hr), (rep_upper _ _ _ _ _ Hr). unfold lower_of, upper_of, knot_of. now rewrite !Nat2Z.id.
Qed.
Lemma sub_convex {d} a m (l : list (vec R d)) q : (a + m <= List.length l)%nat -> convex_comb (firstn m (skipn a l)) q -> convex_comb l q.
Proof.
  intros Ha (w & H0 & H1 & ->). assert (Hm : List.length (firstn m (skipn a l)) = m) by (rewrite firstn_length, skipn_length; lia). rewrite Hm in *.
  set (v := fun i => if ((a <=? i) && (i <? a + m))%nat then w (i - a)%nat else 0).
  assert (Sp : forall (g : nat -> R), rsum (List.length l) (fun i => v i * g i) = rsum m (fun i => w i * g (a + i)%nat)).
  { intros g. replace (List.length l) with (a + (m + (List.length l - a - m)))%nat by lia. rewrite !rsum_app.
    rewrite (rsum_ext a _ (fun _ => 0 * 0)), (rsum_ext (List.length l - a - m) _ (fun _ => 0 * 0)).
    - rewrite !rsum_scal. rewrite (rsum_ext m _ (fun i => w i * g (a + i)%nat)); [lra|]. intros i Hi. unfold v.
      destruct (Nat.leb_spec a (a + i)%nat); [|lia]. destruct (Nat.ltb_spec (a + i)%nat (a + m)%nat); [|lia]. cbn [andb]. now replace (a + i - a)%nat with i by lia.
    - intros i Hi. unfold v. destruct (Nat.ltb_spec (a + (m + i))%nat (a + m)%nat); [lia|]. rewrite Bool.andb_false_r. now rewrite !Rmult_0_l.
    - intros i Hi. unfold v. destruct (Nat.leb_spec a i); [lia|]. cbn [andb]. now rewrite !Rmult_0_l. }
  exists v. split; [|split].
  - intros i Hi. unfold v. destruct (Nat.leb_spec a i); [|cbn; lra]. destruct (Nat.ltb_spec i (a + m)%nat); [|cbn; lra]. cbn [andb]. apply H0. lia.
  - transitivity (rsum (List.length l) (fun i => v i * (fun _ => 1) i)); [apply rsum_ext; intros; now rewrite Rmult_1_r|]. rewrite (Sp (fun _ => 1)). transitivity (rsum m w); [|exact H1]. apply rsum_ext. intros. now rewrite Rmult_1_r.
  - apply vec_ext. intros k Hk. rewrite !coord_psum by exact Hk. rewrite (rsum_ext (List.length l) _ (fun i => v i * coord d k (nth i l p0))) by (intros; now apply coord_mul).
    rewrite (Sp (fun i => coord d k (nth i l p0))). apply rsum_ext. intros i Hi. rewrite coord_mul by exact Hk. now rewrite nth_firstn_skipn by lia.
Qed.

Lemma bspline_hulled (c : bspline R (vec R 2)) : valid_bspline (bs_pts c) (bs_knots c) -> knots_apart (/ IZR (10 ^ 16)) (bs_knots c) -> bs_periodic c = false ->
  regular_start (bs_pts c) (bs_knots c) ->
  exists v f, vc_bspline c = Ok v /\ vc_pts v = bs_pts c /\ vc_lower v = lower_of (bs_pts c) (bs_knots c) /\ vc_upper v = upper_of (bs_pts c) (bs_knots c) /\
    (forall t, vc_eval v t = bs_evaluate c t) /\ hulled v f.
Proof.
  intros Hv Ha Hp Hs. destruct (curve_bounds c Hv) as [El Eu].
  exists {| vc_pts := bs_pts c; vc_lower := lower_of (bs_pts c) (bs_knots c); vc_upper := upper_of (bs_pts c) (bs_knots c); vc_eval := bs_evaluate c |}.
  exists (fun t => match bs_evaluate c t with Ok q => q | _ => p0 end). unfold vc_bspline. rewrite El, Eu, !bind_Ok. split; [reflexivity|]. do 4 (split; [reflexivity|]).
  split; cbn [vc_lower vc_upper vc_eval vc_pts]; [left; exact (vb_domain _ _ Hv)|]. intros t Ht.
  destruct (bspline_convex 2 c t Hv Ha Hp Ht (or_introl Hs)) as (a & q & Hl & _ & E & Hc). rewrite E. split; [reflexivity|]. exact (sub_convex _ _ _ _ Hl Hc).
Qed.

Lemma basis_simplex (pts : list (vec R 2)) knots t : valid_bspline pts knots -> nth (bspline_degree pts knots) knots 0 < nth (bspline_degree pts knots + 1) knots 0 ->
  lower_of pts knots <= t <= upper_of pts knots -> simplex (List.length pts) (bspline_basis (List.length pts) knots t).
Proof.
  intros [V1 V2 V3 V4] Hs Ht. unfold bspline_degree, lower_of, upper_of in *. unfold bspline_degree in *. set (p := (List.length knots - List.length pts - 1)%nat) in *.
  assert (E : List.length pts = dir_count p knots) by (unfold dir_count; lia). rewrite E. apply dir_simplex.
  - split; [lia|exact V3|]. unfold dir_lo, dir_hi. rewrite <- E. exact V4.
  - unfold dir_lo, dir_hi. rewrite <- E. exact Ht.
  - now left.
Qed.
Lemma nurbs_hulled (c0 : nurbs R 2) : List.length (nb_weights c0) = List.length (nb_pts c0) -> nb_periodic c0 = false ->
  valid_bspline (nb_pts c0) (nb_knots c0) -> knots_apart (/ IZR (10 ^ 16)) (nb_knots c0) ->
  nth (bspline_degree (nb_pts c0) (nb_knots c0)) (nb_knots c0) 0 < nth (bspline_degree (nb_pts c0) (nb_knots c0) + 1) (nb_knots c0) 0 -> Forall (fun w => 0 < w) (nb_weights c0) ->
  exists c v, nb_initialize c0 = Ok c /\ vc_nurbs c = Ok v /\ vc_pts v = nb_pts c0 /\ vc_lower v = lower_of (nb_pts c0) (nb_knots c0) /\ vc_upper v = upper_of (nb_pts c0) (nb_knots c0) /\
    (forall t, vc_eval v t = nb_evaluate c t) /\
    hulled v (fun t => let n := List.length (nb_pts c0) in weighted_mean n (bspline_basis n (nb_knots c0) t) (nb_weights c0) (nb_pts c0)).
Proof.
  intros Hl Hp Hv Ha Hs HF. set (n := List.length (nb_pts c0)). assert (Hd : lower_of (nb_pts c0) (nb_knots c0) < upper_of (nb_pts c0) (nb_knots c0)) by exact (vb_domain _ _ Hv).
  pose proof (nb_init_ok c0 Hl) as Hi. match type of Hi with _ = Ok ?x => set (c := x) in Hi end.
  set (b := {| bs_pts := nb_pts c0; bs_knots := nb_knots c0; bs_periodic := nb_periodic c0 |}). destruct (curve_bounds b Hv) as [El Eu]. cbn [b bs_pts bs_knots] in El, Eu.
  exists c, {| vc_pts := nb_pts c0; vc_lower := lower_of (nb_pts c0) (nb_knots c0); vc_upper := upper_of (nb_pts c0) (nb_knots c0); vc_eval := nb_evaluate c |}.
  split; [exact Hi|]. split; [unfold vc_nurbs; cbv zeta; change {| bs_pts := nb_pts c; bs_knots := nb_knots c; bs_periodic := nb_periodic c |} with b; now rewrite El, Eu, !bind_Ok|].
  do 4 (split; [reflexivity|]). split; cbn [vc_lower vc_upper vc_eval vc_pts]; [lra|]. intros t Ht.
  destruct (weighted_convex n _ (nb_weights c0) (nb_pts c0) (basis_simplex _ _ t Hv Hs Ht) Hl eq_refl HF) as [Hw Hc]. split; [|exact Hc].
  destruct (rational_bspline_eval 2 c0 t Hl Hp Hv Ha Ht (or_introl (or_introl Hs))) as (c' & Hi' & Ev & _). assert (Ec : c = c') by congruence. rewrite Ec. apply Ev. apply Rgt_not_eq; exact Hw.
Qed.

(** ** Drawings *)
Lemma draw_bezier : forall (pts : list (vec R 2)) (p q : vec R 2), In p pts -> In q pts -> p <> q ->
  exists file, save_svg (vc_bezier (mk_bezier pts)) = Ok file /\ drawing (bernstein_curve pts) 0 1 pts file.
Proof. intros pts p q Hp Hq Hne. assert (Hn : pts <> []) by (intros ->; destruct Hp).
  destruct (save_one (vc_bezier (mk_bezier pts)) (bernstein_curve pts) p q (bezier_hulled pts Hn) Hp Hq Hne) as (file & E & D). exists file. split; [exact E|exact D].
Qed.
Lemma draw_rbezier : forall (c0 : rbezier R 2) (p q : vec R 2), List.length (rb_weights c0) = List.length (rb_pts c0) -> rb_periodic c0 = false ->
  Forall (fun w => 0 < w) (rb_weights c0) -> In p (rb_pts c0) -> In q (rb_pts c0) -> p <> q ->
  let n := List.length (rb_pts c0) in
  exists c file, rb_initialize c0 = Ok c /\ save_svg (vc_rbezier c) = Ok file /\
    drawing (fun t => weighted_mean n (bezier_basis n t) (rb_weights c0) (rb_pts c0)) 0 1 (rb_pts c0) file.
Proof.
  intros c0 p q Hl Hper HF Hp Hq Hne n. destruct (rbezier_hulled c0) as (c & Hi & Ep & Hh); try assumption; [intros E; rewrite E in Hp; destruct Hp|].
  rewrite <- Ep in Hp, Hq. destruct (save_one (vc_rbezier c) _ p q Hh Hp Hq Hne) as (file & E & D). exists c, file. split; [exact Hi|]. split; [exact E|].
  cbn [vc_rbezier vc_pts vc_lower vc_upper] in D. rewrite Ep in D. exact D.
Qed.
Lemma draw_bspline : forall (c : bspline R (vec R 2)) (p q : vec R 2), valid_bspline (bs_pts c) (bs_knots c) -> knots_apart (/ IZR (10 ^ 16)) (bs_knots c) -> bs_periodic c = false ->
  regular_start (bs_pts c) (bs_knots c) -> In p (bs_pts c) -> In q (bs_pts c) -> p <> q ->
  exists v f file, vc_bspline c = Ok v /\ (forall t, lower_of (bs_pts c) (bs_knots c) <= t <= upper_of (bs_pts c) (bs_knots c) -> bs_evaluate c t = Ok (f t)) /\
    save_svg v = Ok file /\ drawing f (lower_of (bs_pts c) (bs_knots c)) (upper_of (bs_pts c) (bs_knots c)) (bs_pts c) file.
Proof.
  intros c p q Hv Ha Hper Hs Hp Hq Hne. destruct (bspline_hulled c Hv Ha Hper Hs) as (v & f & E & Ep & El & Eu & Ev & Hh). rewrite <- Ep in Hp, Hq.
  destruct (save_one v f p q Hh Hp Hq Hne) as (file & Ef & D). exists v, f, file. split; [exact E|]. rewrite <- El, <- Eu, <- Ep. split; [|split; [exact Ef|exact D]].
  intros t Ht. rewrite <- Ev. now apply Hh.
Qed.
Lemma draw_nurbs : forall (c0 : nurbs R 2) (p q : vec R 2), List.length (nb_weights c0) = List.length (nb_pts c0) -> nb_periodic c0 = false ->
  valid_bspline (nb_pts c0) (nb_knots c0) -> knots_apart (/ IZR (10 ^ 16)) (nb_knots c0) ->
  nth (bspline_degree (nb_pts c0) (nb_knots c0)) (nb_knots c0) 0 < nth (bspline_degree (nb_pts c0) (nb_knots c0) + 1) (nb_knots c0) 0 -> Forall (fun w => 0 < w) (nb_weights c0) ->
  In p (nb_pts c0) -> In q (nb_pts c0) -> p <> q ->
  let n := List.length (nb_pts c0) in
  exists c v file, nb_initialize c0 = Ok c /\ vc_nurbs c = Ok v /\ save_svg v = Ok file /\
    drawing (fun t => weighted_mean n (bspline_basis n (nb_knots c0) t) (nb_weights c0) (nb_pts c0)) (lower_of (nb_pts c0) (nb_knots c0)) (upper_of (nb_pts c0) (nb_knots c0)) (nb_pts c0) file.
Proof.
  intros c0 p q Hl Hper Hv Ha Hs HF Hp Hq Hne n. destruct (nurbs_hulled c0 Hl Hper Hv Ha Hs HF) as (c & v & Hi & E & Ep & El & Eu & _ & Hh). rewrite <- Ep in Hp, Hq.
  destruct (save_one v _ p q Hh Hp Hq Hne) as (file & Ef & D). exists c, v, file. split; [exact Hi|]. split; [exact E|]. split; [exact Ef|].
  rewrite <- El, <- Eu. rewrite Ep in D at 1. exact D.
Qed.
