(** B-spline patches: values and derivatives. *)
From Coq Require Import Reals Lra Lia List ZArith Bool.
From Verif Require Import Monad MonadFacts LoopFacts Scalar ScalarFacts Spec SpecFacts SpecPatch Polar TensorFacts PatchFacts.
From Verif Require Import ModelCurve CurveFacts ModelBezier BSplineMath ModelBSpline BSplineFacts BSplineThms BSplineThms2 BSplineThms3.
From Verif Require Import ModelPatchBase ModelPatch BezierPatchThms.
Import ListNotations.
Local Open Scope R_scope.

Section Dir.
  Variables (p : nat) (knots : list R).
  Hypothesis Hv : valid_dir p knots.
  Let n := dir_count p knots.
  Let U := knot_of knots.

  Lemma dir_len : length knots = (n + p + 1)%nat /\ (p < n)%nat.
  Proof. destruct Hv as [H1 _ _]. unfold n, dir_count. lia. Qed.

  Lemma dir_degree {P} (pts : list P) : length pts = n -> bspline_degree pts knots = p.
  Proof. intros H. unfold bspline_degree. rewrite H. pose proof dir_len. lia. Qed.

  Lemma dir_valid {P} (pts : list P) : length pts = n -> valid_bspline pts knots.
  Proof.
    intros H. pose proof dir_len as [L1 L2]. pose proof (dir_degree pts H) as E. destruct Hv as [V1 V2 V3].
    split; [lia|rewrite E; lia|exact V2|]. rewrite E, H. exact V3.
  Qed.

  Definition dunw (per : bool) (t : R) : res R :=
    if per then unwrap_parameter per (dir_lo p knots) (dir_hi p knots) t else Ok t.

  Lemma dunw_Ok per t : exists u, wraps per (dir_lo p knots) (dir_hi p knots) t u /\ dunw per t = Ok u.
  Proof.
    destruct Hv as [_ _ V3]. destruct per.
    - destruct (unwrap_correct _ _ t V3) as (u & k & E & Hu & Hr). exists u. split; [|exact E].
      split; [exact Hr|]. exists (- k)%Z. rewrite opp_IZR. rewrite Hu. ring.
    - exists t. split; reflexivity.
  Qed.

  Lemma dir_unwrap {P} (pts : list P) per t : length pts = n ->
    bs_unwrap {| bs_pts := pts; bs_knots := knots; bs_periodic := per |} t = dunw per t.
  Proof.
    intros H. destruct dir_len as [L1 L2].
    unfold bs_unwrap, dunw. cbn [bs_periodic bs_knots bs_pts]. destruct per; [|reflexivity].
    unfold bs_lower, bs_upper, bs_degree. cbn [bs_periodic bs_knots bs_pts].
    assert (Z1 : zlen knots = (Z.of_nat n + Z.of_nat p + 1)%Z) by (unfold zlen; lia).
    assert (Z2 : zlen pts = Z.of_nat n) by (unfold zlen; lia).
    rewrite Z1, Z2.
    rewrite (get_nth _ _ 0) by lia. rewrite bind_Ok. rewrite (get_nth _ _ 0) by lia. rewrite bind_Ok.
    unfold dir_lo, dir_hi. fold n. f_equal; f_equal; lia.
  Qed.

  Lemma wraps_param per t u : dir_param per p knots t -> wraps per (dir_lo p knots) (dir_hi p knots) t u ->
    dir_lo p knots <= u <= dir_hi p knots /\ (nth p knots 0 < nth (p + 1) knots 0 \/ dir_lo p knots < u).
  Proof.
    intros [H1 H2] W. destruct per; cbn in W.
    - destruct W as [W _]. split; [lra|]. destruct H2 as [H2|[E _]]; [now left|discriminate].
    - subst u. split; [destruct H1 as [E|H1]; [discriminate|exact H1]|]. destruct H2 as [H2|[_ H2]]; auto.
  Qed.

  Lemma dir_eval_at d (pts : list (vec R d)) per t u : knots_apart (/ IZR (10 ^ 16)) knots -> length pts = n ->
    dunw per t = Ok u -> dir_lo p knots <= u <= dir_hi p knots ->
    (nth p knots 0 < nth (p + 1) knots 0 \/ dir_lo p knots < u) ->
    bs_evaluate {| bs_pts := pts; bs_knots := knots; bs_periodic := per |} t =
    Ok (lin n (bspline_basis n knots u) pts).
  Proof.
    intros Ha Hl Eu Hu Hs. set (c := {| bs_pts := pts; bs_knots := knots; bs_periodic := per |}).
    assert (E : bs_evaluate c t = bs_evaluate (mk_bspline pts knots) u).
    { pose proof (dir_unwrap pts per t Hl) as E1. fold c in E1. rewrite Eu in E1.
      unfold bs_evaluate. rewrite E1. rewrite (bs_unwrap_off (mk_bspline pts knots) u eq_refl). reflexivity. }
    rewrite E. rewrite (bspline_eval (mk_bspline pts knots) u); cbn [bs_pts bs_knots bs_periodic mk_bspline].
    - f_equal. unfold bspline_curve, lin, bspline_basis. rewrite Hl. apply psum_ext. intros i Hi. f_equal.
      unfold bspline_degree. rewrite Hl. reflexivity.
    - now apply dir_valid.
    - exact Ha.
    - reflexivity.
    - unfold lower_of, upper_of. rewrite (dir_degree pts Hl), Hl. exact Hu.
    - unfold lower_of, regular_start. rewrite (dir_degree pts Hl). unfold dir_lo in Hs. destruct Hs; auto.
  Qed.

  Lemma dir_rep {P} {V : PointOps R P} (c : bspline R P) : bs_knots c = knots -> length (bs_pts c) = n ->
    bsrep c (Z.of_nat n) (Z.of_nat p) U (pts_at (bs_pts c)) /\ kval (Z.of_nat n) (Z.of_nat p) U.
  Proof.
    intros Ek Hl. pose proof (dir_valid (bs_pts c) Hl) as V1. rewrite <- Ek in V1.
    pose proof (valid_rep c V1) as VR. rewrite Ek in VR. rewrite (dir_degree (bs_pts c) Hl), Hl in VR. exact VR.
  Qed.

  Lemma dir_apart : knots_apart (/ IZR (10 ^ 16)) knots -> kapart (Z.of_nat n) (Z.of_nat p) U.
  Proof.
    intros Ha. set (pts := repeat (0 : R) n).
    assert (Hl : length pts = n) by apply repeat_length.
    pose proof (apart_rep (mk_bspline pts knots) (dir_valid pts Hl) Ha) as K. cbn [bs_pts bs_knots mk_bspline] in K.
    rewrite (dir_degree pts Hl), Hl in K. exact K.
  Qed.

  Lemma dir_lo_U : dir_lo p knots = U (Z.of_nat p).
  Proof. unfold dir_lo, U. now rewrite knot_of_nat. Qed.
  Lemma dir_hi_U : dir_hi p knots = U (Z.of_nat n).
  Proof. unfold dir_hi, U. now rewrite knot_of_nat. Qed.
  Lemma dir_mono : mono U 0 (Z.of_nat n + Z.of_nat p).
  Proof.
    set (pts := repeat (0 : R) n). assert (Hl : length pts = n) by apply repeat_length.
    destruct (dir_rep (mk_bspline pts knots) eq_refl Hl) as [_ [K _]]. exact K.
  Qed.

  (** Weights on the span [k] of [u]. *)
  Lemma dir_lin_at d (pts : list (vec R d)) per t u k : knots_apart (/ IZR (10 ^ 16)) knots -> length pts = n ->
    dunw per t = Ok u -> dir_lo p knots <= u <= dir_hi p knots ->
    (nth p knots 0 < nth (p + 1) knots 0 \/ dir_lo p knots < u) ->
    (Z.of_nat p <= k < Z.of_nat n)%Z -> in_span U (U (Z.of_nat n)) k u ->
    let c := {| bs_pts := pts; bs_knots := knots; bs_periodic := per |} in
    bs_evaluate c t = Ok (lin n (fun i => bsW0 U p k i u) pts) /\
    bs_evaluate_derivative c t = Ok (lin n (fun i => bsW1 U p k i u) pts) /\
    bs_evaluate_2nd_derivative c t = Ok (lin n (fun i => bsW2 U p k i u) pts).
  Proof.
    intros Ha Hl Eu Hu Hs Hk Hsp c. destruct (dir_rep c eq_refl Hl) as [Hr Hkv].
    rewrite dir_lo_U, dir_hi_U in Hu. rewrite dir_lo_U in Hs.
    destruct (bs_lin d n p U c t u Hr Hkv (dir_apart Ha)) as (k2 & Hk2 & Hsp2 & E).
    - unfold U in *. rewrite knot_of_nat, knot_of_nat1. rewrite knot_of_nat in Hs. exact Hs.
    - unfold c. rewrite dir_unwrap by exact Hl. exact Eu.
    - exact Hu.
    - assert (k2 = k) by (apply (in_span_unique U (U (Z.of_nat n)) 0 (Z.of_nat n + Z.of_nat p) k2 k u dir_mono); auto; lia).
      subst k2. exact E.
  Qed.

  Lemma dir_span u : dir_lo p knots <= u <= dir_hi p knots ->
    (nth p knots 0 < nth (p + 1) knots 0 \/ dir_lo p knots < u) ->
    exists k, (Z.of_nat p <= k < Z.of_nat n)%Z /\ in_span U (U (Z.of_nat n)) k u.
  Proof.
    intros Hu Hs. set (pts := repeat (0 : R) n). assert (Hl : length pts = n) by apply repeat_length.
    destruct (dir_rep (mk_bspline pts knots) eq_refl Hl) as [Hr Hkv].
    rewrite dir_lo_U, dir_hi_U in Hu. rewrite dir_lo_U in Hs.
    destruct (locate_span_regular _ _ _ _ _ u Hr Hkv) as (k & _ & Hk & Hsp); [|exact Hu|exists k; auto].
    unfold U in *. rewrite knot_of_nat, knot_of_nat1. rewrite knot_of_nat in Hs. exact Hs.
  Qed.
End Dir.

(** ** The representation of an initialised patch *)
Record sfit {d} (s : spatch R (vec R d)) (p q : nat) : Prop := {
  sr_u : sp_degu s = Z.of_nat p;
  sr_v : sp_degv s = Z.of_nat q;
  sr_ku : valid_dir p (sp_ku s);
  sr_kv : valid_dir q (sp_kv s);
  sr_g : zlen (sp_grid s) = (Z.of_nat (dir_count p (sp_ku s)) * Z.of_nat (dir_count q (sp_kv s)))%Z;
}.

Section Eval.
  Context {d : nat} (s : spatch R (vec R d)) (p q : nat) (H : sfit s p q) (Hini : sp_initialize s = Ok s).
  Let n := dir_count p (sp_ku s).
  Let m := dir_count q (sp_kv s).

  Lemma sp_nu_Ok : sp_nu s = Ok (Z.of_nat n).
  Proof.
    destruct (dir_len _ _ (sr_ku _ _ _ H)) as [L1 L2]. fold n in L1, L2.
    unfold sp_nu, checked_degree. rewrite (sr_u _ _ _ H).
    replace (0 <=? Z.of_nat p)%Z with true by (symmetry; apply Z.leb_le; lia). cbn [assert_ bind]. unfold zlen. f_equal. lia.
  Qed.
  Lemma sp_nv_Ok : sp_nv s = Ok (Z.of_nat m).
  Proof.
    destruct (dir_len _ _ (sr_kv _ _ _ H)) as [L1 L2]. fold m in L1, L2.
    unfold sp_nv, checked_degree. rewrite (sr_v _ _ _ H).
    replace (0 <=? Z.of_nat q)%Z with true by (symmetry; apply Z.leb_le; lia). cbn [assert_ bind]. unfold zlen. f_equal. lia.
  Qed.

  Definition srow (i : Z) : list (vec R d) :=
    mklist (Z.of_nat m) (fun j => nth (Z.to_nat (i * Z.of_nat m + j)) (sp_grid s) p0).
  Definition scol (j : Z) : list (vec R d) :=
    mklist (Z.of_nat n) (fun i => nth (Z.to_nat (i * Z.of_nat m + j)) (sp_grid s) p0).
  Lemma len_srow i : length (srow i) = m.
  Proof. unfold srow. rewrite length_mklist, Nat2Z.id. reflexivity. Qed.
  Lemma len_scol j : length (scol j) = n.
  Proof. unfold scol. rewrite length_mklist, Nat2Z.id. reflexivity. Qed.

  Lemma sp_iso_u_Ok : sp_iso_curves_u s =
    Ok (mklist (Z.of_nat m) (fun j => {| bs_pts := scol j; bs_knots := sp_ku s; bs_periodic := sp_peru s |})).
  Proof.
    unfold sp_iso_curves_u. rewrite sp_nu_Ok, sp_nv_Ok, !bind_Ok. apply tabulate_Ok; [lia|]. intros j Hj.
    rewrite (tabulate_Ok _ _ (fun i => nth (Z.to_nat (i * Z.of_nat m + j)) (sp_grid s) p0)); [reflexivity|lia|].
    intros i Hi. apply (garr_of _ _ _ (sr_g _ _ _ H)); assumption.
  Qed.
  Lemma sp_iso_v_Ok : sp_iso_curves_v s =
    Ok (mklist (Z.of_nat n) (fun i => {| bs_pts := srow i; bs_knots := sp_kv s; bs_periodic := sp_perv s |})).
  Proof.
    unfold sp_iso_curves_v. rewrite sp_nu_Ok, sp_nv_Ok, !bind_Ok. apply tabulate_Ok; [lia|]. intros i Hi.
    rewrite (tabulate_Ok _ _ (fun j => nth (Z.to_nat (i * Z.of_nat m + j)) (sp_grid s) p0)); [reflexivity|lia|].
    intros j Hj. apply (garr_of _ _ _ (sr_g _ _ _ H)); assumption.
  Qed.

  Lemma sp_cached :
    sp_isou s = mklist (Z.of_nat m) (fun j => {| bs_pts := scol j; bs_knots := sp_ku s; bs_periodic := sp_peru s |}) /\
    sp_isov s = mklist (Z.of_nat n) (fun i => {| bs_pts := srow i; bs_knots := sp_kv s; bs_periodic := sp_perv s |}).
  Proof.
    pose proof Hini as E. unfold sp_initialize in E.
    destruct (checked_degree (sp_degu s)) as [du| | |]; cbn [bind] in E; try discriminate.
    destruct (checked_degree (sp_degv s)) as [dv| | |]; cbn [bind] in E; try discriminate.
    destruct (_ || _); [discriminate|]. destruct (negb _); [discriminate|].
    rewrite sp_iso_u_Ok, bind_Ok, sp_iso_v_Ok, bind_Ok in E. injection E as E.
    split.
    - transitivity (sp_isou {| sp_tu := sp_tu s; sp_tv := sp_tv s; sp_degu := sp_degu s; sp_degv := sp_degv s; sp_grid := sp_grid s;
            sp_ku := sp_ku s; sp_kv := sp_kv s; sp_peru := sp_peru s; sp_perv := sp_perv s;
            sp_isou := mklist (Z.of_nat m) (fun j => {| bs_pts := scol j; bs_knots := sp_ku s; bs_periodic := sp_peru s |});
            sp_isov := mklist (Z.of_nat n) (fun i => {| bs_pts := srow i; bs_knots := sp_kv s; bs_periodic := sp_perv s |}) |}); [|reflexivity].
      rewrite E. reflexivity.
    - transitivity (sp_isov {| sp_tu := sp_tu s; sp_tv := sp_tv s; sp_degu := sp_degu s; sp_degv := sp_degv s; sp_grid := sp_grid s;
            sp_ku := sp_ku s; sp_kv := sp_kv s; sp_peru := sp_peru s; sp_perv := sp_perv s;
            sp_isou := mklist (Z.of_nat m) (fun j => {| bs_pts := scol j; bs_knots := sp_ku s; bs_periodic := sp_peru s |});
            sp_isov := mklist (Z.of_nat n) (fun i => {| bs_pts := srow i; bs_knots := sp_kv s; bs_periodic := sp_perv s |}) |}); [|reflexivity].
      rewrite E. reflexivity.
  Qed.

  Lemma sp_init_gen : exists s', sp_initialize s = Ok s' /\
    sp_tu s' = sp_tu s /\ sp_tv s' = sp_tv s /\ sp_degu s' = sp_degu s /\ sp_degv s' = sp_degv s /\ sp_grid s' = sp_grid s /\
    sp_ku s' = sp_ku s /\ sp_kv s' = sp_kv s /\ sp_peru s' = sp_peru s /\ sp_perv s' = sp_perv s /\
    sp_initialize s' = Ok s'.
  Proof.
    assert (E : sp_initialize s = Ok {| sp_tu := sp_tu s; sp_tv := sp_tv s; sp_degu := sp_degu s; sp_degv := sp_degv s; sp_grid := sp_grid s;
            sp_ku := sp_ku s; sp_kv := sp_kv s; sp_peru := sp_peru s; sp_perv := sp_perv s;
            sp_isou := mklist (Z.of_nat m) (fun j => {| bs_pts := scol j; bs_knots := sp_ku s; bs_periodic := sp_peru s |});
            sp_isov := mklist (Z.of_nat n) (fun i => {| bs_pts := srow i; bs_knots := sp_kv s; bs_periodic := sp_perv s |}) |}).
    { destruct (dir_len _ _ (sr_ku _ _ _ H)) as [L1 L2]. destruct (dir_len _ _ (sr_kv _ _ _ H)) as [L3 L4].
      fold n in L1, L2. fold m in L3, L4.
      unfold sp_initialize, checked_degree. rewrite (sr_u _ _ _ H), (sr_v _ _ _ H).
      replace (0 <=? Z.of_nat p)%Z with true by (symmetry; apply Z.leb_le; lia).
      replace (0 <=? Z.of_nat q)%Z with true by (symmetry; apply Z.leb_le; lia). cbn [assert_ bind].
      replace (Z.of_nat p <? 0)%Z with false by (symmetry; apply Z.ltb_ge; lia).
      replace (Z.of_nat q <? 0)%Z with false by (symmetry; apply Z.ltb_ge; lia). cbn [orb].
      rewrite (sr_g _ _ _ H). fold n m.
      replace (zlen (sp_ku s) - Z.of_nat p - 1)%Z with (Z.of_nat n) by (unfold zlen; lia).
      replace (zlen (sp_kv s) - Z.of_nat q - 1)%Z with (Z.of_nat m) by (unfold zlen; lia).
      rewrite Z.eqb_refl. cbn [negb]. rewrite sp_iso_u_Ok, bind_Ok, sp_iso_v_Ok, bind_Ok. reflexivity. }
    eexists. split; [exact E|]. repeat split; try reflexivity. exact E.
  Qed.

  (** Iso curves computed from linear evaluators. *)
  Lemma sp_iso_curve_u_lin v bv :
    (forall pts : list (vec R d), length pts = m ->
       bs_evaluate {| bs_pts := pts; bs_knots := sp_kv s; bs_periodic := sp_perv s |} v = Ok (lin m bv pts)) ->
    sp_iso_curve_u s v = Ok {| bs_pts := mklist (Z.of_nat n) (fun i => lin m bv (srow i)); bs_knots := sp_ku s;
      bs_periodic := sp_peru s |}.
  Proof.
    intros Hb. unfold sp_iso_curve_u. rewrite sp_nu_Ok, bind_Ok. destruct sp_cached as [_ ->].
    rewrite (tabulate_Ok _ _ (fun i => lin m bv (srow i))); [reflexivity|lia|].
    intros i Hi. rewrite get_mklist by assumption. rewrite bind_Ok. apply Hb. apply len_srow.
  Qed.
  Lemma sp_iso_curve_v_lin u bu :
    (forall pts : list (vec R d), length pts = n ->
       bs_evaluate {| bs_pts := pts; bs_knots := sp_ku s; bs_periodic := sp_peru s |} u = Ok (lin n bu pts)) ->
    sp_iso_curve_v s u = Ok {| bs_pts := mklist (Z.of_nat m) (fun j => lin n bu (scol j)); bs_knots := sp_kv s;
      bs_periodic := sp_perv s |}.
  Proof.
    intros Hb. unfold sp_iso_curve_v. rewrite sp_nv_Ok, bind_Ok. destruct sp_cached as [-> _].
    rewrite (tabulate_Ok _ _ (fun j => lin n bu (scol j))); [reflexivity|lia|].
    intros j Hj. rewrite get_mklist by assumption. rewrite bind_Ok. apply Hb. apply len_scol.
  Qed.

  Lemma sp_eval_lin u v bu bv :
    (forall pts : list (vec R d), length pts = n ->
       bs_evaluate {| bs_pts := pts; bs_knots := sp_ku s; bs_periodic := sp_peru s |} u = Ok (lin n bu pts)) ->
    (forall pts : list (vec R d), length pts = m ->
       bs_evaluate {| bs_pts := pts; bs_knots := sp_kv s; bs_periodic := sp_perv s |} v = Ok (lin m bv pts)) ->
    sp_evaluate s u v = Ok (tensor_sum n m bu bv (sp_grid s)).
  Proof.
    intros Hu Hw. unfold sp_evaluate. rewrite (sp_iso_curve_u_lin v bv Hw), (sp_iso_curve_v_lin u bu Hu), !bind_Ok.
    destruct (Z.ltb _ _).
    - rewrite Hw by (rewrite length_mklist, Nat2Z.id; reflexivity). f_equal. unfold scol. apply lin_of_cols.
    - rewrite Hu by (rewrite length_mklist, Nat2Z.id; reflexivity). f_equal. unfold srow. apply lin_of_rows.
  Qed.

  Lemma sp_eval_basis u v : knots_apart (/ IZR (10 ^ 16)) (sp_ku s) -> knots_apart (/ IZR (10 ^ 16)) (sp_kv s) ->
    dir_param (sp_peru s) p (sp_ku s) u -> dir_param (sp_perv s) q (sp_kv s) v ->
    exists u' v', wraps (sp_peru s) (dir_lo p (sp_ku s)) (dir_hi p (sp_ku s)) u u' /\
      wraps (sp_perv s) (dir_lo q (sp_kv s)) (dir_hi q (sp_kv s)) v v' /\
      sp_evaluate s u v = Ok (tensor_sum n m (bspline_basis n (sp_ku s) u') (bspline_basis m (sp_kv s) v') (sp_grid s)).
  Proof.
    intros Au Av Du Dv.
    destruct (dunw_Ok p (sp_ku s) (sr_ku _ _ _ H) (sp_peru s) u) as (u' & Wu & Eu).
    destruct (dunw_Ok q (sp_kv s) (sr_kv _ _ _ H) (sp_perv s) v) as (v' & Wv & Ev).
    exists u', v'. split; [exact Wu|]. split; [exact Wv|].
    destruct (wraps_param _ _ _ _ _ Du Wu) as [Ru Su]. destruct (wraps_param _ _ _ _ _ Dv Wv) as [Rv Sv].
    apply sp_eval_lin; intros pts Hl.
    - apply (dir_eval_at p (sp_ku s) (sr_ku _ _ _ H) d pts (sp_peru s) u u' Au Hl Eu Ru Su).
    - apply (dir_eval_at q (sp_kv s) (sr_kv _ _ _ H) d pts (sp_perv s) v v' Av Hl Ev Rv Sv).
  Qed.

  Lemma sp_eval_all u v u' v' k l : knots_apart (/ IZR (10 ^ 16)) (sp_ku s) -> knots_apart (/ IZR (10 ^ 16)) (sp_kv s) ->
    dunw p (sp_ku s) (sp_peru s) u = Ok u' -> dunw q (sp_kv s) (sp_perv s) v = Ok v' ->
    dir_lo p (sp_ku s) <= u' <= dir_hi p (sp_ku s) ->
    (nth p (sp_ku s) 0 < nth (p + 1) (sp_ku s) 0 \/ dir_lo p (sp_ku s) < u') ->
    dir_lo q (sp_kv s) <= v' <= dir_hi q (sp_kv s) ->
    (nth q (sp_kv s) 0 < nth (q + 1) (sp_kv s) 0 \/ dir_lo q (sp_kv s) < v') ->
    (Z.of_nat p <= k < Z.of_nat n)%Z -> in_span (knot_of (sp_ku s)) (knot_of (sp_ku s) (Z.of_nat n)) k u' ->
    (Z.of_nat q <= l < Z.of_nat m)%Z -> in_span (knot_of (sp_kv s)) (knot_of (sp_kv s) (Z.of_nat m)) l v' ->
    let U := knot_of (sp_ku s) in let V := knot_of (sp_kv s) in let g := sp_grid s in
    sp_evaluate s u v = Ok (tensor_sum n m (fun i => bsW0 U p k i u') (fun j => bsW0 V q l j v') g) /\
    sp_evaluate_derivative_u s u v = Ok (tensor_sum n m (fun i => bsW1 U p k i u') (fun j => bsW0 V q l j v') g) /\
    sp_evaluate_derivative_v s u v = Ok (tensor_sum n m (fun i => bsW0 U p k i u') (fun j => bsW1 V q l j v') g) /\
    sp_evaluate_2nd_derivative_uu s u v = Ok (tensor_sum n m (fun i => bsW2 U p k i u') (fun j => bsW0 V q l j v') g) /\
    sp_evaluate_2nd_derivative_vv s u v = Ok (tensor_sum n m (fun i => bsW0 U p k i u') (fun j => bsW2 V q l j v') g).
  Proof.
    intros Au Av Eu Ev Ru Su Rv Sv Hk Ik Hl Il U V g.
    pose proof (fun pts L => dir_lin_at p (sp_ku s) (sr_ku _ _ _ H) d pts (sp_peru s) u u' k Au L Eu Ru Su Hk Ik) as Lu.
    pose proof (fun pts L => dir_lin_at q (sp_kv s) (sr_kv _ _ _ H) d pts (sp_perv s) v v' l Av L Ev Rv Sv Hl Il) as Lv.
    fold n in Lu. fold m in Lv. fold U in Lu. fold V in Lv. cbv zeta in Lu, Lv.
    split; [apply sp_eval_lin; intros pts L; [apply Lu|apply Lv]; exact L|].
    unfold sp_evaluate_derivative_u, sp_evaluate_derivative_v, sp_evaluate_2nd_derivative_uu, sp_evaluate_2nd_derivative_vv.
    rewrite (sp_iso_curve_u_lin v (fun j => bsW0 V q l j v')) by (intros pts L; apply Lv; exact L).
    rewrite (sp_iso_curve_v_lin u (fun i => bsW0 U p k i u')) by (intros pts L; apply Lu; exact L).
    rewrite !bind_Ok.
    destruct (Lu (mklist (Z.of_nat n) (fun i => lin m (fun j => bsW0 V q l j v') (srow i)))) as (A0 & A1 & A2);
      [rewrite length_mklist, Nat2Z.id; reflexivity|].
    destruct (Lv (mklist (Z.of_nat m) (fun j => lin n (fun i => bsW0 U p k i u') (scol j)))) as (B0 & B1 & B2);
      [rewrite length_mklist, Nat2Z.id; reflexivity|].
    unfold srow in *. unfold scol in *. rewrite lin_of_rows in A0, A1, A2. rewrite lin_of_cols in B0, B1, B2.
    repeat split; assumption.
  Qed.
End Eval.
