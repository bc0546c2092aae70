(** First derivatives of Bezier patches with template degrees 0 to 3 in floating point arithmetic. *)
From Coq Require Import Reals Lra Lia ZArith QArith List Bool.
From Flocq Require Import Core IEEE754.BinarySingleNaN.
From Verif Require Import Monad MonadFacts Scalar ScalarFacts Spec SpecFacts SpecPatch TensorFacts PatchFacts ModelCurve ModelBezier BezierThms
  ModelBSpline BSplineFacts BSplineThms BSplineThms2 ModelPatchBase ModelPatch SpecFloat ModelFloat FloatFacts FloatThms FloatThms2 FloatThms3
  FloatCases FloatRuns FloatDeriv FloatTotal FloatSplit FloatPatch FloatPatch5 FloatDeriv5.
Import ListNotations.
Local Open Scope R_scope.

(** ** The iso curves *)
Section Structure.
  Context {T P : Type} {SO : ScalarOps T} {V : PointOps T P}.
  Local Open Scope Z_scope.
  Context (s : bpatch P) (n m : nat) (H : grep s n m).
  Hypothesis Hcomm : forall a b : P, padd a b = padd b a.

  Lemma g_static_rows u v (qs : list P) :
    length qs = S n -> (forall i, (i <= n)%nat -> bz_evaluate (mk_bezier (grow s m i)) v = Ok (nth i qs p0)) ->
    bp_evaluate_derivative_u s u v = bzt_evaluate_derivative (bp_tu s) (mk_bezier qs) u.
  Proof.
    intros Hl Hq. unfold bp_evaluate_derivative_u, bp_iso_curve_u.
    rewrite (g_nu s n m H), bind_Ok, (g_rows _ _ (gr_tu _ _ _ H)), bind_Ok, (g_iso_v s n m H), bind_Ok.
    rewrite (tabulate_Ok _ _ (fun i => nth (Z.to_nat i) qs p0)); [|lia|].
    - rewrite !bind_Ok, (gr_pu _ _ _ H), list_mklist by exact Hl. change {| bz_pts := qs; bz_periodic := false |} with (mk_bezier qs).
      reflexivity.
    - intros i Hi. rewrite get_mklist by assumption. rewrite bind_Ok, (g_bzt Hcomm _ m); [apply Hq; lia|apply (gr_tv _ _ _ H)|].
      unfold grow. now rewrite map_length, seq_length.
  Qed.
  Lemma g_static_cols u v (qs : list P) :
    length qs = S m -> (forall j, (j <= m)%nat -> bz_evaluate (mk_bezier (gcol s n m j)) u = Ok (nth j qs p0)) ->
    bp_evaluate_derivative_v s u v = bzt_evaluate_derivative (bp_tv s) (mk_bezier qs) v.
  Proof.
    intros Hl Hq. unfold bp_evaluate_derivative_v, bp_iso_curve_v.
    rewrite (g_nv s n m H), bind_Ok, (g_rows _ _ (gr_tv _ _ _ H)), bind_Ok, (g_iso_u s n m H), bind_Ok.
    rewrite (tabulate_Ok _ _ (fun i => nth (Z.to_nat i) qs p0)); [|lia|].
    - rewrite !bind_Ok, (gr_pv _ _ _ H), list_mklist by exact Hl. change {| bz_pts := qs; bz_periodic := false |} with (mk_bezier qs).
      reflexivity.
    - intros i Hi. rewrite get_mklist by assumption. rewrite bind_Ok, (g_bzt Hcomm _ n); [apply Hq; lia|apply (gr_tu _ _ _ H)|].
      unfold gcol. now rewrite map_length, seq_length.
  Qed.
End Structure.

Section Float.
  Context (prec emax : Z) {Hprec : Prec_gt_0 prec} {Hmax : Prec_lt_emax prec emax}.
  Notation num := (binary_float prec emax).
  Notation u := (unit_roundoff prec).
  Notation eta := (underflow_error prec emax).
  Notation Omega := (bpow radix2 emax).
  Local Instance FOw : ScalarOps num := ieee_ops prec emax.

  (** Evaluating [n + 1] curves of degree [m], then the derivative of the curve of the results. *)
  Lemma two_stage_static d (rows : list (list (vec num d))) (x y : num) n m M :
    (n <= 3)%nat -> length rows = S n -> (forall r, In r rows -> length r = S m) ->
    (forall r p i, In r rows -> In p r -> (i < d)%nat -> is_finite (coord d i p) = true /\ Rabs (B2R (coord d i p)) <= M) ->
    is_finite x = true -> 0 <= B2R x <= 1 -> is_finite y = true -> 0 <= B2R y <= 1 ->
    0 <= M <= bpow radix2 (emax - 1) -> 6 * INR n * (M + 1) <= bpow radix2 (emax - 1) -> 24 * INR (n + m) * u <= 1 ->
    exists qs q f', length qs = S n /\
      (forall k, (k <= n)%nat -> bz_evaluate (mk_bezier (nth k rows [])) y = Ok (nth k qs p0)) /\
      bzt_evaluate_derivative (Z.of_nat n) (mk_bezier qs) x = Ok q /\ vfinite d q /\
      (forall t, vderiv (bernstein_curve (map (fun r => bernstein_curve (map (vreal d) r) (B2R y)) rows)) t (f' t)) /\
      forall i, (i < d)%nat -> Rabs (coord d i (vreal d q) - coord d i (f' (B2R x)))
        <= INR n * ((11 * INR n + 8 * INR m) * u * M + (6 * INR n + 8 * INR m) * eta).
  Proof.
    intros Hn3 Hn Hm Hb Fx Hx Fy Hy HM0 HMn Hu.
    pose proof (u_pos prec) as Hu0. pose proof (eta_pos prec emax) as He0. destruct HM0 as [HM HMo].
    pose proof (pos_INR n) as Hn0. pose proof (pos_INR m) as Hm0. rewrite plus_INR in Hu.
    assert (Hum : 24 * INR m * u <= 1) by nra. assert (Hun : 24 * INR n * u <= 1) by nra.
    assert (HO1 : growth u eta M m < Omega) by (apply (growth_finite prec emax); lra).
    assert (ST : exists qs, length qs = length rows /\ forall k, (k < length rows)%nat ->
      bz_evaluate (mk_bezier (nth k rows [])) y = Ok (nth k qs p0) /\
      forall i, (i < d)%nat -> near prec emax (growth u eta M m) (growth u eta M m - M) (coord d i (nth k qs p0))
          (coord d i (bernstein_curve (map (vreal d) (nth k rows [])) (B2R y)))).
    { clear Hn. induction rows as [|r rows IH]; [exists []; split; [reflexivity|intros k Hk; simpl in Hk; lia]|].
      destruct IH as (qs & Lq & Hq).
      - intros r' Hr. apply Hm. now right.
      - intros r' p i Hr. apply (Hb r' p i). now right.
      - destruct (bezier_near prec emax d r y m M (Hm r (or_introl eq_refl))) as (q & Eq & Nq).
        + intros p i Hp Hi. apply (Hb r p i (or_introl eq_refl) Hp Hi).
        + exact Fy.
        + exact Hy.
        + exact HO1.
        + exists (q :: qs). split; [simpl; now rewrite Lq|]. intros [|k] Hk; [split; [exact Eq|exact Nq]|]. apply Hq. simpl in Hk. lia. }
    destruct ST as (qs & Lq & Hq). rewrite Hn in *.
    pose proof (growth_bound prec emax M m HM Hum) as GB. pose proof (growth_ge prec emax M m HM) as GM.
    set (G := growth u eta M m) in *.
    assert (Heu : eta <= u).
    { pose proof (prec_gt_0 prec). pose proof (prec_lt_emax prec emax). unfold underflow_error, unit_roundoff. apply bpow_le. lia. }
    assert (HmuM : INR m * u * M <= / 24 * M) by (apply Rmult_le_compat_r; lra).
    assert (HG : G <= 7 / 6 * M + 3 * (INR m * eta)) by (replace (INR m * (4 * u * M + 3 * eta)) with (4 * (INR m * u * M) + 3 * (INR m * eta)) in GB by ring; lra).
    assert (Hme : INR m * eta <= / 24) by (assert (INR m * eta <= INR m * u) by (apply Rmult_le_compat_l; lra); lra).
    destruct (static_derivative_error prec emax d qs x n G Hn3) as (q & g' & Eq & Fq & Dq & Bq).
    - exact Lq.
    - lra.
    - assert (INR n * G <= INR n * (7 / 6 * M + / 8)) by (apply Rmult_le_compat_l; lra). lra.
    - exact Hun.
    - intros p Hp. apply (In_nth _ _ p0) in Hp. destruct Hp as (k & Hk & <-). destruct (Hq k ltac:(lia)) as [_ N].
      split; [apply (vfinite_coord prec emax d); intros i Hi; apply (N i Hi)|].
      intros i Hi. rewrite (vreal_coord prec emax). apply (N i Hi).
    - exact Fx.
    - exact Hx.
    - set (ex := map (fun r => bernstein_curve (map (@vreal prec emax d) r) (B2R y)) rows).
      assert (Lex : length ex = S n) by (unfold ex; now rewrite map_length).
      assert (Lrq : length (map (vreal d) qs) = S n) by (now rewrite map_length).
      destruct (bernstein_derivative d ex) as (f' & Df & Ef); [intros X; rewrite X in Lex; discriminate|].
      destruct (bernstein_derivative d (map (vreal d) qs)) as (h' & Dh & Eh); [intros X; rewrite X in Lrq; discriminate|].
      exists qs, q, f'. split; [exact Lq|]. split; [intros k Hk; apply Hq; lia|]. split; [exact Eq|]. split; [exact Fq|].
      split; [exact Df|]. intros i Hi.
      assert (Hgh : coord d i (g' (B2R x)) = coord d i (h' (B2R x))).
      { apply (uniqueness_limite (fun z => coord d i (bernstein_curve (map (vreal d) qs) z)) (B2R x)); [apply Dq|apply Dh]; exact Hi. }
      pose proof (Bq i Hi) as B. rewrite Hgh in B.
      assert (DN : Rabs (coord d i (h' (B2R x)) - coord d i (f' (B2R x))) <= 2 * INR n * (G - M)).
      { apply (derivative_near d (map (vreal d) qs) ex n i (G - M) (B2R x)); try assumption; try apply Eh; try apply Ef; try lra.
        intros k Hk. destruct (Hq k ltac:(lia)) as [_ N]. destruct (N i Hi) as (_ & _ & N4). unfold ex.
        rewrite (nth_indep (map (vreal d) qs) p0 (vreal d p0)) by (rewrite map_length; lia).
        rewrite map_nth.
        rewrite (nth_indep (map _ rows) p0 (bernstein_curve (map (@vreal prec emax d) []) (B2R y))) by (rewrite map_length; lia).
        rewrite (map_nth (fun r => bernstein_curve (map (@vreal prec emax d) r) (B2R y)) rows []).
        rewrite (vreal_coord prec emax). exact N4. }
      set (A := coord d i (vreal d q)) in *. set (C := coord d i (h' (B2R x))) in *. set (D := coord d i (f' (B2R x))) in *.
      replace (A - D) with ((A - C) + (C - D)) by ring. eapply Rle_trans; [apply Rabs_triang|].
      eapply Rle_trans; [apply Rplus_le_compat; [exact B|exact DN]|].
      replace (2 * INR n * (G - M)) with (INR n * (2 * (G - M))) by ring. rewrite <- Rmult_plus_distr_l.
      apply Rmult_le_compat_l; [exact Hn0|].
      assert (Hnu : INR n * u * G <= INR n * u * (7 / 6 * M + 3 * (INR m * eta))) by (apply Rmult_le_compat_l; [nra|exact HG]).
      assert (INR n * u * (INR m * eta) <= / 24 * (INR m * eta)) by (apply Rmult_le_compat_r; [apply Rmult_le_pos; lra|lra]).
      assert (0 <= INR n * u * M) by (apply Rmult_le_pos; nra). assert (0 <= INR m * eta) by (apply Rmult_le_pos; lra).
      replace (9 * INR n * u * G) with (9 * (INR n * u * G)) by ring. replace (6 * INR n * eta) with (6 * (INR n * eta)) by ring.
      replace ((11 * INR n + 8 * INR m) * u * M + (6 * INR n + 8 * INR m) * eta)
        with (11 * (INR n * u * M) + 8 * (INR m * u * M) + 6 * (INR n * eta) + 8 * (INR m * eta)) by ring.
      replace (INR m * (4 * u * M + 3 * eta)) with (4 * (INR m * u * M) + 3 * (INR m * eta)) in GB by ring.
      lra.
  Qed.

  Lemma patch_static_derivative_error d (s : bpatch (vec num d)) (x y : num) M :
    bp_initialize s = Ok s ->
    (bp_tu s = -1 \/ bp_tu s = bp_degu s)%Z -> (bp_tv s = -1 \/ bp_tv s = bp_degv s)%Z ->
    bp_peru s = false -> bp_perv s = false ->
    let n := Z.to_nat (bp_degu s) in
    let m := Z.to_nat (bp_degv s) in
    0 <= M <= bpow radix2 (emax - 1) -> 24 * INR (n + m) * u <= 1 ->
    (forall p, In p (bp_grid s) -> vfinite d p /\ forall i, (i < d)%nat -> Rabs (coord d i (vreal d p)) <= M) ->
    is_finite x = true -> 0 <= B2R x <= 1 -> is_finite y = true -> 0 <= B2R y <= 1 ->
    ((0 <= bp_tu s <= 3)%Z -> 6 * INR n * (M + 1) <= bpow radix2 (emax - 1) ->
     exists (q : vec num d) (f' : R -> vec R d), bp_evaluate_derivative_u s x y = Ok q /\ vfinite d q /\
       (forall t, vderiv (fun z => tensor_sum (S n) (S m) (bezier_basis (S n) z) (bezier_basis (S m) (B2R y)) (map (vreal d) (bp_grid s))) t (f' t)) /\
       forall i, (i < d)%nat -> Rabs (coord d i (vreal d q) - coord d i (f' (B2R x)))
         <= INR n * ((11 * INR n + 8 * INR m) * u * M + (6 * INR n + 8 * INR m) * eta)) /\
    ((0 <= bp_tv s <= 3)%Z -> 6 * INR m * (M + 1) <= bpow radix2 (emax - 1) ->
     exists (q : vec num d) (f' : R -> vec R d), bp_evaluate_derivative_v s x y = Ok q /\ vfinite d q /\
       (forall t, vderiv (fun z => tensor_sum (S n) (S m) (bezier_basis (S n) (B2R x)) (bezier_basis (S m) z) (map (vreal d) (bp_grid s))) t (f' t)) /\
       forall i, (i < d)%nat -> Rabs (coord d i (vreal d q) - coord d i (f' (B2R y)))
         <= INR m * ((11 * INR m + 8 * INR n) * u * M + (6 * INR m + 8 * INR n) * eta)).
  Proof.
    intros HI Htu Htv Hpu Hpv n m HM Hu Hp Fx Hx Fy Hy.
    pose proof (grep_of_initialize s HI Htu Htv Hpu Hpv) as H. fold n in H. fold m in H.
    assert (Hg : length (bp_grid s) = (S n * S m)%nat) by (pose proof (gr_g _ _ _ H) as X; unfold zlen in X; nia).
    assert (Hb : forall k i, (k < length (bp_grid s))%nat -> (i < d)%nat ->
      is_finite (coord d i (nth k (bp_grid s) p0)) = true /\ Rabs (B2R (coord d i (nth k (bp_grid s) p0))) <= M).
    { intros k i Hk Hi. destruct (Hp (nth k (bp_grid s) p0) (nth_In _ _ Hk)) as [H1 H2].
      split; [now apply (vfinite_coord prec emax d)|]. pose proof (H2 i Hi) as H3. rewrite (vreal_coord prec emax) in H3. exact H3. }
    assert (HC : forall a b : vec num d, padd a b = padd b a) by exact (padd_comm_num prec emax d).
    assert (Hu' : 24 * INR (m + n) * u <= 1) by (rewrite Nat.add_comm; exact Hu).
    split.
    - intros Ht HMn.
      assert (En : bp_tu s = Z.of_nat n) by (unfold n; lia).
      destruct (two_stage_static d (map (grow s m) (seq 0 (S n))) x y n m M ltac:(lia)) as (qs & q & f' & Lq & Eqs & Eq & Fq & Df & Hq); try assumption.
      + now rewrite map_length, seq_length.
      + intros r Hr. apply in_map_iff in Hr. destruct Hr as (j & <- & _). unfold grow. now rewrite map_length, seq_length.
      + intros r p i Hr Hpr Hi. apply in_map_iff in Hr. destruct Hr as (j & <- & Hj). unfold grow in Hpr.
        apply in_map_iff in Hpr. destruct Hpr as (k & <- & Hk). apply in_seq in Hj, Hk. apply Hb; [rewrite Hg; nia|exact Hi].
      + exists q, f'. split.
        { rewrite (g_static_rows s n m H HC x y qs Lq); [rewrite En; exact Eq|]. intros j Hj.
          rewrite <- Eqs by exact Hj. f_equal. f_equal.
          rewrite (nth_indep _ [] (grow s m 0%nat)) by (rewrite map_length, seq_length; lia). now rewrite map_nth, seq_nth by lia. }
        split; [exact Fq|]. split; [|exact Hq].
        intros t i Hi. pose proof (Df t i Hi) as X.
        match goal with |- derivable_pt_lim ?F _ _ => apply (derivable_pt_lim_ext (fun z => coord d i (bernstein_curve (map (fun r => bernstein_curve (map (@vreal prec emax d) r) (B2R y)) (map (grow s m) (seq 0 (S n)))) z))) end; [|exact X].
        intros z. f_equal. exact (bernstein_rows prec emax d (bp_grid s) n m z (B2R y) Hg).
    - intros Ht HMn.
      assert (En : bp_tv s = Z.of_nat m) by (unfold m; lia).
      destruct (two_stage_static d (map (gcol s n m) (seq 0 (S m))) y x m n M ltac:(lia)) as (qs & q & f' & Lq & Eqs & Eq & Fq & Df & Hq); try assumption.
      + now rewrite map_length, seq_length.
      + intros r Hr. apply in_map_iff in Hr. destruct Hr as (j & <- & _). unfold gcol. now rewrite map_length, seq_length.
      + intros r p i Hr Hpr Hi. apply in_map_iff in Hr. destruct Hr as (j & <- & Hj). unfold gcol in Hpr.
        apply in_map_iff in Hpr. destruct Hpr as (k & <- & Hk). apply in_seq in Hj, Hk. apply Hb; [rewrite Hg; nia|exact Hi].
      + exists q, f'. split.
        { rewrite (g_static_cols s n m H HC x y qs Lq); [rewrite En; exact Eq|]. intros j Hj.
          rewrite <- Eqs by exact Hj. f_equal. f_equal.
          rewrite (nth_indep _ [] (gcol s n m 0%nat)) by (rewrite map_length, seq_length; lia). now rewrite map_nth, seq_nth by lia. }
        split; [exact Fq|]. split; [|exact Hq].
        intros t i Hi. pose proof (Df t i Hi) as X.
        match goal with |- derivable_pt_lim ?F _ _ => apply (derivable_pt_lim_ext (fun z => coord d i (bernstein_curve (map (fun r => bernstein_curve (map (@vreal prec emax d) r) (B2R x)) (map (gcol s n m) (seq 0 (S m)))) z))) end; [|exact X].
        intros z. f_equal. exact (bernstein_cols prec emax d (bp_grid s) n m (B2R x) z Hg).
  Qed.
End Float.

Lemma patch_static_derivative_double : forall (d : nat) (s : bpatch (vec double d)) (x y : double) (M : R),
  bp_initialize s = Ok s ->
  (bp_tu s = -1 \/ bp_tu s = bp_degu s)%Z -> (bp_tv s = -1 \/ bp_tv s = bp_degv s)%Z ->
  bp_peru s = false -> bp_perv s = false ->
  let n := Z.to_nat (bp_degu s) in
  let m := Z.to_nat (bp_degv s) in
  0 <= M <= bpow radix2 1023 -> 24 * INR (n + m) * unit_roundoff 53 <= 1 ->
  (forall p, In p (bp_grid s) -> vfinite d p /\ forall i, (i < d)%nat -> Rabs (coord d i (vreal d p)) <= M) ->
  is_finite x = true -> 0 <= B2R x <= 1 -> is_finite y = true -> 0 <= B2R y <= 1 ->
  ((0 <= bp_tu s <= 3)%Z -> 6 * INR n * (M + 1) <= bpow radix2 1023 ->
   exists (q : vec double d) (f' : R -> vec R d), @bp_evaluate_derivative_u double (vec double d) double_ops (@vec_ops double double_ops d) s x y = Ok q /\ vfinite d q /\
     (forall t, vderiv (fun z => tensor_sum (S n) (S m) (bezier_basis (S n) z) (bezier_basis (S m) (B2R y)) (map (vreal d) (bp_grid s))) t (f' t)) /\
     forall i, (i < d)%nat -> Rabs (coord d i (vreal d q) - coord d i (f' (B2R x)))
       <= INR n * ((11 * INR n + 8 * INR m) * unit_roundoff 53 * M + (6 * INR n + 8 * INR m) * underflow_error 53 1024)) /\
  ((0 <= bp_tv s <= 3)%Z -> 6 * INR m * (M + 1) <= bpow radix2 1023 ->
   exists (q : vec double d) (f' : R -> vec R d), @bp_evaluate_derivative_v double (vec double d) double_ops (@vec_ops double double_ops d) s x y = Ok q /\ vfinite d q /\
     (forall t, vderiv (fun z => tensor_sum (S n) (S m) (bezier_basis (S n) (B2R x)) (bezier_basis (S m) z) (map (vreal d) (bp_grid s))) t (f' t)) /\
     forall i, (i < d)%nat -> Rabs (coord d i (vreal d q) - coord d i (f' (B2R y)))
       <= INR m * ((11 * INR m + 8 * INR n) * unit_roundoff 53 * M + (6 * INR m + 8 * INR n) * underflow_error 53 1024)).
Proof. exact (@patch_static_derivative_error 53 1024 prec64 max64). Qed.

Lemma patch_static_derivative_float : forall (d : nat) (s : bpatch (vec float32 d)) (x y : float32) (M : R),
  bp_initialize s = Ok s ->
  (bp_tu s = -1 \/ bp_tu s = bp_degu s)%Z -> (bp_tv s = -1 \/ bp_tv s = bp_degv s)%Z ->
  bp_peru s = false -> bp_perv s = false ->
  let n := Z.to_nat (bp_degu s) in
  let m := Z.to_nat (bp_degv s) in
  0 <= M <= bpow radix2 127 -> 24 * INR (n + m) * unit_roundoff 24 <= 1 ->
  (forall p, In p (bp_grid s) -> vfinite d p /\ forall i, (i < d)%nat -> Rabs (coord d i (vreal d p)) <= M) ->
  is_finite x = true -> 0 <= B2R x <= 1 -> is_finite y = true -> 0 <= B2R y <= 1 ->
  ((0 <= bp_tu s <= 3)%Z -> 6 * INR n * (M + 1) <= bpow radix2 127 ->
   exists (q : vec float32 d) (f' : R -> vec R d), @bp_evaluate_derivative_u float32 (vec float32 d) float32_ops (@vec_ops float32 float32_ops d) s x y = Ok q /\ vfinite d q /\
     (forall t, vderiv (fun z => tensor_sum (S n) (S m) (bezier_basis (S n) z) (bezier_basis (S m) (B2R y)) (map (vreal d) (bp_grid s))) t (f' t)) /\
     forall i, (i < d)%nat -> Rabs (coord d i (vreal d q) - coord d i (f' (B2R x)))
       <= INR n * ((11 * INR n + 8 * INR m) * unit_roundoff 24 * M + (6 * INR n + 8 * INR m) * underflow_error 24 128)) /\
  ((0 <= bp_tv s <= 3)%Z -> 6 * INR m * (M + 1) <= bpow radix2 127 ->
   exists (q : vec float32 d) (f' : R -> vec R d), @bp_evaluate_derivative_v float32 (vec float32 d) float32_ops (@vec_ops float32 float32_ops d) s x y = Ok q /\ vfinite d q /\
     (forall t, vderiv (fun z => tensor_sum (S n) (S m) (bezier_basis (S n) (B2R x)) (bezier_basis (S m) z) (map (vreal d) (bp_grid s))) t (f' t)) /\
     forall i, (i < d)%nat -> Rabs (coord d i (vreal d q) - coord d i (f' (B2R y)))
       <= INR m * ((11 * INR m + 8 * INR n) * unit_roundoff 24 * M + (6 * INR m + 8 * INR n) * underflow_error 24 128)).
Proof. exact (@patch_static_derivative_error 24 128 prec32 max32). Qed.

(** The patch [dpatch] with the template degrees 2 and 1. *)
Definition dpatch2 : bpatch (vec double 2) :=
  {| bp_tu := 2; bp_tv := 1; bp_degu := 2; bp_degv := 1; bp_grid := bp_grid dpatch; bp_peru := false; bp_perv := false |}.
Lemma dpatch2_case : let s := dpatch2 in let x := dofQ (3 # 10) in let y := dofQ (1 # 10) in
  let n := Z.to_nat (bp_degu s) in
  let m := Z.to_nat (bp_degv s) in
  n = 2%nat /\ m = 1%nat /\ bp_initialize s = Ok s /\ bp_tu s = 2%Z /\ bp_tv s = 1%Z /\
  bp_peru s = false /\ bp_perv s = false /\
  0 <= 4 <= bpow radix2 1023 /\ 24 * INR (n + m) * unit_roundoff 53 <= 1 /\
  (forall p, In p (bp_grid s) -> vfinite 2 p /\ forall i, (i < 2)%nat -> Rabs (coord 2 i (vreal 2 p)) <= 4) /\
  is_finite x = true /\ 0 <= B2R x <= 1 /\ is_finite y = true /\ 0 <= B2R y <= 1 /\
  6 * INR n * (4 + 1) <= bpow radix2 1023 /\ 6 * INR m * (4 + 1) <= bpow radix2 1023.
Proof.
  cbv zeta. destruct dpatch_case as (_ & _ & _ & _ & _ & _ & _ & HM & HU & HP & Fx & Hx & Fy & Hy).
  set (x := dofQ (3 # 10)) in *. clearbody x. set (y := dofQ (1 # 10)) in *. clearbody y.
  assert (HB : 64 <= bpow radix2 1023) by (change 64 with (bpow radix2 6); apply bpow_le; lia).
  repeat (split; [reflexivity|]). split; [exact HM|]. split; [exact HU|]. split; [exact HP|].
  split; [exact Fx|]. split; [exact Hx|]. split; [exact Fy|]. split; [exact Hy|].
  change (Z.to_nat (bp_degu dpatch2)) with 2%nat. change (Z.to_nat (bp_degv dpatch2)) with 1%nat. simpl INR. split; lra.
Qed.
