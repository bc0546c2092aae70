(** Second derivatives of Bezier patches in floating point arithmetic. *)
From Coq Require Import Reals Lra Lia ZArith QArith List Bool.
From Flocq Require Import Core IEEE754.BinarySingleNaN.
From Verif Require Import Monad MonadFacts Scalar ScalarFacts Spec SpecFacts SpecPatch TensorFacts PatchFacts ModelCurve ModelBezier BezierThms
  ModelBSpline BSplineFacts BSplineThms BSplineThms2 ModelPatchBase ModelPatch SpecFloat ModelFloat FloatFacts FloatThms FloatThms2 FloatThms3
  FloatCases FloatRuns FloatDeriv FloatTotal FloatSplit FloatPatch FloatPatch5 FloatDeriv3.
Import ListNotations.
Local Open Scope R_scope.

(** ** Second derivatives of curves with near control points *)
Lemma bernstein_derivative2 d (pts : list (vec R d)) : pts <> [] ->
  exists f' f2, (forall t, vderiv (bernstein_curve pts) t (f' t)) /\ (forall t, vderiv f' t (f2 t)) /\
    forall t, bz_evaluate_2nd_derivative (mk_bezier pts) t = Ok (f2 t).
Proof.
  intros Hne. destruct (bezier_derivatives d pts Hne) as (f & f' & f2 & E0 & E1 & E2 & HV & HV2). exists f', f2.
  split; [|split; [exact HV2|exact E2]].
  intros s i Hi. specialize (HV s i Hi).
  replace (fun x => coord d i (bernstein_curve pts x)) with (fun x => coord d i (f x)); [exact HV|].
  apply FunctionalExtensionality.functional_extensionality. intros x.
  pose proof (E0 x) as Hx. rewrite (bezier_bernstein d pts x Hne) in Hx.
  assert (Hx' : bernstein_curve pts x = f x) by congruence. now rewrite Hx'.
Qed.

Lemma derivative2_near d (l l' : list (vec R d)) n i E t v v' : length l = S n -> length l' = S n -> (i < d)%nat -> 0 <= t <= 1 -> 0 <= E ->
  (forall k, (k <= n)%nat -> Rabs (coord d i (nth k l p0) - coord d i (nth k l' p0)) <= E) ->
  bz_evaluate_2nd_derivative (mk_bezier l) t = Ok v -> bz_evaluate_2nd_derivative (mk_bezier l') t = Ok v' ->
  Rabs (coord d i v - coord d i v') <= 4 * (INR n * (INR n - 1)) * E.
Proof.
  intros Hl Hl' Hi Ht HE H. destruct n as [|[|n]].
  - unfold bz_evaluate_2nd_derivative, bz_unwrap, bz_degree. cbn [bz_periodic mk_bezier bz_pts]. rewrite !bind_Ok.
    replace (zlen l - 1)%Z with 0%Z by (unfold zlen; lia). replace (zlen l' - 1)%Z with 0%Z by (unfold zlen; lia).
    intros E1 E2.
    match type of E1 with ?a = _ => assert (X1 : a = Ok (p0 : vec R d)) by reflexivity end.
    match type of E2 with ?a = _ => assert (X2 : a = Ok (p0 : vec R d)) by reflexivity end.
    replace v with (p0 : vec R d) by congruence. replace v' with (p0 : vec R d) by congruence.
    rewrite Rminus_eq_0, Rabs_R0. simpl INR. lra.
  - unfold bz_evaluate_2nd_derivative, bz_unwrap, bz_degree. cbn [bz_periodic mk_bezier bz_pts]. rewrite !bind_Ok.
    replace (zlen l - 1)%Z with 1%Z by (unfold zlen; lia). replace (zlen l' - 1)%Z with 1%Z by (unfold zlen; lia).
    intros E1 E2.
    match type of E1 with ?a = _ => assert (X1 : a = Ok (p0 : vec R d)) by reflexivity end.
    match type of E2 with ?a = _ => assert (X2 : a = Ok (p0 : vec R d)) by reflexivity end.
    replace v with (p0 : vec R d) by congruence. replace v' with (p0 : vec R d) by congruence.
    rewrite Rminus_eq_0, Rabs_R0. simpl INR. lra.
  - rewrite (bz_2nd_derivative_gtri l t n Hl), (bz_2nd_derivative_gtri l' t n Hl'). intros E1 E2.
    assert (X1 : v = gtri (fun _ _ a b => padd (pmul t b) (pmul (ssub s1 t) a)) (dcoefz (S n) (dcoef (S (S n)) l)) n (Z.of_nat n)) by congruence.
    assert (X2 : v' = gtri (fun _ _ a b => padd (pmul t b) (pmul (ssub s1 t) a)) (dcoefz (S n) (dcoef (S (S n)) l')) n (Z.of_nat n)) by congruence.
    rewrite X1, X2. apply gtri_close; [exact Hi|exact Ht|]. intros k Hk. unfold dcoefz, dcoef.
    rewrite !coord_mul, !coord_sub, !coord_mul, !coord_sub by exact Hi. cbn [smul ssub sofZ R_ops]. rewrite <- !INR_IZR_INZ.
    replace (INR (S (S n)) - 1) with (INR (S n)) by (rewrite (S_INR (S n)); ring).
    pose proof (H (Z.to_nat (k + 1 + 1)) ltac:(lia)) as A. pose proof (H (Z.to_nat (k + 1)) ltac:(lia)) as B. pose proof (H (Z.to_nat k) ltac:(lia)) as C.
    set (N := INR (S n)). set (N' := INR (S (S n))). assert (HN : 0 <= N) by apply pos_INR. assert (HN' : 0 <= N') by apply pos_INR.
    assert (HNN : 0 <= N' * N) by (apply Rmult_le_pos; assumption).
    match goal with |- Rabs (N * (N' * (?a - ?b) - N' * (_ - ?c)) - N * (N' * (?a' - ?b') - N' * (_ - ?c'))) <= _ =>
      replace (N * (N' * (a - b) - N' * (b - c)) - N * (N' * (a' - b') - N' * (b' - c')))
        with ((N' * N) * ((a - a') - 2 * (b - b') + (c - c'))) by ring end.
    rewrite Rabs_mult, (Rabs_pos_eq (N' * N) HNN). replace (4 * (N' * N) * E) with (N' * N * (4 * E)) by ring. apply Rmult_le_compat_l; [exact HNN|].
    apply Rabs_le_inv in A. apply Rabs_le_inv in B. apply Rabs_le_inv in C. apply Rabs_le. lra.
Qed.

(** ** The iso curves *)
Section Structure.
  Context {T P : Type} {SO : ScalarOps T} {V : PointOps T P}.
  Local Open Scope Z_scope.
  Context (s : bpatch P) (n m : nat) (H : grep s n m).
  Hypothesis Hcomm : forall a b : P, padd a b = padd b a.

  Lemma bzt_generic2 tdeg : tdeg < 0 \/ 4 <= tdeg -> bzt_evaluate_2nd_derivative tdeg = bz_evaluate_2nd_derivative.
  Proof.
    intros Ht. unfold bzt_evaluate_2nd_derivative, bzt.
    destruct (Z.eqb_spec tdeg 0); [lia|]. destruct (Z.eqb_spec tdeg 1); [lia|].
    destruct (Z.eqb_spec tdeg 2); [lia|]. destruct (Z.eqb_spec tdeg 3); [lia|]. reflexivity.
  Qed.

  Lemma g_derivative2_rows u v (qs : list P) :
    length qs = S n -> (forall i, (i <= n)%nat -> bz_evaluate (mk_bezier (grow s m i)) v = Ok (nth i qs p0)) ->
    (bp_tu s < 0 \/ 4 <= bp_tu s) -> bp_evaluate_2nd_derivative_uu s u v = bz_evaluate_2nd_derivative (mk_bezier qs) u.
  Proof.
    intros Hl Hq Hd. unfold bp_evaluate_2nd_derivative_uu, bp_iso_curve_u.
    rewrite (g_nu s n m H), bind_Ok, (g_rows _ _ (gr_tu _ _ _ H)), bind_Ok, (g_iso_v s n m H), bind_Ok.
    rewrite (tabulate_Ok _ _ (fun i => nth (Z.to_nat i) qs p0)); [|lia|].
    - rewrite !bind_Ok, (gr_pu _ _ _ H), list_mklist by exact Hl. change {| bz_pts := qs; bz_periodic := false |} with (mk_bezier qs).
      now rewrite bzt_generic2.
    - intros i Hi. rewrite get_mklist by assumption. rewrite bind_Ok, (g_bzt Hcomm _ m); [apply Hq; lia|apply (gr_tv _ _ _ H)|].
      unfold grow. now rewrite map_length, seq_length.
  Qed.
  Lemma g_derivative2_cols u v (qs : list P) :
    length qs = S m -> (forall j, (j <= m)%nat -> bz_evaluate (mk_bezier (gcol s n m j)) u = Ok (nth j qs p0)) ->
    (bp_tv s < 0 \/ 4 <= bp_tv s) -> bp_evaluate_2nd_derivative_vv s u v = bz_evaluate_2nd_derivative (mk_bezier qs) v.
  Proof.
    intros Hl Hq Hd. unfold bp_evaluate_2nd_derivative_vv, bp_iso_curve_v.
    rewrite (g_nv s n m H), bind_Ok, (g_rows _ _ (gr_tv _ _ _ H)), bind_Ok, (g_iso_u s n m H), bind_Ok.
    rewrite (tabulate_Ok _ _ (fun i => nth (Z.to_nat i) qs p0)); [|lia|].
    - rewrite !bind_Ok, (gr_pv _ _ _ H), list_mklist by exact Hl. change {| bz_pts := qs; bz_periodic := false |} with (mk_bezier qs).
      now rewrite bzt_generic2.
    - intros i Hi. rewrite get_mklist by assumption. rewrite bind_Ok, (g_bzt Hcomm _ n); [apply Hq; lia|apply (gr_tu _ _ _ H)|].
      unfold gcol. now rewrite map_length, seq_length.
  Qed.
End Structure.

Section Float.
  Context (prec emax : Z) {Hprec : Prec_gt_0 prec} {Hmax : Prec_lt_emax prec emax}.
  Notation num := (binary_float prec emax).
  Notation u := (unit_roundoff prec).
  Notation eta := (underflow_error prec emax).
  Notation Omega := (bpow radix2 emax).
  Local Instance FOx : ScalarOps num := ieee_ops prec emax.

  (** Evaluating [n + 1] curves of degree [m], then the derivative of the curve of the results. *)
  Lemma two_stage_derivative2 d (rows : list (list (vec num d))) (x y : num) n m M :
    length rows = S n -> (forall r, In r rows -> length r = S m) ->
    (forall r p i, In r rows -> In p r -> (i < d)%nat -> is_finite (coord d i p) = true /\ Rabs (B2R (coord d i p)) <= M) ->
    is_finite x = true -> 0 <= B2R x <= 1 -> is_finite y = true -> 0 <= B2R y <= 1 ->
    0 <= M <= bpow radix2 (emax - 1) -> 12 * (INR n * INR n) * (M + 1) <= bpow radix2 (emax - 1) -> 24 * INR (n + m) * u <= 1 ->
    exists qs q f' f2, length qs = S n /\
      (forall k, (k <= n)%nat -> bz_evaluate (mk_bezier (nth k rows [])) y = Ok (nth k qs p0)) /\
      bz_evaluate_2nd_derivative (mk_bezier qs) x = Ok q /\ vfinite d q /\
      (forall t, vderiv (bernstein_curve (map (fun r => bernstein_curve (map (vreal d) r) (B2R y)) rows)) t (f' t)) /\ (forall t, vderiv f' t (f2 t)) /\
      forall i, (i < d)%nat -> Rabs (coord d i (vreal d q) - coord d i (f2 (B2R x)))
        <= INR n * (INR n - 1) * ((24 * INR n + 16 * INR m) * u * M + 15 * INR m * eta) + 6 * INR n * eta.
  Proof.
    intros Hn Hm Hb Fx Hx Fy Hy HM0 HMn Hu.
    pose proof (u_pos prec) as Hu0. pose proof (eta_pos prec emax) as He0. destruct HM0 as [HM HMo].
    pose proof (pos_INR n) as Hn0. pose proof (pos_INR m) as Hm0. rewrite plus_INR in Hu.
    assert (Hum : 24 * INR m * u <= 1) by nra. assert (Hun : 24 * INR n * u <= 1) by nra.
    assert (HO1 : growth u eta M m < Omega) by (apply (growth_finite prec emax); lra).
    assert (ST : exists qs, length qs = length rows /\ forall k, (k < length rows)%nat ->
      bz_evaluate (mk_bezier (nth k rows [])) y = Ok (nth k qs p0) /\
      forall i, (i < d)%nat -> near prec emax (growth u eta M m) (growth u eta M m - M) (coord d i (nth k qs p0))
          (coord d i (bernstein_curve (map (vreal d) (nth k rows [])) (B2R y)))).
    { clear Hn. induction rows as [|r rows IH]; [exists []; split; [reflexivity|intros k Hk; simpl in Hk; lia]|].
      destruct IH as (qs & Lq & Hq).
      - intros r' Hr. apply Hm. now right.
      - intros r' p i Hr. apply (Hb r' p i). now right.
      - destruct (bezier_near prec emax d r y m M (Hm r (or_introl eq_refl))) as (q & Eq & Nq).
        + intros p i Hp Hi. apply (Hb r p i (or_introl eq_refl) Hp Hi).
        + exact Fy.
        + exact Hy.
        + exact HO1.
        + exists (q :: qs). split; [simpl; now rewrite Lq|]. intros [|k] Hk; [split; [exact Eq|exact Nq]|]. apply Hq. simpl in Hk. lia. }
    destruct ST as (qs & Lq & Hq). rewrite Hn in *.
    pose proof (growth_bound prec emax M m HM Hum) as GB. pose proof (growth_ge prec emax M m HM) as GM.
    set (G := growth u eta M m) in *.
    assert (Heu : eta <= u).
    { pose proof (prec_gt_0 prec). pose proof (prec_lt_emax prec emax). unfold underflow_error, unit_roundoff. apply bpow_le. lia. }
    assert (HmuM : INR m * u * M <= / 24 * M) by (apply Rmult_le_compat_r; lra).
    assert (HG : G <= 7 / 6 * M + 3 * (INR m * eta)) by (replace (INR m * (4 * u * M + 3 * eta)) with (4 * (INR m * u * M) + 3 * (INR m * eta)) in GB by ring; lra).
    assert (Hme : INR m * eta <= / 24) by (assert (INR m * eta <= INR m * u) by (apply Rmult_le_compat_l; lra); lra).
    assert (HQ : 0 <= INR n * (INR n - 1)).
    { destruct n as [|n']; [simpl INR; lra|]. rewrite S_INR in *. pose proof (pos_INR n'). apply Rmult_le_pos; lra. }
    destruct (derivative2_error prec emax d qs x n G) as (q & g' & g2 & Eq & Fq & Dq & Dq2 & Bq).
    - exact Lq.
    - lra.
    - assert (INR n * INR n * G <= INR n * INR n * (7 / 6 * M + / 8)) by (apply Rmult_le_compat_l; [nra|lra]).
      assert (0 <= INR n * INR n * M) by (apply Rmult_le_pos; nra). assert (0 <= INR n * INR n) by nra. lra.
    - exact Hun.
    - intros p Hp. apply (In_nth _ _ p0) in Hp. destruct Hp as (k & Hk & <-). destruct (Hq k ltac:(lia)) as [_ N].
      split; [apply (vfinite_coord prec emax d); intros i Hi; apply (N i Hi)|].
      intros i Hi. rewrite (vreal_coord prec emax). apply (N i Hi).
    - exact Fx.
    - exact Hx.
    - set (ex := map (fun r => bernstein_curve (map (@vreal prec emax d) r) (B2R y)) rows).
      assert (Lex : length ex = S n) by (unfold ex; now rewrite map_length).
      assert (Lrq : length (map (vreal d) qs) = S n) by (now rewrite map_length).
      destruct (bernstein_derivative2 d ex) as (f' & f2 & Df & Df2 & Ef); [intros X; rewrite X in Lex; discriminate|].
      destruct (bernstein_derivative2 d (map (vreal d) qs)) as (h' & h2 & Dh & Dh2 & Eh); [intros X; rewrite X in Lrq; discriminate|].
      exists qs, q, f', f2. split; [exact Lq|]. split; [intros k Hk; apply Hq; lia|]. split; [exact Eq|]. split; [exact Fq|].
      split; [exact Df|]. split; [exact Df2|]. intros i Hi.
      assert (Hgh1 : forall z, coord d i (g' z) = coord d i (h' z)).
      { intros z. apply (uniqueness_limite (fun z => coord d i (bernstein_curve (map (vreal d) qs) z)) z); [apply Dq|apply Dh]; exact Hi. }
      assert (Hgh : coord d i (g2 (B2R x)) = coord d i (h2 (B2R x))).
      { apply (uniqueness_limite (fun z => coord d i (h' z)) (B2R x)); [|apply Dh2; exact Hi].
        apply (derivable_pt_lim_ext (fun z => coord d i (g' z))); [exact Hgh1|apply Dq2; exact Hi]. }
      pose proof (Bq i Hi) as B. rewrite Hgh in B.
      assert (DN : Rabs (coord d i (h2 (B2R x)) - coord d i (f2 (B2R x))) <= 4 * (INR n * (INR n - 1)) * (G - M)).
      { apply (derivative2_near d (map (vreal d) qs) ex n i (G - M) (B2R x)); try assumption; try apply Eh; try apply Ef; try lra.
        intros k Hk. destruct (Hq k ltac:(lia)) as [_ N]. destruct (N i Hi) as (_ & _ & N4). unfold ex.
        rewrite (nth_indep (map (vreal d) qs) p0 (vreal d p0)) by (rewrite map_length; lia).
        rewrite map_nth.
        rewrite (nth_indep (map _ rows) p0 (bernstein_curve (map (@vreal prec emax d) []) (B2R y))) by (rewrite map_length; lia).
        rewrite (map_nth (fun r => bernstein_curve (map (@vreal prec emax d) r) (B2R y)) rows []).
        rewrite (vreal_coord prec emax). exact N4. }
      set (A := coord d i (vreal d q)) in *. set (C := coord d i (h2 (B2R x))) in *. set (D := coord d i (f2 (B2R x))) in *.
      replace (A - D) with ((A - C) + (C - D)) by ring. eapply Rle_trans; [apply Rabs_triang|].
      eapply Rle_trans; [apply Rplus_le_compat; [exact B|exact DN]|].
      set (Q := INR n * (INR n - 1)) in *.
      assert (HnuM : 0 <= INR n * u * M) by (apply Rmult_le_pos; nra). assert (Hme0 : 0 <= INR m * eta) by (apply Rmult_le_pos; lra).
      assert (Hnu : INR n * u * G <= INR n * u * (7 / 6 * M + 3 * (INR m * eta))) by (apply Rmult_le_compat_l; [nra|exact HG]).
      assert (INR n * u * (INR m * eta) <= / 24 * (INR m * eta)) by (apply Rmult_le_compat_r; lra).
      replace (INR m * (4 * u * M + 3 * eta)) with (4 * (INR m * u * M) + 3 * (INR m * eta)) in GB by ring.
      assert (HZ : Q * (20 * (INR n * u * G) + 4 * (G - M)) <= Q * ((24 * INR n + 16 * INR m) * u * M + 15 * INR m * eta)).
      { apply Rmult_le_compat_l; [exact HQ|].
        replace ((24 * INR n + 16 * INR m) * u * M + 15 * INR m * eta) with (24 * (INR n * u * M) + 16 * (INR m * u * M) + 15 * (INR m * eta)) by ring.
        lra. }
      replace (INR n * (20 * u * (Q * G) + 6 * eta) + 4 * Q * (G - M))
        with (Q * (20 * (INR n * u * G) + 4 * (G - M)) + 6 * INR n * eta) by ring.
      lra.
  Qed.

  Lemma patch_derivative2_error d (s : bpatch (vec num d)) (x y : num) M :
    bp_initialize s = Ok s ->
    (bp_tu s = -1 \/ bp_tu s = bp_degu s)%Z -> (bp_tv s = -1 \/ bp_tv s = bp_degv s)%Z ->
    bp_peru s = false -> bp_perv s = false ->
    let n := Z.to_nat (bp_degu s) in
    let m := Z.to_nat (bp_degv s) in
    0 <= M <= bpow radix2 (emax - 1) -> 24 * INR (n + m) * u <= 1 ->
    (forall p, In p (bp_grid s) -> vfinite d p /\ forall i, (i < d)%nat -> Rabs (coord d i (vreal d p)) <= M) ->
    is_finite x = true -> 0 <= B2R x <= 1 -> is_finite y = true -> 0 <= B2R y <= 1 ->
    ((bp_tu s = -1 \/ 4 <= bp_tu s)%Z -> 12 * (INR n * INR n) * (M + 1) <= bpow radix2 (emax - 1) ->
     exists (q : vec num d) (f' f2 : R -> vec R d), bp_evaluate_2nd_derivative_uu s x y = Ok q /\ vfinite d q /\
       (forall t, vderiv (fun z => tensor_sum (S n) (S m) (bezier_basis (S n) z) (bezier_basis (S m) (B2R y)) (map (vreal d) (bp_grid s))) t (f' t)) /\ (forall t, vderiv f' t (f2 t)) /\
       forall i, (i < d)%nat -> Rabs (coord d i (vreal d q) - coord d i (f2 (B2R x)))
         <= INR n * (INR n - 1) * ((24 * INR n + 16 * INR m) * u * M + 15 * INR m * eta) + 6 * INR n * eta) /\
    ((bp_tv s = -1 \/ 4 <= bp_tv s)%Z -> 12 * (INR m * INR m) * (M + 1) <= bpow radix2 (emax - 1) ->
     exists (q : vec num d) (f' f2 : R -> vec R d), bp_evaluate_2nd_derivative_vv s x y = Ok q /\ vfinite d q /\
       (forall t, vderiv (fun z => tensor_sum (S n) (S m) (bezier_basis (S n) (B2R x)) (bezier_basis (S m) z) (map (vreal d) (bp_grid s))) t (f' t)) /\ (forall t, vderiv f' t (f2 t)) /\
       forall i, (i < d)%nat -> Rabs (coord d i (vreal d q) - coord d i (f2 (B2R y)))
         <= INR m * (INR m - 1) * ((24 * INR m + 16 * INR n) * u * M + 15 * INR n * eta) + 6 * INR m * eta).
  Proof.
    intros HI Htu Htv Hpu Hpv n m HM Hu Hp Fx Hx Fy Hy.
    pose proof (grep_of_initialize s HI Htu Htv Hpu Hpv) as H. fold n in H. fold m in H.
    assert (Hg : length (bp_grid s) = (S n * S m)%nat) by (pose proof (gr_g _ _ _ H) as X; unfold zlen in X; nia).
    assert (Hb : forall k i, (k < length (bp_grid s))%nat -> (i < d)%nat ->
      is_finite (coord d i (nth k (bp_grid s) p0)) = true /\ Rabs (B2R (coord d i (nth k (bp_grid s) p0))) <= M).
    { intros k i Hk Hi. destruct (Hp (nth k (bp_grid s) p0) (nth_In _ _ Hk)) as [H1 H2].
      split; [now apply (vfinite_coord prec emax d)|]. pose proof (H2 i Hi) as H3. rewrite (vreal_coord prec emax) in H3. exact H3. }
    assert (HC : forall a b : vec num d, padd a b = padd b a) by exact (padd_comm_num prec emax d).
    assert (Hu' : 24 * INR (m + n) * u <= 1) by (rewrite Nat.add_comm; exact Hu).
    split.
    - intros Ht HMn.
      destruct (two_stage_derivative2 d (map (grow s m) (seq 0 (S n))) x y n m M) as (qs & q & f' & f2 & Lq & Eqs & Eq & Fq & Df & Df2 & Hq); try assumption.
      + now rewrite map_length, seq_length.
      + intros r Hr. apply in_map_iff in Hr. destruct Hr as (j & <- & _). unfold grow. now rewrite map_length, seq_length.
      + intros r p i Hr Hpr Hi. apply in_map_iff in Hr. destruct Hr as (j & <- & Hj). unfold grow in Hpr.
        apply in_map_iff in Hpr. destruct Hpr as (k & <- & Hk). apply in_seq in Hj, Hk. apply Hb; [rewrite Hg; nia|exact Hi].
      + exists q, f', f2. split.
        { rewrite (g_derivative2_rows s n m H HC x y qs Lq); [exact Eq| |lia]. intros j Hj.
          rewrite <- Eqs by exact Hj. f_equal. f_equal.
          rewrite (nth_indep _ [] (grow s m 0%nat)) by (rewrite map_length, seq_length; lia). now rewrite map_nth, seq_nth by lia. }
        split; [exact Fq|]. split; [|split; [exact Df2|exact Hq]].
        intros t i Hi. pose proof (Df t i Hi) as X.
        match goal with |- derivable_pt_lim ?F _ _ => apply (derivable_pt_lim_ext (fun z => coord d i (bernstein_curve (map (fun r => bernstein_curve (map (@vreal prec emax d) r) (B2R y)) (map (grow s m) (seq 0 (S n)))) z))) end; [|exact X].
        intros z. f_equal. exact (bernstein_rows prec emax d (bp_grid s) n m z (B2R y) Hg).
    - intros Ht HMn.
      destruct (two_stage_derivative2 d (map (gcol s n m) (seq 0 (S m))) y x m n M) as (qs & q & f' & f2 & Lq & Eqs & Eq & Fq & Df & Df2 & Hq); try assumption.
      + now rewrite map_length, seq_length.
      + intros r Hr. apply in_map_iff in Hr. destruct Hr as (j & <- & _). unfold gcol. now rewrite map_length, seq_length.
      + intros r p i Hr Hpr Hi. apply in_map_iff in Hr. destruct Hr as (j & <- & Hj). unfold gcol in Hpr.
        apply in_map_iff in Hpr. destruct Hpr as (k & <- & Hk). apply in_seq in Hj, Hk. apply Hb; [rewrite Hg; nia|exact Hi].
      + exists q, f', f2. split.
        { rewrite (g_derivative2_cols s n m H HC x y qs Lq); [exact Eq| |lia]. intros j Hj.
          rewrite <- Eqs by exact Hj. f_equal. f_equal.
          rewrite (nth_indep _ [] (gcol s n m 0%nat)) by (rewrite map_length, seq_length; lia). now rewrite map_nth, seq_nth by lia. }
        split; [exact Fq|]. split; [|split; [exact Df2|exact Hq]].
        intros t i Hi. pose proof (Df t i Hi) as X.
        match goal with |- derivable_pt_lim ?F _ _ => apply (derivable_pt_lim_ext (fun z => coord d i (bernstein_curve (map (fun r => bernstein_curve (map (@vreal prec emax d) r) (B2R x)) (map (gcol s n m) (seq 0 (S m)))) z))) end; [|exact X].
        intros z. f_equal. exact (bernstein_cols prec emax d (bp_grid s) n m (B2R x) z Hg).
  Qed.
End Float.

Lemma patch_derivative2_double : forall (d : nat) (s : bpatch (vec double d)) (x y : double) (M : R),
  bp_initialize s = Ok s ->
  (bp_tu s = -1 \/ bp_tu s = bp_degu s)%Z -> (bp_tv s = -1 \/ bp_tv s = bp_degv s)%Z ->
  bp_peru s = false -> bp_perv s = false ->
  let n := Z.to_nat (bp_degu s) in
  let m := Z.to_nat (bp_degv s) in
  0 <= M <= bpow radix2 1023 -> 24 * INR (n + m) * unit_roundoff 53 <= 1 ->
  (forall p, In p (bp_grid s) -> vfinite d p /\ forall i, (i < d)%nat -> Rabs (coord d i (vreal d p)) <= M) ->
  is_finite x = true -> 0 <= B2R x <= 1 -> is_finite y = true -> 0 <= B2R y <= 1 ->
  ((bp_tu s = -1 \/ 4 <= bp_tu s)%Z -> 12 * (INR n * INR n) * (M + 1) <= bpow radix2 1023 ->
   exists (q : vec double d) (f' f2 : R -> vec R d), @bp_evaluate_2nd_derivative_uu double (vec double d) double_ops (@vec_ops double double_ops d) s x y = Ok q /\ vfinite d q /\
     (forall t, vderiv (fun z => tensor_sum (S n) (S m) (bezier_basis (S n) z) (bezier_basis (S m) (B2R y)) (map (vreal d) (bp_grid s))) t (f' t)) /\ (forall t, vderiv f' t (f2 t)) /\
     forall i, (i < d)%nat -> Rabs (coord d i (vreal d q) - coord d i (f2 (B2R x)))
       <= INR n * (INR n - 1) * ((24 * INR n + 16 * INR m) * unit_roundoff 53 * M + 15 * INR m * underflow_error 53 1024) + 6 * INR n * underflow_error 53 1024) /\
  ((bp_tv s = -1 \/ 4 <= bp_tv s)%Z -> 12 * (INR m * INR m) * (M + 1) <= bpow radix2 1023 ->
   exists (q : vec double d) (f' f2 : R -> vec R d), @bp_evaluate_2nd_derivative_vv double (vec double d) double_ops (@vec_ops double double_ops d) s x y = Ok q /\ vfinite d q /\
     (forall t, vderiv (fun z => tensor_sum (S n) (S m) (bezier_basis (S n) (B2R x)) (bezier_basis (S m) z) (map (vreal d) (bp_grid s))) t (f' t)) /\ (forall t, vderiv f' t (f2 t)) /\
     forall i, (i < d)%nat -> Rabs (coord d i (vreal d q) - coord d i (f2 (B2R y)))
       <= INR m * (INR m - 1) * ((24 * INR m + 16 * INR n) * unit_roundoff 53 * M + 15 * INR n * underflow_error 53 1024) + 6 * INR m * underflow_error 53 1024).
Proof. exact (@patch_derivative2_error 53 1024 prec64 max64). Qed.

Lemma patch_derivative2_float : forall (d : nat) (s : bpatch (vec float32 d)) (x y : float32) (M : R),
  bp_initialize s = Ok s ->
  (bp_tu s = -1 \/ bp_tu s = bp_degu s)%Z -> (bp_tv s = -1 \/ bp_tv s = bp_degv s)%Z ->
  bp_peru s = false -> bp_perv s = false ->
  let n := Z.to_nat (bp_degu s) in
  let m := Z.to_nat (bp_degv s) in
  0 <= M <= bpow radix2 127 -> 24 * INR (n + m) * unit_roundoff 24 <= 1 ->
  (forall p, In p (bp_grid s) -> vfinite d p /\ forall i, (i < d)%nat -> Rabs (coord d i (vreal d p)) <= M) ->
  is_finite x = true -> 0 <= B2R x <= 1 -> is_finite y = true -> 0 <= B2R y <= 1 ->
  ((bp_tu s = -1 \/ 4 <= bp_tu s)%Z -> 12 * (INR n * INR n) * (M + 1) <= bpow radix2 127 ->
   exists (q : vec float32 d) (f' f2 : R -> vec R d), @bp_evaluate_2nd_derivative_uu float32 (vec float32 d) float32_ops (@vec_ops float32 float32_ops d) s x y = Ok q /\ vfinite d q /\
     (forall t, vderiv (fun z => tensor_sum (S n) (S m) (bezier_basis (S n) z) (bezier_basis (S m) (B2R y)) (map (vreal d) (bp_grid s))) t (f' t)) /\ (forall t, vderiv f' t (f2 t)) /\
     forall i, (i < d)%nat -> Rabs (coord d i (vreal d q) - coord d i (f2 (B2R x)))
       <= INR n * (INR n - 1) * ((24 * INR n + 16 * INR m) * unit_roundoff 24 * M + 15 * INR m * underflow_error 24 128) + 6 * INR n * underflow_error 24 128) /\
  ((bp_tv s = -1 \/ 4 <= bp_tv s)%Z -> 12 * (INR m * INR m) * (M + 1) <= bpow radix2 127 ->
   exists (q : vec float32 d) (f' f2 : R -> vec R d), @bp_evaluate_2nd_derivative_vv float32 (vec float32 d) float32_ops (@vec_ops float32 float32_ops d) s x y = Ok q /\ vfinite d q /\
     (forall t, vderiv (fun z => tensor_sum (S n) (S m) (bezier_basis (S n) (B2R x)) (bezier_basis (S m) z) (map (vreal d) (bp_grid s))) t (f' t)) /\ (forall t, vderiv f' t (f2 t)) /\
     forall i, (i < d)%nat -> Rabs (coord d i (vreal d q) - coord d i (f2 (B2R y)))
       <= INR m * (INR m - 1) * ((24 * INR m + 16 * INR n) * unit_roundoff 24 * M + 15 * INR n * underflow_error 24 128) + 6 * INR m * underflow_error 24 128).
Proof. exact (@patch_derivative2_error 24 128 prec32 max32). Qed.

Lemma dpatch0_case2 : let s := dpatch0 in let x := dofQ (3 # 10) in let y := dofQ (1 # 10) in
  let n := Z.to_nat (bp_degu s) in
  let m := Z.to_nat (bp_degv s) in
  n = 2%nat /\ m = 1%nat /\ bp_initialize s = Ok s /\ bp_tu s = (-1)%Z /\ bp_tv s = (-1)%Z /\
  bp_peru s = false /\ bp_perv s = false /\
  0 <= 4 <= bpow radix2 1023 /\ 24 * INR (n + m) * unit_roundoff 53 <= 1 /\
  (forall p, In p (bp_grid s) -> vfinite 2 p /\ forall i, (i < 2)%nat -> Rabs (coord 2 i (vreal 2 p)) <= 4) /\
  is_finite x = true /\ 0 <= B2R x <= 1 /\ is_finite y = true /\ 0 <= B2R y <= 1 /\
  12 * (INR n * INR n) * (4 + 1) <= bpow radix2 1023 /\ 12 * (INR m * INR m) * (4 + 1) <= bpow radix2 1023.
Proof.
  cbv zeta. destruct dpatch_case as (_ & _ & _ & _ & _ & _ & _ & HM & HU & HP & Fx & Hx & Fy & Hy).
  set (x := dofQ (3 # 10)) in *. clearbody x. set (y := dofQ (1 # 10)) in *. clearbody y.
  assert (HB : 256 <= bpow radix2 1023) by (change 256 with (bpow radix2 8); apply bpow_le; lia).
  repeat (split; [reflexivity|]). split; [exact HM|]. split; [exact HU|]. split; [exact HP|].
  split; [exact Fx|]. split; [exact Hx|]. split; [exact Fy|]. split; [exact Hy|].
  change (Z.to_nat (bp_degu dpatch0)) with 2%nat. change (Z.to_nat (bp_degv dpatch0)) with 1%nat. simpl INR. split; lra.
Qed.
