(** Bezier patches in floating point arithmetic. *)
From Coq Require Import Reals Lra Lia ZArith QArith List Bool.
From Flocq Require Import Core IEEE754.BinarySingleNaN.
From Verif Require Import Monad MonadFacts Scalar ScalarFacts Spec SpecFacts SpecPatch TensorFacts PatchFacts ModelCurve ModelBezier BezierThms
  ModelBSpline BSplineFacts BSplineThms BSplineThms2 ModelPatchBase ModelPatch SpecFloat ModelFloat FloatFacts FloatThms FloatThms2 FloatThms3
  FloatCases FloatRuns FloatTotal FloatSplit.
Import ListNotations.
Local Open Scope R_scope.

(** * The structure of the evaluation, in any arithmetic *)
Section Structure.
  Context {T P : Type} {SO : ScalarOps T} {V : PointOps T P}.
  Local Open Scope Z_scope.

  (** A patch without periodic directions, degrees [n], [m], and compatible template arguments. *)
  Record grep (s : bpatch P) (n m : nat) : Prop := {
    gr_u : bp_degu s = Z.of_nat n;
    gr_v : bp_degv s = Z.of_nat m;
    gr_g : zlen (bp_grid s) = Z.of_nat (S n) * Z.of_nat (S m);
    gr_tu : bp_tu s < 0 \/ bp_tu s = Z.of_nat n;
    gr_tv : bp_tv s < 0 \/ bp_tv s = Z.of_nat m;
    gr_pu : bp_peru s = false;
    gr_pv : bp_perv s = false }.

  Context (s : bpatch P) (n m : nat) (H : grep s n m).

  Lemma g_nu : bp_nu s = Ok (Z.of_nat (S n)).
  Proof.
    unfold bp_nu, checked_degree. rewrite (gr_u _ _ _ H).
    replace (0 <=? Z.of_nat n) with true by (symmetry; apply Z.leb_le; lia). cbn [assert_ bind]. f_equal. lia.
  Qed.
  Lemma g_nv : bp_nv s = Ok (Z.of_nat (S m)).
  Proof.
    unfold bp_nv, checked_degree. rewrite (gr_v _ _ _ H).
    replace (0 <=? Z.of_nat m) with true by (symmetry; apply Z.leb_le; lia). cbn [assert_ bind]. f_equal. lia.
  Qed.
  Lemma g_rows tdeg k : (tdeg < 0 \/ tdeg = Z.of_nat k) -> check_rows tdeg (Z.of_nat (S k)) = Ok tt.
  Proof.
    intros Ht. unfold check_rows. destruct Ht as [Ht| ->].
    - replace (tdeg <? 0) with true by (symmetry; apply Z.ltb_lt; lia). reflexivity.
    - replace (Z.of_nat (S k) =? Z.of_nat k + 1) with true by (symmetry; apply Z.eqb_eq; lia).
      rewrite orb_true_r. reflexivity.
  Qed.
  Lemma g_get i j : 0 <= i < Z.of_nat (S n) -> 0 <= j < Z.of_nat (S m) ->
    grid_get (bp_grid s) (Z.of_nat (S m)) i j = Ok (nth (Z.to_nat (i * Z.of_nat (S m) + j)) (bp_grid s) p0).
  Proof.
    intros Hi Hj. unfold grid_get, linear_index. apply get_nth. rewrite (gr_g _ _ _ H). nia.
  Qed.

  Definition grow (i : nat) : list P := map (fun j => nth (i * S m + j) (bp_grid s) p0) (seq 0 (S m)).
  Definition gcol (j : nat) : list P := map (fun i => nth (i * S m + j) (bp_grid s) p0) (seq 0 (S n)).

  Lemma g_iso_v : bp_iso_curves_v s = Ok (mklist (Z.of_nat (S n)) (fun i => mk_bezier (grow (Z.to_nat i)))).
  Proof.
    unfold bp_iso_curves_v. rewrite g_nu, g_nv, !bind_Ok. apply tabulate_Ok; [lia|]. intros i Hi.
    rewrite (g_rows _ _ (gr_tv _ _ _ H)), bind_Ok, (gr_pv _ _ _ H).
    rewrite (tabulate_Ok _ _ (fun j => nth (Z.to_nat (i * Z.of_nat (S m) + j)) (bp_grid s) p0)); [|lia|intros j Hj; now apply g_get].
    rewrite bind_Ok. f_equal. unfold mk_bezier. f_equal. unfold mklist, grow. rewrite Nat2Z.id. apply map_ext_in. intros j Hj.
    apply in_seq in Hj. f_equal. nia.
  Qed.
  Lemma g_iso_u : bp_iso_curves_u s = Ok (mklist (Z.of_nat (S m)) (fun j => mk_bezier (gcol (Z.to_nat j)))).
  Proof.
    unfold bp_iso_curves_u. rewrite g_nu, g_nv, !bind_Ok. apply tabulate_Ok; [lia|]. intros j Hj.
    rewrite (g_rows _ _ (gr_tu _ _ _ H)), bind_Ok, (gr_pu _ _ _ H).
    rewrite (tabulate_Ok _ _ (fun i => nth (Z.to_nat (i * Z.of_nat (S m) + j)) (bp_grid s) p0)); [|lia|intros i Hi; now apply g_get].
    rewrite bind_Ok. f_equal. unfold mk_bezier. f_equal. unfold mklist, gcol. rewrite Nat2Z.id. apply map_ext_in. intros i Hi.
    apply in_seq in Hi. f_equal. nia.
  Qed.

  (** The classes for degrees 0 to 3 compute what the generic class computes. *)
  Hypothesis Hcomm : forall a b : P, padd a b = padd b a.
  Lemma g_bzt tdeg k (pts : list P) t : (tdeg < 0 \/ tdeg = Z.of_nat k) -> length pts = S k ->
    bzt_evaluate tdeg (mk_bezier pts) t = bz_evaluate (mk_bezier pts) t.
  Proof.
    intros Ht Hl. unfold bzt_evaluate, bzt.
    destruct (Z.eqb_spec tdeg 0) as [->|]; [destruct pts as [|a [|b pts]]; try (simpl in Hl; lia); reflexivity|].
    destruct (Z.eqb_spec tdeg 1) as [->|]; [apply bz1_generic; [exact Hcomm|lia]|].
    destruct (Z.eqb_spec tdeg 2) as [->|]; [apply bz2_generic; [exact Hcomm|lia]|].
    destruct (Z.eqb_spec tdeg 3) as [->|]; [apply bz3_generic; [exact Hcomm|lia]|]. reflexivity.
  Qed.

  Lemma list_mklist (l : list P) k : length l = k -> mklist (Z.of_nat k) (fun i => nth (Z.to_nat i) l p0) = l.
  Proof. intros <-. symmetry. exact (list_eq_mklist l p0). Qed.

  Lemma g_evaluate_rows u v (qs : list P) :
    length qs = S n -> (forall i, (i <= n)%nat -> bz_evaluate (mk_bezier (grow i)) v = Ok (nth i qs p0)) ->
    bp_degv s <= bp_degu s -> bp_evaluate s u v = bz_evaluate (mk_bezier qs) u.
  Proof.
    intros Hl Hq Hd. unfold bp_evaluate. replace (bp_degu s <? bp_degv s) with false by (symmetry; apply Z.ltb_ge; lia).
    unfold bp_iso_curve_u. rewrite g_nu, bind_Ok, (g_rows _ _ (gr_tu _ _ _ H)), bind_Ok, g_iso_v, bind_Ok.
    rewrite (tabulate_Ok _ _ (fun i => nth (Z.to_nat i) qs p0)); [|lia|].
    - rewrite !bind_Ok, (gr_pu _ _ _ H), list_mklist by exact Hl. change {| bz_pts := qs; bz_periodic := false |} with (mk_bezier qs).
      apply (g_bzt _ n); [apply (gr_tu _ _ _ H)|exact Hl].
    - intros i Hi. rewrite get_mklist by assumption. rewrite bind_Ok, (g_bzt _ m); [apply Hq; lia|apply (gr_tv _ _ _ H)|].
      unfold grow. now rewrite map_length, seq_length.
  Qed.
  Lemma g_evaluate_cols u v (qs : list P) :
    length qs = S m -> (forall j, (j <= m)%nat -> bz_evaluate (mk_bezier (gcol j)) u = Ok (nth j qs p0)) ->
    bp_degu s < bp_degv s -> bp_evaluate s u v = bz_evaluate (mk_bezier qs) v.
  Proof.
    intros Hl Hq Hd. unfold bp_evaluate. replace (bp_degu s <? bp_degv s) with true by (symmetry; apply Z.ltb_lt; lia).
    unfold bp_iso_curve_v. rewrite g_nv, bind_Ok, (g_rows _ _ (gr_tv _ _ _ H)), bind_Ok, g_iso_u, bind_Ok.
    rewrite (tabulate_Ok _ _ (fun i => nth (Z.to_nat i) qs p0)); [|lia|].
    - rewrite !bind_Ok, (gr_pv _ _ _ H), list_mklist by exact Hl. change {| bz_pts := qs; bz_periodic := false |} with (mk_bezier qs).
      apply (g_bzt _ m); [apply (gr_tv _ _ _ H)|exact Hl].
    - intros i Hi. rewrite get_mklist by assumption. rewrite bind_Ok, (g_bzt _ n); [apply Hq; lia|apply (gr_tu _ _ _ H)|].
      unfold gcol. now rewrite map_length, seq_length.
  Qed.
End Structure.

Lemma grep_of_initialize {T P} {V : PointOps T P} (s : bpatch P) : bp_initialize s = Ok s ->
  (bp_tu s = -1 \/ bp_tu s = bp_degu s)%Z -> (bp_tv s = -1 \/ bp_tv s = bp_degv s)%Z ->
  bp_peru s = false -> bp_perv s = false -> grep s (Z.to_nat (bp_degu s)) (Z.to_nat (bp_degv s)).
Proof.
  unfold bp_initialize, checked_degree. intros E H1 H2 H3 H4.
  destruct (Z.leb_spec 0 (bp_degu s)) as [Hu|]; [|discriminate]. cbn [assert_ bind] in E.
  destruct (Z.leb_spec 0 (bp_degv s)) as [Hv|]; [|discriminate]. cbn [assert_ bind] in E.
  destruct (_ || _) in E; [discriminate|].
  destruct (Z.eqb_spec (zlen (bp_grid s)) ((bp_degu s + 1) * (bp_degv s + 1))) as [Eg|]; [|discriminate].
  split; try assumption; lia.
Qed.

Section Float.
  Context (prec emax : Z) {Hprec : Prec_gt_0 prec} {Hmax : Prec_lt_emax prec emax}.
  Notation num := (binary_float prec emax).
  Notation u := (unit_roundoff prec).
  Notation eta := (underflow_error prec emax).
  Notation Omega := (bpow radix2 emax).
  Local Instance FOp : ScalarOps num := ieee_ops prec emax.

  (** Evaluating [n + 1] curves of degree [m], then the curve of the results. *)
  Lemma two_stage d (rows : list (list (vec num d))) (x y : num) n m M :
    length rows = S n -> (forall r, In r rows -> length r = S m) ->
    (forall r p i, In r rows -> In p r -> (i < d)%nat -> is_finite (coord d i p) = true /\ Rabs (B2R (coord d i p)) <= M) ->
    is_finite x = true -> 0 <= B2R x <= 1 -> is_finite y = true -> 0 <= B2R y <= 1 ->
    0 <= M -> growth u eta M (m + n) < Omega ->
    exists qs q, length qs = S n /\
      (forall k, (k <= n)%nat -> bz_evaluate (mk_bezier (nth k rows [])) y = Ok (nth k qs p0)) /\
      bz_evaluate (mk_bezier qs) x = Ok q /\
      forall i, (i < d)%nat -> is_finite (coord d i q) = true /\
        Rabs (B2R (coord d i q) -
          coord d i (bernstein_curve (map (fun r => bernstein_curve (map (vreal d) r) (B2R y)) rows) (B2R x)))
        <= growth u eta M (m + n) - M.
  Proof.
    intros Hn Hm Hb Fx Hx Fy Hy HM HO.
    pose proof (growth_plus prec emax M m n HM) as GP. pose proof (growth_ge prec emax M m HM) as GM.
    assert (HO1 : growth u eta M m < Omega) by (eapply Rle_lt_trans; [|exact HO]; apply growth_mono; [exact HM|lia]).
    assert (ST : exists qs, length qs = length rows /\ forall k, (k < length rows)%nat ->
      bz_evaluate (mk_bezier (nth k rows [])) y = Ok (nth k qs p0) /\
      forall i, (i < d)%nat -> near prec emax (growth u eta M m) (growth u eta M m - M) (coord d i (nth k qs p0))
          (coord d i (bernstein_curve (map (vreal d) (nth k rows [])) (B2R y)))).
    { clear Hn. induction rows as [|r rows IH]; [exists []; split; [reflexivity|intros k Hk; simpl in Hk; lia]|].
      destruct IH as (qs & Lq & Hq).
      - intros r' Hr. apply Hm. now right.
      - intros r' p i Hr. apply (Hb r' p i). now right.
      - destruct (bezier_near prec emax d r y m M (Hm r (or_introl eq_refl))) as (q & Eq & Nq).
        + intros p i Hp Hi. apply (Hb r p i (or_introl eq_refl) Hp Hi).
        + exact Fy.
        + exact Hy.
        + exact HO1.
        + exists (q :: qs). split; [simpl; now rewrite Lq|]. intros [|k] Hk; [split; [exact Eq|exact Nq]|]. apply Hq. simpl in Hk. lia. }
    destruct ST as (qs & Lq & Hq). rewrite Hn in *.
    destruct (bezier_near prec emax d qs x n (growth u eta M m) Lq) as (q & Eq & Nq).
    - intros p i Hp Hi. apply (In_nth _ _ p0) in Hp. destruct Hp as (k & Hk & <-).
      destruct (Hq k ltac:(lia)) as [_ N]. destruct (N i Hi) as (N1 & N2 & _). now split.
    - exact Fx.
    - exact Hx.
    - lra.
    - exists qs, q. split; [exact Lq|]. split; [intros k Hk; apply Hq; lia|]. split; [exact Eq|].
      intros i Hi. destruct (Nq i Hi) as (N1 & _ & N3). split; [exact N1|].
      pose proof (bernstein_near d (map (vreal d) qs) (map (fun r => bernstein_curve (map (vreal d) r) (B2R y)) rows) n i
        (growth u eta M m - M) (B2R x)) as BN.
      rewrite !map_length in BN. specialize (BN Lq Hn Hi Hx).
      assert (HN : forall k, (k <= n)%nat -> Rabs (coord d i (nth k (map (vreal d) qs) p0) -
          coord d i (nth k (map (fun r => bernstein_curve (map (vreal d) r) (B2R y)) rows) p0)) <= growth u eta M m - M).
      { intros k Hk. destruct (Hq k ltac:(lia)) as [_ N]. destruct (N i Hi) as (_ & _ & N4).
        rewrite (nth_indep (map (vreal d) qs) p0 (vreal d p0)) by (rewrite map_length; lia).
        rewrite map_nth.
        rewrite (nth_indep (map _ rows) p0 (bernstein_curve (map (@vreal prec emax d) []) (B2R y))) by (rewrite map_length; lia).
        rewrite (map_nth (fun r => bernstein_curve (map (@vreal prec emax d) r) (B2R y)) rows []).
        rewrite (vreal_coord prec emax). exact N4. }
      specialize (BN HN).
      set (A := B2R (coord d i q)) in *. set (B := coord d i (bernstein_curve (map (vreal d) qs) (B2R x))) in *.
      set (C := coord d i (bernstein_curve (map _ rows) (B2R x))) in *.
      replace (A - C) with ((A - B) + (B - C)) by ring. eapply Rle_trans; [apply Rabs_triang|]. lra.
  Qed.

  Lemma bernstein_rows d (grid : list (vec num d)) n m x y : length grid = (S n * S m)%nat ->
    bernstein_curve (map (fun r => bernstein_curve (map (vreal d) r) y)
      (map (fun i => map (fun j => nth (i * S m + j) grid p0) (seq 0 (S m))) (seq 0 (S n)))) x =
    tensor_sum (S n) (S m) (bezier_basis (S n) x) (bezier_basis (S m) y) (map (vreal d) grid).
  Proof.
    intros Hg. rewrite <- tensor_rows. unfold bernstein_curve at 1. rewrite !map_length, seq_length.
    apply psum_ext. intros i Hi. f_equal.
    rewrite map_map, (nth_indep _ p0 ((fun i => bernstein_curve (map (vreal d) (map (fun j => nth (i * S m + j) grid p0) (seq 0 (S m)))) y) 0%nat))
      by (rewrite map_length, seq_length; lia).
    rewrite (map_nth (fun i => bernstein_curve (map (vreal d) (map (fun j => nth (i * S m + j) grid p0) (seq 0 (S m)))) y)), seq_nth by lia.
    unfold bernstein_curve. rewrite !map_length, seq_length. apply psum_ext. intros j Hj. f_equal.
    rewrite map_map, (nth_indep _ p0 ((fun j => vreal d (nth ((0 + i) * S m + j) grid p0)) 0%nat)) by (rewrite map_length, seq_length; lia).
    rewrite (map_nth (fun j => vreal d (nth ((0 + i) * S m + j) grid p0))), seq_nth by lia.
    rewrite (nth_indep (map (vreal d) grid) p0 (vreal d p0)) by (rewrite map_length, Hg; nia).
    now rewrite map_nth.
  Qed.
  Lemma bernstein_cols d (grid : list (vec num d)) n m x y : length grid = (S n * S m)%nat ->
    bernstein_curve (map (fun r => bernstein_curve (map (vreal d) r) x)
      (map (fun j => map (fun i => nth (i * S m + j) grid p0) (seq 0 (S n))) (seq 0 (S m)))) y =
    tensor_sum (S n) (S m) (bezier_basis (S n) x) (bezier_basis (S m) y) (map (vreal d) grid).
  Proof.
    intros Hg. rewrite <- tensor_cols. unfold bernstein_curve at 1. rewrite !map_length, seq_length.
    apply psum_ext. intros j Hj. f_equal.
    rewrite map_map, (nth_indep _ p0 ((fun j => bernstein_curve (map (vreal d) (map (fun i => nth (i * S m + j) grid p0) (seq 0 (S n)))) x) 0%nat))
      by (rewrite map_length, seq_length; lia).
    rewrite (map_nth (fun j => bernstein_curve (map (vreal d) (map (fun i => nth (i * S m + j) grid p0) (seq 0 (S n)))) x)), seq_nth by lia.
    unfold bernstein_curve. rewrite !map_length, seq_length. apply psum_ext. intros i Hi. f_equal.
    rewrite map_map, (nth_indep _ p0 ((fun i => vreal d (nth (i * S m + (0 + j)) grid p0)) 0%nat)) by (rewrite map_length, seq_length; lia).
    rewrite (map_nth (fun i => vreal d (nth (i * S m + (0 + j)) grid p0))), seq_nth by lia.
    rewrite (nth_indep (map (vreal d) grid) p0 (vreal d p0)) by (rewrite map_length, Hg; nia).
    now rewrite map_nth.
  Qed.

  Lemma bezier_patch_error d (s : bpatch (vec num d)) (x y : num) M :
    bp_initialize s = Ok s ->
    (bp_tu s = -1 \/ bp_tu s = bp_degu s)%Z -> (bp_tv s = -1 \/ bp_tv s = bp_degv s)%Z ->
    bp_peru s = false -> bp_perv s = false ->
    let n := Z.to_nat (bp_degu s) in
    let m := Z.to_nat (bp_degv s) in
    0 <= M <= bpow radix2 (emax - 1) -> 24 * INR (n + m) * u <= 1 ->
    (forall p, In p (bp_grid s) -> vfinite d p /\ forall i, (i < d)%nat -> Rabs (coord d i (vreal d p)) <= M) ->
    is_finite x = true -> 0 <= B2R x <= 1 -> is_finite y = true -> 0 <= B2R y <= 1 ->
    exists q, bp_evaluate s x y = Ok q /\ vfinite d q /\
      forall i, (i < d)%nat ->
        Rabs (coord d i (vreal d q) -
          coord d i (tensor_sum (S n) (S m) (bezier_basis (S n) (B2R x)) (bezier_basis (S m) (B2R y)) (map (vreal d) (bp_grid s))))
        <= INR (n + m) * (4 * u * M + 3 * eta).
  Proof.
    intros HI Htu Htv Hpu Hpv n m HM Hu Hp Fx Hx Fy Hy.
    pose proof (grep_of_initialize s HI Htu Htv Hpu Hpv) as H. fold n in H. fold m in H.
    assert (Hg : length (bp_grid s) = (S n * S m)%nat) by (pose proof (gr_g _ _ _ H) as X; unfold zlen in X; nia).
    assert (Hb : forall k i, (k < length (bp_grid s))%nat -> (i < d)%nat ->
      is_finite (coord d i (nth k (bp_grid s) p0)) = true /\ Rabs (B2R (coord d i (nth k (bp_grid s) p0))) <= M).
    { intros k i Hk Hi. destruct (Hp (nth k (bp_grid s) p0) (nth_In _ _ Hk)) as [H1 H2].
      split; [now apply (vfinite_coord prec emax d)|]. pose proof (H2 i Hi) as H3. rewrite (vreal_coord prec emax) in H3. exact H3. }
    pose proof (growth_finite prec emax M (n + m) ltac:(lra) Hu ltac:(lra)) as HO.
    pose proof (growth_bound prec emax M (n + m) ltac:(lra) Hu) as GB.
    assert (HC : forall a b : vec num d, padd a b = padd b a) by exact (padd_comm_num prec emax d).
    destruct (Z.lt_ge_cases (bp_degu s) (bp_degv s)) as [Hd|Hd].
    - destruct (two_stage d (map (gcol s n m) (seq 0 (S m))) y x m n M) as (qs & q & Lq & Eqs & Eq & Hq); try assumption; try lra.
      + now rewrite map_length, seq_length.
      + intros r Hr. apply in_map_iff in Hr. destruct Hr as (j & <- & _). unfold gcol. now rewrite map_length, seq_length.
      + intros r p i Hr Hpr Hi. apply in_map_iff in Hr. destruct Hr as (j & <- & Hj). unfold gcol in Hpr.
        apply in_map_iff in Hpr. destruct Hpr as (k & <- & Hk). apply in_seq in Hj, Hk. apply Hb; [rewrite Hg; nia|exact Hi].
      + exists q. split.
        { rewrite (g_evaluate_cols s n m H HC x y qs Lq); [exact Eq| |exact Hd]. intros j Hj.
          rewrite <- Eqs by exact Hj. f_equal. f_equal.
          rewrite (nth_indep _ [] (gcol s n m 0%nat)) by (rewrite map_length, seq_length; lia). now rewrite map_nth, seq_nth by lia. }
        split; [apply (vfinite_coord prec emax d); intros i Hi; apply (Hq i Hi)|].
        intros i Hi. destruct (Hq i Hi) as [_ E]. rewrite (vreal_coord prec emax).
        unfold gcol in E. rewrite bernstein_cols in E by exact Hg. eapply Rle_trans; [exact E|]. lra.
    - destruct (two_stage d (map (grow s m) (seq 0 (S n))) x y n m M) as (qs & q & Lq & Eqs & Eq & Hq); try assumption; try lra.
      + now rewrite map_length, seq_length.
      + intros r Hr. apply in_map_iff in Hr. destruct Hr as (j & <- & _). unfold grow. now rewrite map_length, seq_length.
      + intros r p i Hr Hpr Hi. apply in_map_iff in Hr. destruct Hr as (j & <- & Hj). unfold grow in Hpr.
        apply in_map_iff in Hpr. destruct Hpr as (k & <- & Hk). apply in_seq in Hj, Hk. apply Hb; [rewrite Hg; nia|exact Hi].
      + rewrite Nat.add_comm. exact HO.
      + exists q. split.
        { rewrite (g_evaluate_rows s n m H HC x y qs Lq); [exact Eq| |exact Hd]. intros j Hj.
          rewrite <- Eqs by exact Hj. f_equal. f_equal.
          rewrite (nth_indep _ [] (grow s m 0%nat)) by (rewrite map_length, seq_length; lia). now rewrite map_nth, seq_nth by lia. }
        split; [apply (vfinite_coord prec emax d); intros i Hi; apply (Hq i Hi)|].
        intros i Hi. destruct (Hq i Hi) as [_ E]. rewrite (vreal_coord prec emax).
        unfold grow in E. rewrite bernstein_rows in E by exact Hg. rewrite (Nat.add_comm m n) in E. eapply Rle_trans; [exact E|]. lra.
  Qed.
End Float.

Lemma bezier_patch_double : forall (d : nat) (s : bpatch (vec double d)) (x y : double) (M : R),
  bp_initialize s = Ok s ->
  (bp_tu s = -1 \/ bp_tu s = bp_degu s)%Z -> (bp_tv s = -1 \/ bp_tv s = bp_degv s)%Z ->
  bp_peru s = false -> bp_perv s = false ->
  let n := Z.to_nat (bp_degu s) in
  let m := Z.to_nat (bp_degv s) in
  0 <= M <= bpow radix2 1023 -> 24 * INR (n + m) * unit_roundoff 53 <= 1 ->
  (forall p, In p (bp_grid s) -> vfinite d p /\ forall i, (i < d)%nat -> Rabs (coord d i (vreal d p)) <= M) ->
  is_finite x = true -> 0 <= B2R x <= 1 -> is_finite y = true -> 0 <= B2R y <= 1 ->
  exists q : vec double d,
    @bp_evaluate double (vec double d) double_ops (@vec_ops double double_ops d) s x y = Ok q /\ vfinite d q /\
    forall i, (i < d)%nat ->
      Rabs (coord d i (vreal d q) -
        coord d i (tensor_sum (S n) (S m) (bezier_basis (S n) (B2R x)) (bezier_basis (S m) (B2R y)) (map (vreal d) (bp_grid s))))
      <= INR (n + m) * (4 * unit_roundoff 53 * M + 3 * underflow_error 53 1024).
Proof. exact (@bezier_patch_error 53 1024 prec64 max64). Qed.

Lemma bezier_patch_float : forall (d : nat) (s : bpatch (vec float32 d)) (x y : float32) (M : R),
  bp_initialize s = Ok s ->
  (bp_tu s = -1 \/ bp_tu s = bp_degu s)%Z -> (bp_tv s = -1 \/ bp_tv s = bp_degv s)%Z ->
  bp_peru s = false -> bp_perv s = false ->
  let n := Z.to_nat (bp_degu s) in
  let m := Z.to_nat (bp_degv s) in
  0 <= M <= bpow radix2 127 -> 24 * INR (n + m) * unit_roundoff 24 <= 1 ->
  (forall p, In p (bp_grid s) -> vfinite d p /\ forall i, (i < d)%nat -> Rabs (coord d i (vreal d p)) <= M) ->
  is_finite x = true -> 0 <= B2R x <= 1 -> is_finite y = true -> 0 <= B2R y <= 1 ->
  exists q : vec float32 d,
    @bp_evaluate float32 (vec float32 d) float32_ops (@vec_ops float32 float32_ops d) s x y = Ok q /\ vfinite d q /\
    forall i, (i < d)%nat ->
      Rabs (coord d i (vreal d q) -
        coord d i (tensor_sum (S n) (S m) (bezier_basis (S n) (B2R x)) (bezier_basis (S m) (B2R y)) (map (vreal d) (bp_grid s))))
      <= INR (n + m) * (4 * unit_roundoff 24 * M + 3 * underflow_error 24 128).
Proof. exact (@bezier_patch_error 24 128 prec32 max32). Qed.

(** Degrees 2 (dynamic) and 1 (static). *)
Definition dpatch : bpatch (vec double 2) :=
  {| bp_tu := -1; bp_tv := 1; bp_degu := 2; bp_degv := 1;
     bp_grid := [dpt 0 1; dpt 1 3; dpt 4 (-2); dpt (1 # 3) 0; dpt 0 1; dpt 4 (-2)]; bp_peru := false; bp_perv := false |}.
Lemma dpatch_case : let s := dpatch in let x := dofQ (3 # 10) in let y := dofQ (1 # 10) in
  let n := Z.to_nat (bp_degu s) in
  let m := Z.to_nat (bp_degv s) in
  n = 2%nat /\ m = 1%nat /\ bp_initialize s = Ok s /\
  (bp_tu s = -1 \/ bp_tu s = bp_degu s)%Z /\ (bp_tv s = -1 \/ bp_tv s = bp_degv s)%Z /\
  bp_peru s = false /\ bp_perv s = false /\
  0 <= 4 <= bpow radix2 1023 /\ 24 * INR (n + m) * unit_roundoff 53 <= 1 /\
  (forall p, In p (bp_grid s) -> vfinite 2 p /\ forall i, (i < 2)%nat -> Rabs (coord 2 i (vreal 2 p)) <= 4) /\
  is_finite x = true /\ 0 <= B2R x <= 1 /\ is_finite y = true /\ 0 <= B2R y <= 1.
Proof.
  cbv zeta. destruct param_value as [Fx Hx]. destruct cubic_case as (_ & HM & _ & _ & Fy & Hy).
  set (x := dofQ (3 # 10)) in *. clearbody x. set (y := dofQ (1 # 10)) in *. clearbody y.
  split; [reflexivity|]. split; [reflexivity|]. split; [reflexivity|].
  split; [left; reflexivity|]. split; [right; reflexivity|]. split; [reflexivity|]. split; [reflexivity|].
  split; [exact HM|]. split; [rewrite u53; change (Z.to_nat (bp_degu dpatch) + Z.to_nat (bp_degv dpatch))%nat with 3%nat; simpl INR; lra|].
  split; [intros p Hp; apply pts_small; unfold dpatch in Hp; cbn [bp_grid In] in *; tauto|].
  split; [exact Fx|]. split; [lra|]. split; [exact Fy|exact Hy].
Qed.
