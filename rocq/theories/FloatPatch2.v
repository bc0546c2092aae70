(** B-spline patches in floating point arithmetic. *)
From Coq Require Import Reals Lra Lia ZArith QArith List Bool.
From Flocq Require Import Core IEEE754.BinarySingleNaN.
From Verif Require Import Monad MonadFacts Scalar ScalarFacts Spec SpecFacts SpecPatch TensorFacts PatchFacts PatchHull ModelCurve ModelBezier BezierThms
  ModelBSpline BSplineFacts BSplineThms BSplineThms2 ModelPatchBase ModelPatch SpecFloat ModelFloat FloatFacts FloatThms FloatThms2 FloatThms3
  FloatCases FloatRuns FloatTotal FloatSplit FloatPatch FloatRational.
Import ListNotations.
Local Open Scope R_scope.

(** * The structure of the evaluation, in any arithmetic *)
Section Structure.
  Context {T P : Type} {SO : ScalarOps T} {V : PointOps T P}.
  Local Open Scope Z_scope.

  (** A patch without periodic directions, degrees [p], [q], [n] x [m] control points. *)
  Record gsrep (s : spatch T P) (p q n m : nat) : Prop := {
    gs_u : sp_degu s = Z.of_nat p;
    gs_v : sp_degv s = Z.of_nat q;
    gs_nu : length (sp_ku s) = (n + p + 1)%nat;
    gs_nv : length (sp_kv s) = (m + q + 1)%nat;
    gs_g : zlen (sp_grid s) = Z.of_nat n * Z.of_nat m;
    gs_pu : sp_peru s = false;
    gs_pv : sp_perv s = false }.

  Definition srow (s : spatch T P) (m i : nat) : list P := map (fun j => nth (i * m + j) (sp_grid s) p0) (seq 0 m).
  Definition scol (s : spatch T P) (n m j : nat) : list P := map (fun i => nth (i * m + j) (sp_grid s) p0) (seq 0 n).

  Context (s : spatch T P) (p q n m : nat) (H : gsrep s p q n m).

  Lemma gs_count_u : sp_nu s = Ok (Z.of_nat n).
  Proof.
    unfold sp_nu, checked_degree. rewrite (gs_u _ _ _ _ _ H).
    replace (0 <=? Z.of_nat p) with true by (symmetry; apply Z.leb_le; lia). cbn [assert_ bind]. f_equal.
    unfold zlen. rewrite (gs_nu _ _ _ _ _ H). lia.
  Qed.
  Lemma gs_count_v : sp_nv s = Ok (Z.of_nat m).
  Proof.
    unfold sp_nv, checked_degree. rewrite (gs_v _ _ _ _ _ H).
    replace (0 <=? Z.of_nat q) with true by (symmetry; apply Z.leb_le; lia). cbn [assert_ bind]. f_equal.
    unfold zlen. rewrite (gs_nv _ _ _ _ _ H). lia.
  Qed.
  Lemma gs_get i j : 0 <= i < Z.of_nat n -> 0 <= j < Z.of_nat m ->
    grid_get (sp_grid s) (Z.of_nat m) i j = Ok (nth (Z.to_nat (i * Z.of_nat m + j)) (sp_grid s) p0).
  Proof. intros Hi Hj. unfold grid_get, linear_index. apply get_nth. rewrite (gs_g _ _ _ _ _ H). nia. Qed.

  Lemma gs_iso_v : sp_iso_curves_v s = Ok (mklist (Z.of_nat n) (fun i => mk_bspline (srow s m (Z.to_nat i)) (sp_kv s))).
  Proof.
    unfold sp_iso_curves_v. rewrite gs_count_u, gs_count_v, !bind_Ok. apply tabulate_Ok; [lia|]. intros i Hi.
    rewrite (gs_pv _ _ _ _ _ H).
    rewrite (tabulate_Ok _ _ (fun j => nth (Z.to_nat (i * Z.of_nat m + j)) (sp_grid s) p0)); [|lia|intros j Hj; now apply gs_get].
    rewrite bind_Ok. f_equal. unfold mk_bspline. f_equal. unfold mklist, srow. rewrite Nat2Z.id. apply map_ext_in. intros j Hj.
    apply in_seq in Hj. f_equal. nia.
  Qed.
  Lemma gs_iso_u : sp_iso_curves_u s = Ok (mklist (Z.of_nat m) (fun j => mk_bspline (scol s n m (Z.to_nat j)) (sp_ku s))).
  Proof.
    unfold sp_iso_curves_u. rewrite gs_count_u, gs_count_v, !bind_Ok. apply tabulate_Ok; [lia|]. intros j Hj.
    rewrite (gs_pu _ _ _ _ _ H).
    rewrite (tabulate_Ok _ _ (fun i => nth (Z.to_nat (i * Z.of_nat m + j)) (sp_grid s) p0)); [|lia|intros i Hi; now apply gs_get].
    rewrite bind_Ok. f_equal. unfold mk_bspline. f_equal. unfold mklist, scol. rewrite Nat2Z.id. apply map_ext_in. intros i Hi.
    apply in_seq in Hi. f_equal. nia.
  Qed.

  Hypothesis HI : sp_initialize s = Ok s.
  Lemma gs_caches : sp_isou s = mklist (Z.of_nat m) (fun j => mk_bspline (scol s n m (Z.to_nat j)) (sp_ku s)) /\
    sp_isov s = mklist (Z.of_nat n) (fun i => mk_bspline (srow s m (Z.to_nat i)) (sp_kv s)).
  Proof.
    assert (E := HI). unfold sp_initialize, checked_degree in E. rewrite (gs_u _ _ _ _ _ H), (gs_v _ _ _ _ _ H) in E.
    replace (0 <=? Z.of_nat p) with true in E by (symmetry; apply Z.leb_le; lia).
    replace (0 <=? Z.of_nat q) with true in E by (symmetry; apply Z.leb_le; lia). cbn [assert_ bind] in E.
    destruct (_ || _) in E; [discriminate|]. destruct (negb _) in E; [discriminate|].
    rewrite gs_iso_u, bind_Ok, gs_iso_v, bind_Ok in E. injection E as E.
    split; [apply (f_equal sp_isou) in E|apply (f_equal sp_isov) in E]; symmetry; exact E.
  Qed.

  Lemma gs_evaluate_rows u v (qs : list P) :
    length qs = n -> (forall i, (i < n)%nat -> bs_evaluate (mk_bspline (srow s m i) (sp_kv s)) v = Ok (nth i qs p0)) ->
    sp_degv s <= sp_degu s -> sp_evaluate s u v = bs_evaluate (mk_bspline qs (sp_ku s)) u.
  Proof.
    intros Hl Hq Hd. unfold sp_evaluate. replace (sp_degu s <? sp_degv s) with false by (symmetry; apply Z.ltb_ge; lia).
    unfold sp_iso_curve_u. rewrite gs_count_u, bind_Ok, (proj2 gs_caches).
    rewrite (tabulate_Ok _ _ (fun i => nth (Z.to_nat i) qs p0)); [|lia|].
    - rewrite !bind_Ok, (gs_pu _ _ _ _ _ H). rewrite <- Hl. rewrite (list_mklist qs _ eq_refl). reflexivity.
    - intros i Hi. rewrite get_mklist by assumption. rewrite bind_Ok. apply Hq; lia.
  Qed.
  Lemma gs_evaluate_cols u v (qs : list P) :
    length qs = m -> (forall j, (j < m)%nat -> bs_evaluate (mk_bspline (scol s n m j) (sp_ku s)) u = Ok (nth j qs p0)) ->
    sp_degu s < sp_degv s -> sp_evaluate s u v = bs_evaluate (mk_bspline qs (sp_kv s)) v.
  Proof.
    intros Hl Hq Hd. unfold sp_evaluate. replace (sp_degu s <? sp_degv s) with true by (symmetry; apply Z.ltb_lt; lia).
    unfold sp_iso_curve_v. rewrite gs_count_v, bind_Ok, (proj1 gs_caches).
    rewrite (tabulate_Ok _ _ (fun i => nth (Z.to_nat i) qs p0)); [|lia|].
    - rewrite !bind_Ok, (gs_pv _ _ _ _ _ H). rewrite <- Hl. rewrite (list_mklist qs _ eq_refl). reflexivity.
    - intros i Hi. rewrite get_mklist by assumption. rewrite bind_Ok. apply Hq; lia.
  Qed.
End Structure.

Lemma gsrep_of_initialize {T P} {SO : ScalarOps T} {V : PointOps T P} (s : spatch T P) : sp_initialize s = Ok s ->
  let p := Z.to_nat (sp_degu s) in let q := Z.to_nat (sp_degv s) in
  (2 * p + 2 <= length (sp_ku s))%nat -> (2 * q + 2 <= length (sp_kv s))%nat ->
  sp_peru s = false -> sp_perv s = false ->
  gsrep s p q (length (sp_ku s) - p - 1) (length (sp_kv s) - q - 1).
Proof.
  intros E p q H1 H2 H3 H4. unfold sp_initialize, checked_degree in E.
  destruct (Z.leb_spec 0 (sp_degu s)) as [Hu|]; [|discriminate]. cbn [assert_ bind] in E.
  destruct (Z.leb_spec 0 (sp_degv s)) as [Hv|]; [|discriminate]. cbn [assert_ bind] in E.
  destruct (_ || _) in E; [discriminate|].
  destruct (Z.eqb_spec (zlen (sp_grid s)) ((zlen (sp_ku s) - sp_degu s - 1) * (zlen (sp_kv s) - sp_degv s - 1))) as [Eg|]; [|discriminate].
  split; try assumption; unfold p, q in *; try lia. rewrite Eg. unfold zlen. f_equal; lia.
Qed.

(** ** Curves with near control points are near *)
Lemma bspline_curve_coord d (l : list (vec R d)) p knots t i : (i < d)%nat -> length l = dir_count p knots -> (p < length knots)%nat ->
  coord d i (bspline_curve l knots t) = rsum (dir_count p knots) (fun k => bspline_basis (dir_count p knots) knots t k * coord d i (nth k l p0)).
Proof.
  intros Hi Hl Hp. unfold bspline_curve. rewrite coord_psum by exact Hi. rewrite Hl. apply rsum_ext. intros k Hk.
  rewrite coord_mul by exact Hi. unfold bspline_basis, bspline_degree. rewrite Hl. reflexivity.
Qed.
Lemma dir_valid' {P} (pts : list P) p knots : valid_dir p knots -> length pts = dir_count p knots ->
  valid_bspline pts knots /\ bspline_degree pts knots = p /\ lower_of pts knots = dir_lo p knots /\ upper_of pts knots = dir_hi p knots.
Proof.
  intros [V1 V2 V3] Hl. assert (D : bspline_degree pts knots = p) by (unfold bspline_degree; rewrite Hl; unfold dir_count; lia).
  assert (V4 := V3). unfold dir_lo, dir_hi in V4.
  split; [|split; [exact D|split; [unfold lower_of; now rewrite D|unfold upper_of; now rewrite Hl]]].
  split; [unfold dir_count in Hl; lia|rewrite D; unfold dir_count in Hl; lia|exact V2|rewrite D, Hl; exact V4].
Qed.

Section Float.
  Context (prec emax : Z) {Hprec : Prec_gt_0 prec} {Hmax : Prec_lt_emax prec emax}.
  Notation num := (binary_float prec emax).
  Notation u := (unit_roundoff prec).
  Notation eta := (underflow_error prec emax).
  Notation Omega := (bpow radix2 emax).
  Local Instance FOq : ScalarOps num := ieee_ops prec emax.

  Definition spline_err (M : R) (p : nat) : R := growth u eta M p - M + 2 * INR p * (5 * u + eta) * M.

  Lemma spline_stage d (pts : list (vec num d)) (ks : list num) (p : nat) (t : num) M :
    let knots := map B2R ks in
    tol_ok prec emax -> valid_dir p knots -> knots_apart (/ IZR (10 ^ 15)) knots ->
    (forall x, In x ks -> is_finite x = true /\ Rabs (B2R x) <= bpow radix2 (emax - 2)) ->
    length pts = dir_count p knots ->
    (forall a i, In a pts -> (i < d)%nat -> is_finite (coord d i a) = true /\ Rabs (B2R (coord d i a)) <= M) ->
    is_finite t = true -> dir_param false p knots (B2R t) -> growth u eta M p < Omega ->
    exists q, bs_evaluate (mk_bspline pts ks) t = Ok q /\
      forall i, (i < d)%nat ->
        near prec emax (growth u eta M p) (spline_err M p) (coord d i q)
          (coord d i (bspline_curve (map (vreal d) pts) knots (B2R t))).
  Proof.
    intros knots Htol HV HA HK Hl HP Ft [Ht1 Ht2] HO.
    destruct Ht1 as [X|Ht1]; [discriminate|].
    destruct (dir_valid' pts p knots HV Hl) as (VB & D & EL & EU).
    destruct (bspline_near prec emax d (mk_bspline pts ks) t M Htol VB HA eq_refl HK HP Ft) as (q & Eq & Hq).
    - cbn [bs_pts bs_knots mk_bspline]. fold knots. rewrite EL, EU. exact Ht1.
    - cbn [bs_pts bs_knots mk_bspline]. fold knots. rewrite D, EL. destruct Ht2 as [H|[_ H]]; [now left|now right].
    - cbn [bs_pts bs_knots mk_bspline]. fold knots. rewrite D. exact HO.
    - cbn [bs_pts bs_knots mk_bspline] in *. fold knots in Hq. rewrite D in Hq. exists q. split; [exact Eq|exact Hq].
  Qed.

  Lemma spline_two_stage d (rows : list (list (vec num d))) (kx ky : list num) (px py : nat) (x y : num) M :
    let Kx := map B2R kx in let Ky := map B2R ky in
    tol_ok prec emax -> valid_dir px Kx -> valid_dir py Ky ->
    knots_apart (/ IZR (10 ^ 15)) Kx -> knots_apart (/ IZR (10 ^ 15)) Ky ->
    (forall a, In a kx \/ In a ky -> is_finite a = true /\ Rabs (B2R a) <= bpow radix2 (emax - 2)) ->
    length rows = dir_count px Kx -> (forall r, In r rows -> length r = dir_count py Ky) ->
    (forall r p i, In r rows -> In p r -> (i < d)%nat -> is_finite (coord d i p) = true /\ Rabs (B2R (coord d i p)) <= M) ->
    is_finite x = true -> dir_param false px Kx (B2R x) -> is_finite y = true -> dir_param false py Ky (B2R y) ->
    0 <= M -> growth u eta M (py + px) < Omega ->
    exists qs q, length qs = dir_count px Kx /\
      (forall k, (k < dir_count px Kx)%nat -> bs_evaluate (mk_bspline (nth k rows []) ky) y = Ok (nth k qs p0)) /\
      bs_evaluate (mk_bspline qs kx) x = Ok q /\
      forall i, (i < d)%nat -> is_finite (coord d i q) = true /\
        Rabs (B2R (coord d i q) -
          coord d i (bspline_curve (map (fun r => bspline_curve (map (vreal d) r) Ky (B2R y)) rows) Kx (B2R x)))
        <= spline_err M py + spline_err (growth u eta M py) px.
  Proof.
    intros Kx Ky Htol Vx Vy Ax Ay HK Hn Hm Hb Fx Hx Fy Hy HM HO.
    pose proof (growth_plus prec emax M py px HM) as GP. pose proof (growth_ge prec emax M py HM) as GM.
    assert (HO1 : growth u eta M py < Omega) by (eapply Rle_lt_trans; [|exact HO]; apply growth_mono; [exact HM|lia]).
    assert (ST : exists qs, length qs = length rows /\ forall k, (k < length rows)%nat ->
      bs_evaluate (mk_bspline (nth k rows []) ky) y = Ok (nth k qs p0) /\
      forall i, (i < d)%nat -> near prec emax (growth u eta M py) (spline_err M py) (coord d i (nth k qs p0))
          (coord d i (bspline_curve (map (vreal d) (nth k rows [])) Ky (B2R y)))).
    { clear Hn. induction rows as [|r rows IH]; [exists []; split; [reflexivity|intros k Hk; simpl in Hk; lia]|].
      destruct IH as (qs & Lq & Hq).
      - intros r' Hr. apply Hm. now right.
      - intros r' p i Hr. apply (Hb r' p i). now right.
      - destruct (spline_stage d r ky py y M Htol Vy Ay (fun a Ha => HK a (or_intror Ha)) (Hm r (or_introl eq_refl))) as (q & Eq & Nq).
        + intros p i Hp Hi. apply (Hb r p i (or_introl eq_refl) Hp Hi).
        + exact Fy.
        + exact Hy.
        + exact HO1.
        + exists (q :: qs). split; [simpl; now rewrite Lq|]. intros [|k] Hk; [split; [exact Eq|exact Nq]|]. apply Hq. simpl in Hk. lia. }
    destruct ST as (qs & Lq & Hq). rewrite Hn in *.
    destruct (spline_stage d qs kx px x (growth u eta M py) Htol Vx Ax (fun a Ha => HK a (or_introl Ha)) Lq) as (q & Eq & Nq).
    - intros p i Hp Hi. apply (In_nth _ _ p0) in Hp. destruct Hp as (k & Hk & <-).
      destruct (Hq k ltac:(lia)) as [_ N]. destruct (N i Hi) as (N1 & N2 & _). now split.
    - exact Fx.
    - exact Hx.
    - lra.
    - exists qs, q. split; [exact Lq|]. split; [intros k Hk; apply Hq; lia|]. split; [exact Eq|].
      intros i Hi. destruct (Nq i Hi) as (N1 & _ & N3). split; [exact N1|].
      destruct Hx as [Hx1 Hx2]. destruct Hx1 as [X|Hx1]; [discriminate|].
      pose proof (dir_simplex px Kx (B2R x) Vx Hx1 ltac:(destruct Hx2 as [H|[_ H]]; [now left|now right])) as SX.
      fold Kx in N3.
      assert (Hpx : (px < length Kx)%nat) by (pose proof (vd_len _ _ Vx); lia).
      rewrite (bspline_curve_coord d _ px Kx (B2R x) i Hi) in N3 by (rewrite ?map_length; assumption).
      rewrite (bspline_curve_coord d (map _ rows) px Kx (B2R x) i Hi) by (rewrite ?map_length; assumption).
      set (b := bspline_basis (dir_count px Kx) Kx (B2R x)) in *.
      pose proof (mean_err _ b (fun k => coord d i (nth k (map (vreal d) qs) p0))
        (fun k => coord d i (nth k (map (fun r => bspline_curve (map (@vreal prec emax d) r) Ky (B2R y)) rows) p0)) (spline_err M py) SX) as ME.
      assert (HN : forall k, (k < dir_count px Kx)%nat -> Rabs (coord d i (nth k (map (vreal d) qs) p0) -
          coord d i (nth k (map (fun r => bspline_curve (map (@vreal prec emax d) r) Ky (B2R y)) rows) p0)) <= spline_err M py).
      { intros k Hk. destruct (Hq k ltac:(lia)) as [_ N]. destruct (N i Hi) as (_ & _ & N4).
        rewrite (nth_indep (map (vreal d) qs) p0 (vreal d p0)) by (rewrite map_length; lia).
        rewrite map_nth.
        rewrite (nth_indep (map _ rows) p0 (bspline_curve (map (@vreal prec emax d) []) Ky (B2R y))) by (rewrite map_length; lia).
        rewrite (map_nth (fun r => bspline_curve (map (@vreal prec emax d) r) Ky (B2R y)) rows []).
        rewrite (vreal_coord prec emax). exact N4. }
      specialize (ME HN). cbv beta in ME.
      set (A := B2R (coord d i q)) in *. set (B := rsum _ (fun k => b k * coord d i (nth k (map (vreal d) qs) p0))) in *.
      set (C := rsum _ _) in ME |- *.
      replace (A - C) with ((A - B) + (B - C)) by ring. eapply Rle_trans; [apply Rabs_triang|]. lra.
  Qed.

  (** A readable bound. *)
  Lemma two_stage_bound M p q : 0 <= M -> 24 * INR (p + q) * u <= 1 ->
    spline_err M q + spline_err (growth u eta M q) p <= INR (p + q) * (16 * u * M + (5 + 3 * M) * eta).
  Proof.
    intros HM Hu. unfold spline_err. pose proof (u_pos prec) as Hu0. pose proof (eta_pos prec emax) as He0.
    pose proof (growth_plus prec emax M q p HM) as GP.
    pose proof (growth_bound prec emax M (p + q) HM Hu) as GB. rewrite (Nat.add_comm q p) in GP.
    rewrite plus_INR in *. pose proof (pos_INR p) as Hp0. pose proof (pos_INR q) as Hq0.
    set (a := INR p) in *. set (b := INR q) in *.
    assert (Hbu : 24 * b * u <= 1) by nra.
    pose proof (growth_bound prec emax M q HM Hbu) as GQ. fold b in GQ.
    set (A := growth u eta M q) in *. set (G := growth u eta M (p + q)) in *. set (H := growth u eta A p) in *.
    assert (Heu : eta <= u).
    { pose proof (prec_gt_0 prec). pose proof (prec_lt_emax prec emax). unfold underflow_error, unit_roundoff. apply bpow_le. lia. }
    assert (HA : A <= 7 / 6 * M + 3 * (b * eta)) by nra.
    assert (HA2 : (5 * u + eta) * A <= (5 * u + eta) * (7 / 6 * M) + 3 / 4 * eta).
    { assert ((5 * u + eta) * A <= (5 * u + eta) * (7 / 6 * M + 3 * (b * eta))) by (apply Rmult_le_compat_l; lra).
      assert ((5 * u + eta) * (b * eta) <= 6 * u * (b * eta)) by (apply Rmult_le_compat_r; nra).
      assert (6 * u * (b * eta) <= / 4 * eta) by nra. lra. }
    assert (a * ((5 * u + eta) * A) <= a * ((5 * u + eta) * (7 / 6 * M) + 3 / 4 * eta)) by (apply Rmult_le_compat_l; lra).
    assert (0 <= u * M) by nra. assert (0 <= eta * M) by nra.
    assert (b * ((5 * u + eta) * M) <= b * ((5 * u + eta) * (7 / 6 * M) + 3 / 4 * eta)) by (apply Rmult_le_compat_l; nra).
    assert (F : 2 * ((5 * u + eta) * (7 / 6 * M) + 3 / 4 * eta) + (4 * u * M + 3 * eta) <= 16 * u * M + (5 + 3 * M) * eta) by nra.
    assert ((a + b) * (2 * ((5 * u + eta) * (7 / 6 * M) + 3 / 4 * eta) + (4 * u * M + 3 * eta)) <= (a + b) * (16 * u * M + (5 + 3 * M) * eta))
      by (apply Rmult_le_compat_l; lra).
    lra.
  Qed.

  Lemma spline_rows d (grid : list (vec num d)) p q ku kv x y : valid_dir p ku -> valid_dir q kv ->
    let n := dir_count p ku in let m := dir_count q kv in length grid = (n * m)%nat ->
    bspline_curve (map (fun r => bspline_curve (map (vreal d) r) kv y)
      (map (fun i => map (fun j => nth (i * m + j) grid p0) (seq 0 m)) (seq 0 n))) ku x =
    tensor_sum n m (bspline_basis n ku x) (bspline_basis m kv y) (map (vreal d) grid).
  Proof.
    intros Vu Vv n m Hg. rewrite <- tensor_rows.
    unfold bspline_curve at 1, bspline_degree. rewrite !map_length, seq_length.
    apply psum_ext. intros i Hi. f_equal.
    rewrite map_map, (nth_indep _ p0 ((fun i => bspline_curve (map (vreal d) (map (fun j => nth (i * m + j) grid p0) (seq 0 m))) kv y) 0%nat))
      by (rewrite map_length, seq_length; lia).
    rewrite (map_nth (fun i => bspline_curve (map (vreal d) (map (fun j => nth (i * m + j) grid p0) (seq 0 m))) kv y)), seq_nth by lia.
    unfold bspline_curve, bspline_degree. rewrite !map_length, seq_length. apply psum_ext. intros j Hj. f_equal.
    rewrite map_map, (nth_indep _ p0 ((fun j => vreal d (nth ((0 + i) * m + j) grid p0)) 0%nat)) by (rewrite map_length, seq_length; lia).
    rewrite (map_nth (fun j => vreal d (nth ((0 + i) * m + j) grid p0))), seq_nth by lia.
    rewrite (nth_indep (map (vreal d) grid) p0 (vreal d p0)) by (rewrite map_length, Hg; nia).
    now rewrite map_nth.
  Qed.
  Lemma spline_cols d (grid : list (vec num d)) p q ku kv x y : valid_dir p ku -> valid_dir q kv ->
    let n := dir_count p ku in let m := dir_count q kv in length grid = (n * m)%nat ->
    bspline_curve (map (fun r => bspline_curve (map (vreal d) r) ku x)
      (map (fun j => map (fun i => nth (i * m + j) grid p0) (seq 0 n)) (seq 0 m))) kv y =
    tensor_sum n m (bspline_basis n ku x) (bspline_basis m kv y) (map (vreal d) grid).
  Proof.
    intros Vu Vv n m Hg. rewrite <- tensor_cols.
    unfold bspline_curve at 1, bspline_degree. rewrite !map_length, seq_length.
    apply psum_ext. intros j Hj. f_equal.
    rewrite map_map, (nth_indep _ p0 ((fun j => bspline_curve (map (vreal d) (map (fun i => nth (i * m + j) grid p0) (seq 0 n))) ku x) 0%nat))
      by (rewrite map_length, seq_length; lia).
    rewrite (map_nth (fun j => bspline_curve (map (vreal d) (map (fun i => nth (i * m + j) grid p0) (seq 0 n))) ku x)), seq_nth by lia.
    unfold bspline_curve, bspline_degree. rewrite !map_length, seq_length. apply psum_ext. intros i Hi. f_equal.
    rewrite map_map, (nth_indep _ p0 ((fun i => vreal d (nth (i * m + (0 + j)) grid p0)) 0%nat)) by (rewrite map_length, seq_length; lia).
    rewrite (map_nth (fun i => vreal d (nth (i * m + (0 + j)) grid p0))), seq_nth by lia.
    rewrite (nth_indep (map (vreal d) grid) p0 (vreal d p0)) by (rewrite map_length, Hg; nia).
    now rewrite map_nth.
  Qed.

  Lemma bspline_patch_error d (s : spatch num (vec num d)) (x y : num) M :
    let p := Z.to_nat (sp_degu s) in let q := Z.to_nat (sp_degv s) in
    let ku := map B2R (sp_ku s) in let kv := map B2R (sp_kv s) in
    let n := dir_count p ku in let m := dir_count q kv in
    tol_ok prec emax -> sp_initialize s = Ok s -> sp_peru s = false -> sp_perv s = false ->
    valid_dir p ku -> valid_dir q kv -> knots_apart (/ IZR (10 ^ 15)) ku -> knots_apart (/ IZR (10 ^ 15)) kv ->
    (forall a, In a (sp_ku s) \/ In a (sp_kv s) -> is_finite a = true /\ Rabs (B2R a) <= bpow radix2 (emax - 2)) ->
    0 <= M <= bpow radix2 (emax - 1) -> 24 * INR (p + q) * u <= 1 ->
    (forall a, In a (sp_grid s) -> vfinite d a /\ forall i, (i < d)%nat -> Rabs (coord d i (vreal d a)) <= M) ->
    is_finite x = true -> dir_param false p ku (B2R x) -> is_finite y = true -> dir_param false q kv (B2R y) ->
    exists r, sp_evaluate s x y = Ok r /\ vfinite d r /\
      forall i, (i < d)%nat ->
        Rabs (coord d i (vreal d r) -
          coord d i (tensor_sum n m (bspline_basis n ku (B2R x)) (bspline_basis m kv (B2R y)) (map (vreal d) (sp_grid s))))
        <= INR (p + q) * (16 * u * M + (5 + 3 * M) * eta).
  Proof.
    intros p q ku kv n m Htol HI Hpu Hpv Vu Vv Au Av HK HM Hu Hp Fx Hx Fy Hy.
    assert (Lu : length ku = length (sp_ku s)) by apply map_length. assert (Lv : length kv = length (sp_kv s)) by apply map_length.
    pose proof (vd_len _ _ Vu) as Vlu. pose proof (vd_len _ _ Vv) as Vlv.
    pose proof (gsrep_of_initialize s HI) as H. fold p in H. fold q in H. specialize (H ltac:(lia) ltac:(lia) Hpu Hpv).
    rewrite <- Lu, <- Lv in H. change (gsrep s p q n m) in H.
    assert (Hg : length (sp_grid s) = (n * m)%nat) by (pose proof (gs_g _ _ _ _ _ H) as X; unfold zlen in X; nia).
    assert (Hb : forall k i, (k < length (sp_grid s))%nat -> (i < d)%nat ->
      is_finite (coord d i (nth k (sp_grid s) p0)) = true /\ Rabs (B2R (coord d i (nth k (sp_grid s) p0))) <= M).
    { intros k i Hk Hi. destruct (Hp (nth k (sp_grid s) p0) (nth_In _ _ Hk)) as [H1 H2].
      split; [now apply (vfinite_coord prec emax d)|]. pose proof (H2 i Hi) as H3. rewrite (vreal_coord prec emax) in H3. exact H3. }
    pose proof (growth_finite prec emax M (p + q) ltac:(lra) Hu ltac:(lra)) as HO.
    destruct (Z.lt_ge_cases (sp_degu s) (sp_degv s)) as [Hd|Hd].
    - destruct (spline_two_stage d (map (scol s n m) (seq 0 m)) (sp_kv s) (sp_ku s) q p y x M) as (qs & r & Lq & Eqs & Eq & Hq);
        try assumption; try lra.
      + intros a Ha. apply HK. tauto.
      + rewrite map_length, seq_length. reflexivity.
      + intros r Hr. apply in_map_iff in Hr. destruct Hr as (j & <- & _). unfold scol. rewrite map_length, seq_length. reflexivity.
      + intros r a i Hr Hpr Hi. apply in_map_iff in Hr. destruct Hr as (j & <- & Hj). unfold scol in Hpr.
        apply in_map_iff in Hpr. destruct Hpr as (k & <- & Hk). apply in_seq in Hj, Hk. apply Hb; [rewrite Hg; nia|exact Hi].
      + fold kv in Lq, Eqs. fold m in Lq, Eqs. exists r. split.
        { rewrite (gs_evaluate_cols s p q n m H HI x y qs Lq); [exact Eq| |exact Hd]. intros j Hj.
          rewrite <- Eqs by exact Hj. f_equal. f_equal.
          rewrite (nth_indep _ [] (scol s n m 0%nat)) by (rewrite map_length, seq_length; lia). now rewrite map_nth, seq_nth by lia. }
        split; [apply (vfinite_coord prec emax d); intros i Hi; apply (Hq i Hi)|].
        intros i Hi. destruct (Hq i Hi) as [_ E]. rewrite (vreal_coord prec emax).
        unfold scol in E. fold ku in E. fold kv in E.
        pose proof (spline_cols d (sp_grid s) p q ku kv (B2R x) (B2R y) Vu Vv Hg) as X. cbv zeta in X. fold n in X. fold m in X.
        rewrite X in E. eapply Rle_trans; [exact E|].
        rewrite Nat.add_comm. apply two_stage_bound; [lra|]. rewrite Nat.add_comm. exact Hu.
    - destruct (spline_two_stage d (map (srow s m) (seq 0 n)) (sp_ku s) (sp_kv s) p q x y M) as (qs & r & Lq & Eqs & Eq & Hq);
        try assumption; try lra.
      + rewrite map_length, seq_length. reflexivity.
      + intros r Hr. apply in_map_iff in Hr. destruct Hr as (j & <- & _). unfold srow. rewrite map_length, seq_length. reflexivity.
      + intros r a i Hr Hpr Hi. apply in_map_iff in Hr. destruct Hr as (j & <- & Hj). unfold srow in Hpr.
        apply in_map_iff in Hpr. destruct Hpr as (k & <- & Hk). apply in_seq in Hj, Hk. apply Hb; [rewrite Hg; nia|exact Hi].
      + rewrite Nat.add_comm. exact HO.
      + fold ku in Lq, Eqs. fold n in Lq, Eqs. exists r. split.
        { rewrite (gs_evaluate_rows s p q n m H HI x y qs Lq); [exact Eq| |exact Hd]. intros j Hj.
          rewrite <- Eqs by exact Hj. f_equal. f_equal.
          rewrite (nth_indep _ [] (srow s m 0%nat)) by (rewrite map_length, seq_length; lia). now rewrite map_nth, seq_nth by lia. }
        split; [apply (vfinite_coord prec emax d); intros i Hi; apply (Hq i Hi)|].
        intros i Hi. destruct (Hq i Hi) as [_ E]. rewrite (vreal_coord prec emax).
        unfold srow in E. fold ku in E. fold kv in E.
        pose proof (spline_rows d (sp_grid s) p q ku kv (B2R x) (B2R y) Vu Vv Hg) as X. cbv zeta in X. fold n in X. fold m in X.
        rewrite X in E. eapply Rle_trans; [exact E|].
        apply two_stage_bound; [lra|exact Hu].
  Qed.
End Float.

Lemma bspline_patch_double : forall (d : nat) (s : spatch double (vec double d)) (x y : double) (M : R),
  let p := Z.to_nat (sp_degu s) in let q := Z.to_nat (sp_degv s) in
  let ku := map B2R (sp_ku s) in let kv := map B2R (sp_kv s) in
  let n := dir_count p ku in let m := dir_count q kv in
  @sp_initialize double (vec double d) s = Ok s -> sp_peru s = false -> sp_perv s = false ->
  valid_dir p ku -> valid_dir q kv -> knots_apart (/ IZR (10 ^ 15)) ku -> knots_apart (/ IZR (10 ^ 15)) kv ->
  (forall a, In a (sp_ku s) \/ In a (sp_kv s) -> is_finite a = true /\ Rabs (B2R a) <= bpow radix2 1022) ->
  0 <= M <= bpow radix2 1023 -> 24 * INR (p + q) * unit_roundoff 53 <= 1 ->
  (forall a, In a (sp_grid s) -> vfinite d a /\ forall i, (i < d)%nat -> Rabs (coord d i (vreal d a)) <= M) ->
  is_finite x = true -> dir_param false p ku (B2R x) -> is_finite y = true -> dir_param false q kv (B2R y) ->
  exists r : vec double d,
    @sp_evaluate double (vec double d) double_ops (@vec_ops double double_ops d) s x y = Ok r /\ vfinite d r /\
    forall i, (i < d)%nat ->
      Rabs (coord d i (vreal d r) -
        coord d i (tensor_sum n m (bspline_basis n ku (B2R x)) (bspline_basis m kv (B2R y)) (map (vreal d) (sp_grid s))))
      <= INR (p + q) * (16 * unit_roundoff 53 * M + (5 + 3 * M) * underflow_error 53 1024).
Proof. intros d s x y M p q ku kv n m. exact (@bspline_patch_error 53 1024 prec64 max64 d s x y M tol_double). Qed.

Lemma bspline_patch_float : forall (d : nat) (s : spatch float32 (vec float32 d)) (x y : float32) (M : R),
  let p := Z.to_nat (sp_degu s) in let q := Z.to_nat (sp_degv s) in
  let ku := map B2R (sp_ku s) in let kv := map B2R (sp_kv s) in
  let n := dir_count p ku in let m := dir_count q kv in
  @sp_initialize float32 (vec float32 d) s = Ok s -> sp_peru s = false -> sp_perv s = false ->
  valid_dir p ku -> valid_dir q kv -> knots_apart (/ IZR (10 ^ 15)) ku -> knots_apart (/ IZR (10 ^ 15)) kv ->
  (forall a, In a (sp_ku s) \/ In a (sp_kv s) -> is_finite a = true /\ Rabs (B2R a) <= bpow radix2 126) ->
  0 <= M <= bpow radix2 127 -> 24 * INR (p + q) * unit_roundoff 24 <= 1 ->
  (forall a, In a (sp_grid s) -> vfinite d a /\ forall i, (i < d)%nat -> Rabs (coord d i (vreal d a)) <= M) ->
  is_finite x = true -> dir_param false p ku (B2R x) -> is_finite y = true -> dir_param false q kv (B2R y) ->
  exists r : vec float32 d,
    @sp_evaluate float32 (vec float32 d) float32_ops (@vec_ops float32 float32_ops d) s x y = Ok r /\ vfinite d r /\
    forall i, (i < d)%nat ->
      Rabs (coord d i (vreal d r) -
        coord d i (tensor_sum n m (bspline_basis n ku (B2R x)) (bspline_basis m kv (B2R y)) (map (vreal d) (sp_grid s))))
      <= INR (p + q) * (16 * unit_roundoff 24 * M + (5 + 3 * M) * underflow_error 24 128).
Proof. intros d s x y M p q ku kv n m. exact (@bspline_patch_error 24 128 prec32 max32 d s x y M tol_float). Qed.

(** Degrees 2 and 1, 4 x 2 control points. *)
Definition dspatch_grid : list (vec double 2) :=
  [dpt 0 1; dpt 1 3; dpt 4 (-2); dpt (1 # 3) 0; dpt 0 1; dpt 4 (-2); dpt 1 3; dpt (1 # 3) 0].
Definition dspatch : spatch double (vec double 2) :=
  let ku := bs_knots dspline in let kv := map dofQ [0; 0; 1; 1]%Q in
  let g k := nth k dspatch_grid (dpt 0 0) in
  {| sp_tu := 2; sp_tv := 1; sp_degu := 2; sp_degv := 1; sp_grid := dspatch_grid; sp_ku := ku; sp_kv := kv;
     sp_peru := false; sp_perv := false;
     sp_isou := [mk_bspline [g 0%nat; g 2%nat; g 4%nat; g 6%nat] ku; mk_bspline [g 1%nat; g 3%nat; g 5%nat; g 7%nat] ku];
     sp_isov := [mk_bspline [g 0%nat; g 1%nat] kv; mk_bspline [g 2%nat; g 3%nat] kv;
                 mk_bspline [g 4%nat; g 5%nat] kv; mk_bspline [g 6%nat; g 7%nat] kv] |}.
Lemma dspatch_kv : map B2R (sp_kv dspatch) = [0; 0; 1; 1].
Proof.
  unfold dspatch. cbn [sp_kv map]. destruct zero_value as [_ E0].
  dval 1%Q false 4503599627370496%positive (-52)%Z. rewrite E0, E. simpl IZR. repeat f_equal; lra.
Qed.
Lemma dspatch_ku : map B2R (sp_ku dspatch) = [0; 0; 0; / 2; 1; 1; 1].
Proof. exact dspline_knots. Qed.
Lemma dspatch_case : let s := dspatch in let x := dofQ (3 # 10) in let y := dofQ (1 # 10) in
  let p := Z.to_nat (sp_degu s) in let q := Z.to_nat (sp_degv s) in
  let ku := map B2R (sp_ku s) in let kv := map B2R (sp_kv s) in
  p = 2%nat /\ q = 1%nat /\ sp_initialize s = Ok s /\ sp_peru s = false /\ sp_perv s = false /\
  valid_dir p ku /\ valid_dir q kv /\ knots_apart (/ IZR (10 ^ 15)) ku /\ knots_apart (/ IZR (10 ^ 15)) kv /\
  (forall a, In a (sp_ku s) \/ In a (sp_kv s) -> is_finite a = true /\ Rabs (B2R a) <= bpow radix2 1022) /\
  0 <= 4 <= bpow radix2 1023 /\ 24 * INR (p + q) * unit_roundoff 53 <= 1 /\
  (forall a, In a (sp_grid s) -> vfinite 2 a /\ forall i, (i < 2)%nat -> Rabs (coord 2 i (vreal 2 a)) <= 4) /\
  is_finite x = true /\ dir_param false p ku (B2R x) /\ is_finite y = true /\ dir_param false q kv (B2R y).
Proof.
  cbv zeta. change (Z.to_nat (sp_degu dspatch)) with 2%nat. change (Z.to_nat (sp_degv dspatch)) with 1%nat.
  rewrite dspatch_ku, dspatch_kv.
  destruct spline_case as (_ & V & A & _ & HK & HM & _). rewrite dspline_knots in V, A.
  destruct param_value as [Fx Hx]. destruct cubic_case as (_ & _ & _ & _ & Fy & Hy).
  set (x := dofQ (3 # 10)) in *. clearbody x. set (y := dofQ (1 # 10)) in *. clearbody y.
  split; [reflexivity|]. split; [reflexivity|]. split; [reflexivity|]. split; [reflexivity|]. split; [reflexivity|].
  split. { destruct V as [_ _ V _]. split; [cbn; lia|exact V|cbn; lra]. }
  split.
  { split; [cbn; lia| |cbn; lra]. intros i j Hij. cbn [length] in Hij.
    do 4 (destruct i as [|i]; [do 4 (destruct j as [|j]; [try lia; simpl nth; lra|]); lia|]). lia. }
  split; [exact A|]. split.
  { intros i j Hij. cbn [length] in Hij.
    do 4 (destruct i as [|i]; [do 4 (destruct j as [|j]; [simpl nth; change (IZR (10 ^ 15)) with 1000000000000000; lra|]); lia|]). lia. }
  split.
  { intros a [Ha|Ha]; [apply HK; exact Ha|].
    change (sp_kv dspatch) with (map dofQ [0; 0; 1; 1]%Q) in Ha. apply in_map_iff in Ha. destruct Ha as (r & <- & Hr).
    destruct (small_values r) as [F B]; [cbn [In] in *; intuition|]. split; [exact F|].
    eapply Rle_trans; [exact B|]. apply big_bound. lia. }
  split; [exact HM|]. split; [rewrite u53; simpl INR; lra|].
  split; [intros a Ha; apply pts_small; unfold dspatch, dspatch_grid in Ha; cbn [sp_grid In] in *; tauto|].
  split; [exact Fx|]. split; [split; [right; cbn; lra|left; cbn; lra]|].
  split; [exact Fy|]. split; [right; cbn; lra|left; cbn; lra].
Qed.
