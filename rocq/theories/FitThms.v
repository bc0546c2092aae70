(** Proofs about least squares fitting and deformation. *)
From Coq Require Import Reals Lra Lia List ZArith Bool.
From Verif Require Import Monad MonadFacts LoopFacts Scalar ScalarFacts Spec SpecFacts SpecGeom SpecPatch SpecFit TensorFacts.
From Verif Require Import PrimitiveFacts PatchFacts ModelCurve CurveFacts ModelBezier BezierFacts BezierThms ModelBSpline BSplineFacts.
From Verif Require Import BSplineThms ModelPatchBase ModelPatch BezierPatchThms BSplinePatchThms BSplinePatchThms2 ModelFit.
Import ListNotations.
Local Open Scope R_scope.

Section Matrix.
  Context {A : Type} (n : nat) (B : A -> nat -> R) (eval : list (vec R 1) -> A -> res (vec R 1)).
  Context (params : list A).
  Context (Heval : forall t, In t params -> forall pts, length pts = n -> eval pts t = Ok (lin n (B t) pts)).
  Notation N := (Z.of_nat n).

  Let unit_pts (j : Z) : list (vec R 1) := mklist N (fun k => if (k =? j)%Z then (1, tt) else (0, tt)).
  Let zero_pts : list (vec R 1) := mklist N (fun k => (0, tt)).
  Let row (done : list Z) (t : A) : list R :=
    mklist N (fun j => if in_dec Z.eq_dec j done then B t (Z.to_nat j) else 0).

  Lemma mklist_length {X} (f : Z -> X) : length (mklist N f) = n.
  Proof. unfold mklist. rewrite map_length, seq_length. lia. Qed.

  Lemma set_mklist {X} (f : Z -> X) j v : (0 <= j < N)%Z -> set (mklist N f) j v = Ok (mklist N (fupd f j v)).
  Proof.
    intros Hj. destruct (arr_set (mklist N f) N f j v) as (l & E & Hl); [apply arr_mklist; lia|exact Hj|].
    rewrite E. f_equal. now apply arr_eq.
  Qed.

  Lemma unit_lin t j : (0 <= j < N)%Z -> lin n (B t) (unit_pts j) = (B t (Z.to_nat j), tt).
  Proof.
    intros Hj. apply vec_ext. intros i Hi. unfold lin. rewrite coord_psum by exact Hi.
    assert (Hn : forall k, (k < n)%nat -> nth k (unit_pts j) p0 = if (Z.of_nat k =? j)%Z then (1, tt) else (0, tt)).
    { intros k Hk. unfold unit_pts, mklist.
      rewrite nth_indep with (d' := if (Z.of_nat 0 =? j)%Z then (1, tt) else (0, tt))
        by (rewrite map_length, seq_length; lia).
      rewrite (map_nth (fun k => if (Z.of_nat k =? j)%Z then ((1, tt) : vec R 1) else (0, tt))).
      rewrite seq_nth by lia. reflexivity. }
    rewrite (rsum_single n _ (Z.to_nat j)).
    - rewrite coord_mul by exact Hi. rewrite Hn by lia. rewrite Z2Nat.id by lia. rewrite Z.eqb_refl.
      assert (i = 0)%nat by lia. subst i. cbn [coord fst]. ring.
    - lia.
    - intros k Hk Hne. rewrite coord_mul by exact Hi. rewrite Hn by lia.
      destruct (Z.eqb_spec (Z.of_nat k) j); [lia|]. assert (i = 0)%nat by lia. subst i. cbn [coord fst]. ring.
  Qed.

  Lemma column_Ok done j : (0 <= j < N)%Z ->
    lsq_column eval params j (zero_pts, map (row done) params) = Ok (zero_pts, map (row (j :: done)) params).
  Proof.
    intros Hj. unfold lsq_column. unfold zero_pts at 1. rewrite set_mklist by exact Hj. rewrite bind_Ok.
    assert (Eu : mklist N (fupd (fun _ => ((0, tt) : vec R 1)) j (s1, tt)) = unit_pts j) by reflexivity.
    rewrite Eu. clear Eu.
    assert (Ef : for_up 0 (zlen params) (fun i mat =>
      do t <- get params i; do x <- eval (unit_pts j) t; do row <- get mat i;
      do row <- set row j (fst x); set mat i row) (map (row done) params) = Ok (map (row (j :: done)) params)).
    { destruct params as [|a0 rest] eqn:Ep; [reflexivity|]. rewrite <- Ep in *. clear Ep rest.
      destruct (for_up_inv (fun i mat => arr mat (zlen params) (fun k =>
          row (if (k <? i)%Z then j :: done else done) (nth (Z.to_nat k) params a0))) 0 (zlen params)
        (fun i mat => do t <- get params i; do x <- eval (unit_pts j) t; do row <- get mat i;
           do row <- set row j (fst x); set mat i row) (map (row done) params)) as (mat & E & H).
      - apply zlen_nonneg.
      - split; [apply zlen_map|]. intros i Hi. rewrite get_map, (get_nth _ _ a0) by exact Hi. cbn [res_map].
        destruct (Z.ltb_spec i 0); [lia|reflexivity].
      - intros i mat Hi Hm. rewrite (get_nth _ _ a0) by exact Hi. rewrite bind_Ok.
        rewrite Heval; [|apply nth_In; unfold zlen in Hi; lia|apply mklist_length].
        rewrite bind_Ok. rewrite (arr_get _ _ _ _ Hm Hi), bind_Ok.
        destruct (Z.ltb_spec i i); [lia|].
        rewrite unit_lin by exact Hj. cbn [fst]. unfold row at 1. rewrite set_mklist by exact Hj. rewrite bind_Ok.
        destruct (arr_set _ _ _ i (mklist N (fupd (fun j0 : Z => if in_dec Z.eq_dec j0 done
          then B (nth (Z.to_nat i) params a0) (Z.to_nat j0) else 0) j (B (nth (Z.to_nat i) params a0) (Z.to_nat j)))) Hm Hi)
          as (mat' & E' & H').
        exists mat'. split; [exact E'|]. apply (arr_ext _ _ _ _ H'). intros k Hk. unfold fupd at 1.
        destruct (Z.eqb_spec k i) as [->|Hne].
        + destruct (Z.ltb_spec i (i + 1)); [|lia]. unfold row. apply mklist_ext. intros l Hl. unfold fupd.
          destruct (Z.eqb_spec l j) as [->|Hl2].
          * destruct (in_dec Z.eq_dec j (j :: done)) as [_|Hn]; [reflexivity|]. exfalso. apply Hn. now left.
          * destruct (in_dec Z.eq_dec l done) as [H1|H1]; destruct (in_dec Z.eq_dec l (j :: done)) as [H2|H2]; try reflexivity.
            -- exfalso. apply H2. now right.
            -- exfalso. destruct H2 as [H2|H2]; [congruence|contradiction].
        + destruct (Z.ltb_spec k i); destruct (Z.ltb_spec k (i + 1)); try lia; reflexivity.
      - rewrite E. f_equal. apply (arr_uniq _ _ (zlen params) (fun k => row (j :: done) (nth (Z.to_nat k) params a0))).
        + apply (arr_ext _ _ _ _ H). intros k Hk. destruct (Z.ltb_spec k (zlen params)); [reflexivity|lia].
        + split; [apply zlen_map|]. intros i Hi. rewrite get_map, (get_nth _ _ a0) by exact Hi. reflexivity. }
    rewrite Ef, bind_Ok. unfold unit_pts. rewrite set_mklist by exact Hj. rewrite bind_Ok. f_equal. f_equal.
    unfold zero_pts. apply mklist_ext. intros k Hk. unfold fupd. destruct (k =? j)%Z; reflexivity.
  Qed.

  Lemma columns_Ok order : forall done, (forall j, In j order -> (0 <= j < N)%Z) ->
    lsq_columns eval params order (zero_pts, map (row done) params) =
    Ok (zero_pts, map (row (rev order ++ done)) params).
  Proof.
    induction order as [|j order IH]; intros done H; [reflexivity|]. cbn [lsq_columns].
    rewrite column_Ok by (apply H; now left). rewrite bind_Ok, IH by (intros k Hk; apply H; now right).
    cbn [rev]. rewrite <- app_assoc. reflexivity.
  Qed.

  Lemma matrix_Ok order : (forall j, (0 <= j < N)%Z <-> In j order) ->
    lsq_matrix N order eval params = Ok (basis_matrix n B params).
  Proof.
    intros Ho. unfold lsq_matrix.
    destruct (arr_alloc ((s0, tt) : vec R 1) N (Nat2Z.is_nonneg n)) as (l1 & E1 & H1). rewrite E1, bind_Ok.
    destruct (arr_alloc (s0 : R) N (Nat2Z.is_nonneg n)) as (l2 & E2 & H2). rewrite E2, bind_Ok.
    destruct (arr_alloc l2 (zlen params) (zlen_nonneg params)) as (l3 & E3 & H3). rewrite E3, bind_Ok.
    assert (Z1 : l1 = zero_pts) by (apply arr_eq; exact H1).
    assert (Z2 : l2 = mklist N (fun _ => 0)) by (apply arr_eq; exact H2).
    assert (Z3 : l3 = map (row []) params).
    { apply (arr_uniq _ _ _ _ H3). split; [apply zlen_map|]. intros i Hi. rewrite get_map.
      destruct (get_in_range params i Hi) as (a & Ea). rewrite Ea. cbn [res_map]. f_equal. rewrite Z2.
      reflexivity. }
    rewrite Z1, Z3. rewrite columns_Ok by (intros j Hj; now apply Ho). rewrite bind_Ok. f_equal.
    unfold basis_matrix. apply map_ext. intros t. unfold row, mklist. rewrite Nat2Z.id. apply map_ext_in.
    intros k Hk. apply in_seq in Hk. rewrite Nat2Z.id. rewrite app_nil_r.
    destruct (in_dec Z.eq_dec (Z.of_nat k) (rev order)) as [_|Hn]; [reflexivity|].
    exfalso. apply Hn. apply in_rev. rewrite rev_involutive. apply Ho. lia.
  Qed.
End Matrix.

(** * Least squares *)
Section LeastSquares.
  Context {A : Type} {d : nat} (n : nat) (B : A -> nat -> R) (params : list A).
  Notation val x := (map (fun t => lin n (B t) x) params).

  Lemma row_apply_lin (y : list (vec R d)) b : row_apply n (map b (seq 0 n)) y = lin n b y.
  Proof.
    unfold row_apply, lin. apply psum_ext. intros j Hj. f_equal.
    rewrite nth_indep with (d' := b 0%nat) by (rewrite map_length, seq_length; lia).
    rewrite map_nth, seq_nth by lia. reflexivity.
  Qed.

  Lemma apply_matrix (y : list (vec R d)) : map (fun row => row_apply n row y) (basis_matrix n B params) = val y.
  Proof. unfold basis_matrix. rewrite map_map. apply map_ext. intros t. apply row_apply_lin. Qed.

  Lemma best (vs x : list (vec R d)) : least_squares n (basis_matrix n B params) vs x -> length x = n /\
    forall y, length y = n -> sqerr (val x) vs <= sqerr (val y) vs.
  Proof.
    intros [Hl Hb]. split; [exact Hl|]. intros y Hy. specialize (Hb y Hy). rewrite !apply_matrix in Hb. exact Hb.
  Qed.

  Lemma sqerr_pos : forall xs vs : list (vec R d), 0 <= sqerr xs vs.
  Proof.
    induction xs as [|x xs IH]; intros [|v vs]; cbn [sqerr]; try lra. specialize (IH vs). pose proof (pow2_ge_0 (edist x v)). lra.
  Qed.

  Lemma sqerr_refl : forall xs : list (vec R d), sqerr xs xs = 0.
  Proof. induction xs as [|x xs IH]; cbn [sqerr]; [reflexivity|]. rewrite IH, edist_refl. ring. Qed.

  Lemma sqerr_0 : forall xs vs : list (vec R d), length xs = length vs -> sqerr xs vs <= 0 -> xs = vs.
  Proof.
    induction xs as [|x xs IH]; intros [|v vs] Hl H; cbn [sqerr length] in *; try lia; [reflexivity|].
    pose proof (sqerr_pos xs vs). pose proof (pow2_ge_0 (edist x v)).
    rewrite (IH vs) by (lia || lra). f_equal. apply edist_eq0. assert (edist x v ^ 2 = 0) by lra. nra.
  Qed.

  Lemma best_exact (vs x y : list (vec R d)) : least_squares n (basis_matrix n B params) vs x -> length params = length vs ->
    length y = n -> val y = vs -> val x = vs.
  Proof.
    intros Hb Hl Hy E. destruct (best _ _ Hb) as [_ H]. specialize (H y Hy). rewrite E, sqerr_refl in H.
    apply sqerr_0; [|exact H]. rewrite map_length. exact Hl.
  Qed.

  Lemma add_rows_Ok : forall a b : list (vec R d), length a = length b -> add_rows a b = Ok (add_points a b).
  Proof.
    induction a as [|x a IH]; intros [|y b] Hl; cbn [length] in Hl; try lia; [reflexivity|]. cbn [add_rows].
    rewrite IH by lia. reflexivity.
  Qed.

  Lemma add_points_len (a b : list (vec R d)) : length a = length b -> length (add_points a b) = length a.
  Proof. intros H. unfold add_points. rewrite map_length, combine_length. lia. Qed.

  Lemma add_points_nth (a b : list (vec R d)) i : length a = length b -> (i < length a)%nat ->
    nth i (add_points a b) p0 = padd (nth i a p0) (nth i b p0).
  Proof.
    intros Hl Hi. unfold add_points.
    set (z := (p0 : vec R d, p0 : vec R d)). set (f := fun q : vec R d * vec R d => padd (fst q) (snd q)).
    rewrite nth_indep with (d' := f z) by (rewrite map_length, combine_length; lia).
    rewrite (map_nth f). unfold z, f.
    rewrite combine_nth by exact Hl. reflexivity.
  Qed.

  Lemma lin_add (a b : list (vec R d)) w : length a = n -> length b = n ->
    lin n w (add_points a b) = padd (lin n w a) (lin n w b).
  Proof.
    intros Ha Hb. apply vec_ext. intros k Hk. unfold lin. rewrite coord_add, !coord_psum by exact Hk.
    rewrite <- rsum_plus. apply rsum_ext. intros i Hi. rewrite add_points_nth by lia.
    rewrite !coord_mul, coord_add by exact Hk. ring.
  Qed.

  Lemma edist_shift (o x v : vec R d) : edist (padd o x) (padd o v) = edist x v.
  Proof.
    unfold edist. f_equal. apply rsum_ext. intros i Hi. rewrite !coord_add by exact Hi. ring.
  Qed.

  Lemma sqerr_shift : forall o x v : list (vec R d), length o = length x -> length o = length v ->
    sqerr (add_points o x) (add_points o v) = sqerr x v.
  Proof.
    induction o as [|a o IH]; intros [|b x] [|c v] H1 H2; cbn [length] in *; try lia; [reflexivity|].
    unfold add_points in *. cbn [combine map sqerr fst snd]. rewrite IH by lia. rewrite edist_shift. reflexivity.
  Qed.

  Lemma val_add (a b : list (vec R d)) : length a = n -> length b = n ->
    val (add_points a b) = add_points (val a) (val b).
  Proof.
    intros Ha Hb. unfold add_points at 2. induction params as [|t l IH]; [reflexivity|]. cbn [map combine fst snd].
    rewrite lin_add by assumption. f_equal. exact IH.
  Qed.

  Lemma split_off (a z : list (vec R d)) : length a = n -> length z = n -> exists y, length y = n /\ z = add_points a y.
  Proof.
    intros Ha Hz. exists (map (fun q => psub (snd q) (fst q)) (combine a z)).
    assert (Hl : length (map (fun q => psub (snd q) (fst q)) (combine a z)) = n) by (rewrite map_length, combine_length; lia).
    split; [exact Hl|]. clear Hl. revert z Ha Hz. generalize n. clear n B params.
    induction a as [|x a IH]; intros m [|w z] Ha Hz; cbn [length] in *; try lia; [reflexivity|].
    unfold add_points in *. cbn [combine map fst snd]. f_equal.
    - apply vec_ext. intros i Hi. rewrite coord_add, coord_sub by exact Hi. ring.
    - apply (IH (length a)); lia.
  Qed.

  Lemma best_deform (vs x old : list (vec R d)) : least_squares n (basis_matrix n B params) vs x ->
    length params = length vs -> length old = n ->
    forall z, length z = n -> sqerr (val (add_points old x)) (add_points (val old) vs) <= sqerr (val z) (add_points (val old) vs).
  Proof.
    intros Hb Hl Ho z Hz. destruct (best _ _ Hb) as [Hx H].
    destruct (split_off old z Ho Hz) as (y & Hy & ->). rewrite !val_add by assumption.
    rewrite !sqerr_shift by (rewrite !map_length; auto). auto.
  Qed.
End LeastSquares.

Lemma zrange_in n j : (0 <= j < Z.of_nat n)%Z <-> In j (zrange (Z.of_nat n)).
Proof.
  unfold zrange. rewrite Nat2Z.id. rewrite in_map_iff. split.
  - intros H. exists (Z.to_nat j). split; [lia|]. apply in_seq. lia.
  - intros (k & <- & Hk). apply in_seq in Hk. lia.
Qed.

Lemma grid_order_in nu nv j : (0 <= j < Z.of_nat (nu * nv))%Z <-> In j (grid_order (Z.of_nat nu) (Z.of_nat nv)).
Proof.
  unfold grid_order. rewrite in_flat_map. split.
  - intros H. rewrite Nat2Z.inj_mul in H. assert (0 < Z.of_nat nv)%Z by nia.
    exists (j / Z.of_nat nv)%Z. split.
    + apply zrange_in. split; [apply Z.div_pos; lia|]. apply Z.div_lt_upper_bound; lia.
    + apply in_map_iff. exists (j mod Z.of_nat nv)%Z. split.
      * unfold linear_index. pose proof (Z.div_mod j (Z.of_nat nv)). lia.
      * apply zrange_in. apply Z.mod_pos_bound. lia.
  - intros (a & Ha & Hj). apply in_map_iff in Hj. destruct Hj as (k & <- & Hk).
    apply zrange_in in Ha. apply zrange_in in Hk. unfold linear_index. nia.
Qed.

Lemma rsum_app n m f : rsum (n + m) f = rsum n f + rsum m (fun j => f (n + j)%nat).
Proof.
  induction m as [|m IH].
  - rewrite Nat.add_0_r. change (rsum 0 _) with 0. ring.
  - rewrite Nat.add_succ_r, !rsum_S, IH. ring.
Qed.

Lemma tensor_lin {d} nu nv bu bv (g : list (vec R d)) :
  tensor_sum nu nv bu bv g = lin (nu * nv) (tensor_basis nv bu bv) g.
Proof.
  apply vec_ext. intros k Hk. unfold tensor_sum, lin. rewrite !coord_psum by exact Hk.
  induction nu as [|nu IH]; [reflexivity|]. rewrite rsum_S, IH.
  replace (S nu * nv)%nat with (nu * nv + nv)%nat by lia. rewrite rsum_app. f_equal.
  rewrite coord_psum by exact Hk. apply rsum_ext. intros j Hj. rewrite !coord_mul by exact Hk. f_equal.
  unfold tensor_basis. f_equal.
  - f_equal. rewrite Nat.div_add_l by lia. rewrite Nat.div_small by exact Hj. lia.
  - f_equal. rewrite Nat.add_comm, Nat.mod_add by lia. now rewrite Nat.mod_small.
Qed.
