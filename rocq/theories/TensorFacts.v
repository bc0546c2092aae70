(** Curves as linear combinations of their control points, and tensor products of such curves. *)
From Coq Require Import Reals Lra Lia List ZArith.
From Verif Require Import Monad MonadFacts Scalar ScalarFacts Spec SpecFacts SpecPatch Polar.
From Verif Require Import BSplineMath ModelBezier BezierFacts BezierMath BezierThms ModelBSpline BSplineFacts BSplineThms BSplineThms2.
Import ListNotations.
Local Open Scope R_scope.

Definition lin {P} {V : PointOps R P} (n : nat) (b : nat -> R) (pts : list P) : P :=
  psum n (fun i => pmul (b i) (nth i pts p0)).

(** The control polygon with a one at index [i] and zeros elsewhere. *)
Definition dl (i : nat) (z : Z) : R := if Z.eqb z (Z.of_nat i) then 1 else 0.

Lemma dl_sum {d} n (c : nat -> vec R d) z : (0 <= z < Z.of_nat n)%Z ->
  c (Z.to_nat z) = psum n (fun i => pmul (dl i z) (c i)).
Proof.
  intros Hz. apply vec_ext. intros k Hk. rewrite coord_psum by assumption.
  rewrite (rsum_single n _ (Z.to_nat z)); [|lia|].
  - rewrite coord_mul by assumption. unfold dl. rewrite Z2Nat.id by lia. rewrite Z.eqb_refl. ring.
  - intros i Hi Hne. rewrite coord_mul by assumption. unfold dl. destruct (Z.eqb_spec z (Z.of_nat i)); [lia|ring].
Qed.

Lemma psum_lin2 {d} n (h1 h2 : nat -> R) (c : nat -> vec R d) a b :
  padd (pmul a (psum n (fun i => pmul (h1 i) (c i)))) (pmul b (psum n (fun i => pmul (h2 i) (c i)))) =
  psum n (fun i => pmul (a * h1 i + b * h2 i) (c i)).
Proof.
  apply vec_ext. intros k Hk. rewrite coord_add, !coord_mul, !coord_psum by assumption.
  rewrite <- !rsum_scal, <- rsum_plus. apply rsum_ext. intros i Hi. rewrite !coord_mul by assumption. ring.
Qed.

Lemma psum_lindiff {d} n (h1 h2 : nat -> R) (c : nat -> vec R d) a :
  pmul a (psub (psum n (fun i => pmul (h1 i) (c i))) (psum n (fun i => pmul (h2 i) (c i)))) =
  psum n (fun i => pmul (a * (h1 i - h2 i)) (c i)).
Proof.
  apply vec_ext. intros k Hk. rewrite coord_mul, coord_sub, !coord_psum by assumption.
  rewrite <- rsum_minus, <- rsum_scal. apply rsum_ext. intros i Hi. rewrite !coord_mul by assumption. ring.
Qed.

Lemma tri_lin {d} n al (g : Z -> vec R d) (h : nat -> Z -> R) (c : nat -> vec R d) xs j :
  (forall z, (j - Z.of_nat (length xs) <= z <= j)%Z -> g z = psum n (fun i => pmul (h i z) (c i))) ->
  tri al g xs j = psum n (fun i => pmul (tri al (h i) xs j) (c i)).
Proof.
  revert j. induction xs as [|x xs IH]; intros j H.
  - cbn [tri]. apply H. simpl; lia.
  - cbn [tri]. rewrite !IH; [|intros z Hz; apply H; cbn [length]; lia|intros z Hz; apply H; cbn [length]; lia].
    rewrite psum_lin2. reflexivity.
Qed.

(** * Bezier curves *)
Definition bzW0 (n i : nat) (t : R) : R := tri albz (dl i) (repeat t n) (Z.of_nat n).
Definition bzW1 (n i : nat) (t : R) : R :=
  match n with O => 0 | S m => tri albz (dbz n (dl i)) (repeat t m) (Z.of_nat m) end.
Definition bzW2 (n i : nat) (t : R) : R :=
  match n with S (S m) => tri albz (dbz (S m) (dbz n (dl i))) (repeat t m) (Z.of_nat m) | _ => 0 end.

Lemma bzW0_bernstein n i t : (i <= n)%nat -> bzW0 n i t = bernstein n i t.
Proof.
  intros Hi. unfold bzW0. rewrite tri_bernstein. rewrite (rsum_single _ _ i); [|lia|].
  - unfold dl. replace (Z.of_nat n - Z.of_nat n + Z.of_nat i)%Z with (Z.of_nat i) by lia. rewrite Z.eqb_refl. ring.
  - intros k Hk Hne. unfold dl. destruct (Z.eqb_spec (Z.of_nat n - Z.of_nat n + Z.of_nat k) (Z.of_nat i)); [lia|ring].
Qed.

Lemma bzW0_deriv n i t : derivable_pt_lim (bzW0 n i) t (bzW1 n i t).
Proof.
  unfold bzW0, bzW1. destruct n as [|m].
  - cbn [repeat tri]. apply derivable_pt_lim_const.
  - apply bz_deriv.
Qed.

Lemma bzW1_deriv n i t : derivable_pt_lim (bzW1 n i) t (bzW2 n i t).
Proof.
  unfold bzW1, bzW2. destruct n as [|[|m]].
  - apply derivable_pt_lim_const.
  - cbn [repeat tri]. apply derivable_pt_lim_const.
  - apply bz_deriv.
Qed.

Lemma lin_pt {d} n (pts : list (vec R d)) z : (0 <= z < Z.of_nat n)%Z ->
  pt_at pts z = psum n (fun i => pmul (dl i z) (nth i pts p0)).
Proof. intros Hz. unfold pt_at. now rewrite (dl_sum n (fun i => nth i pts p0)). Qed.

Lemma dlin_pt {d} n (g : Z -> vec R d) (h : nat -> Z -> R) c (N : nat) z :
  g z = psum n (fun i => pmul (h i z) (c i)) -> g (z + 1)%Z = psum n (fun i => pmul (h i (z + 1)%Z) (c i)) ->
  pmul (IZR (Z.of_nat N)) (psub (g (z + 1)%Z) (g z)) = psum n (fun i => pmul (dbz N (h i) z) (c i)).
Proof. intros E1 E2. rewrite E1, E2, psum_lindiff. unfold dbz. rewrite INR_IZR_INZ. reflexivity. Qed.

Lemma bez_lin d n (pts : list (vec R d)) t : length pts = S n ->
  bz_evaluate (mk_bezier pts) t = Ok (lin (S n) (fun i => bzW0 n i t) pts) /\
  bz_evaluate_derivative (mk_bezier pts) t = Ok (lin (S n) (fun i => bzW1 n i t) pts) /\
  bz_evaluate_2nd_derivative (mk_bezier pts) t = Ok (lin (S n) (fun i => bzW2 n i t) pts).
Proof.
  intros Hn. split; [|split].
  - rewrite (bez_eval_gen d pts n t Hn). f_equal. unfold lin, bzW0. apply tri_lin.
    intros z Hz. rewrite repeat_length in Hz. apply lin_pt. lia.
  - destruct n as [|m].
    + destruct pts as [|a [|? ?]]; try discriminate.
      unfold lin, bzW1. cbn [psum nth]. 
      assert (E : padd p0 (pmul 0 a) = (p0 : vec R d)).
      { apply vec_ext. intros k Hk. rewrite coord_add, coord_mul, !coord_0 by assumption. ring. }
      rewrite E. reflexivity.
    + rewrite (bez_d1_gen d pts m t Hn). f_equal. unfold lin, bzW1. apply tri_lin.
      intros z Hz. rewrite repeat_length in Hz. apply dlin_pt; apply lin_pt; lia.
  - assert (E0 : forall N, (N <= 1)%nat -> lin (S N) (fun i => bzW2 N i t) pts = p0).
    { intros N HN. unfold lin. apply vec_ext. intros k Hk. rewrite coord_psum, coord_0 by assumption.
      apply rsum_0. intros i Hi. rewrite coord_mul by assumption. unfold bzW2. destruct N as [|[|?]]; try ring. lia. }
    destruct n as [|[|m]].
    + rewrite E0 by lia. destruct pts as [|a [|? ?]]; try discriminate. reflexivity.
    + rewrite E0 by lia. destruct pts as [|a [|a' [|? ?]]]; try discriminate. reflexivity.
    + rewrite (bez_d2_gen d pts m t Hn). f_equal. unfold lin, bzW2. apply tri_lin.
      intros z Hz. rewrite repeat_length in Hz.
      apply (dlin_pt _ (fun i => pmul (IZR (Z.of_nat (S (S m)))) (psub (pt_at pts (i + 1)) (pt_at pts i)))
               (fun i => dbz (S (S m)) (dl i))); apply dlin_pt; apply lin_pt; lia.
Qed.

Lemma bzW1_diff d m (c : nat -> vec R d) t :
  psum (S (S m)) (fun i => pmul (bzW1 (S m) i t) (c i)) =
  psum (S m) (fun i => pmul (bernstein m i t) (pmul (INR (S m)) (psub (c (S i)) (c i)))).
Proof.
  transitivity (tri albz (fun z => pmul (IZR (Z.of_nat (S m))) (psub (c (Z.to_nat (z + 1))) (c (Z.to_nat z))))
                  (repeat t m) (Z.of_nat m)).
  - symmetry. unfold bzW1. apply tri_lin. intros z Hz. rewrite repeat_length in Hz.
    apply (dlin_pt _ (fun z => c (Z.to_nat z)) dl); apply (dl_sum (S (S m)) c); lia.
  - rewrite tri_bernstein_vec. apply psum_ext. intros i Hi. f_equal. rewrite INR_IZR_INZ. f_equal. f_equal; f_equal; lia.
Qed.

(** * B-spline curves *)
Definition bsW0 U (p : nat) k (i : nat) (x : R) : R := tri (alU U p) (dl i) (repeat x p) k.
Definition bsW1 U (p : nat) k (i : nat) (x : R) : R :=
  match p with O => 0 | S q => tri (alU U q) (dcoef U (Z.of_nat p) (dl i)) (repeat x q) k end.
Definition bsW2 U (p : nat) k (i : nat) (x : R) : R :=
  match p with
  | S (S q) => tri (alU U q) (dcoef U (Z.of_nat (S q)) (dcoef U (Z.of_nat p) (dl i))) (repeat x q) k
  | _ => 0
  end.

Lemma bsW0_deriv U n p k i x : mono U 0 (n + Z.of_nat p) -> (Z.of_nat p <= k < n)%Z -> U k < U (k + 1)%Z ->
  derivable_pt_lim (bsW0 U p k i) x (bsW1 U p k i x).
Proof.
  intros Hm Hk Hlt. unfold bsW0, bsW1. destruct p as [|q].
  - cbn [repeat tri]. apply derivable_pt_lim_const.
  - apply (piece_deriv U 0 (n + Z.of_nat (S q))); auto; lia.
Qed.

Lemma bsW1_deriv U n p k i x : mono U 0 (n + Z.of_nat p) -> (Z.of_nat p <= k < n)%Z -> U k < U (k + 1)%Z ->
  derivable_pt_lim (bsW1 U p k i) x (bsW2 U p k i x).
Proof.
  intros Hm Hk Hlt. unfold bsW1, bsW2. destruct p as [|[|q]].
  - apply derivable_pt_lim_const.
  - cbn [repeat tri]. apply derivable_pt_lim_const.
  - apply (piece_deriv U 0 (n + Z.of_nat (S (S q)))); auto; lia.
Qed.

Lemma lin_dcoef {d} n U q (g : Z -> vec R d) (h : nat -> Z -> R) c z :
  g z = psum n (fun i => pmul (h i z) (c i)) -> g (z - 1)%Z = psum n (fun i => pmul (h i (z - 1)%Z) (c i)) ->
  dcoef U q g z = psum n (fun i => pmul (dcoef U q (h i) z) (c i)).
Proof. intros E1 E2. unfold dcoef. rewrite E1, E2, psum_lindiff. reflexivity. Qed.

(** Values and derivatives as combinations of the control points, on the span [k] found for [t]. *)
Lemma lin_zero {d} n (pts : list (vec R d)) : lin n (fun _ => 0) pts = p0.
Proof.
  apply vec_ext. intros k Hk. unfold lin. rewrite coord_psum, coord_0 by assumption. apply rsum_0.
  intros i Hi. rewrite coord_mul by assumption. ring.
Qed.

Lemma bs_lin d n p (U : Z -> R) (c : bspline R (vec R d)) t u :
  bsrep c (Z.of_nat n) (Z.of_nat p) U (pts_at (bs_pts c)) -> kval (Z.of_nat n) (Z.of_nat p) U ->
  kapart (Z.of_nat n) (Z.of_nat p) U ->
  (U (Z.of_nat p) < U (Z.of_nat p + 1)%Z \/ U (Z.of_nat p) < u) ->
  bs_unwrap c t = Ok u -> U (Z.of_nat p) <= u <= U (Z.of_nat n) ->
  exists k, (Z.of_nat p <= k < Z.of_nat n)%Z /\ in_span U (U (Z.of_nat n)) k u /\
    bs_evaluate c t = Ok (lin n (fun i => bsW0 U p k i u) (bs_pts c)) /\
    bs_evaluate_derivative c t = Ok (lin n (fun i => bsW1 U p k i u) (bs_pts c)) /\
    bs_evaluate_2nd_derivative c t = Ok (lin n (fun i => bsW2 U p k i u) (bs_pts c)).
Proof.
  intros Hr Hk Hap Hst Eu Hu.
  destruct (bs_derivs_tri c _ _ _ _ t u Hr Hk Hap Hst Eu Hu) as (k & Hk1 & Hsp & E1 & E2 & E3).
  exists k. split; [exact Hk1|]. split; [exact Hsp|]. rewrite E1, E2, E3.
  assert (B : forall z, (k - Z.of_nat p <= z <= k)%Z ->
    pts_at (bs_pts c) z = psum n (fun i => pmul (dl i z) (nth i (bs_pts c) p0))).
  { intros z Hz. unfold pts_at. rewrite (dl_sum n (fun i => nth i (bs_pts c) p0)) by lia. reflexivity. }
  split; [|split]; f_equal.
  - rewrite Nat2Z.id. unfold lin, bsW0. apply tri_lin. intros z Hz. rewrite repeat_length in Hz. apply B. lia.
  - destruct p as [|q]; [symmetry; apply lin_zero|].
    destruct (Z.eqb_spec (Z.of_nat (S q)) 0); [lia|].
    replace (Z.to_nat (Z.of_nat (S q) - 1)) with q by lia.
    unfold lin, bsW1. apply tri_lin. intros z Hz. rewrite repeat_length in Hz. apply lin_dcoef; apply B; lia.
  - destruct p as [|[|q]]; try (symmetry; apply lin_zero).
    destruct (Z.leb_spec (Z.of_nat (S (S q))) 1); [lia|].
    replace (Z.to_nat (Z.of_nat (S (S q)) - 2)) with q by lia.
    replace (Z.of_nat (S (S q)) - 1)%Z with (Z.of_nat (S q)) by lia.
    unfold lin, bsW2. apply tri_lin. intros z Hz. rewrite repeat_length in Hz.
    apply (lin_dcoef _ _ _ _ (fun i => dcoef U (Z.of_nat (S (S q))) (dl i))); apply lin_dcoef; apply B; lia.
Qed.

(** * Tensor products *)
Lemma tensor_rows {d} n m bu bv (g : list (vec R d)) :
  psum n (fun i => pmul (bu i) (psum m (fun j => pmul (bv j) (nth (i * m + j) g p0)))) = tensor_sum n m bu bv g.
Proof.
  apply vec_ext. intros k Hk. unfold tensor_sum. rewrite !coord_psum by assumption. apply rsum_ext. intros i Hi.
  rewrite coord_mul, !coord_psum by assumption. rewrite <- rsum_scal. apply rsum_ext. intros j Hj.
  rewrite !coord_mul by assumption. ring.
Qed.

Lemma tensor_cols {d} n m bu bv (g : list (vec R d)) :
  psum m (fun j => pmul (bv j) (psum n (fun i => pmul (bu i) (nth (i * m + j) g p0)))) = tensor_sum n m bu bv g.
Proof.
  apply vec_ext. intros k Hk. unfold tensor_sum. rewrite !coord_psum by assumption.
  rewrite (rsum_ext n _ (fun i => rsum m (fun j => bu i * bv j * coord d k (nth (i * m + j) g p0)))).
  2:{ intros i Hi. rewrite coord_psum by assumption. apply rsum_ext. intros j Hj. now rewrite coord_mul. }
  rewrite rsum_swap. apply rsum_ext. intros j Hj.
  rewrite coord_mul, !coord_psum by assumption. rewrite <- rsum_scal. apply rsum_ext. intros i Hi.
  rewrite !coord_mul by assumption. ring.
Qed.

Lemma tensor_ext {d} n m bu bu' bv bv' (g g' : list (vec R d)) :
  (forall i, (i < n)%nat -> bu i = bu' i) -> (forall j, (j < m)%nat -> bv j = bv' j) ->
  (forall i j, (i < n)%nat -> (j < m)%nat -> nth (i * m + j) g p0 = nth (i * m + j) g' p0) ->
  tensor_sum n m bu bv g = tensor_sum n m bu' bv' g'.
Proof.
  intros Hu Hv Hg. unfold tensor_sum. apply psum_ext. intros i Hi. apply psum_ext. intros j Hj.
  now rewrite Hu, Hv, Hg.
Qed.

Lemma rsum_derivable n (f f' : nat -> R -> R) x :
  (forall i, (i < n)%nat -> derivable_pt_lim (f i) x (f' i x)) ->
  derivable_pt_lim (fun x => rsum n (fun i => f i x)) x (rsum n (fun i => f' i x)).
Proof.
  induction n as [|n IH]; intros H.
  - unfold rsum; simpl. apply derivable_pt_lim_const.
  - apply (derivable_pt_lim_ext (fun x => rsum n (fun i => f i x) + f n x)).
    { intros y. now rewrite rsum_S. }
    rewrite rsum_S. apply (derivable_pt_lim_plus (fun x => rsum n (fun i => f i x)) (f n)).
    + apply IH. intros; apply H; lia.
    + apply H. lia.
Qed.

Lemma tensor_coord {d} n m bu bv (g : list (vec R d)) k : (k < d)%nat ->
  coord d k (tensor_sum n m bu bv g) = rsum n (fun i => rsum m (fun j => bu i * bv j * coord d k (nth (i * m + j) g p0))).
Proof.
  intros Hk. unfold tensor_sum. rewrite coord_psum by assumption. apply rsum_ext. intros i Hi.
  rewrite coord_psum by assumption. apply rsum_ext. intros j Hj. now rewrite coord_mul.
Qed.

Lemma tensor_deriv_u {d} n m (b b' : nat -> R -> R) bv (g : list (vec R d)) x :
  (forall i, (i < n)%nat -> derivable_pt_lim (b i) x (b' i x)) ->
  vderiv (fun x => tensor_sum n m (fun i => b i x) bv g) x (tensor_sum n m (fun i => b' i x) bv g).
Proof.
  intros H k Hk. rewrite tensor_coord by assumption.
  apply (derivable_pt_lim_ext (fun x => rsum n (fun i => (fun i x => rsum m (fun j => b i x * bv j * coord d k (nth (i * m + j) g p0))) i x))).
  { intros y. now rewrite tensor_coord. }
  apply (rsum_derivable n _ (fun i x => rsum m (fun j => b' i x * bv j * coord d k (nth (i * m + j) g p0)))).
  intros i Hi. set (A := fun j => bv j * coord d k (nth (i * m + j) g p0)).
  apply (derivable_pt_lim_ext (fun x => rsum m A * b i x)).
  { intros y. rewrite Rmult_comm, <- rsum_scal. apply rsum_ext. intros j _. unfold A. ring. }
  replace (rsum m (fun j => b' i x * bv j * coord d k (nth (i * m + j) g p0))) with (rsum m A * b' i x).
  - apply derivable_pt_lim_scal. now apply H.
  - rewrite Rmult_comm, <- rsum_scal. apply rsum_ext. intros j _. unfold A. ring.
Qed.

Lemma tensor_deriv_v {d} n m (b b' : nat -> R -> R) bu (g : list (vec R d)) x :
  (forall j, (j < m)%nat -> derivable_pt_lim (b j) x (b' j x)) ->
  vderiv (fun x => tensor_sum n m bu (fun j => b j x) g) x (tensor_sum n m bu (fun j => b' j x) g).
Proof.
  intros H k Hk. rewrite tensor_coord by assumption.
  apply (derivable_pt_lim_ext (fun x => rsum n (fun i => (fun i x => rsum m (fun j => bu i * b j x * coord d k (nth (i * m + j) g p0))) i x))).
  { intros y. now rewrite tensor_coord. }
  apply (rsum_derivable n _ (fun i x => rsum m (fun j => bu i * b' j x * coord d k (nth (i * m + j) g p0)))).
  intros i Hi. apply (rsum_derivable m (fun j x => bu i * b j x * coord d k (nth (i * m + j) g p0))
     (fun j x => bu i * b' j x * coord d k (nth (i * m + j) g p0))).
  intros j Hj. apply (derivable_pt_lim_ext (fun x => (bu i * coord d k (nth (i * m + j) g p0)) * b j x)).
  { intros y. ring. }
  replace (bu i * b' j x * coord d k (nth (i * m + j) g p0)) with ((bu i * coord d k (nth (i * m + j) g p0)) * b' j x) by ring.
  apply derivable_pt_lim_scal. now apply H.
Qed.

Lemma tensor_partials {d} n m (b0 b1 b2 c0 c1 c2 : nat -> R -> R) (g : list (vec R d)) u v :
  (forall i, (i < n)%nat -> derivable_pt_lim (b0 i) u (b1 i u)) ->
  (forall i, (i < n)%nat -> derivable_pt_lim (b1 i) u (b2 i u)) ->
  (forall i, (i < m)%nat -> derivable_pt_lim (c0 i) v (c1 i v)) ->
  (forall i, (i < m)%nat -> derivable_pt_lim (c1 i) v (c2 i v)) ->
  partials (fun x y => tensor_sum n m (fun i => b0 i x) (fun j => c0 j y) g)
    (fun x y => tensor_sum n m (fun i => b1 i x) (fun j => c0 j y) g)
    (fun x y => tensor_sum n m (fun i => b0 i x) (fun j => c1 j y) g)
    (fun x y => tensor_sum n m (fun i => b2 i x) (fun j => c0 j y) g)
    (fun x y => tensor_sum n m (fun i => b0 i x) (fun j => c2 j y) g)
    (fun x y => tensor_sum n m (fun i => b1 i x) (fun j => c1 j y) g) u v.
Proof.
  intros H1 H2 H3 H4. split; [|split; [|split; [|split; [|split]]]].
  - now apply tensor_deriv_u.
  - now apply tensor_deriv_v.
  - now apply tensor_deriv_u.
  - now apply tensor_deriv_v.
  - now apply tensor_deriv_v.
  - now apply tensor_deriv_u.
Qed.
