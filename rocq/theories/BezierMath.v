(** Mathematics of the de Casteljau triangle, and the resulting facts about the Bezier model. *)
From Coq Require Import Reals Lra Lia ZArith List Permutation.
From Verif Require Import Monad MonadFacts Scalar ScalarFacts Spec SpecFacts Polar ModelCurve ModelBezier BezierFacts.
Import ListNotations.
Local Open Scope R_scope.

(** * Scalar facts *)
Lemma tri_bernstein (c : Z -> R) n t j :
  tri albz c (repeat t n) j = rsum (S n) (fun i => bernstein n i t * c (j - Z.of_nat n + Z.of_nat i)%Z).
Proof.
  revert j; induction n as [|n IH]; intros j.
  - simpl. unfold rsum, bernstein; simpl. rewrite C_n_0.
    replace (j - 0 + 0)%Z with j by lia. ring.
  - cbn [repeat tri]. rewrite !IH. unfold albz.
    rewrite (bernstein_sum_step n t (fun i => c (j - Z.of_nat (S n) + Z.of_nat i)%Z)).
    simpl padd; simpl pmul. f_equal.
    + f_equal. apply rsum_ext. intros i Hi. do 2 f_equal. lia.
    + f_equal. apply rsum_ext. intros i Hi. do 2 f_equal. lia.
Qed.

Definition Ubz (n : nat) (i : Z) : R := if (i <=? Z.of_nat n)%Z then 0 else 1.

Lemma sepk_Ubz n : sepk (Ubz n) n (Z.of_nat n).
Proof.
  intros i i' Hi Hi'. unfold Ubz.
  destruct (Z.leb_spec i (Z.of_nat n)); destruct (Z.leb_spec i' (Z.of_nat n)); try lia. lra.
Qed.

Lemma seg_Ubz n j m : (m <= Z.to_nat j + m)%nat -> (0 <= j <= Z.of_nat n)%Z -> (m <= n)%nat -> (Z.of_nat n - j <= Z.of_nat m)%Z ->
  seg (Ubz n) (j + 1) m = repeat 0 (n - Z.to_nat j) ++ repeat 1 (m - (n - Z.to_nat j)).
Proof.
  intros _ Hj Hm Hjm.
  replace m with ((n - Z.to_nat j) + (m - (n - Z.to_nat j)))%nat at 1 by lia.
  rewrite seg_app. f_equal.
  - apply seg_const. intros i Hi. unfold Ubz. destruct (Z.leb_spec i (Z.of_nat n)); [reflexivity|lia].
  - apply seg_const. intros i Hi. unfold Ubz. destruct (Z.leb_spec i (Z.of_nat n)); [lia|reflexivity].
Qed.

Lemma tri_albz_alU {P} {V : PointOps R P} n (c : Z -> P) xs j :
  (length xs <= Z.to_nat j)%nat -> (Z.of_nat (length xs) <= j <= Z.of_nat n)%Z ->
  tri albz c xs j = tri (alU (Ubz n) n) c xs j.
Proof.
  intros _ Hj. apply tri_ext; [|reflexivity].
  intros r i x Hr Hi. unfold albz, alU, Ubz.
  destruct (Z.leb_spec i (Z.of_nat n)); [|lia].
  destruct (Z.leb_spec (i + Z.of_nat n + 1 - Z.of_nat r) (Z.of_nat n)); [lia|]. field.
Qed.

(** The polar form of the Bezier curve with control values [c]. *)
Definition bzG (n : nat) (c : Z -> R) (l : list R) : R := tri albz c l (Z.of_nat n).

Lemma bzG_polar n c : polar n (bzG n c).
Proof.
  destruct (tri_polar (Ubz n) n (Z.of_nat n) (sepk_Ubz n) c) as [H1 H2]. unfold bzG. split.
  - intros l l' Hl HP. rewrite !(tri_albz_alU n) by (rewrite <- ?(Permutation_length HP); lia). now apply H1.
  - intros a x y l Hl. rewrite !(tri_albz_alU n) by (cbn [length]; lia). now apply H2.
Qed.

Lemma tri_bz_reproduce n c G xs j :
  polar n G -> (forall i, (0 <= i <= Z.of_nat n)%Z -> c i = G (repeat 0 (n - Z.to_nat i) ++ repeat 1 (Z.to_nat i))) ->
  (Z.of_nat (length xs) <= j <= Z.of_nat n)%Z ->
  tri albz c xs j = G (xs ++ repeat 0 (n - Z.to_nat j) ++ repeat 1 (Z.to_nat j - length xs)).
Proof.
  intros HG Hc Hj. rewrite (tri_albz_alU n) by lia.
  rewrite (tri_reproduce (Ubz n) n (Z.of_nat n) (sepk_Ubz n) c G xs j HG) by
    (try lia; intros i Hi; rewrite Hc by lia; f_equal; rewrite seg_Ubz by lia; do 2 f_equal; lia).
  rewrite seg_Ubz by lia. do 4 f_equal. lia.
Qed.

Lemma bzG_at n c i : (0 <= i <= Z.of_nat n)%Z ->
  bzG n c (repeat 0 (n - Z.to_nat i) ++ repeat 1 (Z.to_nat i)) = c i.
Proof.
  intros Hi. unfold bzG. rewrite (tri_albz_alU n) by (rewrite app_length, !repeat_length; lia).
  pose proof (tri_at_knots (Ubz n) n (Z.of_nat n) (sepk_Ubz n) c i ltac:(lia)) as H.
  rewrite seg_Ubz in H by lia. rewrite <- H at 1. do 3 f_equal. lia.
Qed.

(** Intermediate values of the triangle are polar values. *)
Lemma tri_bz_polar n c xs j : (Z.of_nat (length xs) <= j <= Z.of_nat n)%Z ->
  tri albz c xs j = bzG n c (xs ++ repeat 0 (n - Z.to_nat j) ++ repeat 1 (Z.to_nat j - length xs)).
Proof.
  intros Hj. apply tri_bz_reproduce; [apply bzG_polar| |assumption].
  intros i Hi. symmetry. now apply bzG_at.
Qed.

Lemma map_repeat {A B} (f : A -> B) a n : map f (repeat a n) = repeat (f a) n.
Proof. induction n; simpl; congruence. Qed.

Lemma bz_reproduce_diag n c G s : polar n G ->
  (forall i, (0 <= i <= Z.of_nat n)%Z -> c i = G (repeat 0 (n - Z.to_nat i) ++ repeat 1 (Z.to_nat i))) ->
  tri albz c (repeat s n) (Z.of_nat n) = G (repeat s n).
Proof.
  intros HG Hc. rewrite (tri_bz_reproduce n c G _ _ HG Hc) by (rewrite repeat_length; lia).
  rewrite repeat_length. replace (n - Z.to_nat (Z.of_nat n))%nat with O by lia.
  replace (Z.to_nat (Z.of_nat n) - n)%nat with O by lia. simpl. now rewrite app_nil_r.
Qed.

(** Affine reparametrisation: control values [G(a^(n-i), b^i)] give the curve over [a,b]. *)
Lemma bz_reparam n c G a b s : polar n G ->
  (forall i, (0 <= i <= Z.of_nat n)%Z -> c i = G (repeat a (n - Z.to_nat i) ++ repeat b (Z.to_nat i))) ->
  tri albz c (repeat s n) (Z.of_nat n) = G (repeat ((1 - s) * a + s * b) n).
Proof.
  intros HG Hc. rewrite (bz_reproduce_diag n c _ s (polar_reparam n G HG a b)).
  - now rewrite map_repeat.
  - intros i Hi. rewrite Hc by assumption. rewrite map_app, !map_repeat. f_equal. f_equal; f_equal; ring.
Qed.

Lemma bz_left_value n c t i : (0 <= i <= Z.of_nat n)%Z ->
  tri albz c (repeat t (Z.to_nat i)) i = bzG n c (repeat 0 (n - Z.to_nat i) ++ repeat t (Z.to_nat i)).
Proof.
  intros Hi. rewrite (tri_bz_polar n) by (rewrite repeat_length; lia). rewrite repeat_length.
  rewrite Nat.sub_diag. cbn [repeat]. rewrite app_nil_r.
  apply (po_sym n _ (bzG_polar n c)); [rewrite app_length, !repeat_length; lia|apply Permutation_app_comm].
Qed.

Lemma bz_right_value n c t i : (0 <= i <= Z.of_nat n)%Z ->
  tri albz c (repeat t (Z.to_nat (Z.of_nat n - i))) (Z.of_nat n)
  = bzG n c (repeat t (n - Z.to_nat i) ++ repeat 1 (Z.to_nat i)).
Proof.
  intros Hi. rewrite (tri_bz_polar n) by (rewrite repeat_length; lia). rewrite repeat_length.
  replace (n - Z.to_nat (Z.of_nat n))%nat with O by lia. cbn [repeat app].
  f_equal. f_equal; f_equal; lia.
Qed.

(** The first derivative of the curve is the curve of the scaled differences. *)
Definition dbz (n : nat) (c : Z -> R) : Z -> R := fun i => INR n * (c (i + 1)%Z - c i).

Lemma bz_deriv n c t :
  derivable_pt_lim (fun x => tri albz c (repeat x (S n)) (Z.of_nat (S n))) t
    (tri albz (dbz (S n) c) (repeat t n) (Z.of_nat n)).
Proof.
  pose proof (bzG_polar (S n) c) as HG.
  pose proof (polar_diag_deriv n _ t HG) as HD.
  rewrite (bz_reproduce_diag n (dbz (S n) c) _ t (polar_deriv n _ HG)); [exact HD|].
  intros i Hi. unfold dbz. f_equal.
  rewrite <- (bzG_at (S n) c i), <- (bzG_at (S n) c (i + 1)) by lia. f_equal.
  - apply (po_sym (S n) _ HG); [rewrite app_length, !repeat_length; lia|].
    replace (Z.to_nat (i + 1)) with (S (Z.to_nat i)) by lia. cbn [repeat Nat.sub].
    symmetry. apply Permutation_middle.
  - replace (S n - Z.to_nat i)%nat with (S (n - Z.to_nat i)) by lia. reflexivity.
Qed.

Lemma Rdiv_self x : x <> 0 -> x / x = 1.
Proof. intros. now field. Qed.

(** Degree elevation. *)
Definition elev (n : Z) (c : Z -> R) : Z -> R := fun i =>
  if (i =? 0)%Z then c 0%Z else if (i =? n + 1)%Z then c n
  else (1 - IZR i / IZR (n + 1)) * c i + IZR i / IZR (n + 1) * c (i - 1)%Z.

Lemma bz_elevate_value n c t :
  tri albz (elev (Z.of_nat n) c) (repeat t (S n)) (Z.of_nat (S n)) = tri albz c (repeat t n) (Z.of_nat n).
Proof.
  rewrite !tri_bernstein.
  replace (Z.of_nat (S n) - Z.of_nat (S n))%Z with 0%Z by lia.
  replace (Z.of_nat n - Z.of_nat n)%Z with 0%Z by lia.
  assert (HN : IZR (Z.of_nat n + 1) <> 0) by (apply not_0_IZR; lia).
  set (e := fun i => IZR i / IZR (Z.of_nat n + 1)).
  transitivity (rsum (S n) (fun i => (1 - e (Z.of_nat i)) * bernstein (S n) i t * c (Z.of_nat i))
     + rsum (S n) (fun i => e (Z.of_nat (S i)) * bernstein (S n) (S i) t * c (Z.of_nat i))).
  - (* split the elevated sum *)
    transitivity (rsum (S (S n)) (fun i => bernstein (S n) i t *
        ((1 - e (Z.of_nat i)) * c (Z.of_nat i) + e (Z.of_nat i) * c (Z.of_nat i - 1)%Z))).
    + apply rsum_ext. intros i Hi. cbn [Z.add]. f_equal. unfold elev.
      replace (match Z.of_nat i with 0%Z => 0%Z | Z.pos y' => Z.pos y' | Z.neg y' => Z.neg y' end) with (Z.of_nat i)
        by (destruct (Z.of_nat i); reflexivity).
      destruct (Z.eqb_spec (Z.of_nat i) 0) as [E|E].
      * rewrite E. unfold e, Rdiv. rewrite Rmult_0_l. ring.
      * destruct (Z.eqb_spec (Z.of_nat i) (Z.of_nat n + 1)) as [E'|E'].
        -- rewrite E'. unfold e. rewrite Rdiv_self by assumption.
           replace (Z.of_nat n + 1 - 1)%Z with (Z.of_nat n) by lia. ring.
        -- reflexivity.
    + rewrite (rsum_ext _ _ (fun i => bernstein (S n) i t * ((1 - e (Z.of_nat i)) * c (Z.of_nat i))
         + bernstein (S n) i t * (e (Z.of_nat i) * c (Z.of_nat i - 1)%Z))) by (intros; ring).
      rewrite rsum_plus. f_equal.
      * rewrite rsum_S.
        assert (E : e (Z.of_nat (S n)) = 1).
        { unfold e. replace (Z.of_nat (S n)) with (Z.of_nat n + 1)%Z by lia. now apply Rdiv_self. }
        rewrite E. replace (1 - 1) with 0 by ring. rewrite Rmult_0_l, Rmult_0_r, Rplus_0_r.
        apply rsum_ext. intros i Hi. ring.
      * rewrite rsum_shift.
        assert (E : e (Z.of_nat 0) = 0) by (unfold e, Rdiv; cbn [Z.of_nat]; ring).
        rewrite E, Rmult_0_l, Rmult_0_r, Rplus_0_l.
        apply rsum_ext. intros i Hi. replace (Z.of_nat (S i) - 1)%Z with (Z.of_nat i) by lia. ring.
  - rewrite <- rsum_plus. apply rsum_ext. intros i Hi.
    replace (0 + Z.of_nat i)%Z with (Z.of_nat i) by lia.
    pose proof (bernstein_raise0 n i t ltac:(lia)) as H0.
    pose proof (bernstein_raise1 n i t ltac:(lia)) as H1.
    assert (E0 : e (Z.of_nat i) = INR i / INR (S n)).
    { unfold e. rewrite !INR_IZR_INZ. do 2 f_equal. lia. }
    assert (E1 : e (Z.of_nat (S i)) = INR (S i) / INR (S n)).
    { unfold e. rewrite !INR_IZR_INZ. do 2 f_equal. lia. }
    rewrite E0, E1, <- H0, <- H1. ring.
Qed.

(** * Transport to points *)
Lemma coord_tri {d} i al (c : Z -> vec R d) xs j : (i < d)%nat ->
  coord d i (tri al c xs j) = tri al (fun k => coord d i (c k)) xs j.
Proof. intros Hi. apply tri_affmap. now apply linmap_affmap, coord_linmap. Qed.

Lemma tri_bernstein_vec {d} (c : Z -> vec R d) n t j :
  tri albz c (repeat t n) j = psum (S n) (fun i => pmul (bernstein n i t) (c (j - Z.of_nat n + Z.of_nat i)%Z)).
Proof.
  apply vec_ext. intros ci Hci. rewrite coord_tri, coord_psum, tri_bernstein by assumption.
  apply rsum_ext. intros. now rewrite coord_mul.
Qed.

Lemma tri_bz_curve {d} (pts : list (vec R d)) n c t :
  arr pts (Z.of_nat n + 1) c ->
  tri albz c (repeat t n) (Z.of_nat n) = bernstein_curve pts t.
Proof.
  intros H. rewrite tri_bernstein_vec. unfold bernstein_curve.
  pose proof (arr_len _ _ _ H) as HL. unfold zlen in HL.
  replace (length pts) with (S n) by lia. cbn [Nat.sub]. rewrite Nat.sub_0_r.
  apply psum_ext. intros i Hi. f_equal.
  replace (Z.of_nat n - Z.of_nat n + Z.of_nat i)%Z with (Z.of_nat i) by lia.
  pose proof (arr_get _ _ _ (Z.of_nat i) H ltac:(lia)) as E.
  rewrite (get_nth _ _ p0) in E by (unfold zlen; lia). rewrite Nat2Z.id in E. congruence.
Qed.
