(** The triangle inequality and convex combinations for the Euclidean distance. *)
From Coq Require Import Reals Lra Lia ZArith Psatz.
From Verif Require Import Monad MonadFacts Scalar ScalarFacts Spec SpecFacts SpecGeom SpecPrimitive CurveThms IntersectThms PrimitiveFacts.
Local Open Scope R_scope.

Section Norm.
  Context {d : nat}.
  Implicit Types a b c x y : vec R d.

  Lemma inner_nonneg a : 0 <= inner a a.
  Proof. unfold inner. apply rsum_nonneg. intros i Hi. nra. Qed.

  Lemma inner_cs a b : inner a b ^ 2 <= inner a a * inner b b.
  Proof.
    pose proof (inner_nonneg b) as Hb. destruct (Rle_lt_or_eq_dec _ _ Hb) as [H|H].
    - pose proof (inner_nonneg (psub a (pmul (inner a b / inner b b) b))) as H1.
      revert H1. bilin.
      replace (inner b a) with (inner a b) by apply IntersectThms.inner_comm.
      set (x := inner a a). set (y := inner a b). set (z := inner b b) in *. intros H1.
      replace (x - y / z * y - y / z * (y - y / z * z)) with (x - y * y / z) in H1 by (field; lra).
      apply (Rmult_le_compat_r z) in H1; [|lra].
      replace ((x - y * y / z) * z) with (x * z - y * y) in H1 by (field; lra). lra.
    - assert (E : edist b p0 <= 0).
      { unfold edist. rewrite (rsum_ext _ _ (fun i => coord d i b * coord d i b)).
        - fold (inner b b). rewrite <- H, sqrt_0. lra.
        - intros i Hi. rewrite coord_0 by exact Hi. ring. }
      apply edist_eq0 in E. subst b. rewrite <- H.
      assert (inner a (p0 : vec R d) = 0).
      { unfold inner. apply rsum_0. intros i Hi. rewrite coord_0 by exact Hi. ring. }
      rewrite H0. lra.
  Qed.

  Lemma edist_sqrt a b : edist a b = sqrt (inner (psub a b) (psub a b)).
  Proof. rewrite <- edist_inner. rewrite <- Rsqr_pow2. symmetry. apply sqrt_Rsqr. apply edist_pos. Qed.

  Lemma norm_add a b : sqrt (inner (padd a b) (padd a b)) <= sqrt (inner a a) + sqrt (inner b b).
  Proof.
    pose proof (inner_nonneg a). pose proof (inner_nonneg b).
    assert (0 <= sqrt (inner a a)) by apply sqrt_pos. assert (0 <= sqrt (inner b b)) by apply sqrt_pos.
    apply Rsqr_incr_0_var; [|lra]. rewrite Rsqr_sqrt by apply inner_nonneg.
    rewrite Rsqr_plus, !Rsqr_sqrt by assumption. bilin.
    replace (inner b a) with (inner a b) by apply IntersectThms.inner_comm.
    assert (inner a b <= sqrt (inner a a) * sqrt (inner b b)); [|lra].
    rewrite <- sqrt_mult by assumption. destruct (Rle_dec (inner a b) 0) as [Hn|Hn].
    - apply Rle_trans with 0; [exact Hn|apply sqrt_pos].
    - apply Rsqr_incr_0_var; [|apply sqrt_pos]. rewrite Rsqr_sqrt by (apply Rmult_le_pos; assumption).
      rewrite Rsqr_pow2. apply inner_cs.
  Qed.

  Lemma edist_triangle a b c : edist a c <= edist a b + edist b c.
  Proof.
    rewrite !edist_sqrt. replace (psub a c) with (padd (psub a b) (psub b c)); [apply norm_add|].
    apply vec_ext. intros i Hi. rewrite coord_add, !coord_sub by exact Hi. simpl. ring.
  Qed.

  Lemma edist_scale (k : R) a b : 0 <= k -> edist (pmul k a) (pmul k b) = k * edist a b.
  Proof.
    intros Hk. rewrite !edist_sqrt.
    replace (psub (pmul k a) (pmul k b)) with (pmul k (psub a b)).
    - rewrite inner_mul_l, inner_mul_r, <- Rmult_assoc, sqrt_mult by (try apply inner_nonneg; nra).
      now rewrite sqrt_square by exact Hk.
    - apply vec_ext. intros i Hi. rewrite coord_mul, !coord_sub, !coord_mul by exact Hi. simpl. ring.
  Qed.

  Lemma edist_add a b a' b' : edist (padd a b) (padd a' b') <= edist a a' + edist b b'.
  Proof.
    rewrite !edist_sqrt. replace (psub (padd a b) (padd a' b')) with (padd (psub a a') (psub b b')); [apply norm_add|].
    apply vec_ext. intros i Hi. rewrite ?coord_sub, ?coord_add, ?coord_sub by exact Hi. simpl. ring.
  Qed.

  (** Convex combinations of close points are close. *)
  Lemma edist_convex (k e : R) a b a' b' : 0 <= k <= 1 -> edist a a' <= e -> edist b b' <= e ->
    edist (padd (pmul (1 - k) a) (pmul k b)) (padd (pmul (1 - k) a') (pmul k b')) <= e.
  Proof.
    intros Hk Ha Hb. eapply Rle_trans; [apply edist_add|]. rewrite !edist_scale by lra.
    assert ((1 - k) * edist a a' <= (1 - k) * e) by (apply Rmult_le_compat_l; lra).
    assert (k * edist b b' <= k * e) by (apply Rmult_le_compat_l; lra). lra.
  Qed.
  Lemma edist_left (k e : R) a b b' : 0 <= k <= 1 -> edist b b' <= e -> 0 <= e ->
    edist (padd (pmul (1 - k) a) (pmul k b)) (padd (pmul (1 - k) a) (pmul k b')) <= e.
  Proof. intros Hk Hb He. apply edist_convex; [exact Hk|rewrite edist_refl; exact He|exact Hb]. Qed.
  Lemma edist_right (k e : R) a a' b : 0 <= k <= 1 -> edist a a' <= e -> 0 <= e ->
    edist (padd (pmul (1 - k) a) (pmul k b)) (padd (pmul (1 - k) a') (pmul k b)) <= e.
  Proof. intros Hk Hb He. apply edist_convex; [exact Hk|exact Hb|rewrite edist_refl; exact He]. Qed.
End Norm.
