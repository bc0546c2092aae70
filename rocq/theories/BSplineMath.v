(** B-spline mathematics: the de Boor triangle and the Cox-de Boor basis. *)
From Coq Require Import Reals Lra Lia ZArith List Permutation.
From Verif Require Import Monad MonadFacts Scalar ScalarFacts Spec SpecFacts Polar BezierMath.
Import ListNotations.
Local Open Scope R_scope.

(** [U] is non-decreasing on the indices [lo..hi]. *)
Definition mono (U : Z -> R) (lo hi : Z) : Prop :=
  forall i j, (lo <= i)%Z -> (i <= j)%Z -> (j <= hi)%Z -> U i <= U j.

(** [t] lies in span [k]: half open, or closed at the end [tmax] of the domain. *)
Definition in_span (U : Z -> R) (tmax : R) (k : Z) (t : R) : Prop :=
  (t < tmax /\ U k <= t < U (k + 1)%Z) \/ (t = tmax /\ U k < t <= U (k + 1)%Z).

Lemma in_span_bounds U tmax k t : in_span U tmax k t -> U k <= t <= U (k + 1)%Z /\ U k < U (k + 1)%Z.
Proof. intros [[H1 H2]|[H1 H2]]; lra. Qed.

Lemma in_span_unique U tmax lo hi k k' t : mono U lo hi ->
  (lo <= k <= hi - 1)%Z -> (lo <= k' <= hi - 1)%Z ->
  in_span U tmax k t -> in_span U tmax k' t -> k = k'.
Proof.
  intros Hm Hk Hk' H H'.
  destruct (Z.lt_trichotomy k k') as [Hl|[He|Hl]]; [exfalso|exact He|exfalso].
  - assert (U (k + 1)%Z <= U k') by (apply Hm; lia).
    destruct H as [[? ?]|[? ?]], H' as [[? ?]|[? ?]]; lra.
  - assert (U (k' + 1)%Z <= U k) by (apply Hm; lia).
    destruct H as [[? ?]|[? ?]], H' as [[? ?]|[? ?]]; lra.
Qed.

Lemma sepk_mono U lo hi p k : mono U lo hi -> (lo <= k - Z.of_nat p + 1)%Z -> (k + Z.of_nat p <= hi)%Z ->
  (lo <= k)%Z -> (k + 1 <= hi)%Z ->
  U k < U (k + 1)%Z -> sepk U p k.
Proof.
  intros Hm H1 H2 H3 H4 Hk i i' Hi Hi' E.
  assert (U i <= U k) by (apply Hm; lia). assert (U (k + 1)%Z <= U i') by (apply Hm; lia). lra.
Qed.

Lemma rsum_window n a m (f : nat -> R) : (a + m <= n)%nat ->
  (forall i, (i < n)%nat -> (i < a \/ a + m <= i)%nat -> f i = 0) ->
  rsum n f = rsum m (fun i => f (a + i)%nat).
Proof.
  intros Hn H.
  replace n with (a + (m + (n - a - m)))%nat by lia.
  rewrite rsum_app, rsum_app.
  rewrite (rsum_0 a) by (intros; apply H; lia).
  rewrite (rsum_0 (n - a - m)) by (intros; apply H; lia). ring.
Qed.

Section Cox.
  Variable U : Z -> R.
  Variable lo hi : Z.
  Hypothesis Hm : mono U lo hi.
  Variable tmax t : R.
  Variable k : Z.
  Hypothesis Hk : (lo <= k)%Z.
  Hypothesis Hk' : (k + 1 <= hi)%Z.
  Hypothesis Hs : in_span U tmax k t.

  Lemma N0_span i : (lo <= i)%Z -> (i + 1 <= hi)%Z -> N0 U tmax i t = if Z.eqb i k then 1 else 0.
  Proof.
    intros H1 H2. unfold N0.
    destruct (Z.eqb_spec i k) as [->|Hne].
    - destruct Hs as [[? ?]|[? ?]].
      + destruct (Req_EM_T t tmax); [lra|]. destruct (Rle_dec (U k) t); [|lra].
        destruct (Rlt_dec t (U (k + 1)%Z)); [reflexivity|lra].
      + destruct (Req_EM_T t tmax); [|lra]. destruct (Rlt_dec (U k) t); [|lra].
        destruct (Rle_dec t (U (k + 1)%Z)); [reflexivity|lra].
    - assert (Hc : (i < k)%Z \/ (k < i)%Z) by lia. destruct Hc as [Hc|Hc].
      + assert (U (i + 1)%Z <= U k) by (apply Hm; lia).
        destruct Hs as [[? ?]|[? ?]].
        * destruct (Req_EM_T t tmax); [lra|]. destruct (Rle_dec (U i) t); [|reflexivity].
          destruct (Rlt_dec t (U (i + 1)%Z)); [lra|reflexivity].
        * destruct (Req_EM_T t tmax); [|lra]. destruct (Rlt_dec (U i) t); [|reflexivity].
          destruct (Rle_dec t (U (i + 1)%Z)); [lra|reflexivity].
      + assert (U (k + 1)%Z <= U i) by (apply Hm; lia).
        destruct Hs as [[? ?]|[? ?]].
        * destruct (Req_EM_T t tmax); [lra|]. destruct (Rle_dec (U i) t); [lra|reflexivity].
        * destruct (Req_EM_T t tmax); [|lra]. destruct (Rlt_dec (U i) t); [lra|reflexivity].
  Qed.

  Lemma cox_support q i : (lo <= i)%Z -> (i + Z.of_nat q + 1 <= hi)%Z ->
    (i < k - Z.of_nat q)%Z \/ (k < i)%Z -> cox U tmax q i t = 0.
  Proof.
    revert i; induction q as [|q IH]; intros i H1 H2 Hc.
    - cbn [cox]. rewrite N0_span by lia. destruct (Z.eqb_spec i k); [lia|reflexivity].
    - cbn [cox]. rewrite (IH i), (IH (i + 1)%Z) by lia. ring.
  Qed.

  Lemma frac0_nonneg a b : 0 <= a -> 0 <= b -> 0 <= frac0 a b.
  Proof.
    intros Ha Hb. unfold frac0. destruct (Req_EM_T b 0); [lra|].
    apply Rmult_le_pos; [exact Ha|]. left. apply Rinv_0_lt_compat. lra.
  Qed.

  Lemma cox_nonneg q i : (lo <= i)%Z -> (i + Z.of_nat q + 1 <= hi)%Z -> 0 <= cox U tmax q i t.
  Proof.
    destruct (in_span_bounds _ _ _ _ Hs) as [Hb _].
    revert i; induction q as [|q IH]; intros i H1 H2.
    - cbn [cox]. rewrite N0_span by lia. destruct (Z.eqb i k); lra.
    - cbn [cox]. apply Rplus_le_le_0_compat.
      + destruct (Z_lt_le_dec i (k - Z.of_nat q)) as [Hc|Hc];
          [rewrite (cox_support q i) by lia; lra|].
        destruct (Z_lt_le_dec k i) as [Hc'|Hc']; [rewrite (cox_support q i) by lia; lra|].
        apply Rmult_le_pos; [|apply IH; lia]. apply frac0_nonneg.
        * assert (U i <= U k) by (apply Hm; lia). lra.
        * assert (U i <= U (i + Z.of_nat (S q))%Z) by (apply Hm; lia). lra.
      + destruct (Z_lt_le_dec (i + 1) (k - Z.of_nat q)) as [Hc|Hc];
          [rewrite (cox_support q (i + 1)) by lia; lra|].
        destruct (Z_lt_le_dec k (i + 1)) as [Hc'|Hc']; [rewrite (cox_support q (i + 1)) by lia; lra|].
        apply Rmult_le_pos; [|apply IH; lia]. apply frac0_nonneg.
        * assert (U (k + 1)%Z <= U (i + Z.of_nat (S q) + 1)%Z) by (apply Hm; lia). lra.
        * assert (U (i + 1)%Z <= U (i + Z.of_nat (S q) + 1)%Z) by (apply Hm; lia). lra.
  Qed.

  (** One level of the triangle is one level of the basis recursion. *)
  Lemma cox_level (p q : nat) (c : Z -> R) :
    (S q <= p)%nat -> (lo <= k - Z.of_nat p)%Z -> (k + Z.of_nat p + 1 <= hi)%Z ->
    rsum (S (S q)) (fun i => cox U tmax (S q) (k - Z.of_nat (S q) + Z.of_nat i) t
                      * tri (alU U p) c (repeat t (p - S q)) (k - Z.of_nat (S q) + Z.of_nat i))
    = rsum (S q) (fun i => cox U tmax q (k - Z.of_nat q + Z.of_nat i) t
                      * tri (alU U p) c (repeat t (p - q)) (k - Z.of_nat q + Z.of_nat i)).
  Proof.
    intros Hq Hlo Hhi.
    set (T := fun j => tri (alU U p) c (repeat t (p - S q)) j).
    set (w := fun j => (t - U j) / (U (j + Z.of_nat (S q))%Z - U j)).
    destruct (in_span_bounds _ _ _ _ Hs) as [_ Hlt].
    assert (Hgap : forall j, (k - Z.of_nat q <= j <= k)%Z -> U j < U (j + Z.of_nat (S q))%Z).
    { intros j Hj. assert (U j <= U k) by (apply Hm; lia).
      assert (U (k + 1)%Z <= U (j + Z.of_nat (S q))%Z) by (apply Hm; lia). lra. }
    (* right hand side: one triangle step *)
    assert (HR : forall i, (i < S q)%nat ->
       cox U tmax q (k - Z.of_nat q + Z.of_nat i) t * tri (alU U p) c (repeat t (p - q)) (k - Z.of_nat q + Z.of_nat i)
       = cox U tmax q (k - Z.of_nat q + Z.of_nat i) t *
          ((1 - w (k - Z.of_nat q + Z.of_nat i)%Z) * T (k - Z.of_nat q + Z.of_nat i - 1)%Z
           + w (k - Z.of_nat q + Z.of_nat i)%Z * T (k - Z.of_nat q + Z.of_nat i)%Z)).
    { intros i Hi. f_equal. replace (p - q)%nat with (S (p - S q)) by lia. cbn [repeat tri length].
      rewrite repeat_length. fold (T (k - Z.of_nat q + Z.of_nat i - 1)%Z).
      fold (T (k - Z.of_nat q + Z.of_nat i)%Z).
      replace (alU U p (S (p - S q)) (k - Z.of_nat q + Z.of_nat i) t) with (w (k - Z.of_nat q + Z.of_nat i)%Z).
      - reflexivity.
      - unfold w, alU. do 3 f_equal. lia. }
    rewrite (rsum_ext _ _ _ HR).
    change (rsum (S (S q)) (fun i => cox U tmax (S q) (k - Z.of_nat (S q) + Z.of_nat i) t * T (k - Z.of_nat (S q) + Z.of_nat i)%Z) = rsum (S q) (fun i => cox U tmax q (k - Z.of_nat q + Z.of_nat i) t *
          ((1 - w (k - Z.of_nat q + Z.of_nat i)%Z) * T (k - Z.of_nat q + Z.of_nat i - 1)%Z
           + w (k - Z.of_nat q + Z.of_nat i)%Z * T (k - Z.of_nat q + Z.of_nat i)%Z))).
    (* left hand side: split every basis function *)
    assert (HL : forall i, (i < S (S q))%nat ->
       cox U tmax (S q) (k - Z.of_nat (S q) + Z.of_nat i) t * T (k - Z.of_nat (S q) + Z.of_nat i)%Z
       = (if Nat.eqb i 0 then 0 else
            w (k - Z.of_nat (S q) + Z.of_nat i)%Z * cox U tmax q (k - Z.of_nat (S q) + Z.of_nat i) t
              * T (k - Z.of_nat (S q) + Z.of_nat i)%Z)
         + (if Nat.eqb i (S q) then 0 else
            (1 - w (k - Z.of_nat (S q) + Z.of_nat i + 1)%Z) * cox U tmax q (k - Z.of_nat (S q) + Z.of_nat i + 1) t
              * T (k - Z.of_nat (S q) + Z.of_nat i)%Z)).
    { intros i Hi. cbn [cox]. set (j := (k - Z.of_nat (S q) + Z.of_nat i)%Z).
      assert (HA : frac0 (t - U j) (U (j + Z.of_nat (S q))%Z - U j) * cox U tmax q j t
                   = if Nat.eqb i 0 then 0 else w j * cox U tmax q j t).
      { destruct (Nat.eqb_spec i 0) as [->|Hi0].
        - rewrite (cox_support q j) by (unfold j; lia). ring.
        - unfold frac0, w. destruct (Req_EM_T _ 0) as [E|E]; [|reflexivity].
          exfalso. specialize (Hgap j ltac:(unfold j; lia)). lra. }
      assert (HB : frac0 (U (j + Z.of_nat (S q) + 1)%Z - t) (U (j + Z.of_nat (S q) + 1)%Z - U (j + 1)%Z)
                     * cox U tmax q (j + 1) t
                   = if Nat.eqb i (S q) then 0 else (1 - w (j + 1)%Z) * cox U tmax q (j + 1) t).
      { destruct (Nat.eqb_spec i (S q)) as [->|Hi0].
        - rewrite (cox_support q (j + 1)) by (unfold j; lia). ring.
        - unfold frac0, w. specialize (Hgap (j + 1)%Z ltac:(unfold j; lia)).
          replace (j + 1 + Z.of_nat (S q))%Z with (j + Z.of_nat (S q) + 1)%Z in * by lia.
          destruct (Req_EM_T _ 0) as [E|E]; [lra|]. f_equal. field. lra. }
      rewrite HA, HB. destruct (Nat.eqb i 0), (Nat.eqb i (S q)); ring. }
    rewrite (rsum_ext _ _ _ HL), rsum_plus.
    rewrite (rsum_shift (S q)). cbn [Nat.eqb].
    rewrite (rsum_S (S q)). rewrite Nat.eqb_refl.
    match goal with |- 0 + rsum _ ?f + (rsum _ ?g + 0) = _ =>
      replace (0 + rsum (S q) f + (rsum (S q) g + 0)) with (rsum (S q) f + rsum (S q) g) by ring end.
    rewrite <- rsum_plus. apply rsum_ext. intros i Hi.
    destruct (Nat.eqb_spec i (S q)); [lia|].
    replace (k - Z.of_nat (S q) + Z.of_nat (S i))%Z with (k - Z.of_nat q + Z.of_nat i)%Z by lia.
    replace (k - Z.of_nat (S q) + Z.of_nat i + 1)%Z with (k - Z.of_nat q + Z.of_nat i)%Z by lia.
    replace (k - Z.of_nat (S q) + Z.of_nat i)%Z with (k - Z.of_nat q + Z.of_nat i - 1)%Z by lia.
    ring.
  Qed.

  (** de Boor's algorithm evaluates the Cox-de Boor sum of its span. *)
  Lemma tri_cox_span (p : nat) (c : Z -> R) :
    (lo <= k - Z.of_nat p)%Z -> (k + Z.of_nat p + 1 <= hi)%Z ->
    tri (alU U p) c (repeat t p) k
    = rsum (S p) (fun i => cox U tmax p (k - Z.of_nat p + Z.of_nat i) t * c (k - Z.of_nat p + Z.of_nat i)%Z).
  Proof.
    intros Hlo Hhi.
    assert (H : forall q, (q <= p)%nat ->
      rsum (S q) (fun i => cox U tmax q (k - Z.of_nat q + Z.of_nat i) t
                      * tri (alU U p) c (repeat t (p - q)) (k - Z.of_nat q + Z.of_nat i))
      = tri (alU U p) c (repeat t p) k).
    { induction q as [|q IH]; intros Hq.
      - rewrite rsum_S. unfold rsum at 1. simpl psum. cbn [cox].
        rewrite Nat.sub_0_r. replace (k - Z.of_nat 0 + Z.of_nat 0)%Z with k by lia.
        rewrite N0_span, Z.eqb_refl by lia. simpl. ring.
      - rewrite cox_level by lia. apply IH. lia. }
    rewrite <- (H p) by lia. rewrite Nat.sub_diag. reflexivity.
  Qed.

  Lemma cox_partition (p : nat) :
    (lo <= k - Z.of_nat p)%Z -> (k + Z.of_nat p + 1 <= hi)%Z ->
    rsum (S p) (fun i => cox U tmax p (k - Z.of_nat p + Z.of_nat i) t) = 1.
  Proof.
    intros Hlo Hhi.
    transitivity (tri (alU U p) (fun _ => 1) (repeat t p) k).
    - rewrite tri_cox_span by assumption. apply rsum_ext. intros. ring.
    - clear. generalize (repeat t p) as xs, k as j. induction xs as [|x xs IH]; intros j; [reflexivity|].
      cbn [tri]. rewrite !IH. simpl. ring.
  Qed.
End Cox.

(** Whole-curve version. *)
Lemma tri_cox U p n tmax t k (c : Z -> R) :
  mono U 0 (Z.of_nat n + Z.of_nat p) ->
  (Z.of_nat p <= k < Z.of_nat n)%Z -> in_span U tmax k t ->
  tri (alU U p) c (repeat t p) k = rsum n (fun i => cox U tmax p (Z.of_nat i) t * c (Z.of_nat i)).
Proof.
  intros Hm Hk Hs.
  rewrite (tri_cox_span U 0 (Z.of_nat n + Z.of_nat p) Hm tmax t k) by (assumption || lia).
  rewrite (rsum_window n (Z.to_nat k - p) (S p)); [|lia|].
  - apply rsum_ext. intros i Hi.
    replace (Z.of_nat (Z.to_nat k - p + i)) with (k - Z.of_nat p + Z.of_nat i)%Z by lia. reflexivity.
  - intros i Hi Hc.
    rewrite (cox_support U 0 (Z.of_nat n + Z.of_nat p) Hm tmax t k) by (assumption || lia). ring.
Qed.

Lemma cox_partition_all U p n tmax t k :
  mono U 0 (Z.of_nat n + Z.of_nat p) ->
  (Z.of_nat p <= k < Z.of_nat n)%Z -> in_span U tmax k t ->
  rsum n (fun i => cox U tmax p (Z.of_nat i) t) = 1.
Proof.
  intros Hm Hk Hs.
  rewrite <- (cox_partition U 0 (Z.of_nat n + Z.of_nat p) Hm tmax t k ltac:(lia) ltac:(lia) Hs p) by lia.
  rewrite (rsum_window n (Z.to_nat k - p) (S p)); [|lia|].
  - apply rsum_ext. intros i Hi.
    replace (Z.of_nat (Z.to_nat k - p + i)) with (k - Z.of_nat p + Z.of_nat i)%Z by lia. reflexivity.
  - intros i Hi Hc.
    apply (cox_support U 0 (Z.of_nat n + Z.of_nat p) Hm tmax t k); assumption || lia.
Qed.

(** * Start of the domain inside a run of equal knots *)
(** The triangle with guarded ratios, as the code computes it (threshold [tol]). *)
Definition algd (tol : R) (U : Z -> R) (p : nat) (r : nat) (j : Z) (x : R) : R :=
  let diff := U (j + Z.of_nat p + 1 - Z.of_nat r)%Z - U j in
  if Rltb tol diff then (x - U j) / diff else 0.

Lemma algd_alU tol U p r j x :
  (tol < U (j + Z.of_nat p + 1 - Z.of_nat r)%Z - U j) -> algd tol U p r j x = alU U p r j x.
Proof. intros H. unfold algd, alU. rewrite Rltb_true by assumption. reflexivity. Qed.

Lemma tri_algd {P} {V : PointOps R P} tol U p (c : Z -> P) xs k :
  (forall i j, (k - Z.of_nat p + 1 <= i <= k)%Z -> (k + 1 <= j <= k + Z.of_nat p)%Z -> tol < U j - U i) ->
  (length xs <= p)%nat ->
  tri (algd tol U p) c xs k = tri (alU U p) c xs k.
Proof.
  intros H Hl. apply tri_ext; [|reflexivity].
  intros r i x Hr Hi. apply algd_alU. apply H; lia.
Qed.

(** At the argument [u] equal to a run of knots the triangle walks to the left of the run. *)
Section Degenerate.
  Context {P : Type} {V : PointOps R P} {L : PointLaws P}.

  Lemma lerp0 (a b : P) : padd (pmul (1 - 0) a) (pmul 0 b) = a.
  Proof.
    replace (1 - 0) with 1 by ring. rewrite pl_mul1, pl_mul0. rewrite pl_comm. apply pl_0.
  Qed.
  Lemma lerp1 (a b : P) : padd (pmul (1 - 1) a) (pmul 1 b) = b.
  Proof.
    replace (1 - 1) with 0 by ring. rewrite pl_mul1, pl_mul0. apply pl_0.
  Qed.

  (** ratios that vanish where the knot equals the argument *)
  Lemma tri_walk_left al (c : Z -> P) (u : R) m xs j :
    (forall r i, (j - Z.of_nat m < i <= j)%Z -> al r i u = 0) ->
    tri al c (repeat u m ++ xs) j = tri al c xs (j - Z.of_nat m).
  Proof.
    revert j; induction m as [|m IH]; intros j H.
    - simpl. f_equal. lia.
    - cbn [repeat app tri]. rewrite H by lia.
      rewrite (IH (j - 1)%Z) by (intros; apply H; lia). rewrite lerp0. f_equal. lia.
  Qed.

  (** ratios that are one *)
  Lemma tri_stay al (c : Z -> P) (u : R) m xs j :
    (forall r, (length xs < r <= m + length xs)%nat -> al r j u = 1) ->
    tri al c (repeat u m ++ xs) j = tri al c xs j.
  Proof.
    induction m as [|m IH]; intros H.
    - reflexivity.
    - cbn [repeat app tri length]. rewrite H; [|rewrite app_length, repeat_length; lia].
      rewrite IH by (intros; apply H; lia). apply lerp1.
  Qed.
End Degenerate.
