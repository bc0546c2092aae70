(** Splitting Bezier curves in floating point arithmetic. *)
From Coq Require Import Reals Lra Lia ZArith QArith List Bool.
From Flocq Require Import Core IEEE754.BinarySingleNaN.
From Verif Require Import Monad MonadFacts Scalar ScalarFacts Spec SpecFacts ModelCurve ModelBezier BezierThms
  ModelBSpline BSplineFacts BSplineThms BSplineThms2 SpecFloat ModelFloat FloatFacts FloatThms FloatThms2 FloatThms3 FloatCases
  FloatRuns SpecSubdiv.
Import ListNotations.
Local Open Scope R_scope.

(** ** Curves with near control points are near *)
Lemma bernstein_near d (l l' : list (vec R d)) n i E s : length l = S n -> length l' = S n -> (i < d)%nat -> 0 <= s <= 1 ->
  (forall k, (k <= n)%nat -> Rabs (coord d i (nth k l p0) - coord d i (nth k l' p0)) <= E) ->
  Rabs (coord d i (bernstein_curve l s) - coord d i (bernstein_curve l' s)) <= E.
Proof.
  intros Hl Hl' Hi Hs HE. unfold bernstein_curve. rewrite Hl, Hl'. replace (S n - 1)%nat with n by lia.
  rewrite !coord_psum by exact Hi. rewrite <- rsum_minus.
  rewrite (rsum_ext (S n) _ (fun k => bernstein n k s * (coord d i (nth k l p0) - coord d i (nth k l' p0))));
    [|intros k Hk; rewrite !coord_mul by exact Hi; cbv beta; cbn [smul R_ops]; ring].
  assert (G : forall m, (m <= S n)%nat -> Rabs (rsum m (fun k => bernstein n k s * (coord d i (nth k l p0) - coord d i (nth k l' p0))))
    <= E * rsum m (fun k => bernstein n k s)).
  { induction m as [|m IH]; intros Hm.
    - unfold rsum. cbn [psum p0]. cbn. rewrite Rabs_R0. lra.
    - rewrite !rsum_S. eapply Rle_trans; [apply Rabs_triang|]. rewrite Rabs_mult.
      pose proof (bernstein_nonneg n m s Hs) as Hb. rewrite (Rabs_pos_eq _ Hb). rewrite Rmult_plus_distr_l.
      apply Rplus_le_compat; [apply IH; lia|]. rewrite (Rmult_comm E). apply Rmult_le_compat_l; [exact Hb|apply HE; lia]. }
  eapply Rle_trans; [apply (G (S n)); lia|]. rewrite bernstein_partition. lra.
Qed.

Section Float.
  Context (prec emax : Z) {Hprec : Prec_gt_0 prec} {Hmax : Prec_lt_emax prec emax}.
  Notation num := (binary_float prec emax).
  Notation u := (unit_roundoff prec).
  Notation eta := (underflow_error prec emax).
  Notation Omega := (bpow radix2 emax).
  Local Instance FOs : ScalarOps num := ieee_ops prec emax.

  Lemma split_tri_near d (pts : list (vec num d)) (t : num) n M :
    length pts = S n ->
    (forall p i, In p pts -> (i < d)%nat -> is_finite (coord d i p) = true /\ Rabs (B2R (coord d i p)) <= M) ->
    is_finite t = true -> 0 <= B2R t <= 1 -> 0 <= M -> growth u eta M n < Omega ->
    forall i r j, (i < d)%nat -> (r <= n)%nat -> (Z.of_nat r <= j <= Z.of_nat n)%Z ->
      near prec emax (growth u eta M r) (growth u eta M r - M)
        (coord d i (gtri (sstep t) (fun i => nth (Z.to_nat i) pts p0) r j))
        (coord d i (gtri (sstep (B2R t)) (fun i => nth (Z.to_nat i) (map (vreal d) pts) p0) r j)).
  Proof.
    intros Hn Hpts Ft Ht HM HO i r j Hi. revert j. induction r as [|r IH]; intros j Hr Hj.
    - cbn [gtri]. rewrite growth_0.
      rewrite (nth_indep (map (vreal d) pts) p0 (vreal d p0)) by (rewrite map_length; lia).
      rewrite map_nth, (vreal_coord prec emax).
      destruct (Hpts (nth (Z.to_nat j) pts p0) i) as [F A]; [apply nth_In; lia|exact Hi|].
      split; [exact F|]. split; [exact A|]. rewrite Rminus_diag_eq, Rabs_R0 by reflexivity. lra.
    - cbn [gtri].
      assert (I1 := IH (j - 1)%Z ltac:(lia) ltac:(lia)). assert (I2 := IH j ltac:(lia) ltac:(lia)). clear IH.
      set (X := gtri _ _ r (j - 1)) in *. set (Y := gtri _ _ r j) in *.
      match type of I1 with near _ _ _ _ _ (coord _ _ ?x) => set (X' := x) in * end.
      match type of I2 with near _ _ _ _ _ (coord _ _ ?y) => set (Y' := y) in * end.
      unfold sstep.
      rewrite gcoord_add, !gcoord_mul by exact Hi. rewrite coord_add, !coord_mul by exact Hi.
      destruct (one_minus_spec prec emax t Ft Ht) as (Fs & _ & _ & Es).
      pose proof (growth_S prec emax M r HM) as HG.
      pose proof (growth_mono prec emax M (S r) n HM ltac:(lia)) as HG2.
      eapply near_weaken; [exact HG| |apply near_lerp with (A := growth u eta M r) (E := growth u eta M r - M); try assumption].
      + cbn [s1 ssub R_ops]. lra.
      + cbn [s1 ssub R_ops]. lra.
      + lra.
      + cbn [s1 ssub R_ops]. lra.
      + apply finite_B2R_err0. lra.
      + lra.
  Qed.

  Lemma split_valid (t : num) : is_finite t = true -> 0 < B2R t < 1 -> is_split_point_valid (s0 : num) s1 t = true.
  Proof.
    intros Ft Ht. unfold is_split_point_valid. cbn [sle s0 s1 FOs ieee_ops].
    destruct (one_spec prec emax) as [F1 E1].
    rewrite (Bleb_correct _ _ t (bofZ prec emax 0) Ft eq_refl), (Bleb_correct _ _ _ t F1 Ft), E1.
    rewrite !Rle_bool_false; [reflexivity|lra|]. change (B2R (bofZ prec emax 0)) with 0. lra.
  Qed.

  Lemma split_near d (pts : list (vec num d)) (t : num) n M :
    length pts = S n ->
    (forall p i, In p pts -> (i < d)%nat -> is_finite (coord d i p) = true /\ Rabs (B2R (coord d i p)) <= M) ->
    is_finite t = true -> 0 < B2R t < 1 -> 0 <= M -> growth u eta M n < Omega ->
    exists l r : list (vec num d),
      bz_split (mk_bezier pts) t = Ok [mk_bezier l; mk_bezier r] /\ length l = S n /\ length r = S n /\
      (forall p i, In p l \/ In p r -> (i < d)%nat -> is_finite (coord d i p) = true /\ Rabs (B2R (coord d i p)) <= growth u eta M n) /\
      forall s i, 0 <= s <= 1 -> (i < d)%nat ->
        Rabs (coord d i (bernstein_curve (map (vreal d) l) s) - coord d i (bernstein_curve (map (vreal d) pts) (B2R t * s)))
          <= growth u eta M n - M /\
        Rabs (coord d i (bernstein_curve (map (vreal d) r) s) - coord d i (bernstein_curve (map (vreal d) pts) (B2R t + (1 - B2R t) * s)))
          <= growth u eta M n - M.
  Proof.
    intros Hn Hpts Ft Ht HM HO.
    pose proof (split_tri_near d pts t n M Hn Hpts Ft ltac:(lra) HM HO) as HT.
    unfold bz_split, bz_lower, bz_upper. rewrite (split_valid t Ft Ht). cbn [negb].
    unfold bz_degree. cbn [bz_pts mk_bezier]. replace (zlen pts - 1)%Z with (Z.of_nat n) by (unfold zlen; lia).
    assert (Ha : arr pts (Z.of_nat n + 1) (fun i => nth (Z.to_nat i) pts p0)).
    { replace (Z.of_nat n + 1)%Z with (zlen pts) by (unfold zlen; lia). apply arr_nth. }
    destruct (gsplit_loop (Z.of_nat n) t pts _ _ Ha) as (l & r & E & Hl & Hr); [lia|].
    rewrite E, bind_Ok. exists l, r. split; [reflexivity|].
    assert (Ll : length l = S n) by (apply arr_len in Hl; unfold zlen in Hl; lia).
    assert (Lr : length r = S n) by (apply arr_len in Hr; unfold zlen in Hr; lia).
    split; [exact Ll|]. split; [exact Lr|].
    set (pts' := map (vreal d) pts) in *.
    assert (Hn' : length pts' = S n) by (unfold pts'; now rewrite map_length).
    destruct (bezier_split d (mk_bezier pts') (B2R t)) as (l' & r' & E' & Ll' & Lr' & HS).
    { cbn [bz_pts mk_bezier]. intros X. rewrite X in Hn'. discriminate. }
    { exact Ht. }
    cbn [bz_pts mk_bezier] in *. rewrite Hn' in Ll', Lr'.
    assert (Ha' : arr pts' (Z.of_nat n + 1) (fun i => nth (Z.to_nat i) pts' p0)).
    { replace (Z.of_nat n + 1)%Z with (zlen pts') by (unfold zlen; lia). apply arr_nth. }
    destruct (gsplit_loop (Z.of_nat n) (B2R t) pts' _ _ Ha') as (l2 & r2 & E2 & Hl' & Hr'); [lia|].
    unfold bz_split, is_split_point_valid, bz_lower, bz_upper in E'. simpl sle in E'. cbn [s0 s1 R_ops] in E'.
    rewrite !Rleb_false in E' by lra. cbn [orb negb] in E'. unfold bz_degree in E'. cbn [bz_pts mk_bezier] in E'.
    replace (zlen pts' - 1)%Z with (Z.of_nat n) in E' by (unfold zlen; lia).
    rewrite E2, bind_Ok in E'. injection E' as X Y. subst l2 r2.
    assert (HE : forall {A} (f : Z -> A) (m : nat) (x : list A) (a : A), arr x (Z.of_nat n + 1) f -> (m <= n)%nat -> nth m x a = f (Z.of_nat m)).
    { intros A f m x a Hx Hm. pose proof (arr_get _ _ _ (Z.of_nat m) Hx ltac:(lia)) as Hg.
      rewrite (get_nth x (Z.of_nat m) a) in Hg by (rewrite (arr_len _ _ _ Hx); lia). rewrite Nat2Z.id in Hg. congruence. }
    assert (Gl : forall i k, (i < d)%nat -> (k <= n)%nat ->
      near prec emax (growth u eta M n) (growth u eta M n - M) (coord d i (nth k l p0)) (coord d i (nth k l' p0))).
    { intros i k Hi Hk. rewrite (HE _ _ k l _ Hl Hk), (HE _ _ k l' _ Hl' Hk). rewrite !Nat2Z.id.
      pose proof (growth_mono prec emax M k n HM Hk).
      eapply near_weaken; [| |apply (HT i k (Z.of_nat k) Hi Hk); lia]; lra. }
    assert (Gr : forall i k, (i < d)%nat -> (k <= n)%nat ->
      near prec emax (growth u eta M n) (growth u eta M n - M) (coord d i (nth k r p0)) (coord d i (nth k r' p0))).
    { intros i k Hi Hk. rewrite (HE _ _ k r _ Hr Hk), (HE _ _ k r' _ Hr' Hk).
      replace (Z.to_nat (Z.of_nat n - Z.of_nat k)) with (n - k)%nat by lia.
      pose proof (growth_mono prec emax M (n - k) n HM ltac:(lia)).
      eapply near_weaken; [| |apply (HT i (n - k)%nat (Z.of_nat n) Hi ltac:(lia)); lia]; lra. }
    split.
    { intros p i Hp Hi. destruct Hp as [Hp|Hp]; apply (In_nth _ _ p0) in Hp; destruct Hp as (k & Hk & <-).
      - destruct (Gl i k Hi ltac:(lia)) as (H1 & H2 & _). now split.
      - destruct (Gr i k Hi ltac:(lia)) as (H1 & H2 & _). now split. }
    intros s i Hs Hi. destruct (HS s) as [H1 H2]. rewrite <- H1, <- H2.
    assert (HN : forall (x : list (vec num d)) k, (k < length x)%nat -> coord d i (nth k (map (vreal d) x) p0) = B2R (coord d i (nth k x p0))).
    { intros x k Hk. rewrite (nth_indep (map (vreal d) x) p0 (vreal d p0)) by (rewrite map_length; lia).
      now rewrite map_nth, (vreal_coord prec emax). }
    split; apply (bernstein_near d _ _ n); try assumption; try (now rewrite map_length); intros k Hk; rewrite HN by lia.
    - apply (Gl i k Hi Hk).
    - apply (Gr i k Hi Hk).
  Qed.

  Lemma growth_plus M a b : 0 <= M -> growth u eta (growth u eta M a) b <= growth u eta M (a + b).
  Proof.
    intros HM. unfold growth. pose proof (u_pos prec). pose proof (eta_pos prec emax).
    rewrite plus_INR. replace (3 * (a + b))%nat with (3 * a + 3 * b)%nat by lia. rewrite pow_add.
    set (x := (1 + u) ^ (3 * a)). set (y := (1 + u) ^ (3 * b)).
    assert (Hx : 1 <= x) by (apply pow_R1_Rle; lra). assert (Hy : 1 <= y) by (apply pow_R1_Rle; lra).
    pose proof (pos_INR a). pose proof (pos_INR b).
    replace (x * y * (M + 2 * (INR a + INR b) * eta)) with (y * (x * (M + 2 * INR a * eta) + x * (2 * INR b * eta))) by ring.
    apply Rmult_le_compat_l; [lra|]. apply Rplus_le_compat_l.
    assert (0 <= 2 * INR b * eta) by nra. nra.
  Qed.
  Lemma growth_ge M k : 0 <= M -> M <= growth u eta M k.
  Proof. intros HM. rewrite <- (growth_0 prec emax M) at 1. apply growth_mono; [exact HM|lia]. Qed.

  (** Points of the sub-interval [a, b] of the original curve. *)
  Lemma subdivide_near d (cuts : list (num * bool)) : forall (pts pts0 : list (vec num d)) n M M0 E a b,
    length pts = S n ->
    (forall p i, In p pts -> (i < d)%nat -> is_finite (coord d i p) = true /\ Rabs (B2R (coord d i p)) <= M) ->
    0 <= M0 <= M -> E = M - M0 -> growth u eta M (n * length cuts) < Omega ->
    (forall t k, In (t, k) cuts -> is_finite t = true /\ 0 < B2R t < 1) ->
    (forall s i, 0 <= s <= 1 -> (i < d)%nat ->
      Rabs (coord d i (bernstein_curve (map (vreal d) pts) s) - coord d i (bernstein_curve (map (vreal d) pts0) (a + (b - a) * s))) <= E) ->
    exists q : list (vec num d),
      subdivide cuts (mk_bezier pts) = Ok (mk_bezier q) /\ length q = S n /\
      (forall p i, In p q -> (i < d)%nat -> is_finite (coord d i p) = true) /\
      let '(a', b') := cut_interval (map (fun c => (B2R (fst c), snd c)) cuts) a b in
      forall s i, 0 <= s <= 1 -> (i < d)%nat ->
        Rabs (coord d i (bernstein_curve (map (vreal d) q) s) - coord d i (bernstein_curve (map (vreal d) pts0) (a' + (b' - a') * s)))
          <= growth u eta M (n * length cuts) - M0.
  Proof.
    induction cuts as [|[t k] cuts IH]; intros pts pts0 n M M0 E a b Hn Hp HM HE HO HC HI.
    - cbn [subdivide map cut_interval length] in *. rewrite Nat.mul_0_r, growth_0. exists pts. split; [reflexivity|].
      split; [exact Hn|]. split; [intros p i H1 H2; apply (Hp p i H1 H2)|]. intros s i Hs Hi. subst E. now apply HI.
    - cbn [length] in HO |- *. replace (n * S (length cuts))%nat with (n + n * length cuts)%nat in * by lia.
      assert (HO1 : growth u eta M n < Omega).
      { eapply Rle_lt_trans; [|exact HO]. apply growth_mono; [lra|lia]. }
      destruct (HC t k (or_introl eq_refl)) as [Ft Ht].
      destruct (split_near d pts t n M Hn Hp Ft Ht ltac:(lra) HO1) as (l & r & Es & Ll & Lr & Hlr & Herr).
      pose proof (growth_plus M n (n * length cuts) ltac:(lra)) as GP.
      pose proof (growth_ge M n ltac:(lra)) as GG.
      assert (HO2 : growth u eta (growth u eta M n) (n * length cuts) < Omega) by lra.
      cbn [subdivide map cut_interval fst snd]. rewrite Es, bind_Ok.
      set (x := if k then r else l).
      assert (EG : get [mk_bezier l; mk_bezier r] (if k then 1 else 0)%Z = Ok (mk_bezier x)) by (unfold x; destruct k; reflexivity).
      rewrite EG, bind_Ok.
      set (a1 := if k then a + (b - a) * B2R t else a). set (b1 := if k then b else a + (b - a) * B2R t).
      destruct (IH x pts0 n (growth u eta M n) M0 (growth u eta M n - M0) a1 b1) as (q & Eq & Lq & Fq & Hq).
      + unfold x; destruct k; assumption.
      + intros p i Hx Hi. apply Hlr; [|exact Hi]. unfold x in Hx. destruct k; [now right|now left].
      + lra.
      + reflexivity.
      + exact HO2.
      + intros t0 k0 Hin. apply (HC t0 k0). now right.
      + intros s i Hs Hi. destruct (Herr s i Hs Hi) as [H1 H2].
        pose proof (Rabs_triang) as TR. unfold x, a1, b1. destruct k.
        * assert (Hs' : 0 <= B2R t + (1 - B2R t) * s <= 1) by nra.
          pose proof (HI _ i Hs' Hi) as H3.
          replace (a + (b - a) * B2R t + (b - (a + (b - a) * B2R t)) * s) with (a + (b - a) * (B2R t + (1 - B2R t) * s)) by ring.
          clear H1. set (A := coord d i (bernstein_curve (map (vreal d) r) s)) in *. set (B := coord d i (bernstein_curve (map (vreal d) pts) _)) in *.
          set (C := coord d i (bernstein_curve (map (vreal d) pts0) _)) in *.
          replace (A - C) with ((A - B) + (B - C)) by ring. eapply Rle_trans; [apply TR|]. lra.
        * assert (Hs' : 0 <= B2R t * s <= 1) by nra.
          pose proof (HI _ i Hs' Hi) as H3.
          replace (a + (a + (b - a) * B2R t - a) * s) with (a + (b - a) * (B2R t * s)) by ring.
          clear H2. set (A := coord d i (bernstein_curve (map (vreal d) l) s)) in *. set (B := coord d i (bernstein_curve (map (vreal d) pts) _)) in *.
          set (C := coord d i (bernstein_curve (map (vreal d) pts0) _)) in *.
          replace (A - C) with ((A - B) + (B - C)) by ring. eapply Rle_trans; [apply TR|]. lra.
      + exists q. split; [exact Eq|]. split; [exact Lq|]. split; [exact Fq|].
        replace (if k then cut_interval (map (fun c => (B2R (fst c), snd c)) cuts) (a + (b - a) * B2R t) b
          else cut_interval (map (fun c => (B2R (fst c), snd c)) cuts) a (a + (b - a) * B2R t))
          with (cut_interval (map (fun c => (B2R (fst c), snd c)) cuts) a1 b1) by (unfold a1, b1; destruct k; reflexivity).
        destruct (cut_interval _ a1 b1) as [a' b']. intros s i Hs Hi. eapply Rle_trans; [apply Hq; assumption|]. lra.
  Qed.

  Lemma subdivide_error d (cuts : list (num * bool)) (pts : list (vec num d)) n M :
    length pts = S n -> 0 <= M <= bpow radix2 (emax - 1) -> 24 * INR (n * length cuts) * u <= 1 ->
    (forall p, In p pts -> vfinite d p /\ forall i, (i < d)%nat -> Rabs (coord d i (vreal d p)) <= M) ->
    (forall t k, In (t, k) cuts -> is_finite t = true /\ 0 < B2R t < 1) ->
    exists q : list (vec num d),
      subdivide cuts (mk_bezier pts) = Ok (mk_bezier q) /\ length q = S n /\ (forall p, In p q -> vfinite d p) /\
      let '(a, b) := cut_interval (map (fun c => (B2R (fst c), snd c)) cuts) 0 1 in
      forall s i, 0 <= s <= 1 -> (i < d)%nat ->
        Rabs (coord d i (bernstein_curve (map (vreal d) q) s) - coord d i (bernstein_curve (map (vreal d) pts) (a + (b - a) * s)))
          <= INR (n * length cuts) * (4 * u * M + 3 * eta).
  Proof.
    intros Hn HM Hu Hp HC.
    destruct (subdivide_near d cuts pts pts n M M 0 0 1 Hn) as (q & Eq & Lq & Fq & Hq).
    - intros p i Hin Hi. destruct (Hp p Hin) as [H1 H2]. split; [now apply (vfinite_coord prec emax d)|].
      pose proof (H2 i Hi) as H3. rewrite (vreal_coord prec emax) in H3. exact H3.
    - lra.
    - lra.
    - apply (growth_finite prec emax); [lra|exact Hu|lra].
    - exact HC.
    - intros s i Hs Hi. replace (0 + (1 - 0) * s) with s by ring. rewrite Rminus_diag_eq, Rabs_R0 by reflexivity. lra.
    - exists q. split; [exact Eq|]. split; [exact Lq|].
      split; [intros p Hin; apply (vfinite_coord prec emax d); intros i Hi; now apply (Fq p i Hin)|].
      destruct (cut_interval _ 0 1) as [a b]. intros s i Hs Hi. eapply Rle_trans; [now apply Hq|].
      pose proof (growth_bound prec emax M (n * length cuts) ltac:(lra) Hu). lra.
  Qed.
End Float.

Lemma subdivide_double : forall (d : nat) (cuts : list (double * bool)) (pts : list (vec double d)) (n : nat) (M : R),
  length pts = S n -> 0 <= M <= bpow radix2 1023 -> 24 * INR (n * length cuts) * unit_roundoff 53 <= 1 ->
  (forall p, In p pts -> vfinite d p /\ forall i, (i < d)%nat -> Rabs (coord d i (vreal d p)) <= M) ->
  (forall t k, In (t, k) cuts -> is_finite t = true /\ 0 < B2R t < 1) ->
  exists q : list (vec double d),
    @subdivide double (vec double d) double_ops (@vec_ops double double_ops d) cuts (mk_bezier pts) = Ok (mk_bezier q) /\
    length q = S n /\ (forall p, In p q -> vfinite d p) /\
    let '(a, b) := cut_interval (map (fun c => (B2R (fst c), snd c)) cuts) 0 1 in
    forall s i, 0 <= s <= 1 -> (i < d)%nat ->
      Rabs (coord d i (bernstein_curve (map (vreal d) q) s) - coord d i (bernstein_curve (map (vreal d) pts) (a + (b - a) * s)))
        <= INR (n * length cuts) * (4 * unit_roundoff 53 * M + 3 * underflow_error 53 1024).
Proof. exact (@subdivide_error 53 1024 prec64 max64). Qed.
Lemma subdivide_float : forall (d : nat) (cuts : list (float32 * bool)) (pts : list (vec float32 d)) (n : nat) (M : R),
  length pts = S n -> 0 <= M <= bpow radix2 127 -> 24 * INR (n * length cuts) * unit_roundoff 24 <= 1 ->
  (forall p, In p pts -> vfinite d p /\ forall i, (i < d)%nat -> Rabs (coord d i (vreal d p)) <= M) ->
  (forall t k, In (t, k) cuts -> is_finite t = true /\ 0 < B2R t < 1) ->
  exists q : list (vec float32 d),
    @subdivide float32 (vec float32 d) float32_ops (@vec_ops float32 float32_ops d) cuts (mk_bezier pts) = Ok (mk_bezier q) /\
    length q = S n /\ (forall p, In p q -> vfinite d p) /\
    let '(a, b) := cut_interval (map (fun c => (B2R (fst c), snd c)) cuts) 0 1 in
    forall s i, 0 <= s <= 1 -> (i < d)%nat ->
      Rabs (coord d i (bernstein_curve (map (vreal d) q) s) - coord d i (bernstein_curve (map (vreal d) pts) (a + (b - a) * s)))
        <= INR (n * length cuts) * (4 * unit_roundoff 24 * M + 3 * underflow_error 24 128).
Proof. exact (@subdivide_error 24 128 prec32 max32). Qed.

(** Three cuts of the cubic of [cubic_case]. *)
Definition three_cuts : list (double * bool) := [(dofQ (3 # 10), true); (dofQ (1 # 2), false); (dofQ (1 # 10), true)].
Lemma cuts_case : let pts := [dpt 0 1; dpt 1 3; dpt 4 (-2); dpt (1 # 3) 0] in
  length pts = 4%nat /\ 0 <= 4 <= bpow radix2 1023 /\ 24 * INR (3 * length three_cuts) * unit_roundoff 53 <= 1 /\
  (forall p, In p pts -> vfinite 2 p /\ forall i, (i < 2)%nat -> Rabs (coord 2 i (vreal 2 p)) <= 4) /\
  (forall t k, In (t, k) three_cuts -> is_finite t = true /\ 0 < B2R t < 1).
Proof.
  cbv zeta. destruct cubic_case as (H1 & H2 & _ & H4 & _). split; [exact H1|]. split; [exact H2|].
  split; [rewrite u53; change (3 * length three_cuts)%nat with 9%nat; simpl INR; lra|]. split; [exact H4|].
  unfold three_cuts. dval (3 # 10)%Q false 5404319552844595%positive (-54)%Z.
  dval (1#2)%Q false 4503599627370496%positive (-53)%Z. dval (1 # 10)%Q false 7205759403792794%positive (-56)%Z.
  intros t k [X|[X|[X|[]]]]; injection X as <- <-; split; try assumption; [rewrite E|rewrite E0|rewrite E1]; simpl IZR; lra.
Qed.
