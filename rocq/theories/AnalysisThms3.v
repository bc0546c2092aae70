(** Analysis of planar Bezier curves whose polynomials have degree three and more (C98). *)
From Coq Require Import Reals Lra Lia ZArith QArith List Bool Sorted.
From Coquelicot Require Complex.
From Verif Require Import Monad MonadFacts Scalar ScalarFacts Spec SpecFacts LineThms QuadratureThms ExportThms RationalThms ModelBezier
  ModelBSpline ModelRational ModelRoots ModelAuto ModelAutoRational ModelAnalysis AutoFacts AutoThms BezierThms
  BSplineConvert RationalThms3 SpecAnalysis SpecRoots RootsThms AnalysisThms AnalysisThms2.
Import ListNotations.
Local Open Scope R_scope.

(** A polynomial that vanishes on (0,1) has no coefficients. *)
Lemma rsum_shift n f : rsum (S n) f = f 0%nat + rsum n (fun i => f (S i)).
Proof.
  induction n as [|n IH]; [unfold rsum; cbn; ring|]. change (rsum (S (S n)) f) with (rsum (S n) f + f (S n)). rewrite IH.
  change (rsum (S n) (fun i => f (S i))) with (rsum n (fun i => f (S i)) + f (S n)). ring.
Qed.
Lemma rsum_scale n c f : rsum n (fun i => c * f i) = c * rsum n f.
Proof. induction n as [|n IH]; [unfold rsum; cbn; ring|]. change (rsum (S n) (fun i => c * f i)) with (rsum n (fun i => c * f i) + c * f n). change (rsum (S n) f) with (rsum n f + f n). rewrite IH. ring. Qed.
Lemma rsum_eq n f g : (forall i, (i < n)%nat -> f i = g i) -> rsum n f = rsum n g.
Proof. induction n as [|n IH]; intros H; [reflexivity|]. change (rsum n f + f n = rsum n g + g n). rewrite IH by (intros; apply H; lia). now rewrite H by lia. Qed.
Lemma rsum_bound n (d : nat -> R) : exists M, 0 <= M /\ forall t, 0 < t < 1 -> Rabs (rsum n (fun i => d i * t ^ i)) <= M.
Proof.
  induction n as [|n (M & HM & IH)]; [exists 0; split; [lra|]; intros t _; unfold rsum; cbn; rewrite Rabs_R0; lra|].
  exists (M + Rabs (d n)). split; [pose proof (Rabs_pos (d n)); lra|]. intros t Ht. change (Rabs (rsum n (fun i => d i * t ^ i) + d n * t ^ n) <= M + Rabs (d n)).
  eapply Rle_trans; [apply Rabs_triang|]. specialize (IH t Ht). rewrite Rabs_mult. rewrite (Rabs_right (t ^ n)) by (apply Rle_ge, pow_le; lra).
  assert (t ^ n <= 1). { rewrite <- (pow1 n). apply pow_incr. lra. } pose proof (Rabs_pos (d n)). nra.
Qed.
Lemma poly_zero n (d : nat -> R) : (forall t, 0 < t < 1 -> rsum n (fun i => d i * t ^ i) = 0) -> forall i, (i < n)%nat -> d i = 0.
Proof.
  revert d. induction n as [|n IH]; intros d H i Hi; [lia|].
  assert (H' : forall t, 0 < t < 1 -> d 0%nat + t * rsum n (fun i => d (S i) * t ^ i) = 0).
  { intros t Ht. rewrite <- (H t Ht), rsum_shift. cbn [pow]. rewrite Rmult_1_r. f_equal. rewrite <- rsum_scale. apply rsum_eq. intros j _. ring. }
  destruct (rsum_bound n (fun i => d (S i))) as (M & HM & B).
  assert (D0 : d 0%nat = 0).
  { destruct (Req_EM_T (d 0%nat) 0) as [E|E]; [exact E|]. exfalso. pose proof (Rabs_pos_lt _ E) as P.
    set (t := Rmin (1 / 2) (Rabs (d 0%nat) / (2 * (M + 1)))).
    assert (Ht1 : 0 < Rabs (d 0%nat) / (2 * (M + 1))) by (apply Rdiv_lt_0_compat; lra).
    assert (Ht : 0 < t < 1) by (unfold t, Rmin; destruct (Rle_dec _ _); lra).
    specialize (H' t Ht). specialize (B t Ht). assert (E' : d 0%nat = - (t * rsum n (fun i => d (S i) * t ^ i))) by lra.
    assert (Q : Rabs (d 0%nat) <= t * M). { rewrite E', Rabs_Ropp, Rabs_mult, (Rabs_right t) by lra. apply Rmult_le_compat_l; [lra|exact B]. }
    assert (L : t <= Rabs (d 0%nat) / (2 * (M + 1))) by apply Rmin_r.
    assert (L' : t * (2 * (M + 1)) <= Rabs (d 0%nat)). { apply (Rmult_le_compat_r (2 * (M + 1))) in L; [|lra]. unfold Rdiv in L. rewrite Rmult_assoc, Rinv_l in L by lra. lra. }
    nra. }
  destruct i as [|i]; [exact D0|]. apply (IH (fun i => d (S i))); [|lia]. intros t Ht. specialize (H' t Ht). rewrite D0 in H'. apply Rmult_eq_reg_l with t; lra.
Qed.
Lemma poly_unique n (c d : nat -> R) : (forall t, 0 < t < 1 -> rsum n (fun i => c i * t ^ i) = rsum n (fun i => d i * t ^ i)) -> forall i, (i < n)%nat -> c i = d i.
Proof.
  intros H i Hi. enough (c i - d i = 0) by lra. apply (poly_zero n (fun i => c i - d i)); [|exact Hi]. intros t Ht.
  transitivity (rsum n (fun i => c i * t ^ i) + -1 * rsum n (fun i => d i * t ^ i)); [|rewrite (H t Ht); ring].
  rewrite <- rsum_scale. clear. induction n as [|n IH]; [unfold rsum; cbn; ring|].
  change (rsum n (fun i => (c i - d i) * t ^ i) + (c n - d n) * t ^ n = (rsum n (fun i => c i * t ^ i) + c n * t ^ n) + (rsum n (fun i => -1 * (d i * t ^ i)) + -1 * (d n * t ^ n))).
  rewrite IH. ring.
Qed.

Lemma cpoly_scale n cs ks (s : R) z : (forall i, (i <= n)%nat -> nth i cs 0 = s * nth i ks 0) -> cpoly n cs z = Complex.Cmult (Complex.RtoC s) (cpoly n ks z).
Proof.
  intros H. unfold cpoly. rewrite <- csum_mul. apply csum_ext. intros i Hi. rewrite H by lia. rewrite Complex.RtoC_mult. symmetry. apply Complex.Cmult_assoc.
Qed.

(** The solver on a polynomial of degree m >= 3 that is a multiple of the polynomial [ks]. *)
Lemma solve_high eigen cs ks s m a b l : length cs = S m -> length ks = S m -> (3 <= m)%nat -> s = 1 \/ s = -1 ->
  (forall t, 0 < t < 1 -> rsum (length cs) (fun k => nth k cs 0 * t ^ k) = s * rsum (length ks) (fun k => nth k ks 0 * t ^ k)) ->
  1 / 10 ^ 8 <= Rabs (nth m ks 0) -> a < b -> eigenvalue_solver Ok eigen -> solve eigen (Ok cs) a b = Ok l ->
  forall x, In x l <-> a <= x <= b /\ nearly_real_root (1 / 10 ^ 8) m ks x.
Proof.
  intros Lc Lk Hm Hs Hp Hlead Hab He E x. unfold solve in E. rewrite bind_Ok, Lc in E. replace (S m - 1)%nat with m in E by lia.
  rewrite tol8_R in E. rewrite Lc, Lk in Hp.
  assert (Hc : forall i, (i <= m)%nat -> nth i cs 0 = s * nth i ks 0).
  { intros i Hi. apply (poly_unique (S m) (fun i => nth i cs 0) (fun i => s * nth i ks 0)); [|lia]. intros t Ht. rewrite (Hp t Ht), <- rsum_scale. apply rsum_eq. intros j _. ring. }
  assert (Hl' : 1 / 10 ^ 8 <= Rabs (nth m cs 0)).
  { rewrite Hc by lia. rewrite Rabs_mult. destruct Hs as [->| ->]; [rewrite Rabs_R1|rewrite (Rabs_left (-1)) by lra]; lra. }
  rewrite (high_roots eigen m cs [] a b (1 / 10 ^ 8) Hm ltac:(lia) Hab ltac:(lra) Hl' l He E x). unfold nearly_real_root.
  assert (Hz : forall z, cpoly m cs z = Complex.RtoC 0 <-> cpoly m ks z = Complex.RtoC 0).
  { intros z. split; intros H.
    - rewrite (cpoly_scale m ks cs s z) by (intros i Hi; rewrite Hc by exact Hi; destruct Hs; subst s; lra). rewrite H. apply Complex.Cmult_0_r.
    - rewrite (cpoly_scale m cs ks s z) by exact Hc. rewrite H. apply Complex.Cmult_0_r. }
  split.
  - intros [[]|(H1 & y & H2 & H3)]. split; [exact H1|]. exists y. split; [now apply Hz|exact H3].
  - intros (H1 & y & H2 & H3). right. split; [exact H1|]. exists y. split; [now apply Hz|exact H3].
Qed.
Lemma real_nearly ks m x : length ks = S m -> rsum (length ks) (fun k => nth k ks 0 * x ^ k) = 0 -> nearly_real_root (1 / 10 ^ 8) m ks x.
Proof.
  intros L H. rewrite L in H. exists 0. split; [change (x, 0) with (Complex.RtoC x); now rewrite cpoly_R, H|].
  replace (x * x + 0 * 0) with (Rsqr x) by (unfold Rsqr; ring). rewrite sqrt_Rsqr_abs. lra.
Qed.
Lemma solve_no_throw eigen cs m a b l : length cs = S m -> (3 <= m)%nat -> 1 / 10 ^ 8 <= Rabs (nth m cs 0) -> a < b -> (forall mt e, eigen mt <> Throw e) ->
  (do x <- catch_infinite (solve eigen (Ok cs) a b); Ok (sorted_unique x)) = Ok l -> exists l0, solve eigen (Ok cs) a b = Ok l0 /\ l = sorted_unique l0.
Proof.
  intros L Hm Hlead Hab Ht. unfold solve. rewrite bind_Ok, L. replace (S m - 1)%nat with m by lia. rewrite find_roots_high by (lia || exact Hab).
  rewrite tol8_R. destruct (Rlt_dec _ _); [lra|]. unfold find_roots_companion. rewrite (companion_ok m cs) by (try lia; intros E; rewrite E, Rabs_R0 in *; lra).
  rewrite bind_Ok. destruct (eigen _) as [v|e| |] eqn:Ev; [|exfalso; exact (Ht _ _ Ev)|cbn; discriminate|cbn; discriminate].
  rewrite !bind_Ok. cbn [catch_infinite]. rewrite bind_Ok. intros E. injection E as <-. eexists. split; reflexivity.
Qed.

(** A solver for a polynomial with known complex roots. *)
Lemma solve_case cs ks s m a b vals : length cs = S m -> length ks = S m -> (3 <= m)%nat -> s = 1 \/ s = -1 ->
  (forall t, 0 < t < 1 -> rsum (length cs) (fun k => nth k cs 0 * t ^ k) = s * rsum (length ks) (fun k => nth k ks 0 * t ^ k)) ->
  1 / 10 ^ 8 <= Rabs (nth m ks 0) -> a < b -> (forall x y, In (x, y) vals <-> cpoly m ks (x, y) = Complex.RtoC 0) ->
  exists eigen l, eigenvalue_solver Ok eigen /\ (forall m e, eigen m <> Throw e) /\ solve eigen (Ok cs) a b = Ok l.
Proof.
  intros Lc Lk Hm Hs Hp Hlead Hab Hv. rewrite Lc, Lk in Hp.
  assert (Hc : forall i, (i <= m)%nat -> nth i cs 0 = s * nth i ks 0).
  { intros i Hi. apply (poly_unique (S m) (fun i => nth i cs 0) (fun i => s * nth i ks 0)); [|lia]. intros t Ht. rewrite (Hp t Ht), <- rsum_scale. apply rsum_eq. intros j _. ring. }
  assert (Hl' : 1 / 10 ^ 8 <= Rabs (nth m cs 0)).
  { rewrite Hc by lia. rewrite Rabs_mult. destruct Hs as [->| ->]; [rewrite Rabs_R1|rewrite (Rabs_left (-1)) by lra]; lra. }
  assert (Hz : forall x y, In (x, y) vals <-> cpoly m cs (x, y) = Complex.RtoC 0).
  { intros x y. rewrite Hv. split; intros H.
    - rewrite (cpoly_scale m cs ks s) by exact Hc. rewrite H. apply Complex.Cmult_0_r.
    - rewrite (cpoly_scale m ks cs s) by (intros i Hi; rewrite Hc by exact Hi; destruct Hs; subst s; lra). rewrite H. apply Complex.Cmult_0_r. }
  destruct (high_solver m cs [] a b (1 / 10 ^ 8) Hm ltac:(lia) Hab ltac:(lra) Hl' vals Hz) as (eigen & l & H1 & H2 & H3).
  exists eigen, l. split; [exact H1|]. split; [exact H2|]. unfold solve. rewrite bind_Ok, Lc, tol8_R. replace (S m - 1)%nat with m by lia. exact H3.
Qed.

(** * Bezier curves *)
Lemma infl_length high (pts : list (vec R 2)) cs : (4 <= length pts <= 11)%nat -> inflection_coeffs high pts = Ok cs -> length cs = (2 * length pts - 5)%nat.
Proof.
  intros H. do 12 (destruct pts as [|[? [? []]] pts]; [try (exfalso; cbn [length] in H; lia);
    unfold inflection_coeffs; try (destruct high; [|discriminate]); intros E; injection E as <-; reflexivity|]). exfalso; cbn [length] in H; lia.
Qed.
Lemma sing_length high (pts : list (vec R 2)) cs : (3 <= length pts <= 7)%nat -> singularity_coeffs high pts = Ok cs -> length cs = (2 * length pts - 3)%nat.
Proof.
  intros H. do 8 (destruct pts as [|[? [? []]] pts]; [try (exfalso; cbn [length] in H; lia);
    unfold singularity_coeffs; try (destruct high; [|discriminate]); intros E; injection E as <-; reflexivity|]). exfalso; cbn [length] in H; lia.
Qed.
Lemma tang_length high (pts : list (vec R 2)) nx ny cs : (3 <= length pts <= 11)%nat -> tangent_coeffs high pts nx ny = Ok cs -> length cs = (length pts - 1)%nat.
Proof.
  intros H. do 12 (destruct pts as [|[? [? []]] pts]; [try (exfalso; cbn [length] in H; lia);
    unfold tangent_coeffs; try (destruct high; [|discriminate]); intros E; injection E as <-; reflexivity|]). exfalso; cbn [length] in H; lia.
Qed.

Section Curve.
  Variables (eigen : list (list R) -> res (list (R * R))) (high : bool) (c : bezier (vec R 2)) (f1 f2 : R -> vec R 2) (ks : list R) (a b : R) (l : list R).
  Let pts := bz_pts c.
  Hypothesis Hhigh : (length pts <= 5)%nat \/ high = true.
  Hypothesis HD : derivs2 (bernstein_curve pts) f1 f2.
  Hypothesis Hab : a < b.
  Hypothesis Hs : eigenvalue_solver Ok eigen.
  Hypothesis Hnt : forall m e, eigen m <> Throw e.

  Lemma high_inflections : (5 <= length pts <= 11)%nat -> length ks = (2 * length pts - 5)%nat ->
    (forall t, cross2 (f1 t) (f2 t) = rsum (length ks) (fun k => nth k ks 0 * t ^ k)) -> 1 / 10 ^ 8 <= Rabs (nth (length ks - 1) ks 0) ->
    bz_compute_inflections eigen high c a b = Ok l ->
    StronglySorted Rlt l /\ (forall t, a <= t <= b -> cross2 (f1 t) (f2 t) = 0 -> In t l) /\
    forall t, In t l <-> a <= t <= b /\ nearly_real_root (1 / 10 ^ 8) (length ks - 1) ks t.
  Proof.
    intros HL Lk HC Hlead E. destruct (inflection_poly pts high ltac:(lia) Hhigh) as (cs & g1 & g2 & Ec & G1 & G2 & Hp).
    pose proof (infl_length high pts cs ltac:(lia) Ec) as Lc. set (m := (length ks - 1)%nat) in *.
    assert (Hk : forall t, rsum (length cs) (fun k => nth k cs 0 * t ^ k) = -1 * rsum (length ks) (fun k => nth k ks 0 * t ^ k)).
    { intros t. rewrite Hp, <- HC. unfold cross2.
      destruct (derivs2_unique _ _ _ _ _ HD (conj G1 G2) t 0%nat ltac:(lia)) as [-> ->].
      destruct (derivs2_unique _ _ _ _ _ HD (conj G1 G2) t 1%nat ltac:(lia)) as [-> ->]. ring. }
    assert (Hlc : 1 / 10 ^ 8 <= Rabs (nth m cs 0)).
    { rewrite (poly_unique (length cs) (fun i => nth i cs 0) (fun i => -1 * nth i ks 0)) by (try lia; intros t _; rewrite Hk, <- rsum_scale, Lc, Lk; apply rsum_eq; intros; ring).
      rewrite Rabs_mult, (Rabs_left (-1)) by lra. lra. }
    unfold bz_compute_inflections in E. fold pts in E. replace (zlen pts - 1 <=? 2)%Z with false in E by (symmetry; apply Z.leb_gt; unfold zlen; lia). rewrite Ec in E.
    destruct (solve_no_throw eigen cs m a b l ltac:(lia) ltac:(lia) Hlc Hab Hnt E) as (l0 & E0 & ->).
    pose proof (solve_high eigen cs ks (-1) m a b l0 ltac:(lia) ltac:(lia) ltac:(lia) (or_intror eq_refl) (fun t _ => Hk t) Hlead Hab Hs E0) as I0.
    destruct (sorted_unique_spec l0) as [S1 S2]. split; [exact S1|].
    assert (I : forall t, In t (sorted_unique l0) <-> a <= t <= b /\ nearly_real_root (1 / 10 ^ 8) m ks t) by (intros t; rewrite S2; apply I0).
    split; [|exact I]. intros t Ht H0. apply I. split; [exact Ht|]. apply real_nearly; [lia|]. now rewrite <- HC.
  Qed.

  Lemma case_inflections vals : (5 <= length pts <= 11)%nat -> length ks = (2 * length pts - 5)%nat ->
    (forall t, cross2 (f1 t) (f2 t) = rsum (length ks) (fun k => nth k ks 0 * t ^ k)) -> 1 / 10 ^ 8 <= Rabs (nth (length ks - 1) ks 0) ->
    (forall x y, In (x, y) vals <-> cpoly (length ks - 1) ks (x, y) = Complex.RtoC 0) ->
    exists eigen l, eigenvalue_solver Ok eigen /\ (forall m e, eigen m <> Throw e) /\ bz_compute_inflections eigen high c a b = Ok l.
  Proof.
    intros HL Lk HC Hlead Hv. destruct (inflection_poly pts high ltac:(lia) Hhigh) as (cs & g1 & g2 & Ec & G1 & G2 & Hp).
    pose proof (infl_length high pts cs ltac:(lia) Ec) as Lc. set (m := (length ks - 1)%nat) in *.
    assert (Hk : forall t, 0 < t < 1 -> rsum (length cs) (fun k => nth k cs 0 * t ^ k) = -1 * rsum (length ks) (fun k => nth k ks 0 * t ^ k)).
    { intros t _. rewrite Hp, <- HC. unfold cross2.
      destruct (derivs2_unique _ _ _ _ _ HD (conj G1 G2) t 0%nat ltac:(lia)) as [-> ->].
      destruct (derivs2_unique _ _ _ _ _ HD (conj G1 G2) t 1%nat ltac:(lia)) as [-> ->]. ring. }
    destruct (solve_case cs ks (-1) m a b vals ltac:(lia) ltac:(lia) ltac:(lia) (or_intror eq_refl) Hk Hlead Hab Hv) as (eg & l0 & H1 & H2 & H3).
    exists eg, (sorted_unique l0). split; [exact H1|]. split; [exact H2|]. unfold bz_compute_inflections. fold pts.
    replace (zlen pts - 1 <=? 2)%Z with false by (symmetry; apply Z.leb_gt; unfold zlen; lia). rewrite Ec, H3. reflexivity.
  Qed.

  Lemma high_singularities : (4 <= length pts <= 7)%nat -> length ks = (2 * length pts - 3)%nat ->
    (forall t, norm2 (f1 t) ^ 2 = rsum (length ks) (fun k => nth k ks 0 * t ^ k)) -> 1 / 10 ^ 8 <= Rabs (nth (length ks - 1) ks 0) ->
    bz_compute_singularities eigen high c a b = Ok l ->
    StronglySorted Rlt l /\ (forall t, a <= t <= b -> f1 t = p0 -> In t l) /\
    forall t, In t l <-> a <= t <= b /\ nearly_real_root (1 / 10 ^ 8) (length ks - 1) ks t.
  Proof.
    intros HL Lk HC Hlead E. destruct (singularity_poly pts high ltac:(lia) Hhigh) as (cs & g1 & g2 & Ec & G1 & G2 & Hp).
    pose proof (sing_length high pts cs ltac:(lia) Ec) as Lc. set (m := (length ks - 1)%nat) in *.
    assert (Hk : forall t, rsum (length cs) (fun k => nth k cs 0 * t ^ k) = 1 * rsum (length ks) (fun k => nth k ks 0 * t ^ k)).
    { intros t. rewrite Hp, <- HC. unfold norm2. rewrite pow2_sqrt by (apply Rplus_le_le_0_compat; apply pow2_ge_0).
      destruct (derivs2_unique _ _ _ _ _ HD (conj G1 G2) t 0%nat ltac:(lia)) as [-> _].
      destruct (derivs2_unique _ _ _ _ _ HD (conj G1 G2) t 1%nat ltac:(lia)) as [-> _]. ring. }
    unfold bz_compute_singularities in E. fold pts in E. rewrite Ec in E. apply bind_inv in E. destruct E as (l0 & E0 & E). injection E as <-.
    pose proof (solve_high eigen cs ks 1 m a b l0 ltac:(lia) ltac:(lia) ltac:(lia) (or_introl eq_refl) (fun t _ => Hk t) Hlead Hab Hs E0) as I0.
    destruct (sorted_unique_spec l0) as [S1 S2]. split; [exact S1|].
    assert (I : forall t, In t (sorted_unique l0) <-> a <= t <= b /\ nearly_real_root (1 / 10 ^ 8) m ks t) by (intros t; rewrite S2; apply I0).
    split; [|exact I]. intros t Ht H0. apply I. split; [exact Ht|]. apply real_nearly; [lia|]. rewrite <- HC, H0. unfold norm2. cbn. replace (0 * (0 * 1) + 0 * (0 * 1)) with 0 by ring. rewrite sqrt_0. ring.
  Qed.

  Lemma case_singularities vals : (4 <= length pts <= 7)%nat -> length ks = (2 * length pts - 3)%nat ->
    (forall t, norm2 (f1 t) ^ 2 = rsum (length ks) (fun k => nth k ks 0 * t ^ k)) -> 1 / 10 ^ 8 <= Rabs (nth (length ks - 1) ks 0) ->
    (forall x y, In (x, y) vals <-> cpoly (length ks - 1) ks (x, y) = Complex.RtoC 0) ->
    exists eigen l, eigenvalue_solver Ok eigen /\ (forall m e, eigen m <> Throw e) /\ bz_compute_singularities eigen high c a b = Ok l.
  Proof.
    intros HL Lk HC Hlead Hv. destruct (singularity_poly pts high ltac:(lia) Hhigh) as (cs & g1 & g2 & Ec & G1 & G2 & Hp).
    pose proof (sing_length high pts cs ltac:(lia) Ec) as Lc. set (m := (length ks - 1)%nat) in *.
    assert (Hk : forall t, 0 < t < 1 -> rsum (length cs) (fun k => nth k cs 0 * t ^ k) = 1 * rsum (length ks) (fun k => nth k ks 0 * t ^ k)).
    { intros t _. rewrite Hp, <- HC. unfold norm2. rewrite pow2_sqrt by (apply Rplus_le_le_0_compat; apply pow2_ge_0).
      destruct (derivs2_unique _ _ _ _ _ HD (conj G1 G2) t 0%nat ltac:(lia)) as [-> _].
      destruct (derivs2_unique _ _ _ _ _ HD (conj G1 G2) t 1%nat ltac:(lia)) as [-> _]. ring. }
    destruct (solve_case cs ks 1 m a b vals ltac:(lia) ltac:(lia) ltac:(lia) (or_introl eq_refl) Hk Hlead Hab Hv) as (eg & l0 & H1 & H2 & H3).
    exists eg, (sorted_unique l0). split; [exact H1|]. split; [exact H2|]. unfold bz_compute_singularities. fold pts. rewrite Ec, H3. reflexivity.
  Qed.

  Lemma reduce_form cs : (5 <= length pts <= 11)%nat -> bz_periodic c = false -> 1 / 10 ^ 8 <= norm2 (f1 a) -> 1 / 10 ^ 8 <= norm2 (f1 b) ->
    tangent_coeffs high pts (- coord 2 1 (bisector (f1 a) (f1 b)) / 2) (coord 2 0 (bisector (f1 a) (f1 b)) / 2) = Ok cs ->
    forall eigen, bz_reduce_turning_angle eigen high c a b = (do l <- catch_infinite (solve eigen (Ok cs) a b); Ok (sorted_unique l)).
  Proof.
    intros HL Hper N0 N1 Ec eg.
    assert (Ec' : c = mk_bezier pts) by (destruct c as [p q]; cbn in Hper, pts; subst; reflexivity).
    unfold bz_reduce_turning_angle. fold pts. replace (zlen pts - 1 <? 2)%Z with false by (symmetry; apply Z.ltb_ge; unfold zlen; lia).
    rewrite Ec'. rewrite !(bezier_tangent pts f1 f2) by (try lia; exact HD). rewrite !bind_Ok. cbn [bz_pts mk_bezier].
    unfold reduce_with. rewrite !pnorm_norm2. rewrite !tol8_R. change (@slt R R_ops) with Rltb. rewrite !Rltb_false by assumption. cbn [orb andb].
    unfold pdivs. cbn [seq_ R_ops s0]. rewrite !Reqb_false by lra. rewrite !bind_Ok. rewrite !ddiv_nz by (cbn; lra). rewrite !bind_Ok.
    rewrite <- Ec. unfold bisector. assert (M0 : norm2 (f1 a) <> 0) by lra. assert (M1 : norm2 (f1 b) <> 0) by lra.
    revert M0 M1. generalize (norm2 (f1 a)) as u, (norm2 (f1 b)) as u'. intros u u' M0 M1.
    destruct (f1 a) as [x0 [y0 []]], (f1 b) as [x1 [y1 []]]. cbn [coord fst snd].
    match goal with |- (do x <- catch_infinite (solve _ (tangent_coeffs _ _ ?p ?q) _ _); _) = _ =>
      replace p with (- (y0 / u + y1 / u') / 2) by (cbn; field; auto); replace q with ((x0 / u + x1 / u') / 2) by (cbn; field; auto) end. reflexivity.
  Qed.
  Lemma case_reduce vals : (5 <= length pts <= 11)%nat -> length ks = (length pts - 1)%nat -> bz_periodic c = false ->
    1 / 10 ^ 8 <= norm2 (f1 a) -> 1 / 10 ^ 8 <= norm2 (f1 b) ->
    (forall t, cross2 (f1 t) (bisector (f1 a) (f1 b)) / 2 = rsum (length ks) (fun k => nth k ks 0 * t ^ k)) -> 1 / 10 ^ 8 <= Rabs (nth (length ks - 1) ks 0) ->
    (forall x y, In (x, y) vals <-> cpoly (length ks - 1) ks (x, y) = Complex.RtoC 0) ->
    exists eigen l, eigenvalue_solver Ok eigen /\ (forall m e, eigen m <> Throw e) /\ bz_reduce_turning_angle eigen high c a b = Ok l.
  Proof.
    intros HL Lk Hper N0 N1 HC Hlead Hv. set (m := (length ks - 1)%nat) in *. set (s := bisector (f1 a) (f1 b)) in *.
    destruct (tangent_poly (- coord 2 1 s / 2) (coord 2 0 s / 2) pts high ltac:(lia) Hhigh) as (cs & g1 & g2 & Ec & G1 & G2 & Hp).
    pose proof (tang_length high pts _ _ cs ltac:(lia) Ec) as Lc.
    assert (Hk : forall t, 0 < t < 1 -> rsum (length cs) (fun k => nth k cs 0 * t ^ k) = -1 * rsum (length ks) (fun k => nth k ks 0 * t ^ k)).
    { intros t _. rewrite Hp, <- HC. unfold cross2.
      destruct (derivs2_unique _ _ _ _ _ HD (conj G1 G2) t 0%nat ltac:(lia)) as [-> _].
      destruct (derivs2_unique _ _ _ _ _ HD (conj G1 G2) t 1%nat ltac:(lia)) as [-> _]. field. }
    destruct (solve_case cs ks (-1) m a b vals ltac:(lia) ltac:(lia) ltac:(lia) (or_intror eq_refl) Hk Hlead Hab Hv) as (eg & l0 & H1 & H2 & H3).
    exists eg, (sorted_unique l0). split; [exact H1|]. split; [exact H2|]. rewrite (reduce_form cs HL Hper N0 N1 Ec), H3. reflexivity.
  Qed.

  Lemma high_reduce : (5 <= length pts <= 11)%nat -> length ks = (length pts - 1)%nat -> bz_periodic c = false ->
    1 / 10 ^ 8 <= norm2 (f1 a) -> 1 / 10 ^ 8 <= norm2 (f1 b) ->
    (forall t, cross2 (f1 t) (bisector (f1 a) (f1 b)) / 2 = rsum (length ks) (fun k => nth k ks 0 * t ^ k)) -> 1 / 10 ^ 8 <= Rabs (nth (length ks - 1) ks 0) ->
    bz_reduce_turning_angle eigen high c a b = Ok l ->
    StronglySorted Rlt l /\ (forall t, a <= t <= b -> cross2 (f1 t) (bisector (f1 a) (f1 b)) = 0 -> In t l) /\
    forall t, In t l <-> a <= t <= b /\ nearly_real_root (1 / 10 ^ 8) (length ks - 1) ks t.
  Proof.
    intros HL Lk Hper N0 N1 HC Hlead E. set (m := (length ks - 1)%nat) in *. set (s := bisector (f1 a) (f1 b)) in *.
    destruct (tangent_poly (- coord 2 1 s / 2) (coord 2 0 s / 2) pts high ltac:(lia) Hhigh) as (cs & g1 & g2 & Ec & G1 & G2 & Hp).
    pose proof (tang_length high pts _ _ cs ltac:(lia) Ec) as Lc.
    assert (Hk : forall t, rsum (length cs) (fun k => nth k cs 0 * t ^ k) = -1 * rsum (length ks) (fun k => nth k ks 0 * t ^ k)).
    { intros t. rewrite Hp, <- HC. unfold cross2.
      destruct (derivs2_unique _ _ _ _ _ HD (conj G1 G2) t 0%nat ltac:(lia)) as [-> _].
      destruct (derivs2_unique _ _ _ _ _ HD (conj G1 G2) t 1%nat ltac:(lia)) as [-> _]. field. }
    assert (Hlc : 1 / 10 ^ 8 <= Rabs (nth m cs 0)).
    { rewrite (poly_unique (length cs) (fun i => nth i cs 0) (fun i => -1 * nth i ks 0)) by (try lia; intros t _; rewrite Hk, <- rsum_scale, Lc, Lk; apply rsum_eq; intros; ring).
      rewrite Rabs_mult, (Rabs_left (-1)) by lra. lra. }
    rewrite (reduce_form cs HL Hper N0 N1 Ec) in E. rename E into Er.
    destruct (solve_no_throw eigen cs m a b l ltac:(lia) ltac:(lia) Hlc Hab Hnt Er) as (l0 & E0 & ->).
    pose proof (solve_high eigen cs ks (-1) m a b l0 ltac:(lia) ltac:(lia) ltac:(lia) (or_intror eq_refl) (fun t _ => Hk t) Hlead Hab Hs E0) as I0.
    destruct (sorted_unique_spec l0) as [S1 S2]. split; [exact S1|].
    assert (I : forall t, In t (sorted_unique l0) <-> a <= t <= b /\ nearly_real_root (1 / 10 ^ 8) m ks t) by (intros t; rewrite S2; apply I0).
    split; [|exact I]. intros t Ht H0. apply I. split; [exact Ht|]. apply real_nearly; [lia|]. rewrite <- HC, H0. field.
  Qed.
End Curve.

(** * Concrete curves, with all complex roots of their polynomials *)
Lemma Cint x y : Complex.Cmult x y = Complex.RtoC 0 -> x = Complex.RtoC 0 \/ y = Complex.RtoC 0.
Proof.
  intros H. destruct (Complex.Ceq_dec x (Complex.RtoC 0)) as [E|E]; [now left|]. destruct (Complex.Ceq_dec y (Complex.RtoC 0)) as [E'|E']; [now right|].
  exfalso. exact (Complex.Cmult_neq_0 _ _ E E' H).
Qed.
(** (z - r1)(z - r2)... *)
Definition root_product (rs : list (R * R)) (z : Complex.C) : Complex.C := fold_right (fun r p => Complex.Cmult (Complex.Cminus z r) p) (Complex.RtoC 1) rs.
Lemma root_product_zero rs x y : root_product rs (x, y) = Complex.RtoC 0 <-> In (x, y) rs.
Proof.
  induction rs as [|[u v] rs IH]; cbn [root_product fold_right In].
  - split; [|intros []]. intros E. apply Complex.RtoC_inj in E. lra.
  - fold (root_product rs (x, y)). split.
    + intros H. apply Cint in H. destruct H as [H|H]; [left|right; now apply IH]. cbv [Complex.Cminus Complex.Cplus Complex.Copp Complex.RtoC fst snd] in H. injection H as H1 H2. f_equal; lra.
    + intros [H|H]; [|rewrite (proj2 IH H); apply Complex.Cmult_0_r]. injection H as -> ->. replace (Complex.Cminus (x, y) (x, y)) with (Complex.RtoC 0); [apply Complex.Cmult_0_l|].
      cbv [Complex.Cminus Complex.Cplus Complex.Copp Complex.RtoC fst snd]. f_equal; ring.
Qed.
Lemma roots_of n ks k rs : k <> 0 -> (forall x y, cpoly n ks (x, y) = Complex.Cmult (Complex.RtoC k) (root_product rs (x, y))) ->
  forall x y, In (x, y) rs <-> cpoly n ks (x, y) = Complex.RtoC 0.
Proof.
  intros Hk H x y. rewrite H, <- root_product_zero. split; intros E; [rewrite E; apply Complex.Cmult_0_r|]. apply Cint in E. destruct E as [E|E]; [apply Complex.RtoC_inj in E; contradiction|exact E].
Qed.
Ltac expand_roots := intros x y; unfold cpoly, root_product; cbn [csum nth cpow fold_right length Nat.sub];
  cbv [Complex.Cmult Complex.Cplus Complex.Cminus Complex.Copp Complex.RtoC fst snd]; apply injective_projections; cbv [fst snd]; field.

(** (t^3, t^4 + t^2/2): cross product 12 t^4 - 3 t^2 *)
Definition quartic_s : list (vec R 2) := [(0, (0, tt)); (0, (0, tt)); (0, (1 / 12, tt)); (1 / 4, (1 / 4, tt)); (1, (3 / 2, tt))].
Lemma quartic_s_case : exists f1 f2 eigen l, derivs2 (bernstein_curve quartic_s) f1 f2 /\
  (forall t, cross2 (f1 t) (f2 t) = rsum 5 (fun k => nth k [0; 0; -3; 0; 12] 0 * t ^ k)) /\ 1 / 10 ^ 8 <= Rabs (nth 4 [0; 0; -3; 0; 12] 0) /\
  eigenvalue_solver Ok eigen /\ (forall m e, eigen m <> Throw e) /\ bz_compute_inflections eigen false (mk_bezier quartic_s) 0 1 = Ok l.
Proof.
  destruct (curve_planar_derivs quartic_s) as [D1 D2]; [cbn; lia|]. eexists _, _.
  match type of D2 with forall t, vderiv ?g1 t (?g2 t) => set (F1 := g1) in *; set (F2 := g2) in * end.
  assert (HC : forall t, cross2 (F1 t) (F2 t) = rsum 5 (fun k => nth k [0; 0; -3; 0; 12] 0 * t ^ k)) by (intros t; unfold cross2, F1, F2, rsum, quartic_s; cbn; field).
  assert (HL : 1 / 10 ^ 8 <= Rabs (nth 4 [0; 0; -3; 0; 12] 0)) by (cbn [nth]; rewrite Rabs_right; lra).
  destruct (case_inflections false (mk_bezier quartic_s) F1 F2 [0; 0; -3; 0; 12] 0 1) with (vals := [(0, 0); (0, 0); (1 / 2, 0); (- (1 / 2), 0)]) as (eigen & l & H1 & H2 & H3);
    [left; cbn; lia|split; assumption|lra|cbn; lia|reflexivity|exact HC|exact HL|apply (roots_of 4 [0; 0; -3; 0; 12] 12); [lra|expand_roots]|].
  exists eigen, l. split; [split; [exact D1|exact D2]|]. split; [exact HC|]. split; [exact HL|]. split; [exact H1|]. split; [exact H2|exact H3].
Qed.
(** The cusp ((t - 1/2)^2, (t - 1/2)^3) *)
Definition cusp : list (vec R 2) := [(1 / 4, (- (1 / 8), tt)); (- (1 / 12), (1 / 8, tt)); (- (1 / 12), (- (1 / 8), tt)); (1 / 4, (1 / 8, tt))].
Lemma cusp_case : exists f1 f2 eigen l, derivs2 (bernstein_curve cusp) f1 f2 /\
  (forall t, norm2 (f1 t) ^ 2 = rsum 5 (fun k => nth k [25 / 16; - (17 / 2); 35 / 2; -18; 9] 0 * t ^ k)) /\ 1 / 10 ^ 8 <= Rabs (nth 4 [25 / 16; - (17 / 2); 35 / 2; -18; 9] 0) /\
  eigenvalue_solver Ok eigen /\ (forall m e, eigen m <> Throw e) /\ bz_compute_singularities eigen false (mk_bezier cusp) 0 1 = Ok l /\ f1 (1 / 2) = p0.
Proof.
  set (ks := [25 / 16; - (17 / 2); 35 / 2; -18; 9]).
  destruct (curve_planar_derivs cusp) as [D1 D2]; [cbn; lia|].
  match type of D2 with forall t, vderiv ?g1 t (?g2 t) => exists g1, g2; set (F1 := g1) in *; set (F2 := g2) in * end.
  assert (HC : forall t, norm2 (F1 t) ^ 2 = rsum 5 (fun k => nth k ks 0 * t ^ k)).
  { intros t. unfold norm2. rewrite pow2_sqrt by (apply Rplus_le_le_0_compat; apply pow2_ge_0). unfold F1, rsum, cusp, ks. cbn. field. }
  assert (HL : 1 / 10 ^ 8 <= Rabs (nth 4 ks 0)) by (cbn [nth ks]; rewrite Rabs_right; lra).
  destruct (case_singularities false (mk_bezier cusp) F1 F2 ks 0 1) with (vals := [(1 / 2, 0); (1 / 2, 0); (1 / 2, 2 / 3); (1 / 2, - (2 / 3))]) as (eigen & l & H1 & H2 & H3);
    [left; cbn; lia|split; assumption|lra|cbn; lia|reflexivity|exact HC|exact HL|apply (roots_of 4 ks 9); [lra|unfold ks; expand_roots]|].
  exists eigen, l. split; [split; [exact D1|exact D2]|]. split; [exact HC|]. split; [exact HL|]. split; [exact H1|]. split; [exact H2|]. split; [exact H3|].
  apply vec_ext. intros i Hi. destruct i as [|[|i]]; [| |lia]; unfold F1, cusp; cbn; field.
Qed.
(** (t, (3/2) (t - 1/2)^4): the tangents at the ends are (1, -3/4) and (1, 3/4). *)
Definition bowl : list (vec R 2) := [(0, (3 / 32, tt)); (1 / 4, (- (3 / 32), tt)); (1 / 2, (3 / 32, tt)); (3 / 4, (- (3 / 32), tt)); (1, (3 / 32, tt))].
Lemma bowl_case : exists f1 f2 eigen l, derivs2 (bernstein_curve bowl) f1 f2 /\ 1 / 10 ^ 8 <= norm2 (f1 0) /\ 1 / 10 ^ 8 <= norm2 (f1 1) /\
  (forall t, cross2 (f1 t) (bisector (f1 0) (f1 1)) / 2 = rsum 4 (fun k => nth k [3 / 5; - (18 / 5); 36 / 5; - (24 / 5)] 0 * t ^ k)) /\
  1 / 10 ^ 8 <= Rabs (nth 3 [3 / 5; - (18 / 5); 36 / 5; - (24 / 5)] 0) /\
  eigenvalue_solver Ok eigen /\ (forall m e, eigen m <> Throw e) /\ bz_reduce_turning_angle eigen false (mk_bezier bowl) 0 1 = Ok l.
Proof.
  set (ks := [3 / 5; - (18 / 5); 36 / 5; - (24 / 5)]).
  destruct (curve_planar_derivs bowl) as [D1 D2]; [cbn; lia|].
  match type of D2 with forall t, vderiv ?g1 t (?g2 t) => exists g1, g2; set (F1 := g1) in *; set (F2 := g2) in * end.
  assert (N0 : norm2 (F1 0) = 5 / 4). { unfold norm2. rewrite <- (sqrt_pow2 (5 / 4)) by lra. f_equal. unfold F1, bowl. cbn. field. }
  assert (N1 : norm2 (F1 1) = 5 / 4). { unfold norm2. rewrite <- (sqrt_pow2 (5 / 4)) by lra. f_equal. unfold F1, bowl. cbn. field. }
  assert (HC : forall t, cross2 (F1 t) (bisector (F1 0) (F1 1)) / 2 = rsum 4 (fun k => nth k ks 0 * t ^ k)).
  { intros t. unfold bisector. rewrite N0, N1. unfold cross2, F1, rsum, bowl, ks. cbn. field. }
  assert (HL : 1 / 10 ^ 8 <= Rabs (nth 3 ks 0)) by (cbn [nth ks]; rewrite Rabs_left; lra).
  destruct (case_reduce false (mk_bezier bowl) F1 F2 ks 0 1) with (vals := [(1 / 2, 0); (1 / 2, 0); (1 / 2, 0)]) as (eigen & l & H1 & H2 & H3);
    [left; cbn; lia|split; assumption|lra|cbn; lia|reflexivity|reflexivity|lra|lra|exact HC|exact HL|apply (roots_of 3 ks (- (24 / 5))); [lra|unfold ks; expand_roots]|].
  exists eigen, l. rewrite N0, N1. split; [split; [exact D1|exact D2]|]. split; [lra|]. split; [lra|]. split; [exact HC|]. split; [exact HL|]. split; [exact H1|]. split; [exact H2|exact H3].
Qed.
