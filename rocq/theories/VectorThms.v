(** save_svg: what is written and where. *)
From Coq Require Import Reals Lra Lia ZArith List Psatz.
From Verif Require Import Monad MonadFacts Scalar ScalarFacts Spec SpecFacts ModelCurve ModelBezier ModelBSpline ModelRational ModelVector SpecVector AnalysisThms2 PatchHull.
Import ListNotations.
Local Open Scope R_scope.

Lemma fold_min {d} k (ps : list (vec R d)) : forall a, let m := fold_left (fun a q => smin a (coord d k q)) ps a in
  m <= a /\ (forall p, In p ps -> m <= coord d k p) /\ (m = a \/ exists p, In p ps /\ coord d k p = m).
Proof.
  induction ps as [|p ps IH]; intros a; cbn [fold_left].
  - split; [apply Rle_refl|]. split; [intros p []|now left].
  - destruct (IH (smin a (coord d k p))) as (H1 & H2 & H3). set (m := fold_left _ ps _) in *. cbv zeta. rewrite smin_R in *. pose proof (Rmin_l a (coord d k p)). pose proof (Rmin_r a (coord d k p)).
    split; [lra|]. split; [intros q [->|Hq]; [lra|now apply H2]|]. destruct H3 as [H3|(q & Hq & E)]; [|right; exists q; split; [now right|exact E]].
    destruct (Rle_or_lt a (coord d k p)).
    + left. rewrite H3. now apply Rmin_left.
    + right. exists p. split; [now left|]. rewrite H3. symmetry. apply Rmin_right. lra.
Qed.
Lemma fold_max {d} k (ps : list (vec R d)) : forall a, let m := fold_left (fun a q => smax a (coord d k q)) ps a in
  a <= m /\ (forall p, In p ps -> coord d k p <= m) /\ (m = a \/ exists p, In p ps /\ coord d k p = m).
Proof.
  induction ps as [|p ps IH]; intros a; cbn [fold_left].
  - split; [apply Rle_refl|]. split; [intros p []|now left].
  - destruct (IH (smax a (coord d k p))) as (H1 & H2 & H3). set (m := fold_left _ ps _) in *. cbv zeta. rewrite smax_R in *. pose proof (Rmax_l a (coord d k p)). pose proof (Rmax_r a (coord d k p)).
    split; [lra|]. split; [intros q [->|Hq]; [lra|now apply H2]|]. destruct H3 as [H3|(q & Hq & E)]; [|right; exists q; split; [now right|exact E]].
    destruct (Rle_or_lt (coord d k p) a).
    + left. rewrite H3. now apply Rmax_left.
    + right. exists p. split; [now left|]. rewrite H3. symmetry. apply Rmax_right. lra.
Qed.
Lemma col_min_spec {d} k (pts : list (vec R d)) : pts <> [] -> exists m, col_min k pts = Ok m /\ (forall p, In p pts -> m <= coord d k p) /\ exists p, In p pts /\ coord d k p = m.
Proof.
  destruct pts as [|p ps]; [congruence|]. intros _. eexists. split; [reflexivity|]. destruct (fold_min k ps (coord d k p)) as (H1 & H2 & H3). split.
  - intros q [<-|Hq]; [exact H1|now apply H2].
  - destruct H3 as [H3|(q & Hq & E)]; [exists p; split; [now left|now symmetry]|exists q; split; [now right|exact E]].
Qed.
Lemma col_max_spec {d} k (pts : list (vec R d)) : pts <> [] -> exists m, col_max k pts = Ok m /\ (forall p, In p pts -> coord d k p <= m) /\ exists p, In p pts /\ coord d k p = m.
Proof.
  destruct pts as [|p ps]; [congruence|]. intros _. eexists. split; [reflexivity|]. destruct (fold_max k ps (coord d k p)) as (H1 & H2 & H3). split.
  - intros q [<-|Hq]; [exact H1|now apply H2].
  - destruct H3 as [H3|(q & Hq & E)]; [exists p; split; [now left|now symmetry]|exists q; split; [now right|exact E]].
Qed.

Lemma convex_coord {d} (pts : list (vec R d)) q k a b : convex_comb pts q -> (k < d)%nat -> (forall p, In p pts -> a <= coord d k p <= b) -> a <= coord d k q <= b.
Proof.
  intros (w & Hw & Hs & ->) Hk Hb. rewrite coord_psum by exact Hk.
  rewrite (rsum_ext _ _ (fun i => w i * coord d k (nth i pts p0))) by (intros i Hi; now rewrite coord_mul).
  assert (E : forall c, rsum (length pts) (fun i => w i * c) = c).
  { intros c. rewrite (rsum_ext _ _ (fun i => c * w i)) by (intros; ring). rewrite rsum_scal, Hs. ring. }
  split; [rewrite <- (E a)|rewrite <- (E b)]; apply rsum_le; intros i Hi; apply Rmult_le_compat_l; try (now apply Hw); apply Hb, nth_In, Hi.
Qed.

(** The curve is defined on its domain. *)
Definition runs (c : vcurve R 2) (f : R -> vec R 2) : Prop := vc_lower c <= vc_upper c /\ forall t, vc_lower c <= t <= vc_upper c -> vc_eval c t = Ok (f t).

Lemma sample_param_value (c : vcurve R 2) n i : vc_lower c <= vc_upper c -> (0 <= i <= n)%Z -> (0 < n)%Z ->
  sample_param c n i = Ok (vc_lower c + IZR i / IZR n * (vc_upper c - vc_lower c)) /\
  vc_lower c <= vc_lower c + IZR i / IZR n * (vc_upper c - vc_lower c) <= vc_upper c.
Proof.
  intros Hl Hi Hn. assert (H0 : 0 < IZR n) by (apply IZR_lt; lia). assert (Hq : 0 <= IZR i / IZR n <= 1).
  { split; [apply Rmult_le_pos; [apply IZR_le; lia|left; now apply Rinv_0_lt_compat]|]. apply Rmult_le_reg_r with (IZR n); [exact H0|]. unfold Rdiv. rewrite Rmult_assoc, Rinv_l, Rmult_1_r by lra. rewrite Rmult_1_l. apply IZR_le. lia. }
  assert (B : vc_lower c <= vc_lower c + IZR i / IZR n * (vc_upper c - vc_lower c) <= vc_upper c) by nra. split; [|exact B].
  unfold sample_param. rewrite ddiv_R by (cbn [sofZ R_ops]; lra). rewrite bind_Ok. rewrite smax_R, smin_R. cbn [sofZ sadd ssub smul R_ops]. f_equal.
  rewrite Rmin_right by lra. apply Rmax_right. lra.
Qed.

Lemma samples_value (c : vcurve R 2) f o s n : runs c f -> (0 < n)%nat ->
  samples c o s (Z.of_nat n) = Ok (map (fun i => place o s (f (vc_lower c + INR i / INR n * (vc_upper c - vc_lower c)))) (seq 0 (S n))).
Proof.
  intros [Hl Hf] Hn. unfold samples. unfold tabulate. replace (Z.to_nat (Z.of_nat n + 1)) with (S n) by lia.
  apply mapM_Ok. intros i Hi. apply in_seq in Hi. destruct (sample_param_value c (Z.of_nat n) (Z.of_nat i) Hl) as [E B]; [lia|lia|].
  rewrite E, bind_Ok. rewrite !INR_IZR_INZ. rewrite Hf by exact B. reflexivity.
Qed.

Lemma to_svg_value (c : vcurve R 2) f o s r n : runs c f -> (0 < n)%nat ->
  to_svg c o s true r (Z.of_nat n) = Ok (picture (place o s) (r * s) n f (vc_lower c) (vc_upper c) (vc_pts c)).
Proof.
  intros Hr Hn. unfold to_svg. cbn [Nat.eqb assert_]. rewrite bind_Ok, (samples_value c f o s n Hr Hn), bind_Ok. cbn [negb]. unfold picture. f_equal.
  cbn [seq map path_of app]. repeat f_equal.
  - simpl INR. unfold Rdiv. rewrite !Rmult_0_l, Rplus_0_r. reflexivity.
  - simpl INR. unfold Rdiv. rewrite !Rmult_0_l, Rplus_0_r. reflexivity.
  - rewrite map_map. reflexivity.
Qed.

(** Everything in the picture of a box fits. *)
Lemma picture_fits (c : vcurve R 2) f (x0 y0 x1 y1 m s : R) n : (0 < n)%nat -> runs c f -> (forall t, vc_lower c <= t <= vc_upper c -> convex_comb (vc_pts c) (f t)) ->
  0 < s -> 0 < m -> x1 - x0 <= m -> y1 - y0 <= m ->
  (forall p, In p (vc_pts c) -> x0 <= coord 2 0 p <= x1 /\ y0 <= coord 2 1 p <= y1) ->
  let r := sqrt ((x1 - x0) * (x1 - x0) + (y1 - y0) * (y1 - y0)) / 100 in
  Forall (fits ((x1 - x0 + 2 * (m / 10)) * s) ((y1 - y0 + 2 * (m / 10)) * s))
    (picture (place (- x0 + m / 10, - y0 + m / 10) s) (r * s) n f (vc_lower c) (vc_upper c) (vc_pts c)).
Proof.
  intros Hn [Hl Hf] Hc Hs Hm Hx Hy Hb r.
  destruct (vc_pts c) as [|p1 pts] eqn:Ep.
  { exfalso. destruct (Hc (vc_lower c)) as (w & _ & H & _); [lra|]. change (0 = 1) in H. lra. }
  assert (Hp1 := Hb p1 (or_introl eq_refl)). rewrite <- Ep in *.
  assert (Hr : 0 <= r <= m / 50).
  { unfold r. split; [apply Rmult_le_pos; [apply sqrt_pos|lra]|].
    assert (sqrt ((x1 - x0) * (x1 - x0) + (y1 - y0) * (y1 - y0)) <= 2 * m); [|lra].
    rewrite <- (sqrt_square (2 * m)) by lra. apply sqrt_le_1_alt. pose proof (Rmult_le_compat (x1 - x0) m (x1 - x0) m ltac:(lra) ltac:(lra) ltac:(lra) ltac:(lra)).
    pose proof (Rmult_le_compat (y1 - y0) m (y1 - y0) m ltac:(lra) ltac:(lra) ltac:(lra) ltac:(lra)). nra. }
  assert (B : forall q, x0 <= coord 2 0 q <= x1 /\ y0 <= coord 2 1 q <= y1 -> forall e, 0 <= e <= m / 50 ->
    disc_in ((x1 - x0 + 2 * (m / 10)) * s) ((y1 - y0 + 2 * (m / 10)) * s) (place (- x0 + m / 10, - y0 + m / 10) s q) (e * s)).
  { intros q [Hqx Hqy] e He. unfold disc_in, place. cbn [fst snd sadd smul R_ops].
    split; [apply Rmult_le_pos; lra|]. split; split.
    - apply Rmult_le_compat_r; lra.
    - rewrite <- Rmult_minus_distr_r. apply Rmult_le_compat_r; lra.
    - apply Rmult_le_compat_r; lra.
    - rewrite <- Rmult_minus_distr_r. apply Rmult_le_compat_r; lra. }
  assert (C : forall t, vc_lower c <= t <= vc_upper c -> disc_in ((x1 - x0 + 2 * (m / 10)) * s) ((y1 - y0 + 2 * (m / 10)) * s) (place (- x0 + m / 10, - y0 + m / 10) s (f t)) 0).
  { intros t Ht. replace 0 with (0 * s) at 1 by ring. apply B; [|lra]. split; (eapply convex_coord; [now apply Hc|lia|]); intros p Hp; now apply Hb. }
  unfold picture. apply Forall_app. split.
  - constructor; [|constructor; [exact I|constructor]]. cbn [fits]. intros e [<-|He].
    + cbn [cmd_point]. rewrite <- surjective_pairing. apply C. lra.
    + apply in_map_iff in He. destruct He as (i & <- & Hi). apply in_seq in Hi. cbv zeta. cbn [cmd_point]. rewrite <- surjective_pairing. apply C.
      assert (H1 : 0 <= INR i / INR n <= 1).
      { assert (0 < INR n) by (apply lt_0_INR; lia). split; [apply Rmult_le_pos; [apply pos_INR|left; now apply Rinv_0_lt_compat]|].
        apply Rmult_le_reg_r with (INR n); [assumption|]. unfold Rdiv. rewrite Rmult_assoc, Rinv_l, Rmult_1_r by lra. rewrite Rmult_1_l. apply le_INR. lia. }
      nra.
  - apply Forall_app. split; [|constructor; [exact I|constructor]]. apply Forall_map, Forall_forall. intros p Hp. cbn [fits]. rewrite <- surjective_pairing. apply B; [now apply Hb|exact Hr].
Qed.
