(** B-spline patches: the mixed derivative and the derivative theorem. *)
From Coq Require Import Reals Lra Lia List ZArith Bool.
From Verif Require Import Monad MonadFacts LoopFacts Scalar ScalarFacts Spec SpecFacts SpecPatch Polar TensorFacts PatchFacts.
From Verif Require Import ModelCurve CurveFacts ModelBezier BSplineMath ModelBSpline BSplineFacts BSplineThms BSplineThms2 BSplineThms3.
From Verif Require Import ModelPatchBase ModelPatch BezierPatchThms BSplinePatchThms.
Import ListNotations.
Local Open Scope R_scope.

(** ** The knots of the derivative *)
Definition inner (knots : list R) : list R := firstn (length knots - 2) (skipn 1 knots).

Lemma len_inner knots : (2 <= length knots)%nat -> length (inner knots) = (length knots - 2)%nat.
Proof. intros H. unfold inner. rewrite firstn_length, skipn_length. lia. Qed.

Lemma nth_firstn_lt {A} (l : list A) N i x : (i < N)%nat -> nth i (firstn N l) x = nth i l x.
Proof.
  revert N i. induction l as [|a l IH]; intros N i H; [now rewrite firstn_nil|].
  destruct N as [|N]; [lia|]. destruct i as [|i]; [reflexivity|]. cbn [firstn nth]. apply IH. lia.
Qed.

Lemma nth_inner knots i : (i + 2 < length knots)%nat -> nth i (inner knots) 0 = nth (S i) knots 0.
Proof.
  intros H. unfold inner. rewrite nth_firstn_lt by lia. destruct knots as [|a l]; reflexivity || (simpl in H; lia).
Qed.

Section Inner.
  Variables (p : nat) (knots : list R).
  Hypothesis Hv : valid_dir (S p) knots.

  Lemma inner_count : dir_count p (inner knots) = (dir_count (S p) knots - 1)%nat /\ (2 <= dir_count (S p) knots)%nat.
  Proof. destruct Hv as [H1 _ _]. unfold dir_count. rewrite len_inner by lia. lia. Qed.

  Lemma inner_lo : dir_lo p (inner knots) = dir_lo (S p) knots.
  Proof. destruct Hv as [H1 _ _]. unfold dir_lo. rewrite nth_inner by lia. reflexivity. Qed.
  Lemma inner_lo1 : nth (p + 1) (inner knots) 0 = nth (S p + 1) knots 0.
  Proof. destruct Hv as [H1 _ _]. rewrite nth_inner by lia. reflexivity. Qed.
  Lemma inner_hi : dir_hi p (inner knots) = dir_hi (S p) knots.
  Proof.
    destruct Hv as [H1 _ _]. destruct inner_count as [E1 E2]. unfold dir_hi. rewrite E1.
    unfold dir_count in *. rewrite nth_inner by lia. f_equal. lia.
  Qed.
  Lemma inner_valid : valid_dir p (inner knots).
  Proof.
    pose proof inner_lo as E1. pose proof inner_hi as E2. destruct Hv as [H1 H2 H3].
    split; [rewrite len_inner by lia; lia| |now rewrite E1, E2].
    intros i j Hij. rewrite len_inner in Hij by lia. rewrite !nth_inner by lia. apply H2. lia.
  Qed.
  Lemma inner_apart tol : knots_apart tol knots -> knots_apart tol (inner knots).
  Proof.
    destruct Hv as [H1 _ _]. intros H i j Hij. rewrite len_inner in Hij by lia. rewrite !nth_inner by lia. apply H. lia.
  Qed.
  Lemma inner_dunw per t : dunw p (inner knots) per t = dunw (S p) knots per t.
  Proof. unfold dunw. now rewrite inner_lo, inner_hi. Qed.
  Lemma inner_knot z : (0 <= z)%Z -> (z + 2 < Z.of_nat (length knots))%Z -> knot_of (inner knots) z = knot_of knots (z + 1)%Z.
  Proof. intros H0 H1. unfold knot_of. rewrite nth_inner by lia. f_equal. lia. Qed.
  Lemma inner_span k u : let n := dir_count (S p) knots in (Z.of_nat (S p) <= k < Z.of_nat n)%Z ->
    in_span (knot_of knots) (knot_of knots (Z.of_nat n)) k u ->
    in_span (knot_of (inner knots)) (knot_of (inner knots) (Z.of_nat (dir_count p (inner knots)))) (k - 1) u.
  Proof.
    intros n Hk H. destruct inner_count as [E1 E2]. destruct (dir_len _ _ Hv) as [L1 L2]. fold n in E1, E2, L1, L2. rewrite E1.
    unfold in_span in *. rewrite !inner_knot by lia.
    replace (k - 1 + 1)%Z with k by lia. replace (Z.of_nat (n - 1) + 1)%Z with (Z.of_nat n) by lia. exact H.
  Qed.
  Lemma inner_block : block knots 1 (zlen knots - 2) = Ok (inner knots).
  Proof.
    destruct Hv as [H1 _ _]. unfold block, inner, zlen.
    replace (0 <=? Z.of_nat (length knots) - 2)%Z with true by (symmetry; apply Z.leb_le; lia).
    replace (1 + (Z.of_nat (length knots) - 2) <=? Z.of_nat (length knots))%Z with true by (symmetry; apply Z.leb_le; lia).
    cbn [Z.leb andb Z.compare]. f_equal. f_equal. lia.
  Qed.

  Lemma bsW1_shift d (c : nat -> vec R d) k x : let n := dir_count (S p) knots in let U := knot_of knots in
    (Z.of_nat (S p) <= k < Z.of_nat n)%Z ->
    psum (n - 1) (fun i => pmul (bsW0 (knot_of (inner knots)) p (k - 1) i x)
                                (dcoef U (Z.of_nat (S p)) (fun z => c (Z.to_nat z)) (Z.of_nat i + 1))) =
    psum n (fun i => pmul (bsW1 U (S p) k i x) (c i)).
  Proof.
    intros n U Hk. destruct inner_count as [E1 E2]. destruct (dir_len _ _ Hv) as [L1 L2]. fold n in E1, E2, L1, L2.
    set (D := dcoef U (Z.of_nat (S p)) (fun z => c (Z.to_nat z))).
    transitivity (tri (alU (knot_of (inner knots)) p) (fun z => D (Z.of_nat (Z.to_nat z) + 1)%Z) (repeat x p) (k - 1)).
    { symmetry. unfold bsW0. apply tri_lin. intros z Hz. rewrite repeat_length in Hz.
      apply (dl_sum (n - 1) (fun i => D (Z.of_nat i + 1)%Z)). lia. }
    transitivity (tri (alU U p) D (repeat x p) k).
    { rewrite <- (tri_shift (alU U p) (fun r i x => alU U p r (i + 1)%Z x) D (fun z => D (z + 1)%Z) (repeat x p) k 1).
      - apply tri_ext.
        + intros r i y Hr Hi. rewrite repeat_length in Hr, Hi. unfold alU. rewrite !inner_knot by lia.
          fold U. replace (i + Z.of_nat p + 1 - Z.of_nat r + 1)%Z with (i + 1 + Z.of_nat p + 1 - Z.of_nat r)%Z by lia. reflexivity.
        + intros i Hi. rewrite repeat_length in Hi. f_equal. lia.
      - intros r i y. f_equal. lia.
      - intros i. f_equal. lia. }
    unfold bsW1. apply tri_lin. intros z Hz. rewrite repeat_length in Hz.
    apply lin_dcoef; apply (dl_sum n c); lia.
  Qed.
End Inner.

(** The coefficient computed by compute_du_patch is the one of the curves if no span is empty. *)
Lemma dcoef_pdivs {d} (knots : list R) p (c : Z -> vec R d) i : no_full_knot p knots ->
  (0 <= i)%Z -> (i + Z.of_nat p + 2 < Z.of_nat (length knots))%Z ->
  (do k1 <- get knots (i + Z.of_nat p + 1); do k0 <- get knots (i + 1);
   pdivs (pmul (sofZ (Z.of_nat p)) (psub (c (i + 1)%Z) (c i))) (ssub k1 k0)) =
  Ok (dcoef (knot_of knots) (Z.of_nat p) c (i + 1)).
Proof.
  intros Hf Hi Hl. specialize (Hf (Z.to_nat (i + 1)) ltac:(lia) ltac:(lia)).
  rewrite (get_nth _ _ 0) by (unfold zlen; lia). rewrite bind_Ok.
  rewrite (get_nth _ _ 0) by (unfold zlen; lia). rewrite bind_Ok.
  unfold dcoef, knot_of. replace (Z.to_nat (i + 1 + Z.of_nat p)) with (Z.to_nat (i + 1) + p)%nat by lia.
  replace (Z.to_nat (i + Z.of_nat p + 1)) with (Z.to_nat (i + 1) + p)%nat by lia.
  set (a := nth (Z.to_nat (i + 1) + p) knots 0) in *. set (b := nth (Z.to_nat (i + 1)) knots 0) in *.
  unfold pdivs. simpl seq_. simpl ssub. cbn [s0 R_ops]. rewrite Reqb_false by lra. f_equal.
  destruct (Rltb_spec 0 (a - b)) as [_|]; [|lra].
  replace (i + 1 - 1)%Z with i by lia.
  apply vec_ext. intros k Hk. rewrite !coord_mul, coord_sub by assumption. simpl sofZ. simpl sdiv. cbn [s1 R_ops]. field. lra.
Qed.

(** ** ZeroPatch *)
Lemma zero_sfit d : sfit (sp_make (-1) (-1) 0 0 [p0 : vec R d] [s0; s1] [s0; s1] false false) 0 0.
Proof.
  assert (Hz : valid_dir 0 [s0; s1]).
  { split; [simpl; lia| |cbn; lra]. intros i j Hij. cbn [length] in Hij.
    destruct i as [|[|?]]; destruct j as [|[|?]]; try lia; cbn; lra. }
  split; try reflexivity; exact Hz.
Qed.

Definition zcurve d : bspline R (vec R d) := {| bs_pts := [p0]; bs_knots := [s0; s1]; bs_periodic := false |}.
Definition zpatch d : spatch R (vec R d) :=
  {| sp_tu := -1; sp_tv := -1; sp_degu := 0; sp_degv := 0; sp_grid := [p0]; sp_ku := [s0; s1]; sp_kv := [s0; s1];
     sp_peru := false; sp_perv := false; sp_isou := [zcurve d]; sp_isov := [zcurve d] |}.

Lemma zero_curve_eval d u : bs_evaluate (zcurve d) u = Ok p0.
Proof.
  destruct (dir_rep 0 [s0; s1] (sr_ku _ _ _ (zero_sfit d)) (zcurve d) eq_refl eq_refl) as [Hr Hk].
  destruct (locate_span_total (zcurve d) _ _ _ _ u Hr Hk) as (k & Ek & Hk2).
  rewrite (bs_evaluate_gen _ _ _ _ _ _ _ _ Hr (bs_unwrap_off (zcurve d) u eq_refl) Ek Hk2).
  replace k with 0%Z by (cbn in Hk2; lia). reflexivity.
Qed.

Lemma sp_zero_Ok d : exists z : spatch R (vec R d), sp_zero = Ok z /\ sp_degu z = 0%Z /\ sp_degv z = 0%Z /\
  forall u v, sp_evaluate z u v = Ok p0.
Proof.
  exists (zpatch d). split; [reflexivity|]. split; [reflexivity|]. split; [reflexivity|]. intros u v.
  assert (E : sp_iso_curve_u (zpatch d) v = Ok (zcurve d)).
  { unfold sp_iso_curve_u. change (sp_nu (zpatch d)) with (Ok 1%Z). rewrite bind_Ok.
    rewrite (tabulate_Ok _ _ (fun _ => (p0 : vec R d))); [reflexivity|lia|].
    intros i Hi. replace i with 0%Z by lia. change (get (sp_isov (zpatch d)) 0) with (Ok (zcurve d)).
    rewrite bind_Ok. apply zero_curve_eval. }
  change (sp_evaluate (zpatch d) u v) with (bind (sp_iso_curve_u (zpatch d) v) (fun c => bs_evaluate c u)).
  rewrite E, bind_Ok. apply zero_curve_eval.
Qed.

(** ** The derivative patches *)
Section Du.
  Context {d : nat} (s : spatch R (vec R d)).

  Lemma sgrid_get p q i j : sfit s p q -> let n := dir_count p (sp_ku s) in let m := dir_count q (sp_kv s) in
    (0 <= i < Z.of_nat n)%Z -> (0 <= j < Z.of_nat m)%Z ->
    grid_get (sp_grid s) (Z.of_nat m) i j = Ok (nth (Z.to_nat (i * Z.of_nat m + j)) (sp_grid s) p0).
  Proof. intros H n m Hi Hj. apply (garr_of _ _ _ (sr_g _ _ _ H)); assumption. Qed.

  Lemma du_patch_Ok p q : sfit s (S p) q -> no_full_knot (S p) (sp_ku s) ->
    let n := dir_count (S p) (sp_ku s) in let m := dir_count q (sp_kv s) in
    exists s', sp_du_patch s = Ok s' /\ sfit s' p q /\ sp_initialize s' = Ok s' /\
      sp_ku s' = inner (sp_ku s) /\ sp_kv s' = sp_kv s /\ sp_peru s' = sp_peru s /\ sp_perv s' = sp_perv s /\
      forall i j, (i < n - 1)%nat -> (j < m)%nat ->
        nth (i * m + j) (sp_grid s') p0 =
        dcoef (knot_of (sp_ku s)) (Z.of_nat (S p)) (fun z => nth (Z.to_nat z * m + j) (sp_grid s) p0) (Z.of_nat i + 1).
  Proof.
    intros H Hf n m. pose proof (sr_ku _ _ _ H) as Hu. pose proof (sr_kv _ _ _ H) as Hv.
    destruct (dir_len _ _ Hu) as [L1 L2]. destruct (dir_len _ _ Hv) as [L3 L4]. fold n in L1, L2. fold m in L3, L4.
    unfold sp_du_patch, checked_degree. rewrite (sr_u _ _ _ H), (sr_v _ _ _ H).
    replace (0 <=? Z.of_nat (S p))%Z with true by (symmetry; apply Z.leb_le; lia).
    replace (0 <=? Z.of_nat q)%Z with true by (symmetry; apply Z.leb_le; lia). cbn [assert_ bind].
    destruct (Z.eqb_spec (Z.of_nat (S p)) 0) as [|_]; [lia|].
    rewrite (sp_nv_Ok s (S p) q H). fold m.
    replace (zlen (sp_ku s) - Z.of_nat (S p) - 2)%Z with (Z.of_nat (n - 1)) by (unfold zlen; lia).
    replace (zlen (sp_kv s) - Z.of_nat q - 1)%Z with (Z.of_nat m) by (unfold zlen; lia).
    match goal with |- context [fill_grid ?a ?b ?f] =>
      destruct (fill_grid_Ok a b f (fun i j => dcoef (knot_of (sp_ku s)) (Z.of_nat (S p))
         (fun z => nth (Z.to_nat (z * Z.of_nat m + j)) (sp_grid s) p0) (i + 1))) as (g & Eg & Hg); [lia|lia| |] end.
    { intros i j Hi Hj. rewrite !bind_Ok. unfold m. rewrite !(sgrid_get (S p) q _ _ H) by (fold n m; lia).
      rewrite !bind_Ok. fold m.
      apply (dcoef_pdivs (sp_ku s) (S p) (fun z => nth (Z.to_nat (z * Z.of_nat m + j)) (sp_grid s) p0) i Hf); lia. }
    rewrite Eg, bind_Ok, (inner_block p _ Hu), bind_Ok.
    replace (Z.of_nat (S p) - 1)%Z with (Z.of_nat p) by lia.
    set (t := sp_make _ _ _ _ _ _ _ _ _).
    assert (Ht : sfit t p q).
    { split; try reflexivity; cbn [t sp_make sp_ku sp_kv sp_grid]; [now apply inner_valid|exact Hv|].
      destruct (inner_count p _ Hu) as [E _]. rewrite E. fold n m. apply Hg. }
    destruct (sp_init_gen t p q Ht) as (s' & E & _ & _ & Eu & Ev & Egr & Eku & Ekv & Epu & Epv & Ei).
    exists s'. split; [exact E|]. split.
    { destruct Ht as [T1 T2 T3 T4 T5]. split; congruence. }
    split; [exact Ei|]. split; [exact Eku|]. split; [exact Ekv|]. split; [exact Epu|]. split; [exact Epv|].
    intros i j Hi Hj. rewrite Egr. cbn [t sp_make sp_grid].
    rewrite (garr_nth g _ _ _ i j m Hg eq_refl ltac:(lia) Hj).
    unfold dcoef. f_equal. f_equal; f_equal; lia.
  Qed.

  Lemma dv_patch_Ok p q : sfit s p (S q) -> no_full_knot (S q) (sp_kv s) ->
    let n := dir_count p (sp_ku s) in let m := dir_count (S q) (sp_kv s) in
    exists s', sp_dv_patch s = Ok s' /\ sfit s' p q /\ sp_initialize s' = Ok s' /\
      sp_ku s' = sp_ku s /\ sp_kv s' = inner (sp_kv s) /\ sp_peru s' = sp_peru s /\ sp_perv s' = sp_perv s /\
      forall i j, (i < n)%nat -> (j < m - 1)%nat ->
        nth (i * (m - 1) + j) (sp_grid s') p0 =
        dcoef (knot_of (sp_kv s)) (Z.of_nat (S q)) (fun z => nth (i * m + Z.to_nat z) (sp_grid s) p0) (Z.of_nat j + 1).
  Proof.
    intros H Hf n m. pose proof (sr_ku _ _ _ H) as Hu. pose proof (sr_kv _ _ _ H) as Hv.
    destruct (dir_len _ _ Hu) as [L1 L2]. destruct (dir_len _ _ Hv) as [L3 L4]. fold n in L1, L2. fold m in L3, L4.
    unfold sp_dv_patch, checked_degree. rewrite (sr_u _ _ _ H), (sr_v _ _ _ H).
    replace (0 <=? Z.of_nat (S q))%Z with true by (symmetry; apply Z.leb_le; lia).
    replace (0 <=? Z.of_nat p)%Z with true by (symmetry; apply Z.leb_le; lia). cbn [assert_ bind].
    destruct (Z.eqb_spec (Z.of_nat (S q)) 0) as [|_]; [lia|].
    rewrite (sp_nv_Ok s p (S q) H). fold m.
    replace (zlen (sp_ku s) - Z.of_nat p - 1)%Z with (Z.of_nat n) by (unfold zlen; lia).
    replace (zlen (sp_kv s) - Z.of_nat (S q) - 2)%Z with (Z.of_nat (m - 1)) by (unfold zlen; lia).
    match goal with |- context [fill_grid ?a ?b ?f] =>
      destruct (fill_grid_Ok a b f (fun i j => dcoef (knot_of (sp_kv s)) (Z.of_nat (S q))
         (fun z => nth (Z.to_nat (i * Z.of_nat m + z)) (sp_grid s) p0) (j + 1))) as (g & Eg & Hg); [lia|lia| |] end.
    { intros i j Hi Hj. rewrite !bind_Ok. unfold m. rewrite !(sgrid_get p (S q) _ _ H) by (fold n m; lia).
      rewrite !bind_Ok. fold m.
      apply (dcoef_pdivs (sp_kv s) (S q) (fun z => nth (Z.to_nat (i * Z.of_nat m + z)) (sp_grid s) p0) j Hf); lia. }
    rewrite Eg, bind_Ok, (inner_block q _ Hv), bind_Ok.
    replace (Z.of_nat (S q) - 1)%Z with (Z.of_nat q) by lia.
    set (t := sp_make _ _ _ _ _ _ _ _ _).
    assert (Ht : sfit t p q).
    { split; try reflexivity; cbn [t sp_make sp_ku sp_kv sp_grid]; [exact Hu|now apply inner_valid|].
      destruct (inner_count q _ Hv) as [E _]. rewrite E. fold n m. apply Hg. }
    destruct (sp_init_gen t p q Ht) as (s' & E & _ & _ & Eu & Ev & Egr & Eku & Ekv & Epu & Epv & Ei).
    exists s'. split; [exact E|]. split.
    { destruct Ht as [T1 T2 T3 T4 T5]. split; congruence. }
    split; [exact Ei|]. split; [exact Eku|]. split; [exact Ekv|]. split; [exact Epu|]. split; [exact Epv|].
    intros i j Hi Hj. rewrite Egr. cbn [t sp_make sp_grid].
    rewrite (garr_nth g _ _ _ i j (m - 1) Hg eq_refl ltac:(lia) Hj).
    unfold dcoef. f_equal. f_equal; f_equal; lia.
  Qed.
End Du.

Lemma dcoef_lin {d} m U q (w : nat -> R) (c : Z -> nat -> vec R d) z :
  dcoef U q (fun x => psum m (fun j => pmul (w j) (c x j))) z = psum m (fun j => pmul (w j) (dcoef U q (fun x => c x j) z)).
Proof.
  apply vec_ext. intros k Hk. unfold dcoef. rewrite coord_mul, coord_sub, !coord_psum by assumption.
  rewrite <- rsum_minus, <- rsum_scal. apply rsum_ext. intros j Hj.
  rewrite !coord_mul, coord_sub by assumption. ring.
Qed.

Lemma sp_eval_uv {d} (s : spatch R (vec R d)) p q (H : sfit s p q) u v u' v' k l :
  knots_apart (/ IZR (10 ^ 16)) (sp_ku s) -> knots_apart (/ IZR (10 ^ 16)) (sp_kv s) ->
  no_full_knot p (sp_ku s) -> no_full_knot q (sp_kv s) ->
  dunw p (sp_ku s) (sp_peru s) u = Ok u' -> dunw q (sp_kv s) (sp_perv s) v = Ok v' ->
  dir_lo p (sp_ku s) <= u' <= dir_hi p (sp_ku s) ->
  (nth p (sp_ku s) 0 < nth (p + 1) (sp_ku s) 0 \/ dir_lo p (sp_ku s) < u') ->
  dir_lo q (sp_kv s) <= v' <= dir_hi q (sp_kv s) ->
  (nth q (sp_kv s) 0 < nth (q + 1) (sp_kv s) 0 \/ dir_lo q (sp_kv s) < v') ->
  let n := dir_count p (sp_ku s) in let m := dir_count q (sp_kv s) in
  (Z.of_nat p <= k < Z.of_nat n)%Z -> in_span (knot_of (sp_ku s)) (knot_of (sp_ku s) (Z.of_nat n)) k u' ->
  (Z.of_nat q <= l < Z.of_nat m)%Z -> in_span (knot_of (sp_kv s)) (knot_of (sp_kv s) (Z.of_nat m)) l v' ->
  sp_evaluate_2nd_derivative_uv s u v =
  Ok (tensor_sum n m (fun i => bsW1 (knot_of (sp_ku s)) p k i u') (fun j => bsW1 (knot_of (sp_kv s)) q l j v') (sp_grid s)).
Proof.
  intros Au Av Fu Fv Eu Ev Ru Su Rv Sv n m Hk Ik Hl Il. unfold sp_evaluate_2nd_derivative_uv.
  destruct (sp_zero_Ok d) as (z & Ez & Z1 & Z2 & Z3).
  destruct p as [|p].
  { assert (E : sp_du_patch s = sp_zero).
    { unfold sp_du_patch, checked_degree. rewrite (sr_u _ _ _ H), (sr_v _ _ _ H).
      replace (0 <=? Z.of_nat q)%Z with true by (symmetry; apply Z.leb_le; lia). reflexivity. }
    rewrite E, Ez, bind_Ok.
    assert (E2 : sp_dv_patch z = sp_zero).
    { unfold sp_dv_patch, checked_degree. rewrite Z1, Z2. reflexivity. }
    rewrite E2, Ez, bind_Ok, Z3. f_equal. symmetry. apply tensor_zero_l. }
  destruct (du_patch_Ok s p q H Fu) as (s1 & E1 & H1 & I1 & Ku1 & Kv1 & P1 & Q1 & G1). rewrite E1, bind_Ok.
  fold n m in G1.
  destruct q as [|q].
  { assert (E2 : sp_dv_patch s1 = sp_zero).
    { unfold sp_dv_patch, checked_degree. rewrite (sr_u _ _ _ H1), (sr_v _ _ _ H1).
      replace (0 <=? Z.of_nat p)%Z with true by (symmetry; apply Z.leb_le; lia). reflexivity. }
    rewrite E2, Ez, bind_Ok, Z3. f_equal. symmetry. apply tensor_zero_r. }
  destruct (dv_patch_Ok s1 p q H1) as (s2 & E2 & H2 & I2 & Ku2 & Kv2 & P2 & Q2 & G2); [rewrite Kv1; exact Fv|].
  rewrite E2, bind_Ok. rewrite Ku1 in Ku2. rewrite Kv1 in Kv2. rewrite P1 in P2. rewrite Q1 in Q2.
  pose proof (sr_ku _ _ _ H) as Hu. pose proof (sr_kv _ _ _ H) as Hv.
  destruct (inner_count p _ Hu) as [Nu _]. destruct (inner_count q _ Hv) as [Nv _]. fold n in Nu. fold m in Nv.
  rewrite Ku1, Kv1, Nu in G2. fold m in G2.
  rewrite (sp_eval_lin s2 p q H2 I2 u v (fun i => bsW0 (knot_of (inner (sp_ku s))) p (k - 1) i u')
     (fun j => bsW0 (knot_of (inner (sp_kv s))) q (l - 1) j v')); [f_equal| |]; rewrite ?Ku2, ?Kv2, ?P2, ?Q2, ?Nu, ?Nv.
  - rewrite <- tensor_rows, <- tensor_rows.
    rewrite <- (bsW1_shift p _ Hu d (fun i => psum m (fun j => pmul (bsW1 (knot_of (sp_kv s)) (S q) l j v') (nth (i * m + j) (sp_grid s) p0))) k u' Hk).
    fold n. apply psum_ext. intros i Hi. f_equal.
    rewrite (dcoef_lin m _ _ _ (fun x j => nth (Z.to_nat x * m + j) (sp_grid s) p0)).
    rewrite <- (bsW1_shift q _ Hv d (fun j => dcoef (knot_of (sp_ku s)) (Z.of_nat (S p)) (fun z0 => nth (Z.to_nat z0 * m + j) (sp_grid s) p0) (Z.of_nat i + 1)) l v' Hl).
    fold m. apply psum_ext. intros j Hj. f_equal. rewrite G2 by assumption.
    unfold dcoef at 1 2. rewrite !G1 by lia. reflexivity.
  - intros pts Hn. rewrite <- Nu in Hn |- *.
    apply (dir_lin_at p (inner (sp_ku s)) (inner_valid p _ Hu) d pts (sp_peru s) u u' (k - 1) (inner_apart p _ Hu _ Au) Hn).
    + rewrite (inner_dunw p _ Hu). exact Eu.
    + rewrite (inner_lo p _ Hu), (inner_hi p _ Hu). exact Ru.
    + rewrite (inner_lo p _ Hu), (inner_lo1 p _ Hu). change (nth p (inner (sp_ku s)) 0) with (dir_lo p (inner (sp_ku s))).
      rewrite (inner_lo p _ Hu). exact Su.
    + lia.
    + apply (inner_span p _ Hu); assumption.
  - intros pts Hn. rewrite <- Nv in Hn |- *.
    apply (dir_lin_at q (inner (sp_kv s)) (inner_valid q _ Hv) d pts (sp_perv s) v v' (l - 1) (inner_apart q _ Hv _ Av) Hn).
    + rewrite (inner_dunw q _ Hv). exact Ev.
    + rewrite (inner_lo q _ Hv), (inner_hi q _ Hv). exact Rv.
    + rewrite (inner_lo q _ Hv), (inner_lo1 q _ Hv). change (nth q (inner (sp_kv s)) 0) with (dir_lo q (inner (sp_kv s))).
      rewrite (inner_lo q _ Hv). exact Sv.
    + lia.
    + apply (inner_span q _ Hv); assumption.
Qed.

(** ** Main lemmas *)
Lemma sfit_init {d} (s : spatch R (vec R d)) : sp_initialize s = Ok s ->
  valid_dir (Z.to_nat (sp_degu s)) (sp_ku s) -> valid_dir (Z.to_nat (sp_degv s)) (sp_kv s) ->
  sfit s (Z.to_nat (sp_degu s)) (Z.to_nat (sp_degv s)).
Proof.
  intros Hi Hu Hv. unfold sp_initialize, checked_degree in Hi.
  destruct (Z.leb_spec 0 (sp_degu s)) as [H1|]; [|discriminate]. cbn [assert_ bind] in Hi.
  destruct (Z.leb_spec 0 (sp_degv s)) as [H2|]; [|discriminate]. cbn [assert_ bind] in Hi.
  destruct (_ || _) in Hi; [discriminate|].
  destruct (Z.eqb_spec (zlen (sp_grid s)) ((zlen (sp_ku s) - sp_degu s - 1) * (zlen (sp_kv s) - sp_degv s - 1))) as [E|]; [|discriminate].
  destruct (dir_len _ _ Hu) as [L1 L2]. destruct (dir_len _ _ Hv) as [L3 L4].
  split; try assumption; try lia. rewrite E. unfold zlen. f_equal; lia.
Qed.

Lemma spatch_evaluate d (s : spatch R (vec R d)) u v :
  let p := Z.to_nat (sp_degu s) in let q := Z.to_nat (sp_degv s) in
  let n := dir_count p (sp_ku s) in let m := dir_count q (sp_kv s) in
  sp_initialize s = Ok s -> valid_dir p (sp_ku s) -> valid_dir q (sp_kv s) ->
  knots_apart (/ IZR (10 ^ 16)) (sp_ku s) -> knots_apart (/ IZR (10 ^ 16)) (sp_kv s) ->
  dir_param (sp_peru s) p (sp_ku s) u -> dir_param (sp_perv s) q (sp_kv s) v ->
  exists u' v', wraps (sp_peru s) (dir_lo p (sp_ku s)) (dir_hi p (sp_ku s)) u u' /\
    wraps (sp_perv s) (dir_lo q (sp_kv s)) (dir_hi q (sp_kv s)) v v' /\
    sp_evaluate s u v = Ok (tensor_sum n m (bspline_basis n (sp_ku s) u') (bspline_basis m (sp_kv s) v') (sp_grid s)).
Proof.
  intros p q n m Hi Hu Hv Au Av Du Dv.
  exact (sp_eval_basis s p q (sfit_init s Hi Hu Hv) Hi u v Au Av Du Dv).
Qed.

Lemma dir_cover p knots per t : valid_dir p knots -> dir_param per p knots t ->
  exists t' k, wraps per (dir_lo p knots) (dir_hi p knots) t t' /\ (p <= k < dir_count p knots)%nat /\
    nth k knots 0 < nth (k + 1) knots 0 /\ span_set knots (dir_hi p knots) k t'.
Proof.
  intros Hv Hp. destruct (dunw_Ok p knots Hv per t) as (u & W & _). destruct (wraps_param _ _ _ _ _ Hp W) as [R1 S1].
  destruct (dir_span p knots Hv u R1 S1) as (k & Hk & Hs). exists u, (Z.to_nat k).
  split; [exact W|]. split; [lia|].
  assert (Ek : nth (Z.to_nat k) knots 0 = knot_of knots k) by reflexivity.
  assert (Ek1 : nth (Z.to_nat k + 1) knots 0 = knot_of knots (k + 1)%Z) by (unfold knot_of; f_equal; lia).
  unfold span_set. rewrite Ek, Ek1. destruct (in_span_bounds _ _ _ _ Hs) as [B1 B2]. split; [exact B2|].
  rewrite (dir_hi_U p knots). destruct Hs as [[H1 H2]|[H1 H2]]; [left; lra|right].
  assert (Hm : knot_of knots (k + 1)%Z <= knot_of knots (Z.of_nat (dir_count p knots))).
  { apply (dir_mono p knots Hv); lia. }
  lra.
Qed.

Lemma span_in p knots k t : valid_dir p knots -> (p <= k < dir_count p knots)%nat ->
  nth k knots 0 < nth (k + 1) knots 0 -> span_set knots (dir_hi p knots) k t ->
  in_span (knot_of knots) (knot_of knots (Z.of_nat (dir_count p knots))) (Z.of_nat k) t.
Proof.
  intros Hv Hk Hlt H.
  assert (Ek : nth k knots 0 = knot_of knots (Z.of_nat k)) by (unfold knot_of; f_equal; lia).
  assert (Ek1 : nth (k + 1) knots 0 = knot_of knots (Z.of_nat k + 1)%Z) by (unfold knot_of; f_equal; lia).
  unfold span_set in H. rewrite Ek, Ek1, (dir_hi_U p knots) in H. rewrite Ek, Ek1 in Hlt.
  assert (Hm : knot_of knots (Z.of_nat k + 1)%Z <= knot_of knots (Z.of_nat (dir_count p knots))).
  { apply (dir_mono p knots Hv); lia. }
  unfold in_span. destruct H as [H|[H1 H2]]; [left; lra|].
  destruct (Rlt_dec t (knot_of knots (Z.of_nat (dir_count p knots)))); [left|right]; lra.
Qed.

Lemma wraps_dunw p knots per t t' : valid_dir p knots -> wraps per (dir_lo p knots) (dir_hi p knots) t t' ->
  dunw p knots per t = Ok t'.
Proof.
  intros Hv W. destruct (dunw_Ok p knots Hv per t) as (u & W2 & E). rewrite E. f_equal.
  destruct per; cbn in W, W2; [|congruence]. destruct W as (R1 & a & E1). destruct W2 as (R2 & b & E2).
  destruct Hv as [_ _ Hd]. set (lo := dir_lo p knots) in *. set (hi := dir_hi p knots) in *.
  assert (b = a); [|congruence].
  assert (Ed : u - t' = (IZR b - IZR a) * (hi - lo)) by (rewrite E1, E2; ring).
  rewrite <- minus_IZR in Ed.
  assert (-1 < IZR (b - a) < 1).
  { split.
    - apply (Rmult_lt_reg_r (hi - lo)); lra.
    - apply (Rmult_lt_reg_r (hi - lo)); lra. }
  destruct H as [B1 B2]. apply lt_IZR in B1. apply lt_IZR in B2. lia.
Qed.

Lemma spatch_derivatives d (s : spatch R (vec R d)) k l :
  let p := Z.to_nat (sp_degu s) in let q := Z.to_nat (sp_degv s) in
  let n := dir_count p (sp_ku s) in let m := dir_count q (sp_kv s) in
  sp_initialize s = Ok s -> valid_dir p (sp_ku s) -> valid_dir q (sp_kv s) ->
  knots_apart (/ IZR (10 ^ 16)) (sp_ku s) -> knots_apart (/ IZR (10 ^ 16)) (sp_kv s) ->
  (p <= k < n)%nat -> nth k (sp_ku s) 0 < nth (k + 1) (sp_ku s) 0 ->
  (q <= l < m)%nat -> nth l (sp_kv s) 0 < nth (l + 1) (sp_kv s) 0 ->
  exists f fu fv fuu fvv fuv : R -> R -> vec R d,
    (forall u v, partials f fu fv fuu fvv fuv u v) /\
    forall u v u' v',
      dir_param (sp_peru s) p (sp_ku s) u -> wraps (sp_peru s) (dir_lo p (sp_ku s)) (dir_hi p (sp_ku s)) u u' ->
      dir_param (sp_perv s) q (sp_kv s) v -> wraps (sp_perv s) (dir_lo q (sp_kv s)) (dir_hi q (sp_kv s)) v v' ->
      span_set (sp_ku s) (dir_hi p (sp_ku s)) k u' -> span_set (sp_kv s) (dir_hi q (sp_kv s)) l v' ->
      sp_evaluate s u v = Ok (f u' v') /\
      sp_evaluate_derivative_u s u v = Ok (fu u' v') /\ sp_evaluate_derivative_v s u v = Ok (fv u' v') /\
      sp_evaluate_2nd_derivative_uu s u v = Ok (fuu u' v') /\ sp_evaluate_2nd_derivative_vv s u v = Ok (fvv u' v') /\
      (no_full_knot p (sp_ku s) -> no_full_knot q (sp_kv s) ->
       sp_evaluate_2nd_derivative_uv s u v = Ok (fuv u' v')).
Proof.
  intros p q n m Hi Hu Hv Au Av Hk Lk Hl Ll. pose proof (sfit_init s Hi Hu Hv) as H. fold p q in H.
  set (U := knot_of (sp_ku s)). set (V := knot_of (sp_kv s)). set (g := sp_grid s).
  set (kk := Z.of_nat k). set (ll := Z.of_nat l).
  exists (fun x y => tensor_sum n m (fun i => bsW0 U p kk i x) (fun j => bsW0 V q ll j y) g),
    (fun x y => tensor_sum n m (fun i => bsW1 U p kk i x) (fun j => bsW0 V q ll j y) g),
    (fun x y => tensor_sum n m (fun i => bsW0 U p kk i x) (fun j => bsW1 V q ll j y) g),
    (fun x y => tensor_sum n m (fun i => bsW2 U p kk i x) (fun j => bsW0 V q ll j y) g),
    (fun x y => tensor_sum n m (fun i => bsW0 U p kk i x) (fun j => bsW2 V q ll j y) g),
    (fun x y => tensor_sum n m (fun i => bsW1 U p kk i x) (fun j => bsW1 V q ll j y) g).
  assert (LU : U kk < U (kk + 1)%Z).
  { unfold U, knot_of, kk. replace (Z.to_nat (Z.of_nat k)) with k by lia. replace (Z.to_nat (Z.of_nat k + 1)) with (k + 1)%nat by lia. exact Lk. }
  assert (LV : V ll < V (ll + 1)%Z).
  { unfold V, knot_of, ll. replace (Z.to_nat (Z.of_nat l)) with l by lia. replace (Z.to_nat (Z.of_nat l + 1)) with (l + 1)%nat by lia. exact Ll. }
  split.
  - intros u v.
    apply (tensor_partials n m (fun i x => bsW0 U p kk i x) (fun i x => bsW1 U p kk i x) (fun i x => bsW2 U p kk i x)
       (fun i x => bsW0 V q ll i x) (fun i x => bsW1 V q ll i x) (fun i x => bsW2 V q ll i x)); intros.
    + apply (bsW0_deriv U (Z.of_nat n)); [exact (dir_mono p _ Hu)|unfold kk; lia|exact LU].
    + apply (bsW1_deriv U (Z.of_nat n)); [exact (dir_mono p _ Hu)|unfold kk; lia|exact LU].
    + apply (bsW0_deriv V (Z.of_nat m)); [exact (dir_mono q _ Hv)|unfold ll; lia|exact LV].
    + apply (bsW1_deriv V (Z.of_nat m)); [exact (dir_mono q _ Hv)|unfold ll; lia|exact LV].
  - intros u v u' v' Du Wu Dv Wv Su Sv.
    destruct (wraps_param _ _ _ _ _ Du Wu) as [Ru Tu]. destruct (wraps_param _ _ _ _ _ Dv Wv) as [Rv Tv].
    pose proof (wraps_dunw _ _ _ _ _ Hu Wu) as Eu. pose proof (wraps_dunw _ _ _ _ _ Hv Wv) as Ev.
    pose proof (span_in p _ k u' Hu Hk Lk Su) as Iu. pose proof (span_in q _ l v' Hv Hl Ll Sv) as Iv.
    destruct (sp_eval_all s p q H Hi u v u' v' kk ll Au Av Eu Ev Ru Tu Rv Tv) as (E0 & E1 & E2 & E3 & E4);
      [unfold kk; lia|exact Iu|unfold ll; lia|exact Iv|].
    split; [exact E0|]. split; [exact E1|]. split; [exact E2|]. split; [exact E3|]. split; [exact E4|].
    intros Fu Fv. apply (sp_eval_uv s p q H u v u' v' kk ll Au Av Fu Fv Eu Ev Ru Tu Rv Tv);
      [unfold kk; lia|exact Iu|unfold ll; lia|exact Iv].
Qed.

(** Setting a control point does not change any value until initialize() is called. *)
Lemma spatch_setter_stale d (s s' : spatch R (vec R d)) i j a u v :
  sp_set_control_point s i j a = Ok s' -> sp_evaluate s' u v = sp_evaluate s u v.
Proof.
  intros E. unfold sp_set_control_point in E. destruct (sp_nv s); try discriminate. cbn [bind] in E.
  destruct (set _ _ _) as [g| | |]; try discriminate. cbn [bind] in E. injection E as <-. reflexivity.
Qed.

Lemma spatch_setter_init d (s : spatch R (vec R d)) i j a :
  let p := Z.to_nat (sp_degu s) in let q := Z.to_nat (sp_degv s) in
  let n := dir_count p (sp_ku s) in let m := dir_count q (sp_kv s) in
  sp_initialize s = Ok s -> valid_dir p (sp_ku s) -> valid_dir q (sp_kv s) ->
  knots_apart (/ IZR (10 ^ 16)) (sp_ku s) -> knots_apart (/ IZR (10 ^ 16)) (sp_kv s) ->
  (i < n)%nat -> (j < m)%nat ->
  exists s' s'' g, sp_set_control_point s (Z.of_nat i) (Z.of_nat j) a = Ok s' /\ sp_initialize s' = Ok s'' /\
    length g = length (sp_grid s) /\ nth (i * m + j) g p0 = a /\
    (forall x, x <> (i * m + j)%nat -> nth x g p0 = nth x (sp_grid s) p0) /\
    forall u v, dir_param (sp_peru s) p (sp_ku s) u -> dir_param (sp_perv s) q (sp_kv s) v ->
    exists u' v', wraps (sp_peru s) (dir_lo p (sp_ku s)) (dir_hi p (sp_ku s)) u u' /\
      wraps (sp_perv s) (dir_lo q (sp_kv s)) (dir_hi q (sp_kv s)) v v' /\
      sp_evaluate s'' u v = Ok (tensor_sum n m (bspline_basis n (sp_ku s) u') (bspline_basis m (sp_kv s) v') g).
Proof.
  intros p q n m Hini Hu Hv Au Av Hi Hj. pose proof (sfit_init s Hini Hu Hv) as H. fold p q in H.
  pose proof (sr_g _ _ _ H) as Hg. fold n m in Hg.
  assert (Hx : (i * m + j < n * m)%nat) by nia.
  assert (HL : length (sp_grid s) = (n * m)%nat) by (unfold zlen in Hg; lia).
  set (g := upd_nat (sp_grid s) (i * m + j) a).
  assert (Lg : length g = length (sp_grid s)) by (apply upd_nat_length).
  assert (En : sp_nv s = Ok (Z.of_nat m)) by (exact (sp_nv_Ok s p q H)).
  assert (Es : set (sp_grid s) (linear_index (Z.of_nat m) (Z.of_nat i) (Z.of_nat j)) a = Ok g).
  { unfold linear_index. rewrite set_Ok by (rewrite Hg; nia). unfold g. do 2 f_equal. nia. }
  eexists. unfold sp_set_control_point. rewrite En, bind_Ok, Es, bind_Ok.
  match goal with |- exists s'' g, Ok ?x = Ok _ /\ _ => set (s1 := x) end.
  assert (H1 : sfit s1 p q).
  { split; cbn [s1 sp_degu sp_degv sp_ku sp_kv sp_grid]; try apply H. unfold zlen. rewrite Lg. exact Hg. }
  destruct (sp_init_gen s1 p q H1) as (s2 & E2 & F1 & F2 & F3 & F4 & F5 & F6 & F7 & F8 & F9 & F10).
  exists s2, g. split; [reflexivity|]. split; [exact E2|]. split; [exact Lg|]. split; [|split].
  - apply nth_error_nth. unfold g. rewrite nth_error_upd_nat by lia. now rewrite Nat.eqb_refl.
  - intros x Hne. assert (Ex : nth_error g x = nth_error (sp_grid s) x).
    { unfold g. rewrite nth_error_upd_nat by lia. destruct (Nat.eqb_spec x (i * m + j)); [contradiction|reflexivity]. }
    destruct (nth_error (sp_grid s) x) eqn:F.
    + rewrite (nth_error_nth _ _ _ F). now apply nth_error_nth.
    + apply nth_error_None in F, Ex. rewrite !nth_overflow by assumption. reflexivity.
  - intros u v Du Dv. cbn [s1 sp_tu sp_tv sp_degu sp_degv sp_ku sp_kv sp_grid sp_peru sp_perv] in *.
    pose proof (spatch_evaluate d s2 u v) as E. rewrite F3, F4, F5, F6, F7, F8, F9 in E.
    exact (E F10 Hu Hv Au Av Du Dv).
Qed.
