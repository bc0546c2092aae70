(** Bezier patches: values and derivatives. *)
From Coq Require Import Reals Lra Lia List ZArith Bool.
From Verif Require Import Monad MonadFacts LoopFacts Scalar ScalarFacts Spec SpecFacts SpecPatch TensorFacts PatchFacts.
From Verif Require Import ModelCurve CurveFacts ModelBezier BezierThms BezierThms2 ModelPatchBase ModelPatch.
Import ListNotations.
Local Open Scope R_scope.

Definition unw (per : bool) (t : R) : res R := if per then unwrap_parameter per 0 1 t else Ok t.

Lemma unwrap_wraps per t : exists u, wraps per 0 1 t u /\ unw per t = Ok u.
Proof.
  destruct per.
  - destruct (unwrap_correct 0 1 t ltac:(lra)) as (u & k & E & Hu & Hr). exists u. split; [|exact E].
    split; [exact Hr|]. exists (- k)%Z. rewrite opp_IZR. rewrite Hu. ring.
  - exists t. split; reflexivity.
Qed.

Definition bzt_ok (tdeg : Z) (n : nat) (per : bool) : Prop :=
  (tdeg < 0 \/ tdeg = Z.of_nat n)%Z /\ (per = true -> tdeg <> 1%Z).

Lemma bz_at_wrap d (pts : list (vec R d)) per t u : unw per t = Ok u ->
  let c := {| bz_pts := pts; bz_periodic := per |} in
  bz_evaluate c t = bz_evaluate (mk_bezier pts) u /\
  bz_evaluate_derivative c t = bz_evaluate_derivative (mk_bezier pts) u /\
  bz_evaluate_2nd_derivative c t = bz_evaluate_2nd_derivative (mk_bezier pts) u /\
  bz2_evaluate c t = bz2_evaluate (mk_bezier pts) u /\
  bz2_evaluate_derivative c t = bz2_evaluate_derivative (mk_bezier pts) u /\
  bz2_evaluate_2nd_derivative c t = bz2_evaluate_2nd_derivative (mk_bezier pts) u /\
  bz3_evaluate c t = bz3_evaluate (mk_bezier pts) u /\
  bz3_evaluate_derivative c t = bz3_evaluate_derivative (mk_bezier pts) u /\
  bz3_evaluate_2nd_derivative c t = bz3_evaluate_2nd_derivative (mk_bezier pts) u.
Proof.
  intros E c. assert (Ec : bz_unwrap c t = Ok u) by exact E.
  assert (Em : bz_unwrap (mk_bezier pts) u = Ok u) by reflexivity.
  unfold bz_evaluate, bz_evaluate_derivative, bz_evaluate_2nd_derivative, bz2_evaluate, bz2_evaluate_derivative,
    bz2_evaluate_2nd_derivative, bz3_evaluate, bz3_evaluate_derivative, bz3_evaluate_2nd_derivative.
  rewrite Ec, Em. repeat split.
Qed.

Lemma bzt_lin per t : exists u, wraps per 0 1 t u /\ unw per t = Ok u /\
  forall d tdeg n (pts : list (vec R d)), bzt_ok tdeg n per -> length pts = S n ->
  let c := {| bz_pts := pts; bz_periodic := per |} in
  bzt_evaluate tdeg c t = Ok (lin (S n) (fun i => bzW0 n i u) pts) /\
  bzt_evaluate_derivative tdeg c t = Ok (lin (S n) (fun i => bzW1 n i u) pts) /\
  bzt_evaluate_2nd_derivative tdeg c t = Ok (lin (S n) (fun i => bzW2 n i u) pts).
Proof.
  destruct (unwrap_wraps per t) as (u & Hw & Eu). exists u. split; [exact Hw|]. split; [exact Eu|].
  intros d tdeg n pts [Ht Hper] Hl c.
  destruct (bz_at_wrap d pts per t u Eu) as (G0 & G1 & G2 & Q0 & Q1 & Q2 & C0 & C1 & C2). fold c in G0, G1, G2, Q0, Q1, Q2, C0, C1, C2.
  destruct (bez_lin d n pts u Hl) as (L0 & L1 & L2).
  unfold bzt_evaluate, bzt_evaluate_derivative, bzt_evaluate_2nd_derivative, bzt.
  destruct (Z.eqb_spec tdeg 0) as [->|].
  { assert (n = 0)%nat by lia. subst n. destruct (bezier_deg0 d pts u Hl) as (D0 & D1 & D2 & _).
    rewrite <- L0, <- L1, <- L2, <- D0, <- D1, <- D2. repeat split. }
  destruct (Z.eqb_spec tdeg 1) as [->|].
  { assert (n = 1)%nat by lia. subst n. destruct (bezier_deg1 d pts u Hl) as (D0 & D1 & D2 & _).
    assert (per = false) by (destruct per; [exfalso; now apply Hper|reflexivity]). subst per.
    rewrite <- L0, <- L1, <- L2, <- D0, <- D1, <- D2. cbn in Hw. rewrite Hw. repeat split. }
  destruct (Z.eqb_spec tdeg 2) as [->|].
  { assert (n = 2)%nat by lia. subst n. destruct (bezier_deg2 d pts u Hl) as (D0 & D1 & D2 & _).
    rewrite <- L0, <- L1, <- L2, <- D0, <- D1, <- D2, Q0, Q1, Q2. repeat split. }
  destruct (Z.eqb_spec tdeg 3) as [->|].
  { assert (n = 3)%nat by lia. subst n. destruct (bezier_deg3 d pts u Hl) as (D0 & D1 & D2 & _).
    rewrite <- L0, <- L1, <- L2, <- D0, <- D1, <- D2, C0, C1, C2. repeat split. }
  rewrite G0, G1, G2. repeat split; assumption.
Qed.

(** A patch with degrees [n], [m] whose template arguments are compatible. *)
Record bprep {d} (s : bpatch (vec R d)) (n m : nat) : Prop := {
  br_u : bp_degu s = Z.of_nat n;
  br_v : bp_degv s = Z.of_nat m;
  br_g : zlen (bp_grid s) = (Z.of_nat (S n) * Z.of_nat (S m))%Z;
  br_tu : bzt_ok (bp_tu s) n (bp_peru s);
  br_tv : bzt_ok (bp_tv s) m (bp_perv s);
}.

Section Eval.
  Context {d : nat} (s : bpatch (vec R d)) (n m : nat) (H : bprep s n m).

  Lemma bp_nu_Ok : bp_nu s = Ok (Z.of_nat (S n)).
  Proof.
    unfold bp_nu, checked_degree. rewrite (br_u _ _ _ H).
    replace (0 <=? Z.of_nat n)%Z with true by (symmetry; apply Z.leb_le; lia). cbn [assert_ bind]. f_equal. lia.
  Qed.
  Lemma bp_nv_Ok : bp_nv s = Ok (Z.of_nat (S m)).
  Proof.
    unfold bp_nv, checked_degree. rewrite (br_v _ _ _ H).
    replace (0 <=? Z.of_nat m)%Z with true by (symmetry; apply Z.leb_le; lia). cbn [assert_ bind]. f_equal. lia.
  Qed.

  Lemma check_rows_Ok tdeg k per : bzt_ok tdeg k per -> check_rows tdeg (Z.of_nat (S k)) = Ok tt.
  Proof.
    intros [Ht _]. unfold check_rows. destruct Ht as [Ht| ->].
    - replace (tdeg <? 0)%Z with true by (symmetry; apply Z.ltb_lt; lia). reflexivity.
    - replace (Z.of_nat (S k) =? Z.of_nat k + 1)%Z with true by (symmetry; apply Z.eqb_eq; lia).
      rewrite orb_true_r. reflexivity.
  Qed.

  Lemma grid_get_Ok i j : (0 <= i < Z.of_nat (S n))%Z -> (0 <= j < Z.of_nat (S m))%Z ->
    grid_get (bp_grid s) (Z.of_nat (S m)) i j = Ok (nth (Z.to_nat (i * Z.of_nat (S m) + j)) (bp_grid s) p0).
  Proof. intros Hi Hj. apply (garr_of _ _ _ (br_g _ _ _ H)); assumption. Qed.

  Definition brow (i : Z) : list (vec R d) :=
    mklist (Z.of_nat (S m)) (fun j => nth (Z.to_nat (i * Z.of_nat (S m) + j)) (bp_grid s) p0).
  Definition bcol (j : Z) : list (vec R d) :=
    mklist (Z.of_nat (S n)) (fun i => nth (Z.to_nat (i * Z.of_nat (S m) + j)) (bp_grid s) p0).

  Lemma len_brow i : length (brow i) = S m.
  Proof. unfold brow. rewrite length_mklist, Nat2Z.id. reflexivity. Qed.
  Lemma len_bcol j : length (bcol j) = S n.
  Proof. unfold bcol. rewrite length_mklist, Nat2Z.id. reflexivity. Qed.

  Lemma iso_v_Ok : bp_iso_curves_v s =
    Ok (mklist (Z.of_nat (S n)) (fun i => {| bz_pts := brow i; bz_periodic := bp_perv s |})).
  Proof.
    unfold bp_iso_curves_v. rewrite bp_nu_Ok, bp_nv_Ok, !bind_Ok. apply tabulate_Ok; [lia|]. intros i Hi.
    rewrite (check_rows_Ok _ _ _ (br_tv _ _ _ H)), bind_Ok.
    rewrite (tabulate_Ok _ _ (fun j => nth (Z.to_nat (i * Z.of_nat (S m) + j)) (bp_grid s) p0)); [reflexivity|lia|].
    intros j Hj. now apply grid_get_Ok.
  Qed.

  Lemma iso_u_Ok : bp_iso_curves_u s =
    Ok (mklist (Z.of_nat (S m)) (fun j => {| bz_pts := bcol j; bz_periodic := bp_peru s |})).
  Proof.
    unfold bp_iso_curves_u. rewrite bp_nu_Ok, bp_nv_Ok, !bind_Ok. apply tabulate_Ok; [lia|]. intros j Hj.
    rewrite (check_rows_Ok _ _ _ (br_tu _ _ _ H)), bind_Ok.
    rewrite (tabulate_Ok _ _ (fun i => nth (Z.to_nat (i * Z.of_nat (S m) + j)) (bp_grid s) p0)); [reflexivity|lia|].
    intros i Hi. now apply grid_get_Ok.
  Qed.

  Lemma bp_eval_all u v : exists u' v', wraps (bp_peru s) 0 1 u u' /\ wraps (bp_perv s) 0 1 v v' /\
    unw (bp_peru s) u = Ok u' /\ unw (bp_perv s) v = Ok v' /\
    bp_evaluate s u v = Ok (tensor_sum (S n) (S m) (fun i => bzW0 n i u') (fun j => bzW0 m j v') (bp_grid s)) /\
    bp_evaluate_derivative_u s u v = Ok (tensor_sum (S n) (S m) (fun i => bzW1 n i u') (fun j => bzW0 m j v') (bp_grid s)) /\
    bp_evaluate_derivative_v s u v = Ok (tensor_sum (S n) (S m) (fun i => bzW0 n i u') (fun j => bzW1 m j v') (bp_grid s)) /\
    bp_evaluate_2nd_derivative_uu s u v = Ok (tensor_sum (S n) (S m) (fun i => bzW2 n i u') (fun j => bzW0 m j v') (bp_grid s)) /\
    bp_evaluate_2nd_derivative_vv s u v = Ok (tensor_sum (S n) (S m) (fun i => bzW0 n i u') (fun j => bzW2 m j v') (bp_grid s)).
  Proof.
    destruct (bzt_lin (bp_peru s) u) as (u' & Wu & Eu & Lu). destruct (bzt_lin (bp_perv s) v) as (v' & Wv & Ev & Lv).
    exists u', v'. split; [exact Wu|]. split; [exact Wv|]. split; [exact Eu|]. split; [exact Ev|].
    assert (EU : bp_iso_curve_u s v = Ok {| bz_pts := mklist (Z.of_nat (S n)) (fun i => lin (S m) (fun j => bzW0 m j v') (brow i));
       bz_periodic := bp_peru s |}).
    { unfold bp_iso_curve_u. rewrite bp_nu_Ok, bind_Ok, (check_rows_Ok _ _ _ (br_tu _ _ _ H)), bind_Ok, iso_v_Ok, bind_Ok.
      rewrite (tabulate_Ok _ _ (fun i => lin (S m) (fun j => bzW0 m j v') (brow i))); [reflexivity|lia|].
      intros i Hi. rewrite get_mklist by assumption. rewrite bind_Ok.
      apply (Lv d (bp_tv s) m (brow i) (br_tv _ _ _ H) (len_brow i)). }
    assert (EV : bp_iso_curve_v s u = Ok {| bz_pts := mklist (Z.of_nat (S m)) (fun j => lin (S n) (fun i => bzW0 n i u') (bcol j));
       bz_periodic := bp_perv s |}).
    { unfold bp_iso_curve_v. rewrite bp_nv_Ok, bind_Ok, (check_rows_Ok _ _ _ (br_tv _ _ _ H)), bind_Ok, iso_u_Ok, bind_Ok.
      rewrite (tabulate_Ok _ _ (fun j => lin (S n) (fun i => bzW0 n i u') (bcol j))); [reflexivity|lia|].
      intros j Hj. rewrite get_mklist by assumption. rewrite bind_Ok.
      apply (Lu d (bp_tu s) n (bcol j) (br_tu _ _ _ H) (len_bcol j)). }
    destruct (Lu d (bp_tu s) n (mklist (Z.of_nat (S n)) (fun i => lin (S m) (fun j => bzW0 m j v') (brow i))) (br_tu _ _ _ H))
      as (A0 & A1 & A2); [rewrite length_mklist, Nat2Z.id; reflexivity|].
    destruct (Lv d (bp_tv s) m (mklist (Z.of_nat (S m)) (fun j => lin (S n) (fun i => bzW0 n i u') (bcol j))) (br_tv _ _ _ H))
      as (B0 & B1 & B2); [rewrite length_mklist, Nat2Z.id; reflexivity|].
    unfold brow in A0, A1, A2. unfold bcol in B0, B1, B2. rewrite lin_of_rows in A0, A1, A2. rewrite lin_of_cols in B0, B1, B2.
    fold (brow) in EU. unfold brow in EU. unfold bcol in EV.
    unfold bp_evaluate, bp_evaluate_derivative_u, bp_evaluate_derivative_v, bp_evaluate_2nd_derivative_uu, bp_evaluate_2nd_derivative_vv.
    rewrite EU, EV, !bind_Ok.
    split; [destruct (Z.ltb (bp_degu s) (bp_degv s)); assumption|].
    repeat split; assumption.
  Qed.
End Eval.

(** ** The mixed derivative *)
Lemma bp_initialize_rep d (s : bpatch (vec R d)) :
  bp_initialize s = Ok s -> bzt_ok (bp_tu s) (Z.to_nat (bp_degu s)) (bp_peru s) ->
  bzt_ok (bp_tv s) (Z.to_nat (bp_degv s)) (bp_perv s) ->
  bprep s (Z.to_nat (bp_degu s)) (Z.to_nat (bp_degv s)).
Proof.
  unfold bp_initialize, checked_degree. intros E H1 H2.
  destruct (Z.leb_spec 0 (bp_degu s)) as [Hu|]; [|discriminate]. cbn [assert_ bind] in E.
  destruct (Z.leb_spec 0 (bp_degv s)) as [Hv|]; [|discriminate]. cbn [assert_ bind] in E.
  destruct (_ || _) in E; [discriminate|].
  destruct (Z.eqb_spec (zlen (bp_grid s)) ((bp_degu s + 1) * (bp_degv s + 1))) as [Eg|]; [|discriminate].
  split; try assumption; lia.
Qed.

Lemma bprep_initialize d (s : bpatch (vec R d)) n m : bprep s n m -> bp_initialize s = Ok s.
Proof.
  intros H. unfold bp_initialize, checked_degree. rewrite (br_u _ _ _ H), (br_v _ _ _ H), (br_g _ _ _ H).
  replace (0 <=? Z.of_nat n)%Z with true by (symmetry; apply Z.leb_le; lia).
  replace (0 <=? Z.of_nat m)%Z with true by (symmetry; apply Z.leb_le; lia). cbn [assert_ bind].
  replace (Z.of_nat n <? 0)%Z with false by (symmetry; apply Z.ltb_ge; lia).
  replace (Z.of_nat m <? 0)%Z with false by (symmetry; apply Z.ltb_ge; lia). cbn [orb].
  replace (Z.of_nat (S n) * Z.of_nat (S m) =? (Z.of_nat n + 1) * (Z.of_nat m + 1))%Z with true; [reflexivity|].
  symmetry. apply Z.eqb_eq. f_equal; lia.
Qed.

Lemma tensor_zero_l {d} n m bv (g : list (vec R d)) : tensor_sum n m (fun _ => 0) bv g = p0.
Proof.
  apply vec_ext. intros k Hk. rewrite tensor_coord, coord_0 by assumption. apply rsum_0. intros i Hi. apply rsum_0. intros. ring.
Qed.
Lemma tensor_zero_r {d} n m bu (g : list (vec R d)) : tensor_sum n m bu (fun _ => 0) g = p0.
Proof.
  apply vec_ext. intros k Hk. rewrite tensor_coord, coord_0 by assumption. apply rsum_0. intros i Hi. apply rsum_0. intros. ring.
Qed.

Lemma bp_zero_eval d u v : (do z <- @bp_zero R (vec R d) _ (-1)%Z (-1)%Z; bp_evaluate z u v) = Ok p0.
Proof.
  change (@bp_zero R (vec R d) _ (-1)%Z (-1)%Z) with (Ok (bp_set_grid (bp_set_degrees (bp_new (-1) (-1)) 0 0)%Z [@p0 R (vec R d) _])).
  rewrite bind_Ok.
  set (z := bp_set_grid (bp_set_degrees (bp_new (-1) (-1)) 0 0)%Z [@p0 R (vec R d) _]).
  assert (Hz : bprep z 0 0) by (repeat split; try reflexivity; try (left; reflexivity); discriminate).
  destruct (bp_eval_all z 0 0 Hz u v) as (u' & v' & _ & _ & _ & _ & E & _). rewrite E. f_equal.
  apply vec_ext. intros k Hk. rewrite tensor_coord, coord_0 by assumption.
  apply rsum_0. intros i Hi. apply rsum_0. intros j Hj. replace (i * 1 + j)%nat with O by lia.
  cbn [nth bp_grid z bp_set_grid]. rewrite coord_0 by assumption. ring.
Qed.

Lemma tensor_diff2 {d} n m (g g' : list (vec R d)) u v :
  (forall i j, (i < S n)%nat -> (j < S m)%nat ->
     nth (i * S m + j) g' p0 =
     pmul (INR (S m)) (psub (pmul (INR (S n)) (psub (nth (S i * S (S m) + S j) g p0) (nth (i * S (S m) + S j) g p0)))
                            (pmul (INR (S n)) (psub (nth (S i * S (S m) + j) g p0) (nth (i * S (S m) + j) g p0))))) ->
  tensor_sum (S n) (S m) (fun i => bernstein n i u) (fun j => bernstein m j v) g' =
  tensor_sum (S (S n)) (S (S m)) (fun i => bzW1 (S n) i u) (fun j => bzW1 (S m) j v) g.
Proof.
  intros Hg. rewrite <- tensor_rows.
  rewrite <- tensor_rows.
  rewrite (bzW1_diff d n (fun i => psum (S (S m)) (fun j => pmul (bzW1 (S m) j v) (nth (i * S (S m) + j) g p0))) u).
  apply psum_ext. intros i Hi. f_equal.
  rewrite !(bzW1_diff d m (fun j => nth (_ * S (S m) + j) g p0) v).
  apply vec_ext. intros k Hk. rewrite coord_mul, coord_sub, !coord_psum by assumption.
  rewrite <- rsum_minus, <- rsum_scal. apply rsum_ext. intros j Hj. rewrite Hg by assumption.
  rewrite !coord_mul, !coord_sub, !coord_mul, !coord_sub by assumption. ring.
Qed.

Lemma tensor_bernstein {d} n m (g : list (vec R d)) u v :
  tensor_sum (S n) (S m) (fun i => bzW0 n i u) (fun j => bzW0 m j v) g =
  tensor_sum (S n) (S m) (fun i => bernstein n i u) (fun j => bernstein m j v) g.
Proof. apply tensor_ext; intros; try reflexivity; apply bzW0_bernstein; lia. Qed.

Lemma bp_eval_uv {d} (s : bpatch (vec R d)) n m (H : bprep s n m) u v u' v' :
  unw (bp_peru s) u = Ok u' -> unw (bp_perv s) v = Ok v' ->
  bp_evaluate_2nd_derivative_uv s u v =
    Ok (tensor_sum (S n) (S m) (fun i => bzW1 n i u') (fun j => bzW1 m j v') (bp_grid s)).
Proof.
  intros Eu Ev. unfold bp_evaluate_2nd_derivative_uv, bp_duv_patch, checked_degree. rewrite (br_u _ _ _ H), (br_v _ _ _ H).
  replace (0 <=? Z.of_nat n)%Z with true by (symmetry; apply Z.leb_le; lia).
  replace (0 <=? Z.of_nat m)%Z with true by (symmetry; apply Z.leb_le; lia). cbn [assert_ bind].
  destruct n as [|n]; [cbn [Z.of_nat Z.eqb orb]; rewrite bp_zero_eval; f_equal; symmetry; apply tensor_zero_l|].
  destruct m as [|m]; [rewrite orb_true_r; rewrite bp_zero_eval; f_equal; symmetry; apply tensor_zero_r|].
  destruct (Z.eqb_spec (Z.of_nat (S n)) 0) as [|_]; [lia|]. destruct (Z.eqb_spec (Z.of_nat (S m)) 0) as [|_]; [lia|]. cbn [orb].
  rewrite (bp_nv_Ok s (S n) (S m) H).
  destruct (fill_grid_Ok (Z.of_nat (S n)) (Z.of_nat (S m)) (fun i j =>
      do a <- (do nv <- Ok (Z.of_nat (S (S m))); grid_get (bp_grid s) nv (i + 1) j);
      do b <- (do nv <- Ok (Z.of_nat (S (S m))); grid_get (bp_grid s) nv i j);
      do a0 <- (do nv <- Ok (Z.of_nat (S (S m))); grid_get (bp_grid s) nv (i + 1) (j + 1));
      do b0 <- (do nv <- Ok (Z.of_nat (S (S m))); grid_get (bp_grid s) nv i (j + 1));
      Ok (pmul (sofZ (Z.of_nat (S m))) (psub (pmul (sofZ (Z.of_nat (S n))) (psub a0 b0))
            (pmul (sofZ (Z.of_nat (S n))) (psub a b)))))
    (fun i j => let G i j := nth (Z.to_nat (i * Z.of_nat (S (S m)) + j)) (bp_grid s) p0 in
      pmul (sofZ (Z.of_nat (S m))) (psub (pmul (sofZ (Z.of_nat (S n))) (psub (G (i + 1) (j + 1)) (G i (j + 1))))
            (pmul (sofZ (Z.of_nat (S n))) (psub (G (i + 1) j) (G i j)))))%Z) as (g & Eg & Hg); [lia|lia| |].
  { intros i j Hi Hj. rewrite !bind_Ok. rewrite !(grid_get_Ok s (S n) (S m) H) by lia. rewrite !bind_Ok. reflexivity. }
  rewrite Eg, bind_Ok.
  set (sd := bp_set_periodic _ _ _).
  assert (Hd : bprep sd n m).
  { split.
    - cbn [sd bp_set_periodic bp_set_grid bp_set_degrees bp_degu]. lia.
    - cbn [sd bp_set_periodic bp_set_grid bp_set_degrees bp_degv]. lia.
    - cbn [sd bp_set_periodic bp_set_grid bp_set_degrees bp_grid]. apply Hg.
    - split; [left; reflexivity|discriminate].
    - split; [left; reflexivity|discriminate]. }
  rewrite (bprep_initialize _ _ _ _ Hd), bind_Ok.
  destruct (bp_eval_all sd n m Hd u v) as (u2 & v2 & _ & _ & Eu2 & Ev2 & E & _). rewrite E. f_equal.
  cbn [sd bp_set_periodic bp_peru bp_perv bp_set_grid bp_grid] in *.
  assert (u2 = u') by congruence. assert (v2 = v') by congruence. subst u2 v2.
  rewrite tensor_bernstein. apply tensor_diff2. intros i j Hi Hj.
  rewrite (garr_nth _ _ _ _ i j (S m) Hg eq_refl) by lia. cbv zeta.
  cbn [sofZ R_ops]. rewrite !INR_IZR_INZ.
  replace (Z.to_nat ((Z.of_nat i + 1) * Z.of_nat (S (S m)) + (Z.of_nat j + 1))) with (S i * S (S m) + S j)%nat by lia.
  replace (Z.to_nat (Z.of_nat i * Z.of_nat (S (S m)) + (Z.of_nat j + 1))) with (i * S (S m) + S j)%nat by lia.
  replace (Z.to_nat ((Z.of_nat i + 1) * Z.of_nat (S (S m)) + Z.of_nat j)) with (S i * S (S m) + j)%nat by lia.
  replace (Z.to_nat (Z.of_nat i * Z.of_nat (S (S m)) + Z.of_nat j)) with (i * S (S m) + j)%nat by lia.
  reflexivity.
Qed.

(** ** Main statements *)
Lemma bpatch_evaluate d (s : bpatch (vec R d)) u v :
  bp_initialize s = Ok s ->
  (bp_tu s = -1 \/ bp_tu s = bp_degu s)%Z -> (bp_tv s = -1 \/ bp_tv s = bp_degv s)%Z ->
  (bp_peru s = true -> bp_tu s <> 1%Z) -> (bp_perv s = true -> bp_tv s <> 1%Z) ->
  let nu := S (Z.to_nat (bp_degu s)) in
  let nv := S (Z.to_nat (bp_degv s)) in
  exists u' v', wraps (bp_peru s) 0 1 u u' /\ wraps (bp_perv s) 0 1 v v' /\
    bp_evaluate s u v = Ok (tensor_sum nu nv (bezier_basis nu u') (bezier_basis nv v') (bp_grid s)).
Proof.
  intros Hi Htu Htv Hpu Hpv nu nv.
  assert (Hd : (0 <= bp_degu s /\ 0 <= bp_degv s)%Z).
  { unfold bp_initialize, checked_degree in Hi. destruct (Z.leb_spec 0 (bp_degu s)); [|discriminate].
    destruct (Z.leb_spec 0 (bp_degv s)); [auto|discriminate]. }
  assert (H : bprep s (Z.to_nat (bp_degu s)) (Z.to_nat (bp_degv s))).
  { apply bp_initialize_rep; [exact Hi| |]; (split; [lia|assumption]). }
  destruct (bp_eval_all s _ _ H u v) as (u' & v' & Wu & Wv & _ & _ & E & _).
  exists u', v'. split; [exact Wu|]. split; [exact Wv|]. rewrite E, tensor_bernstein. f_equal.
  unfold bezier_basis, nu, nv. cbn [Nat.sub]. rewrite !Nat.sub_0_r. reflexivity.
Qed.

Lemma bpatch_derivatives d (s : bpatch (vec R d)) :
  bp_initialize s = Ok s ->
  (bp_tu s = -1 \/ bp_tu s = bp_degu s)%Z -> (bp_tv s = -1 \/ bp_tv s = bp_degv s)%Z ->
  (bp_peru s = true -> bp_tu s <> 1%Z) -> (bp_perv s = true -> bp_tv s <> 1%Z) ->
  exists f fu fv fuu fvv fuv : R -> R -> vec R d,
    (forall u v, partials f fu fv fuu fvv fuv u v) /\
    forall u v, exists u' v', wraps (bp_peru s) 0 1 u u' /\ wraps (bp_perv s) 0 1 v v' /\
      bp_evaluate s u v = Ok (f u' v') /\
      bp_evaluate_derivative_u s u v = Ok (fu u' v') /\ bp_evaluate_derivative_v s u v = Ok (fv u' v') /\
      bp_evaluate_2nd_derivative_uu s u v = Ok (fuu u' v') /\ bp_evaluate_2nd_derivative_vv s u v = Ok (fvv u' v') /\
      bp_evaluate_2nd_derivative_uv s u v = Ok (fuv u' v').
Proof.
  intros Hi Htu Htv Hpu Hpv.
  assert (Hd : (0 <= bp_degu s /\ 0 <= bp_degv s)%Z).
  { unfold bp_initialize, checked_degree in Hi. destruct (Z.leb_spec 0 (bp_degu s)); [|discriminate].
    destruct (Z.leb_spec 0 (bp_degv s)); [auto|discriminate]. }
  assert (H : bprep s (Z.to_nat (bp_degu s)) (Z.to_nat (bp_degv s))).
  { apply bp_initialize_rep; [exact Hi| |]; (split; [lia|assumption]). }
  set (n := Z.to_nat (bp_degu s)) in *. set (m := Z.to_nat (bp_degv s)) in *. set (g := bp_grid s).
  exists (fun x y => tensor_sum (S n) (S m) (fun i => bzW0 n i x) (fun j => bzW0 m j y) g),
    (fun x y => tensor_sum (S n) (S m) (fun i => bzW1 n i x) (fun j => bzW0 m j y) g),
    (fun x y => tensor_sum (S n) (S m) (fun i => bzW0 n i x) (fun j => bzW1 m j y) g),
    (fun x y => tensor_sum (S n) (S m) (fun i => bzW2 n i x) (fun j => bzW0 m j y) g),
    (fun x y => tensor_sum (S n) (S m) (fun i => bzW0 n i x) (fun j => bzW2 m j y) g),
    (fun x y => tensor_sum (S n) (S m) (fun i => bzW1 n i x) (fun j => bzW1 m j y) g).
  split.
  - intros u v. apply (tensor_partials (S n) (S m) (bzW0 n) (bzW1 n) (bzW2 n) (bzW0 m) (bzW1 m) (bzW2 m));
      intros; try apply bzW0_deriv; apply bzW1_deriv.
  - intros u v. destruct (bp_eval_all s _ _ H u v) as (u' & v' & Wu & Wv & Eu & Ev & E0 & E1 & E2 & E3 & E4).
    exists u', v'. split; [exact Wu|]. split; [exact Wv|]. split; [exact E0|]. split; [exact E1|]. split; [exact E2|].
    split; [exact E3|]. split; [exact E4|]. now apply (bp_eval_uv s n m H).
Qed.
