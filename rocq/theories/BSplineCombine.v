(** convert_to_BSpline and combine_Beziers. *)
From Coq Require Import Reals Lra Lia ZArith List Permutation Bool.
From Verif Require Import Monad MonadFacts LoopFacts Scalar ScalarFacts Spec SpecFacts SpecGeom Polar ModelCurve CurveFacts ModelBezier
  BezierFacts BezierMath BezierThms BSplineMath ModelBSpline BSplineFacts BSplineThms BSplineThms2 BSplineThms3 BSplineInsert
  BSplineInsert2 BSplineInsert3 BSplineSplit BSplineConvert CurveThms RationalThms PrimitiveFacts EdistFacts BSplineRemove BSplineRemove2
  BSplineRemove3 BSplineRemove4 BSplineRemove5 BSplineRemove6.
Import ListNotations.
Local Open Scope R_scope.
Local Ltac Zify.zify_post_hook ::= Z.div_mod_to_equations.

(** Control points that differ little give Bezier curves that differ little. *)
Lemma bz_close d (l l' : list (vec R d)) n f f' t e : arr l (Z.of_nat n + 1) f -> arr l' (Z.of_nat n + 1) f' -> 0 <= t <= 1 ->
  (forall i, (0 <= i <= Z.of_nat n)%Z -> edist (f i) (f' i) <= e) ->
  exists v v', bz_evaluate (mk_bezier l) t = Ok v /\ bz_evaluate (mk_bezier l') t = Ok v' /\ edist v v' <= e.
Proof.
  intros H H' Ht He. do 2 eexists. split; [now apply (arr_bezier d (mk_bezier l) n f t)|].
  split; [now apply (arr_bezier d (mk_bezier l') n f' t)|]. apply tri_close.
  - intros j Hj. apply He. lia.
  - intros r j _ _. exact Ht.
Qed.

(** ** convert_to_BSpline(Bezier) *)
Lemma bezier_to_bspline_rep d (c : bezier (vec R d)) n : length (bz_pts c) = S n ->
  exists b, bezier_to_bspline c = Ok b /\ bs_pts b = bz_pts c /\ bs_periodic b = false /\
    bs_knots b = repeat 0 (S n) ++ repeat 1 (S n) /\
    forall cp, arr (bz_pts c) (Z.of_nat n + 1) cp ->
      bsrep b (Z.of_nat n + 1) (Z.of_nat n) (fun i => if (i <=? Z.of_nat n)%Z then 0 else 1) cp.
Proof.
  intros Hlen. unfold bezier_to_bspline, bz_degree. replace (zlen (bz_pts c) - 1)%Z with (Z.of_nat n) by (unfold zlen; lia).
  set (q := Z.of_nat n).
  destruct (arr_alloc (0:R) ((q + 1) * 2)) as (K & E & HK); [lia|]. change (@s0 R _) with 0. rewrite E, bind_Ok. clear E.
  destruct (arr_alloc (0:R) (q + 1)) as (x & E & Hx); [lia|]. rewrite E, bind_Ok. clear E.
  destruct (arr_blit K _ _ 0 x (q + 1) _ HK Hx) as (K1 & E & HK1); [lia|lia|]. rewrite E, bind_Ok. clear E.
  destruct (arr_alloc (s1:R) (q + 1)) as (y & E & Hy); [lia|]. rewrite E, bind_Ok. clear E.
  destruct (arr_blit K1 _ _ (q + 1) y (q + 1) _ HK1 Hy) as (K2 & E & HK2); [lia|lia|]. rewrite E, bind_Ok. clear E.
  assert (HKf : arr K2 (q + 1 + q + 1) (fun i => if (i <=? q)%Z then 0 else 1)).
  { replace (q + 1 + q + 1)%Z with ((q + 1) * 2)%Z by lia. eapply arr_ext; [exact HK2|]. intros i Hi. cbv beta. zbool; reflexivity || lia. }
  eexists. split; [reflexivity|]. split; [reflexivity|]. split; [reflexivity|]. split.
  - cbn [bs_knots mk_bspline]. apply (arr_uniq _ _ _ _ HKf). split; [unfold zlen; rewrite app_length, !repeat_length; lia|].
    intros i Hi. rewrite (get_nth _ _ 0) by (unfold zlen; rewrite app_length, !repeat_length; lia). f_equal.
    destruct (Z.leb_spec i q).
    + rewrite app_nth1 by (rewrite repeat_length; lia). apply nth_repeat.
    + rewrite app_nth2 by (rewrite repeat_length; lia). rewrite nth_indep with (d' := 1) by (rewrite !repeat_length; lia). apply nth_repeat.
  - intros cp Hcp. split; cbn [bs_pts bs_knots mk_bspline]; [exact Hcp|exact HKf|lia|lia].
Qed.

Lemma bezier_to_bspline_ok d (c : bezier (vec R d)) n : length (bz_pts c) = S n -> bz_periodic c = false ->
  exists b, bezier_to_bspline c = Ok b /\ bs_periodic b = false /\ bs_pts b = bz_pts c /\
    valid_bspline (bs_pts b) (bs_knots b) /\ bspline_degree (bs_pts b) (bs_knots b) = n /\
    lower_of (bs_pts b) (bs_knots b) = 0 /\ upper_of (bs_pts b) (bs_knots b) = 1 /\
    forall t, 0 <= t <= 1 -> bs_evaluate b t = bz_evaluate c t.
Proof.
  intros Hlen Hper. destruct (bezier_to_bspline_rep d c n Hlen) as (b & E & Ep & Eper & _ & Hrep).
  pose proof (arr_nth (bz_pts c) p0) as Hcp. replace (zlen (bz_pts c)) with (Z.of_nat n + 1)%Z in Hcp by (unfold zlen; lia).
  specialize (Hrep _ Hcp). set (U := fun i => if (i <=? Z.of_nat n)%Z then 0 else 1) in *.
  assert (Hv : kval (Z.of_nat n + 1) (Z.of_nat n) U).
  { split; [|unfold U; zbool; lra]. intros i j H1 H2 H3. unfold U. zbool; lra. }
  destruct (rep_valid b _ _ _ _ Hrep Hv) as (Hvb & Hdeg & Hn & HU & _).
  assert (Hdeg' : bspline_degree (bs_pts b) (bs_knots b) = n) by lia.
  exists b. split; [exact E|]. split; [exact Eper|]. split; [exact Ep|]. split; [exact Hvb|]. split; [exact Hdeg'|].
  split; [unfold lower_of; rewrite <- knot_of_nat, Hdeg', HU by lia; unfold U; zbool; reflexivity|].
  split; [unfold upper_of; rewrite <- knot_of_nat, HU by lia; unfold U; zbool; reflexivity|].
  intros t Ht. assert (Eb : b = nonperiodic b) by (destruct b; cbn in *; unfold nonperiodic, mk_bspline; cbn; congruence).
  assert (Ec : c = mk_bezier (bz_pts c)) by (destruct c; cbn in *; unfold mk_bezier; congruence).
  rewrite Eb, Ec. rewrite <- (seg_eval b (Z.of_nat n + 1) (Z.of_nat n) U _ Hrep Hv) with (l := bz_pts c) (k := Z.of_nat n).
  - f_equal. unfold U. zbool. field.
  - intros i j Hi Hj. unfold U. zbool; intros; try lra. rewrite btol_val. rewrite Rminus_0_r. rewrite <- Rinv_1.
    apply Rinv_lt_contravar; [rewrite Rmult_1_l|]; apply IZR_lt; reflexivity.
  - left. unfold U. zbool. lra.
  - intros k Hk Hlt. assert (k = Z.of_nat n) by lia. subst k. split; intros i Hi; unfold U; zbool; reflexivity.
  - split; [lia|]. split; [unfold U; zbool; lra|]. eapply arr_ext; [exact Hcp|]. intros i Hi. cbv beta. do 2 f_equal. lia.
  - unfold U. zbool. destruct (Rlt_le_dec t 1); [left; lra|right; split; [lra|left; reflexivity]].
Qed.

(** ** combine_Beziers *)
Section Combine.
  Context {d : nat}.
  Variables (m q : Z) (b : Z -> R).
  Hypothesis Hm : (1 <= m)%Z.
  Hypothesis Hq : (1 <= q)%Z.

  Definition cU (i : Z) : R := b (Z.min m (Z.max 0 ((i - 1) / q))).
  Definition cn := (m * q + 1)%Z.

  Lemma cU_at j i : (0 <= j <= m)%Z -> (j * q + 1 <= i <= j * q + q)%Z -> cU i = b j.
  Proof. intros Hj Hi. unfold cU. f_equal. assert (((i - 1) / q)%Z = j) by nia. lia. Qed.

  Lemma cU_0 : cU 0 = b 0%Z.
  Proof. unfold cU. f_equal. assert (((0 - 1) / q < 0)%Z) by nia. lia. Qed.

  Lemma cU_last : cU (m * q + q + 1) = b m.
  Proof. unfold cU. f_equal. assert (((m * q + q + 1 - 1) / q = m + 1)%Z) by nia. lia. Qed.

  Lemma cU_index i : (0 <= i <= cn + q)%Z -> exists j, (0 <= j <= m)%Z /\ cU i = b j /\
    (i = 0 /\ j = 0 \/ j * q + 1 <= i <= j * q + q \/ i = m * q + q + 1 /\ j = m)%Z.
  Proof.
    intros Hi. unfold cn in *. destruct (Z.eq_dec i 0) as [->|]; [exists 0%Z; split; [lia|]; split; [apply cU_0|lia]|].
    destruct (Z.eq_dec i (m * q + q + 1)) as [->|]; [exists m; split; [lia|]; split; [apply cU_last|lia]|].
    exists ((i - 1) / q)%Z. assert (0 <= (i - 1) / q <= m)%Z by nia. assert ((i - 1) / q * q + 1 <= i <= (i - 1) / q * q + q)%Z by nia.
    split; [assumption|]. split; [apply cU_at; assumption|lia].
  Qed.

  Lemma cU_sat k : (q <= k < cn)%Z -> cU k < cU (k + 1)%Z ->
    (forall i, (k - q < i <= k)%Z -> cU i = cU k) /\ (forall i, (k + 1 <= i <= k + q)%Z -> cU i = cU (k + 1)%Z).
  Proof.
    intros Hk Hlt. unfold cn in *.
    assert (Hj : exists j, (0 <= j < m)%Z /\ k = ((j + 1) * q)%Z).
    { exists ((k - 1) / q)%Z. split; [nia|]. destruct (Z.eq_dec k (((k - 1) / q + 1) * q)) as [E|E]; [exact E|exfalso].
      rewrite (cU_at ((k - 1) / q) k), (cU_at ((k - 1) / q) (k + 1)) in Hlt by nia. lra. }
    destruct Hj as (j & Hj & ->). split; intros i Hi.
    - rewrite (cU_at j ((j + 1) * q)) by nia. apply cU_at; nia.
    - rewrite (cU_at (j + 1) ((j + 1) * q + 1)) by nia. apply cU_at; nia.
  Qed.

  Hypothesis Hinc : forall i, (0 <= i < m)%Z -> btol < b (i + 1)%Z - b i.

  Lemma b_inc i j : (0 <= i)%Z -> (i < j)%Z -> (j <= m)%Z -> btol < b j - b i.
  Proof.
    intros Hi Hij Hj. pose proof btol_pos as Hb. replace j with (i + 1 + Z.of_nat (Z.to_nat (j - i - 1)))%Z in * by lia.
    induction (Z.to_nat (j - i - 1)) as [|k IH].
    - rewrite Z.add_0_r. apply Hinc. lia.
    - specialize (IH ltac:(lia) ltac:(lia)). pose proof (Hinc (i + 1 + Z.of_nat k) ltac:(lia)) as H.
      replace (i + 1 + Z.of_nat (S k))%Z with (i + 1 + Z.of_nat k + 1)%Z by lia. lra.
  Qed.

  Lemma b_mono i j : (0 <= i)%Z -> (i <= j)%Z -> (j <= m)%Z -> b i <= b j.
  Proof. intros Hi Hij Hj. destruct (Z.eq_dec i j) as [->|]; [lra|]. pose proof (b_inc i j Hi ltac:(lia) Hj). pose proof btol_pos. lra. Qed.

  Lemma cU_kval : kval cn q cU.
  Proof.
    split.
    - intros i j Hi Hij Hj. unfold cU. apply b_mono; try lia. assert ((i - 1) / q <= (j - 1) / q)%Z by (apply Z.div_le_mono; lia). lia.
    - unfold cn. rewrite (cU_at 0 q), (cU_at m) by lia. pose proof (b_inc 0 m ltac:(lia) ltac:(lia) ltac:(lia)). pose proof btol_pos. lra.
  Qed.

  Lemma cU_apart : kapart cn q cU.
  Proof.
    intros i j Hi Hj Hlt. destruct (cU_index i Hi) as (a & Ha & Ea & _), (cU_index j Hj) as (e & He & Ee & _). rewrite Ea, Ee in *.
    apply b_inc; try lia. destruct (Z_lt_le_dec a e); [assumption|]. pose proof (b_mono e a ltac:(lia) ltac:(lia) ltac:(lia)). lra.
  Qed.

  Lemma cU_start : cU q < cU (q + 1)%Z.
  Proof. rewrite (cU_at 0 q), (cU_at 1 (q + 1)) by lia. pose proof (b_inc 0 1 ltac:(lia) ltac:(lia) ltac:(lia)). pose proof btol_pos. lra. Qed.

  Variable B : Z -> Z -> vec R d.
  Definition cP (i : Z) : vec R d := if (i <=? 0)%Z then B 0 0%Z else B ((i - 1) / q) ((i - 1) mod q + 1)%Z.

  Lemma cP_at j e : (0 <= j < m)%Z -> (1 <= e <= q)%Z -> cP (j * q + e) = B j e.
  Proof.
    intros Hj He. unfold cP. destruct (Z.leb_spec (j * q + e) 0); [nia|].
    assert (((j * q + e - 1) / q)%Z = j) by nia. assert (((j * q + e - 1) mod q)%Z = (e - 1)%Z) by nia. rewrite H0, H1. f_equal. lia.
  Qed.

  (** The curve before any knot is removed. *)
  Variable c0 : bspline R (vec R d).
  Hypothesis Hrep : bsrep c0 cn q cU cP.

  (** Multiplicities. *)
  Lemma c0_count j : (1 <= j < m)%Z -> count_occ Req_EM_T (bs_knots c0) (b j) = Z.to_nat q.
  Proof.
    intros Hj. destruct (rep_valid c0 _ _ _ _ Hrep cU_kval) as (Hv & _ & _ & HU & _).
    pose proof (rep_nknots _ _ _ _ _ Hrep) as HL. unfold zlen, cn in *. pose proof btol_pos as Hbt.
    rewrite (run_count (bs_knots c0) (b j) (Z.to_nat (j * q + 1)) (Z.to_nat (j * q + q))).
    - nia.
    - exact (vb_sorted _ _ Hv).
    - nia.
    - intros i Hi. rewrite <- knot_of_nat, HU by nia. apply cU_at; lia.
    - right. rewrite <- knot_of_nat, HU by nia. replace (Z.of_nat (Z.to_nat (j * q + 1) - 1)) with ((j - 1) * q + q)%Z by nia. rewrite (cU_at (j - 1)) by nia.
      pose proof (b_inc (j - 1) j ltac:(lia) ltac:(lia) ltac:(lia)). lra.
    - right. rewrite <- knot_of_nat, HU by nia. replace (Z.of_nat (Z.to_nat (j * q + q) + 1)) with ((j + 1) * q + 1)%Z by nia. rewrite (cU_at (j + 1)) by nia.
      pose proof (b_inc j (j + 1) ltac:(lia) ltac:(lia) ltac:(lia)). lra.
  Qed.

  Variable bounds : list R.
  Hypothesis Hbounds : arr bounds (m + 1) b.
  Hypothesis Hper0 : bs_periodic c0 = false.

  Definition cK (i : Z) : Z := Z.min (m - 1) (Z.max 0 (i - 1)).

  Definition cInv (i : Z) (c : bspline R (vec R d)) : Prop :=
    bs_periodic c = false /\ valid_bspline (bs_pts c) (bs_knots c) /\ bspline_degree (bs_pts c) (bs_knots c) = Z.to_nat q /\
    lower_of (bs_pts c) (bs_knots c) = b 0%Z /\ upper_of (bs_pts c) (bs_knots c) = b m /\
    knots_apart (/ IZR (10 ^ 16)) (bs_knots c) /\ regular_start (bs_pts c) (bs_knots c) /\
    (forall j, (1 <= j < m)%Z -> (i <= j)%Z -> count_occ Req_EM_T (bs_knots c) (b j) = Z.to_nat q) /\
    (forall u, (count_occ Req_EM_T (bs_knots c) u <= count_occ Req_EM_T (bs_knots c0) u)%nat) /\
    (forall u, (u <= b 0%Z \/ b m <= u) -> count_occ Req_EM_T (bs_knots c) u = count_occ Req_EM_T (bs_knots c0) u) /\
    (forall x, b 0%Z <= x <= b m -> exists v v', bs_evaluate c0 x = Ok v /\ bs_evaluate c x = Ok v' /\
       edist v v' <= IZR (cK i) * (IZR q * seps)).

  Lemma nodup_count_other (t u : R) k : u <> t -> count_occ Req_EM_T (repeat t k) u = 0%nat.
  Proof. intros H. apply count_occ_not_In. intros HI. apply repeat_spec in HI. congruence. Qed.

  Lemma combine_loop : exists c', for_up 0 (m + 1) (fun i c =>
        do t <- get bounds i; do '(c, _) <- bs_remove_knot c t q seps; Ok c) c0 = Ok c' /\ cInv (m + 1) c'.
  Proof.
    destruct (rep_valid c0 _ _ _ _ Hrep cU_kval) as (Hv & Hdeg & Hn & HU & _). unfold cn in *. pose proof btol_pos as Hbt.
    assert (Hdeg' : bspline_degree (bs_pts c0) (bs_knots c0) = Z.to_nat q) by lia. pose proof seps_pos as Hseps.
    apply for_up_inv.
    - lia.
    - split; [exact Hper0|]. split; [exact Hv|]. split; [exact Hdeg'|].
      split; [unfold lower_of; rewrite <- knot_of_nat, Hdeg', HU by nia; apply (cU_at 0); lia|].
      split; [unfold upper_of; rewrite <- knot_of_nat, HU, Hn by nia; apply (cU_at m); lia|].
      split; [|split; [|split; [|split; [|split]]]].
      + pose proof (rep_nknots _ _ _ _ _ Hrep) as HL. unfold zlen, cn in HL.
        intros i j Hij Hlt. rewrite <- !knot_of_nat in Hlt |- *. rewrite !HU in Hlt |- * by lia. rewrite <- btol_val. apply cU_apart; (unfold cn; lia || exact Hlt).
      + left. rewrite Hdeg'. rewrite <- !knot_of_nat, !HU by nia. replace (Z.of_nat (Z.to_nat q + 1)) with (q + 1)%Z by lia.
        replace (Z.of_nat (Z.to_nat q)) with q by lia. exact cU_start.
      + intros j Hj _. apply c0_count. exact Hj.
      + intros u. lia.
      + intros u _. reflexivity.
      + intros x Hx. destruct (bs_close c0 c0 cn q cU cP cP 0 x x Hrep Hrep cU_kval cU_apart (or_introl cU_start)) as (v & v' & E & E' & Hd).
        * unfold bs_unwrap. now rewrite Hper0.
        * unfold bs_unwrap. now rewrite Hper0.
        * unfold cn. rewrite (cU_at 0 q), (cU_at m) by lia. exact Hx.
        * intros i _. rewrite edist_refl. lra.
        * exists v, v'. split; [exact E|]. split; [exact E'|]. replace (cK 0) with 0%Z by (unfold cK; lia). lra.
    - intros i c Hi (I1 & I2 & I3 & I4 & I5 & I6 & I7 & I8 & I9 & I10 & I11).
      rewrite (arr_get _ _ _ _ Hbounds) by lia. rewrite bind_Ok.
      destruct (Z.eq_dec i 0) as [->|Hi0]; [|destruct (Z.eq_dec i m) as [->|Him]].
      + pose proof (bspline_remove_ends d c (b 0%Z) (Z.to_nat q) seps I2 ltac:(lia) ltac:(left; congruence)) as E1.
        rewrite Z2Nat.id in E1 by lia. rewrite E1, bind_Ok. exists c. split; [reflexivity|]. unfold cInv. replace (cK (0 + 1)) with (cK 0) by (unfold cK; lia). repeat (split; [assumption|]).
        split; [intros j Hj Hj'; apply I8; lia|]. split; [exact I9|]. split; [exact I10|exact I11].
      + pose proof (bspline_remove_ends d c (b m) (Z.to_nat q) seps I2 ltac:(lia) ltac:(right; congruence)) as E1.
        rewrite Z2Nat.id in E1 by lia. rewrite E1, bind_Ok. exists c. split; [reflexivity|]. unfold cInv. replace (cK (m + 1)) with (cK m) by (unfold cK; lia). repeat (split; [assumption|]).
        split; [intros j Hj Hj'; apply I8; lia|]. split; [exact I9|]. split; [exact I10|exact I11].
      + assert (Hb1 : b 0%Z < b i) by (pose proof (b_inc 0 i ltac:(lia) ltac:(lia) ltac:(lia)); lra).
        assert (Hb2 : b i < b m) by (pose proof (b_inc i m ltac:(lia) ltac:(lia) ltac:(lia)); lra).
        pose proof (I8 i ltac:(lia) ltac:(lia)) as Ec.
        destruct (bspline_remove d c (b i) (Z.to_nat q) seps I2 I6 I7) as (c' & count & E1 & Hc & Hper & Hv' & Hdeg1 & HP & EL & EU & Ha' & Hs' & _ & Hev & _).
        * rewrite I4, I5. lra.
        * rewrite Ec. lia.
        * rewrite Ec, I3. lia.
        * lra.
        * rewrite Z2Nat.id in E1 by lia. rewrite E1, bind_Ok. exists c'. split; [reflexivity|].
          assert (Hco : forall u, u <> b i -> count_occ Req_EM_T (bs_knots c') u = count_occ Req_EM_T (bs_knots c) u).
          { intros u Hu. rewrite (proj1 (Permutation_count_occ Req_EM_T _ _) HP u), count_occ_app, (nodup_count_other (b i) u count Hu). reflexivity. }
          split; [congruence|]. split; [exact Hv'|]. split; [congruence|]. split; [congruence|]. split; [congruence|].
          split; [exact Ha'|]. split; [exact Hs'|]. split; [|split; [|split]].
          { intros j Hj Hj'. rewrite Hco; [apply I8; lia|]. pose proof (b_inc i j ltac:(lia) ltac:(lia) ltac:(lia)). lra. }
          { intros u. specialize (I9 u). rewrite (proj1 (Permutation_count_occ Req_EM_T _ _) HP u), count_occ_app in I9. lia. }
          { intros u Hu. rewrite Hco; [now apply I10|]. destruct Hu; lra. }
          { intros x Hx. destruct (I11 x Hx) as (v & v1 & E & E' & Hd). destruct (Hev x ltac:(right; rewrite I4, I5; exact Hx)) as (v2 & v' & E2 & E3 & Hd').
            assert (v2 = v1) by congruence. subst v2. exists v, v'. split; [exact E|]. split; [exact E3|].
            apply Rle_trans with (edist v v1 + edist v1 v'); [apply edist_triangle|].
            assert (INR count <= IZR q) by (rewrite INR_IZR_INZ; apply IZR_le; lia).
            assert (INR count * seps <= IZR q * seps) by (apply Rmult_le_compat_r; lra).
            replace (cK (i + 1)) with (cK i + 1)%Z by (unfold cK; lia). rewrite plus_IZR. lra. }
  Qed.

  Variables (segs : list (bezier (vec R d))) (dl : R).
  Hypothesis HB : forall i, (0 <= i < m)%Z -> exists s, get segs i = Ok s /\ arr (bz_pts s) (q + 1) (B i).
  Hypothesis Hjoin : forall i, (1 <= i < m)%Z -> edist (B i 0%Z) (B (i - 1)%Z q) <= dl.
  Hypothesis Hdl : 0 <= dl < seps.

  (** The pieces of that curve. *)
  Lemma c0_piece j x : (0 <= j < m)%Z -> b j <= x <= b (j + 1)%Z ->
    exists s v v', get segs j = Ok s /\ bz_evaluate (mk_bezier (bz_pts s)) ((x - b j) / (b (j + 1)%Z - b j)) = Ok v /\
      bs_evaluate c0 x = Ok v' /\ edist v v' <= dl.
  Proof.
    intros Hj Hx. destruct (HB j Hj) as (s & Es & Hs). exists s.
    pose proof (b_inc j (j + 1) ltac:(lia) ltac:(lia) ltac:(lia)) as Hlt. pose proof btol_pos as Hbt.
    set (k := ((j + 1) * q)%Z). assert (Uk : cU k = b j) by (apply cU_at; unfold k; nia).
    assert (Uk1 : cU (k + 1) = b (j + 1)%Z) by (apply cU_at; unfold k; nia).
    assert (Hk : (q <= k < cn)%Z) by (unfold k, cn; nia).
    destruct (arr_block _ _ _ (k - q) (q + 1) (rep_pts _ _ _ _ _ Hrep) ltac:(lia) ltac:(lia) ltac:(unfold cn in *; lia)) as (l & _ & Hl).
    assert (Hl2 : arr l (q + 1) (fun i => cP (k - q + i))).
    { exact Hl. }
    assert (Hseg : seg_at cn q cU cP l k) by (split; [exact Hk|]; split; [rewrite Uk, Uk1; lra|exact Hl2]).
    destruct (bz_close d (bz_pts s) l (Z.to_nat q) (B j) (fun i => cP (k - q + i)) ((x - b j) / (b (j + 1)%Z - b j)) dl) as (v & v' & E1 & E2 & Hd).
    - rewrite Z2Nat.id by lia. exact Hs.
    - rewrite Z2Nat.id by lia. exact Hl2.
    - split; [apply Rmult_le_pos; [lra|left; apply Rinv_0_lt_compat; lra]|]. apply Rmult_le_reg_r with (b (j + 1)%Z - b j); [lra|].
      unfold Rdiv. rewrite Rmult_assoc, Rinv_l by lra. lra.
    - intros i Hi. rewrite Z2Nat.id in Hi by lia. destruct (Z.eq_dec i 0) as [->|].
      + destruct (Z.eq_dec j 0) as [->|].
        * replace (k - q + 0)%Z with 0%Z by (unfold k; lia). unfold cP. cbn [Z.leb Z.compare]. rewrite edist_refl. lra.
        * replace (k - q + 0)%Z with ((j - 1) * q + q)%Z by (unfold k; lia). rewrite cP_at by lia. apply Hjoin. lia.
      + replace (k - q + i)%Z with (j * q + i)%Z by (unfold k; lia). rewrite cP_at by lia. rewrite edist_refl. lra.
    - exists v, v'. split; [exact Es|]. split; [exact E1|]. split; [|exact Hd].
      rewrite <- E2. assert (Ec : c0 = nonperiodic c0) by (destruct c0; cbn in *; unfold nonperiodic, mk_bspline; cbn; congruence).
      rewrite Ec. rewrite <- Uk, <- Uk1. symmetry.
      apply (seg_eval c0 cn q cU cP Hrep cU_kval cU_apart (or_introl cU_start) cU_sat l k x Hseg).
      rewrite Uk, Uk1. destruct (Rlt_le_dec x (b (j + 1)%Z)); [left; lra|right]. split; [lra|].
      destruct (Z.eq_dec (j + 1) m) as [Em|Em].
      + left. unfold cn. rewrite (cU_at m (m * q + 1)) by lia. now rewrite Em.
      + right. intros i H1 H2 H3 H4. unfold cn in *.
        destruct (cU_index i ltac:(unfold cn; lia)) as (a & Ha & Ea & Ha'), (cU_index (i + q) ltac:(unfold cn; lia)) as (e & He & Ee & He').
        rewrite Ea in H3. rewrite Ee in H4.
        assert (a = (j + 1)%Z).
        { destruct (Z.lt_trichotomy a (j + 1)) as [H|[H|H]]; [|exact H|]; [pose proof (b_inc a (j + 1) ltac:(lia) H ltac:(lia))|pose proof (b_inc (j + 1) a ltac:(lia) H ltac:(lia))]; lra. }
        assert (e = (j + 1)%Z).
        { destruct (Z.lt_trichotomy e (j + 1)) as [H'|[H'|H']]; [|exact H'|]; [pose proof (b_inc e (j + 1) ltac:(lia) H' ltac:(lia))|pose proof (b_inc (j + 1) e ltac:(lia) H' ltac:(lia))]; lra. }
        subst a e. nia.
  Qed.

  Hypothesis Hsegs : zlen segs = m.

  Lemma combine_start : exists pts knots, arr pts (m * q + 1) cP /\ arr knots (m * q + q + 2) cU /\
    bs_combine_Beziers segs bounds = for_up 0 (m + 1) (fun i c =>
        do t <- get bounds i; do '(c, _) <- bs_remove_knot c t q seps; Ok c) (mk_bspline pts knots).
  Proof.
    unfold bs_combine_Beziers. rewrite Hsegs, (arr_len _ _ _ Hbounds).
    destruct (Z.eqb_spec m 0); [lia|]. destruct (Z.eqb_spec (m + 1) (m + 1)); [|lia]. cbn [assert_]. rewrite bind_Ok.
    destruct (HB 0 ltac:(lia)) as (s0' & E0 & H0). rewrite E0, bind_Ok. unfold bz_degree. rewrite (arr_len _ _ _ H0).
    replace (q + 1 - 1)%Z with q by lia.
    destruct (arr_alloc (p0 : vec R d) (m * q + 1)) as (P0 & E & HP0); [nia|]. rewrite E, bind_Ok. clear E.
    destruct (Z.eqb_spec (q + 1) (q + 1)); [|lia]. cbn [assert_]. rewrite bind_Ok.
    destruct (arr_blit P0 _ _ 0 (bz_pts s0') (q + 1) _ HP0 H0) as (P1 & E & HP1); [lia|nia|]. rewrite E, bind_Ok. clear E.
    match goal with |- context [for_up 1 m ?bd P1] =>
      destruct (for_up_inv (fun i l => exists f, arr l (m * q + 1) f /\ forall j, (0 <= j <= i * q)%Z -> f j = cP j) 1 m bd P1) as (pts & E & (f & Hf & Hfc)) end.
    { lia. }
    { eexists. split; [exact HP1|]. intros j Hj. cbv beta. destruct (Z.leb_spec 0 j); [|lia]. destruct (Z.ltb_spec j (0 + (q + 1))); [|lia]. cbn [andb].
      destruct (Z.eq_dec j 0) as [->|]; [unfold cP; reflexivity|]. replace (j - 0)%Z with j by lia.
      rewrite <- (cP_at 0 j) by lia. f_equal. }
    { intros i l Hi (f & Hf & Hfc). destruct (HB i ltac:(lia)) as (s & Es & Hs). rewrite Es, bind_Ok. rewrite (arr_len _ _ _ Hs).
      destruct (Z.eqb_spec q (q + 1 - 1)); [|lia]. cbn [assert_]. rewrite bind_Ok.
      rewrite (arr_get _ _ _ _ Hs) by lia. rewrite bind_Ok. rewrite (arr_get _ _ _ _ Hf) by nia. rewrite bind_Ok.
      assert (Ha : slt (pnorm (psub (B i 0%Z) (f (i * q)%Z))) seps = true).
      { rewrite pnorm_edist. rewrite Hfc by nia. replace (i * q)%Z with ((i - 1) * q + q)%Z by lia. rewrite cP_at by lia.
        pose proof (Hjoin i Hi). generalize dependent (seps : R). intros s' Hs'. simpl. apply Rltb_true. lra. }
      rewrite Ha. cbn [assert_]. rewrite bind_Ok.
      destruct (arr_block _ _ _ 1 q Hs) as (x & Ex & Hx); [lia|lia|lia|]. rewrite Ex, bind_Ok.
      destruct (arr_blit l _ _ (1 + i * q) x q _ Hf Hx) as (l' & El & Hl'); [nia|nia|]. exists l'. split; [exact El|].
      eexists. split; [exact Hl'|]. intros j Hj. cbv beta. destruct (Z.leb_spec (1 + i * q) j).
      - destruct (Z.ltb_spec j (1 + i * q + q)); [|lia]. cbn [andb].
        replace j with (i * q + (j - i * q))%Z at 2 by lia. rewrite cP_at by lia. f_equal. lia.
      - cbn [andb]. apply Hfc. nia. }
    rewrite E, bind_Ok. clear E.
    rewrite (arr_get _ _ _ _ Hbounds) by lia. rewrite bind_Ok. rewrite (arr_get _ _ _ _ Hbounds) by lia. rewrite bind_Ok.
    destruct (arr_alloc (s0 : R) (m * q + q + 2)) as (K0 & E & HK0); [nia|]. rewrite E, bind_Ok. clear E.
    destruct (arr_alloc (b 0%Z) (q + 1)) as (x & E & Hx); [lia|]. rewrite E, bind_Ok. clear E.
    destruct (arr_blit K0 _ _ 0 x (q + 1) _ HK0 Hx) as (K1 & E & HK1); [lia|nia|]. rewrite E, bind_Ok. clear E.
    destruct (arr_alloc (b (m + 1 - 1)%Z) (q + 1)) as (y & E & Hy); [lia|]. rewrite E, bind_Ok. clear E.
    destruct (arr_blit K1 _ _ (m * q + q + 2 - q - 1) y (q + 1) _ HK1 Hy) as (K2 & E & HK2); [nia|lia|]. rewrite E, bind_Ok. clear E.
    match goal with |- context [for_up 1 m ?bd K2] =>
      destruct (for_up_inv (fun i l => exists g, arr l (m * q + q + 2) g /\
        (forall j, (0 <= j <= i * q)%Z -> g j = cU j) /\ forall j, (m * q + 1 <= j <= m * q + q + 1)%Z -> g j = cU j) 1 m bd K2) as (knots & E & (g & Hg & Hg1 & Hg2)) end.
    { lia. }
    { eexists. split; [exact HK2|]. split.
      - intros j Hj. cbv beta. destruct (Z.leb_spec (m * q + q + 2 - q - 1) j); [nia|]. cbn [andb].
        destruct (Z.leb_spec 0 j); [|lia]. destruct (Z.ltb_spec j (0 + (q + 1))); [|lia]. cbn [andb].
        destruct (Z.eq_dec j 0) as [->|]; [now rewrite cU_0|]. now rewrite (cU_at 0) by lia.
      - intros j Hj. cbv beta. destruct (Z.leb_spec (m * q + q + 2 - q - 1) j); [|lia].
        destruct (Z.ltb_spec j (m * q + q + 2 - q - 1 + (q + 1))); [|lia]. cbn [andb]. replace (m + 1 - 1)%Z with m by lia.
        destruct (Z.eq_dec j (m * q + q + 1)) as [->|]; [now rewrite cU_last|]. now rewrite (cU_at m) by lia. }
    { intros i l Hi (g & Hg & Hg1 & Hg2). rewrite (arr_get _ _ _ _ Hbounds) by lia. rewrite bind_Ok.
      destruct (arr_alloc (b i) q) as (z & E & Hz); [lia|]. rewrite E, bind_Ok. clear E.
      destruct (arr_blit l _ _ (i * q + 1) z q _ Hg Hz) as (l' & El & Hl'); [nia|nia|]. exists l'. split; [exact El|].
      eexists. split; [exact Hl'|]. split.
      - intros j Hj. cbv beta. destruct (Z.leb_spec (i * q + 1) j).
        + destruct (Z.ltb_spec j (i * q + 1 + q)); [|lia]. cbn [andb]. rewrite (cU_at i) by lia. reflexivity.
        + cbn [andb]. apply Hg1. nia.
      - intros j Hj. cbv beta. destruct (Z.ltb_spec j (i * q + 1 + q)); [nia|]. rewrite andb_false_r. apply Hg2. exact Hj. }
    rewrite E, bind_Ok. clear E.
    exists pts, knots. split; [eapply arr_ext; [exact Hf|]; intros j Hj; apply Hfc; lia|].
    split; [eapply arr_ext; [exact Hg|]; intros j Hj; destruct (Z_le_gt_dec j (m * q)); [apply Hg1|apply Hg2]; lia|]. reflexivity.
  Qed.
End Combine.
