(** Knot removal: the curve after removal, and removal after insertion. *)
From Coq Require Import Reals Lra Lia ZArith List Permutation Bool.
From Verif Require Import Monad MonadFacts LoopFacts Scalar ScalarFacts Spec SpecFacts SpecGeom Polar ModelCurve CurveFacts ModelBezier
  BezierFacts BezierMath BezierThms BSplineMath ModelBSpline BSplineFacts BSplineThms BSplineThms2 BSplineThms3 BSplineInsert
  BSplineInsert2 BSplineInsert3 BSplineConvert CurveThms RationalThms PrimitiveFacts EdistFacts BSplineRemove BSplineRemove2 BSplineRemove3.
Import ListNotations.
Local Open Scope R_scope.
Local Open Scope Z_scope.

Lemma tri_close {d} al (c c' : Z -> vec R d) x m J (e : R) :
  (forall j, J - Z.of_nat m <= j <= J -> (edist (c j) (c' j) <= e)%R) ->
  (forall r j, (1 <= r <= m)%nat -> J - Z.of_nat (m - r) <= j <= J -> (0 <= al r j x <= 1)%R) ->
  (edist (tri al c (repeat x m) J) (tri al c' (repeat x m) J) <= e)%R.
Proof.
  revert J. induction m as [|m IH]; intros J Hc Ha.
  - simpl. apply Hc. lia.
  - cbn [repeat tri length]. rewrite repeat_length. apply edist_convex.
    + apply Ha; lia.
    + apply IH; [intros j Hj; apply Hc; lia|]. intros r j Hr Hj. apply Ha; lia.
    + apply IH; [intros j Hj; apply Hc; lia|]. intros r j Hr Hj. apply Ha; lia.
Qed.

Lemma alU_unit U p lo hi k u r j : mono U lo hi -> (U k <= u <= U (k + 1)%Z)%R -> (U k < U (k + 1)%Z)%R -> lo <= k - Z.of_nat p -> k + Z.of_nat p <= hi ->
  lo <= k -> k + 1 <= hi ->
  (1 <= r <= p)%nat -> k - Z.of_nat (p - r) <= j <= k -> (0 <= alU U p r j u <= 1)%R.
Proof.
  intros Hm Hu Hlt H1 H2 H3 H4 Hr Hj. unfold alU.
  assert (U j <= U k)%R by (apply Hm; lia). assert (U (k + 1)%Z <= U (j + Z.of_nat p + 1 - Z.of_nat r)%Z)%R by (apply Hm; lia).
  split.
  - apply Rmult_le_pos; [lra|]. apply Rlt_le, Rinv_0_lt_compat. lra.
  - apply (Rmult_le_reg_r (U (j + Z.of_nat p + 1 - Z.of_nat r)%Z - U j)%R); [lra|]. unfold Rdiv. rewrite Rmult_assoc, Rinv_l by lra. lra.
Qed.

(** Curves with the same knots and close points are close. *)
Lemma bs_close {d} (c c' : bspline R (vec R d)) n p U cp cp' e x u :
  bsrep c n p U cp -> bsrep c' n p U cp' -> kval n p U -> kapart n p U -> kstart p U ->
  bs_unwrap c x = Ok u -> bs_unwrap c' x = Ok u -> (U p <= u <= U n)%R ->
  (forall i, 0 <= i < n -> (edist (cp i) (cp' i) <= e)%R) ->
  exists v v', bs_evaluate c x = Ok v /\ bs_evaluate c' x = Ok v' /\ (edist v v' <= e)%R.
Proof.
  intros Hr Hr' Hv Hap Hst Eu Eu' Hu He. pose proof (rep_p _ _ _ _ _ Hr) as Hp. pose proof (rep_pn _ _ _ _ _ Hr) as Hpn.
  destruct (bs_eval_tri c n p U cp x u Hr Hv Hap (or_introl Hst) Eu Hu) as (k & Hk & Hsk & E).
  destruct (bs_eval_tri c' n p U cp' x u Hr' Hv Hap (or_introl Hst) Eu' Hu) as (k' & Hk' & Hsk' & E').
  destruct Hv as [Hm Hd].
  assert (k = k') by (apply (in_span_unique U (U n) 0 (n + p) k k' u Hm); (lia || assumption)). subst k'.
  destruct (in_span_bounds _ _ _ _ Hsk) as [Hb Hlt].
  eexists; eexists. split; [exact E|]. split; [exact E'|].
  apply tri_close.
  - intros j Hj. apply He. lia.
  - intros r j Hrj Hj. apply (alU_unit U (Z.to_nat p) 0 (n + p) k); (lia || assumption).
Qed.

Section Setup.
  Context {d : nat}.
  Variables (c : bspline R (vec R d)) (n p : Z) (U : Z -> R) (cp : Z -> vec R d) (t : R).
  Hypothesis Hr : bsrep c n p U cp.
  Hypothesis Hv : kval n p U.
  Hypothesis Ht : (U p < t < U n)%R.

  Lemma rem_setup (j : Z) : 0 <= j <= n + p -> U j = t -> mult_le n p U t p ->
    exists r s, locate_span c t = Ok r /\ p < r < n /\ get_multiplicity c r = Ok s /\ 1 <= s <= p /\ s <= r - p /\
      (forall i, 0 <= i <= r - s -> (U i < t)%R) /\ (forall i, r - s < i <= r -> U i = t) /\ (forall i, r < i <= n + p -> (t < U i)%R).
  Proof.
    intros Hj Ej Hml. pose proof (rep_p _ _ _ _ _ Hr) as Hp. pose proof (rep_pn _ _ _ _ _ Hr) as Hpn.
    destruct (locate_span_regular c n p U cp t Hr Hv ltac:(right; lra) ltac:(lra)) as (r & Er & Hrr & Hs).
    destruct (in_span_bounds _ _ _ _ Hs) as [Hb Hlt]. destruct Hv as [Hm Hd].
    assert (Htr : (t < U (r + 1)%Z)%R).
    { destruct Hs as [Hs|[Hs _]]; [lra|]. rewrite Hs. lra. }
    assert (Hjr : j <= r).
    { destruct (Z_le_gt_dec j r); [assumption|exfalso]. assert (U (r + 1)%Z <= U j)%R by (apply Hm; lia). lra. }
    assert (U j <= U r)%R by (apply Hm; lia). assert (Ur : U r = t) by lra.
    assert (Hpr : p < r).
    { destruct (Z.eq_dec p r) as [->|]; [lra|lia]. }
    destruct (get_multiplicity_correct c n p U cp r Hr ltac:(lia)) as (a & b & Em & Ha & Hb' & Hrun & Hla & Hlb).
    assert (b = r).
    { destruct (Z.eq_dec b r); [assumption|exfalso]. specialize (Hrun (r + 1) ltac:(lia)). lra. }
    subst b. exists r, (r - a + 1).
    assert (Hpa : p < a).
    { destruct (Z_lt_le_dec p a); [assumption|exfalso]. specialize (Hrun p ltac:(lia)). lra. }
    split; [exact Er|]. split; [lia|]. split; [exact Em|]. split.
    { split; [lia|]. destruct (Z_le_gt_dec (r - a + 1) p); [assumption|exfalso].
      apply (Hml (r - p)); try lia; [rewrite <- Ur; apply Hrun; lia|]. replace (r - p + p) with r by lia. exact Ur. }
    split; [lia|]. split; [|split].
    - intros i Hi. destruct Hla as [Hla|Hla]; [lia|].
      assert (U i <= U (a - 1)%Z)%R by (apply Hm; lia). assert (U (a - 1)%Z <= U a)%R by (apply Hm; lia).
      assert (U a = U r) by (apply Hrun; lia). lra.
    - intros i Hi. rewrite <- Ur. apply Hrun. lia.
    - intros i Hi. assert (U (r + 1)%Z <= U i)%R by (apply Hm; lia). lra.
  Qed.
End Setup.

Section RemFull.
  Context {d : nat}.
  Variables (c : bspline R (vec R d)) (n p : Z) (U : Z -> R) (cp : Z -> vec R d) (t : R) (N : Z) (tol : R).
  Hypothesis Hr : bsrep c n p U cp.
  Hypothesis Hv : kval n p U.
  Hypothesis Hap : kapart n p U.
  Hypothesis Hst : kstart p U.
  Hypothesis Ht : (U p < t < U n)%R.
  Hypothesis Hml : mult_le n p U t p.
  Variable a : Z.
  Hypothesis Ha : 0 <= a /\ a + N - 1 <= n + p.
  Hypothesis HaN : forall i, a <= i < a + N -> U i = t.
  Hypothesis HN : 1 <= N.
  Hypothesis Htol : (0 <= tol)%R.

  Lemma remV_ins r count i : count <= r -> 0 <= count -> (forall i, r - count < i <= r -> U i = t) ->
    insU (remV U r count) (r - count) count t i = U i.
  Proof.
    intros H0 H1 H2. unfold insU, remV. zbool; try reflexivity.
    - symmetry. apply H2. lia.
    - f_equal. lia.
  Qed.

  Lemma rem_full : exists c' count r,
    bs_remove_knot c t N tol = Ok (c', count) /\ 0 <= count <= N /\ bs_periodic c' = bs_periodic c /\
    p < r < n /\ count <= r - p /\ (forall i, r - count < i <= r -> U i = t) /\
    (exists X, bsrep c' (n - count) p (remV U r count) X) /\
    kval (n - count) p (remV U r count) /\ kapart (n - count) p (remV U r count) /\ kstart p (remV U r count) /\
    remV U r count p = U p /\ remV U r count (n - count) = U n /\
    (1 <= count -> exists c'' Y, bs_insert_knot c' t count = Ok c'' /\ bs_periodic c'' = bs_periodic c /\ bsrep c'' n p U Y /\
       (forall i, 0 <= i < n -> (edist (cp i) (Y i) <= IZR count * tol)%R)) /\
    (forall x, bs_periodic c = true \/ (U p <= x <= U n)%R ->
       exists v v', bs_evaluate c x = Ok v /\ bs_evaluate c' x = Ok v' /\ (edist v v' <= IZR count * tol)%R) /\
    (forall x, (U p <= x <= U n)%R ->
       exists v v', bs_evaluate (nonperiodic c) x = Ok v /\ bs_evaluate (nonperiodic c') x = Ok v' /\ (edist v v' <= IZR count * tol)%R).
  Proof.
    pose proof (rep_p _ _ _ _ _ Hr) as Hp. pose proof (rep_pn _ _ _ _ _ Hr) as Hpn.
    destruct (rem_setup c n p U cp t Hr Hv Ht a ltac:(lia) (HaN a ltac:(lia)) Hml)
      as (r & s & Er & Hrn & Em & Hs & Hsr & Hlo & Hrun & Hhi).
    destruct Hv as [Hm Hd].
    assert (HNs : N <= s).
    { destruct (Z_le_gt_dec N s); [assumption|exfalso].
      assert (H1 := HaN a ltac:(lia)). assert (H2 := HaN (a + N - 1) ltac:(lia)).
      assert (r - s < a) by (destruct (Z_lt_le_dec (r - s) a); [assumption|pose proof (Hlo a ltac:(lia)); lra]).
      assert (a + N - 1 <= r) by (destruct (Z_le_gt_dec (a + N - 1) r); [assumption|pose proof (Hhi (a + N - 1) ltac:(lia)); lra]). lia. }
    destruct (rem_gen c n p U cp r s t N tol Hr Hs Hlo Hrun Hhi Hrn ltac:(lia) ltac:(lia) Htol Er Em ltac:(lra))
      as (c' & count & X & Ec & Hc & Hper & Hr' & Hbd & _).
    set (W := remV U r count) in *.
    assert (EWp : W p = U p) by (unfold W, remV; zbool; reflexivity).
    assert (EWn : W (n - count) = U n) by (unfold W, remV; zbool; f_equal; lia).
    assert (EWi : forall i, exists i0, W i = U i0 /\ (0 <= i <= n - count + p -> 0 <= i0 <= n + p)).
    { intros i. unfold W, remV. zbool; eexists; (split; [reflexivity|]); lia. }
    assert (HmW : mono W 0 (n - count + p)).
    { intros i j H1 H2 H3. unfold W, remV. zbool; apply Hm; lia. }
    assert (HvW : kval (n - count) p W) by (split; [exact HmW|rewrite EWp, EWn; exact Hd]).
    assert (HapW : kapart (n - count) p W).
    { intros i j Hi Hj Hlt. destruct (EWi i) as (i0 & E1 & H1). destruct (EWi j) as (j0 & E2 & H2). rewrite E1, E2 in *.
      apply Hap; [apply H1; lia|apply H2; lia|exact Hlt]. }
    assert (HstW : kstart p W).
    { destruct Hst as [H0|[H0 H1]].
      - left. rewrite EWp. unfold W, remV. zbool; [exact H0|]. apply Rlt_le_trans with (U (p + 1)); [exact H0|apply Hm; lia].
      - right. split; [exact H0|]. intros i Hi. specialize (H1 i Hi). unfold W, remV. zbool; try exact H1.
        apply Rlt_le_trans with (U (i + p)); [exact H1|apply Hm; lia]. }
    assert (Hback : 1 <= count -> exists c'' Y, bs_insert_knot c' t count = Ok c'' /\ bs_periodic c'' = bs_periodic c /\ bsrep c'' n p U Y /\
       (forall i, 0 <= i < n -> (edist (cp i) (Y i) <= IZR count * tol)%R) /\
       (forall x, (bs_periodic c = true \/ (U p <= x <= U n)%R) -> bs_evaluate c'' x = bs_evaluate c' x) /\
       (forall x, (U p <= x <= U n)%R -> bs_evaluate (nonperiodic c'') x = bs_evaluate (nonperiodic c') x)).
    { intros Hc1.
      destruct (locate_span_regular c' (n - count) p W X t Hr' HvW ltac:(right; lra) ltac:(lra)) as (k & Ek & Hk & Hsk).
      assert (Hmid : (W (r - count)%Z <= t < W (r - count + 1)%Z)%R).
      { unfold W, remV. zbool. split.
        - destruct (Z.eq_dec count s) as [->|Hne]; [pose proof (Hlo (r - s) ltac:(lia)); lra|rewrite Hrun by lia; lra].
        - apply Hhi. lia. }
      assert (k = r - count).
      { apply (in_span_unique W (W (n - count)) 0 (n - count + p) k (r - count) t HmW); try lia; [exact Hsk|left; split; [rewrite EWn; lra|exact Hmid]]. }
      subst k.
      assert (Es : (if Reqb t (W (r - count)) then get_multiplicity c' (r - count) else Ok 0) = Ok (s - count)).
      { destruct (Reqb_spec t (W (r - count))) as [E|E].
        - destruct (get_multiplicity_correct c' (n - count) p W X (r - count) Hr' ltac:(lia)) as (a1 & b1 & Em1 & Ha1 & Hb1 & Hrun1 & Hla1 & Hlb1).
          assert (b1 = r - count).
          { destruct (Z.eq_dec b1 (r - count)); [assumption|exfalso]. specialize (Hrun1 (r - count + 1) ltac:(lia)). lra. }
          subst b1. assert (a1 = r - s + 1).
          { assert (EW : forall i, i <= r - count -> W i = U i) by (intros i Hi; unfold W, remV; zbool; reflexivity).
            destruct (Z_lt_le_dec a1 (r - s + 1)).
            - specialize (Hrun1 a1 ltac:(lia)). rewrite EW in Hrun1 by lia. pose proof (Hlo a1 ltac:(lia)). lra.
            - destruct (Z.eq_dec a1 (r - s + 1)); [assumption|exfalso]. destruct Hla1 as [Hla1|Hla1]; [lia|].
              apply Hla1. rewrite EW by lia. rewrite Hrun by lia. exact E. }
          subst a1. rewrite Em1. f_equal. lia.
        - f_equal. destruct (Z.eq_dec count s); [lia|exfalso]. apply E. unfold W, remV. zbool. symmetry. apply Hrun. lia. }
      destruct (bs_insert_gen c' (n - count) p W X t count (r - count) (s - count) Hr' HmW ltac:(lra) Ek Hk ltac:(lra) Es ltac:(lia) ltac:(lia) ltac:(lia))
        as (c'' & E'' & Hper'' & Hr'').
      replace (n - count + count) with n in Hr'' by lia.
      assert (EU : forall i, insU W (r - count) count t i = U i).
      { intros i. apply remV_ins; try lia. intros i' Hi'. apply Hrun. lia. }
      set (Y := insQ W (Z.to_nat p) (r - count) (s - count) count t X) in *.
      assert (HrY : bsrep c'' n p U Y).
      { destruct Hr'' as [A1 A2 A3 A4]. split; try assumption. eapply arr_ext; [exact A2|]. intros i Hi. apply EU. }
      assert (Hta : tapart (n - count) p W t).
      { intros i Hi. destruct (EWi i) as (i0 & E1 & H1). rewrite E1. specialize (H1 ltac:(lia)).
        assert (Ur : U r = t) by (apply Hrun; lia).
        destruct (Rtotal_order (U i0) t) as [Hlt|[Heq|Hgt]]; [right|now left|right].
        - pose proof (Hap i0 r ltac:(lia) ltac:(lia) ltac:(lra)). rewrite Rabs_left by lra. lra.
        - pose proof (Hap r i0 ltac:(lia) ltac:(lia) ltac:(lra)). rewrite Rabs_right by lra. lra. }
      assert (HmlW : mult_le (n - count) p W t (p - count)).
      { intros i H1 H2 H3 H4. unfold W, remV in H3, H4. revert H3 H4. zbool; intros H3 H4.
        - assert (r - s < i) by (destruct (Z_lt_le_dec (r - s) i); [assumption|pose proof (Hlo i ltac:(lia)); lra]). lia.
        - pose proof (Hhi (i + (p - count) + count) ltac:(lia)). lra.
        - pose proof (Hhi (i + count) ltac:(lia)). lra. }
      destruct (ins_full c' (n - count) p W X t count Hr' HvW HapW HstW ltac:(lra) ltac:(right; lra) Hta ltac:(lia) HmlW)
        as (c3 & k3 & s3 & E3 & _ & _ & _ & _ & _ & _ & _ & _ & _ & _ & Hev & Hnev & _).
      assert (c3 = c'') by congruence. subst c3.
      exists c'', Y. split; [exact E''|]. split; [congruence|]. split; [exact HrY|]. split.
      - intros i Hi. specialize (Hbd i Hi).
        pose proof (reins_insQ U p r s t count (Z.to_nat count) X ltac:(lia) ltac:(lia) ltac:(lia) i) as EQ.
        replace (count - Z.of_nat (Z.to_nat count)) with 0 in EQ by lia. rewrite Z2Nat.id in EQ by lia. rewrite EQ in Hbd. exact Hbd.
      - split.
        + intros x Hx. apply Hev. rewrite Hper, EWp, EWn. exact Hx.
        + intros x Hx. apply Hnev. rewrite EWp, EWn. exact Hx. }
    exists c', count, r. split; [exact Ec|]. split; [exact Hc|]. split; [exact Hper|]. split; [lia|]. split; [lia|].
    split; [intros i Hi; apply Hrun; lia|]. split; [exists X; exact Hr'|]. split; [exact HvW|]. split; [exact HapW|].
    split; [exact HstW|]. split; [exact EWp|]. split; [exact EWn|]. split.
    { intros Hc1. destruct (Hback Hc1) as (c'' & Y & H1 & H2 & H3 & H4 & _). exists c'', Y. auto. }
    (* values *)
    assert (Hnp : forall (b : bspline R (vec R d)) m q V Z1, bsrep b m q V Z1 -> bsrep (nonperiodic b) m q V Z1).
    { intros b m q V Z1 [A1 A2 A3 A4]. split; assumption. }
    destruct (Z.eq_dec count 0) as [Ec0|Ec0].
    - assert (EX : forall i, 0 <= i < n -> (edist (cp i) (X i) <= IZR count * tol)%R).
      { intros i Hi. specialize (Hbd i Hi). rewrite Ec0 in Hbd |- *. exact Hbd. }
      assert (HrX : bsrep c' n p U X).
      { destruct Hr' as [A1 A2 A3 A4]. rewrite Ec0 in *. rewrite Z.sub_0_r in *. split; try assumption.
        eapply arr_ext; [exact A2|]. intros i Hi. unfold W, remV. zbool; f_equal; lia. }
      split.
      + intros x Hx. destruct (bs_unwrap_total c n p U cp x Hr (Build_kval _ _ _ Hm Hd)) as (u & Eu & Hu1 & Hu2).
        assert (Hu : (U p <= u <= U n)%R).
        { destruct (bs_periodic c) eqn:Epr; [destruct (Hu2 eq_refl); lra|]. destruct Hx as [Hx|Hx]; [discriminate|]. rewrite (Hu1 eq_refl). exact Hx. }
        apply (bs_close c c' n p U cp X _ x u Hr HrX (Build_kval _ _ _ Hm Hd) Hap Hst Eu); try assumption.
        rewrite <- Eu. unfold bs_unwrap. rewrite Hper. destruct (bs_periodic c); [|reflexivity].
        rewrite (rep_lower _ _ _ _ _ Hr), (rep_upper _ _ _ _ _ Hr), (rep_lower _ _ _ _ _ HrX), (rep_upper _ _ _ _ _ HrX). reflexivity.
      + intros x Hx. apply (bs_close (nonperiodic c) (nonperiodic c') n p U cp X _ x x (Hnp _ _ _ _ _ Hr) (Hnp _ _ _ _ _ HrX) (Build_kval _ _ _ Hm Hd) Hap Hst);
          try reflexivity; assumption.
    - destruct (Hback ltac:(lia)) as (c'' & Y & H1 & H2 & H3 & H4 & H5 & H6). split.
      + intros x Hx. rewrite <- (H5 x Hx).
        destruct (bs_unwrap_total c n p U cp x Hr (Build_kval _ _ _ Hm Hd)) as (u & Eu & Hu1 & Hu2).
        assert (Hu : (U p <= u <= U n)%R).
        { destruct (bs_periodic c) eqn:Epr; [destruct (Hu2 eq_refl); lra|]. destruct Hx as [Hx|Hx]; [discriminate|]. rewrite (Hu1 eq_refl). exact Hx. }
        apply (bs_close c c'' n p U cp Y _ x u Hr H3 (Build_kval _ _ _ Hm Hd) Hap Hst Eu); try assumption.
        rewrite <- Eu. unfold bs_unwrap. rewrite H2. destruct (bs_periodic c); [|reflexivity].
        rewrite (rep_lower _ _ _ _ _ Hr), (rep_upper _ _ _ _ _ Hr), (rep_lower _ _ _ _ _ H3), (rep_upper _ _ _ _ _ H3). reflexivity.
      + intros x Hx. rewrite <- (H6 x Hx).
        apply (bs_close (nonperiodic c) (nonperiodic c'') n p U cp Y _ x x (Hnp _ _ _ _ _ Hr) (Hnp _ _ _ _ _ H3) (Build_kval _ _ _ Hm Hd) Hap Hst);
          try reflexivity; assumption.
  Qed.
End RemFull.
