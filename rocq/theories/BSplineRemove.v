(** Knot removal: one round of the removal, and how it relates to insertion. *)
From Coq Require Import Reals Lra Lia ZArith List Permutation Bool.
From Verif Require Import Monad MonadFacts LoopFacts Scalar ScalarFacts Spec SpecFacts SpecGeom Polar ModelCurve CurveFacts ModelBezier
  BezierFacts BezierMath BezierThms BSplineMath ModelBSpline BSplineFacts BSplineThms BSplineInsert BSplineInsert2 CurveThms
  PrimitiveFacts EdistFacts.
Import ListNotations.
Local Open Scope R_scope.
Local Open Scope Z_scope.
Ltac Zify.zify_post_hook ::= Z.div_mod_to_equations.

Section RemMath.
  Context {d : nat}.
  Notation P := (vec R d).
  Variables (U : Z -> R) (p r s : Z) (t : R).
  Implicit Types X Y Q w : Z -> P.

  (** The ratio of virtual point [i] when [k] copies are already gone. *)
  Definition ral (k i : Z) : R := ((t - U i) / (U (i + p + 1 + k) - U i))%R.
  (** Inserting one copy again, into the curve with [k+1] copies gone. *)
  Definition ins1 (k : Z) X (i : Z) : P :=
    if i <? r - p - k then X i
    else if i <=? r - s then padd (pmul (1 - ral k i)%R (X (i - 1))) (pmul (ral k i) (X i))
    else X (i - 1).
  (** [m] insertions, the last one into the curve with [k+1] copies gone. *)
  Fixpoint reins (m : nat) (k : Z) X : Z -> P :=
    match m with O => X | S m' => ins1 k (reins m' (k + 1) X) end.

  (** The points solved from the left and from the right. *)
  Fixpoint lft (k : Z) w (m : nat) : P :=
    match m with
    | O => w (r - p - k - 1)
    | S m' => let i := r - p - k + Z.of_nat m' in
        pmul (/ ral k i)%R (psub (w i) (pmul (1 - ral k i)%R (lft k w m')))
    end.
  Fixpoint rgt (k : Z) w (m : nat) : P :=
    match m with
    | O => w (r - s + k + 1)
    | S m' => let j := r - s + k - Z.of_nat m' in
        pmul (/ (1 - ral k (j - k)))%R (psub (w j) (pmul (ral k (j - k)) (rgt k w m')))
    end.
  (** Number of passes of the loop. *)
  Definition nsw (k : Z) : Z := (p - s + k + 1) / 2.
  (** The points after a round. *)
  Definition wnext (k : Z) w (i : Z) : P :=
    let first := r - p - k in let last := r - s + k in
    if (first <=? i) && (i <? first + nsw k) then lft k w (Z.to_nat (i - first + 1))
    else if (last - nsw k <? i) && (i <=? last) then rgt k w (Z.to_nat (last - i + 1))
    else w i.
  (** The quantity compared with the tolerance. *)
  Definition rdelta (k : Z) w : R :=
    let e := nsw k in let i := r - p - k + e in
    if (p - s + k) mod 2 =? 0
    then edist (w i) (padd (pmul (ral k i) (rgt k w (Z.to_nat e))) (pmul (1 - ral k i)%R (lft k w (Z.to_nat e))))
    else edist (lft k w (Z.to_nat e)) (rgt k w (Z.to_nat e)).
  (** The points with a gap of [k] after [kap]. *)
  Definition gap (k kap : Z) w (i : Z) : P := if i <=? kap then w i else w (i + k).
  Definition cutL (k : Z) : Z := r - p - k + (p - s + k) / 2.

  Variables (lo hi : Z).
  Hypothesis Hs : 0 <= s <= p.
  Hypothesis Hlo : forall i, lo <= i <= r - s -> (U i < t)%R.
  Hypothesis Hhi : forall i, r < i <= hi -> (t < U i)%R.

  Lemma ral_bd k i : 0 <= k -> lo <= i -> r - p - k <= i <= r - s -> i + p + 1 + k <= hi ->
    (0 < ral k i < 1)%R.
  Proof.
    intros Hk H1 H2 H3. pose proof (Hlo i ltac:(lia)). pose proof (Hhi (i + p + 1 + k) ltac:(lia)). unfold ral.
    assert (0 < U (i + p + 1 + k)%Z - U i)%R by lra. split.
    - apply Rdiv_lt_0_compat; lra.
    - apply (Rmult_lt_reg_r (U (i + p + 1 + k)%Z - U i)%R); [assumption|]. unfold Rdiv. rewrite Rmult_assoc, Rinv_l by lra. lra.
  Qed.

  Ltac vext := apply vec_ext; let i := fresh "i" in let Hi := fresh in intros i Hi;
    rewrite ?coord_add, ?coord_sub, ?coord_mul, ?coord_sub, ?coord_mul by exact Hi;
    repeat (rewrite ?coord_add, ?coord_sub, ?coord_mul by exact Hi); simpl.

  Lemma lft_step k w m : 0 <= k -> lo <= r - p - k -> Z.of_nat m <= p - s + k -> r - s + p + 1 + k <= hi ->
    let i := r - p - k + Z.of_nat m in
    w i = padd (pmul (1 - ral k i)%R (lft k w m)) (pmul (ral k i) (lft k w (S m))).
  Proof.
    intros Hk H1 H2 H3 i. cbn [lft]. fold i.
    pose proof (ral_bd k i Hk ltac:(lia) ltac:(lia) ltac:(lia)). vext. field. lra.
  Qed.
  Lemma rgt_step k w m : 0 <= k -> lo <= r - p - k -> Z.of_nat m <= p - s + k -> r - s + p + 1 + k <= hi ->
    let j := r - s + k - Z.of_nat m in
    w j = padd (pmul (1 - ral k (j - k))%R (rgt k w (S m))) (pmul (ral k (j - k)) (rgt k w m)).
  Proof.
    intros Hk H1 H2 H3 j. cbn [rgt]. fold j.
    pose proof (ral_bd k (j - k) Hk ltac:(lia) ltac:(lia) ltac:(lia)). vext. field. lra.
  Qed.

  (** All but one of the points are reproduced. *)
  Lemma round_exact k w kap n : 0 <= k -> lo <= r - p - k -> r - s + p + 1 + k <= hi ->
    r - p - k - 1 <= kap -> kap < r - p - k + nsw k -> kap <= cutL k -> r - s - kap - 1 <= nsw k -> kap < r - s ->
    cutL k <= kap + 1 ->
    forall i, 0 <= i < n -> i <> kap + 1 -> ins1 k (gap (k + 1) kap (wnext k w)) i = gap k (cutL k) w i.
  Proof.
    intros Hk H1 H2 H3 H4 H5 H6 H6' H7 i Hi Hne. unfold ins1.
    assert (Hns : 2 * nsw k <= p - s + k + 1) by (unfold nsw; lia).
    destruct (Z.ltb_spec i (r - p - k)) as [Ha|Ha].
    { unfold gap. destruct (Z.leb_spec i kap); [|lia]. destruct (Z.leb_spec i (cutL k)); [|lia].
      unfold wnext. destruct (Z.leb_spec (r - p - k) i); [lia|]. cbn [andb].
      destruct (Z.ltb_spec (r - s + k - nsw k) i); [|reflexivity]. exfalso. lia. }
    destruct (Z.leb_spec i (r - s)) as [Hb|Hb].
    - destruct (Z_le_gt_dec i kap) as [Hc|Hc].
      + (* left part *)
        unfold gap. destruct (Z.leb_spec i kap); [|lia]. destruct (Z.leb_spec (i - 1) kap); [|lia].
        destruct (Z.leb_spec i (cutL k)); [|lia].
        assert (E1 : wnext k w i = lft k w (S (Z.to_nat (i - (r - p - k))))).
        { unfold wnext. destruct (Z.leb_spec (r - p - k) i); [|lia]. destruct (Z.ltb_spec i (r - p - k + nsw k)); [|lia].
          cbn [andb]. f_equal. lia. }
        assert (E0 : wnext k w (i - 1) = lft k w (Z.to_nat (i - (r - p - k)))).
        { unfold wnext. destruct (Z.leb_spec (r - p - k) (i - 1)).
          - destruct (Z.ltb_spec (i - 1) (r - p - k + nsw k)); [|lia]. cbn [andb]. f_equal. lia.
          - cbn [andb]. destruct (Z.ltb_spec (r - s + k - nsw k) (i - 1)); [lia|]. cbn [andb].
            replace (i - (r - p - k)) with 0 by lia. cbn [Z.to_nat lft]. f_equal. lia. }
        rewrite E1, E0. pose proof (lft_step k w (Z.to_nat (i - (r - p - k))) Hk ltac:(lia) ltac:(lia) ltac:(lia)) as E.
        cbv zeta in E. replace (r - p - k + Z.of_nat (Z.to_nat (i - (r - p - k)))) with i in E by lia. symmetry. exact E.
      + (* right part *)
        unfold gap. destruct (Z.leb_spec i kap); [lia|]. destruct (Z.leb_spec (i - 1) kap); [lia|].
        destruct (Z.leb_spec i (cutL k)); [lia|].
        set (a := Z.to_nat (r - s - i)).
        assert (E1 : wnext k w (i - 1 + (k + 1)) = rgt k w (S a)).
        { unfold wnext. destruct (Z.ltb_spec (i - 1 + (k + 1)) (r - p - k + nsw k)); [lia|]. rewrite andb_false_r.
          destruct (Z.ltb_spec (r - s + k - nsw k) (i - 1 + (k + 1))); [|lia].
          destruct (Z.leb_spec (i - 1 + (k + 1)) (r - s + k)); [|lia]. cbn [andb]. f_equal. lia. }
        assert (E0 : wnext k w (i + (k + 1)) = rgt k w a).
        { unfold wnext. destruct (Z.ltb_spec (i + (k + 1)) (r - p - k + nsw k)); [lia|]. rewrite andb_false_r.
          destruct (Z.ltb_spec (r - s + k - nsw k) (i + (k + 1))); [|lia].
          destruct (Z.leb_spec (i + (k + 1)) (r - s + k)); cbn [andb]; [f_equal; lia|].
          replace a with 0%nat by lia. cbn [rgt]. f_equal. lia. }
        rewrite E1, E0. pose proof (rgt_step k w a Hk ltac:(lia) ltac:(lia) ltac:(lia)) as E. cbv zeta in E.
        replace (r - s + k - Z.of_nat a) with (i + k) in E by lia. replace (i + k - k) with i in E by lia. symmetry. exact E.
    - unfold gap. destruct (Z.leb_spec (i - 1) kap); [lia|]. destruct (Z.leb_spec i (cutL k)); [unfold cutL in *; lia|].
      unfold wnext. destruct (Z.ltb_spec (i - 1 + (k + 1)) (r - p - k + nsw k)); [lia|]. rewrite andb_false_r.
      destruct (Z.leb_spec (i - 1 + (k + 1)) (r - s + k)); [lia|]. rewrite andb_false_r. f_equal. lia.
  Qed.

  Definition cut_ok (k kap : Z) : Prop :=
    kap = r - p - k + nsw k - 1 \/ ((p - s + k) mod 2 = 1 /\ kap = r - p - k + nsw k - 2).

  (** One round: the new points reproduce the old ones up to the compared quantity. *)
  Lemma round_near k w kap n tol : 0 <= k -> lo <= r - p - k -> r - s + p + 1 + k <= hi -> cut_ok k kap ->
    (0 <= tol)%R -> (rdelta k w <= tol)%R ->
    forall i, 0 <= i < n -> (edist (gap k (cutL k) w i) (ins1 k (gap (k + 1) kap (wnext k w)) i) <= tol)%R.
  Proof.
    intros Hk H1 H2 Hc Ht Hd i Hi.
    assert (Hns : nsw k = (p - s + k + 1) / 2) by reflexivity.
    assert (Hcl : cutL k = r - p - k + (p - s + k) / 2) by reflexivity.
    destruct (Z.eq_dec i (kap + 1)) as [->|Hne].
    2:{ rewrite (round_exact k w kap n); try assumption; try (destruct Hc as [?|[? ?]]; lia). rewrite edist_refl. exact Ht. }
    assert (HL : (r - p - k <= kap + 1 <= r - s)) by (destruct Hc as [?|[? ?]]; lia).
    unfold ins1. destruct (Z.ltb_spec (kap + 1) (r - p - k)); [lia|]. destruct (Z.leb_spec (kap + 1) (r - s)); [|lia].
    assert (E0 : gap (k + 1) kap (wnext k w) (kap + 1 - 1) = lft k w (Z.to_nat (kap + 1 - (r - p - k)))).
    { replace (kap + 1 - 1) with kap by lia. unfold gap. destruct (Z.leb_spec kap kap); [|lia]. unfold wnext.
      destruct (Z.leb_spec (r - p - k) kap).
      - destruct (Z.ltb_spec kap (r - p - k + nsw k)); [|destruct Hc as [?|[? ?]]; lia]. cbn [andb]. f_equal. lia.
      - cbn [andb]. destruct (Z.ltb_spec (r - s + k - nsw k) kap); [destruct Hc as [?|[? ?]]; lia|]. cbn [andb].
        replace (Z.to_nat (kap + 1 - (r - p - k))) with 0%nat by lia. cbn [lft]. f_equal. lia. }
    assert (E1 : gap (k + 1) kap (wnext k w) (kap + 1) = rgt k w (Z.to_nat (r - s - kap - 1))).
    { unfold gap. destruct (Z.leb_spec (kap + 1) kap); [lia|]. unfold wnext.
      destruct (Z.ltb_spec (kap + 1 + (k + 1)) (r - p - k + nsw k)); [destruct Hc as [?|[? ?]]; lia|]. rewrite andb_false_r.
      destruct (Z.ltb_spec (r - s + k - nsw k) (kap + 1 + (k + 1))); [|destruct Hc as [?|[? ?]]; lia].
      destruct (Z.leb_spec (kap + 1 + (k + 1)) (r - s + k)); cbn [andb]; [f_equal; lia|].
      replace (Z.to_nat (r - s - kap - 1)) with 0%nat by (destruct Hc as [?|[? ?]]; lia). cbn [rgt]. f_equal.
      destruct Hc as [?|[? ?]]; lia. }
    rewrite E0, E1. pose proof (ral_bd k (kap + 1) Hk ltac:(lia) ltac:(lia) ltac:(lia)) as Hal.
    unfold rdelta in Hd. destruct (Z.eqb_spec ((p - s + k) mod 2) 0) as [Hev|Hod].
    - destruct Hc as [Hc|[Hc _]]; [|lia].
      unfold gap. destruct (Z.leb_spec (kap + 1) (cutL k)); [|lia].
      replace (Z.to_nat (kap + 1 - (r - p - k))) with (Z.to_nat (nsw k)) by lia.
      replace (Z.to_nat (r - s - kap - 1)) with (Z.to_nat (nsw k)) by lia.
      replace (r - p - k + nsw k) with (kap + 1) in Hd by lia.
      rewrite pl_comm in Hd. exact Hd.
    - assert (He : 1 <= nsw k) by lia. destruct Hc as [Hc|[_ Hc]].
      + replace (Z.to_nat (kap + 1 - (r - p - k))) with (Z.to_nat (nsw k)) by lia.
        replace (Z.to_nat (r - s - kap - 1)) with (Z.to_nat (nsw k - 1)) by lia.
        unfold gap. destruct (Z.leb_spec (kap + 1) (cutL k)); [lia|].
        pose proof (rgt_step k w (Z.to_nat (nsw k - 1)) Hk ltac:(lia) ltac:(lia) ltac:(lia)) as E. cbv zeta in E.
        replace (r - s + k - Z.of_nat (Z.to_nat (nsw k - 1))) with (kap + 1 + k) in E by lia.
        replace (kap + 1 + k - k) with (kap + 1) in E by lia. rewrite E.
        replace (S (Z.to_nat (nsw k - 1))) with (Z.to_nat (nsw k)) by lia.
        apply edist_right; [lra| |exact Ht]. rewrite edist_sym. exact Hd.
      + replace (Z.to_nat (kap + 1 - (r - p - k))) with (Z.to_nat (nsw k - 1)) by lia.
        replace (Z.to_nat (r - s - kap - 1)) with (Z.to_nat (nsw k)) by lia.
        unfold gap. destruct (Z.leb_spec (kap + 1) (cutL k)); [|lia].
        pose proof (lft_step k w (Z.to_nat (nsw k - 1)) Hk ltac:(lia) ltac:(lia) ltac:(lia)) as E. cbv zeta in E.
        replace (r - p - k + Z.of_nat (Z.to_nat (nsw k - 1))) with (kap + 1) in E by lia. rewrite E.
        replace (S (Z.to_nat (nsw k - 1))) with (Z.to_nat (nsw k)) by lia.
        apply edist_left; [lra|exact Hd|exact Ht].
  Qed.

  (** One round undoes an insertion. *)
  Lemma round_undo k w Q kap n : 0 <= k -> lo <= r - p - k -> r - s + p + 1 + k <= hi -> cut_ok k kap ->
    0 < r - p - k -> r - s + 1 < n - k ->
    (forall i, 0 <= i < n - k -> gap k (cutL k) w i = ins1 k Q i) ->
    rdelta k w = 0%R /\ (forall i, 0 <= i < n - k - 1 -> gap (k + 1) kap (wnext k w) i = Q i).
  Proof.
    intros Hk H1 H2 Hc Hf Hl HQ.
    assert (Hns : nsw k = (p - s + k + 1) / 2) by reflexivity.
    assert (Hcl : cutL k = r - p - k + (p - s + k) / 2) by reflexivity.
    assert (HA : forall i, 0 <= i <= cutL k -> i < n - k -> w i = ins1 k Q i).
    { intros i Hi Hi2. rewrite <- HQ by lia. unfold gap. destruct (Z.leb_spec i (cutL k)); [reflexivity|lia]. }
    assert (HB : forall i, cutL k < i < n - k -> 0 <= i -> w (i + k) = ins1 k Q i).
    { intros i Hi Hi2. rewrite <- HQ by lia. unfold gap. destruct (Z.leb_spec i (cutL k)); [lia|reflexivity]. }
    assert (HI : forall i, r - p - k <= i <= r - s -> ins1 k Q i = padd (pmul (1 - ral k i)%R (Q (i - 1))) (pmul (ral k i) (Q i))).
    { intros i Hi. unfold ins1. destruct (Z.ltb_spec i (r - p - k)); [lia|]. destruct (Z.leb_spec i (r - s)); [reflexivity|lia]. }
    assert (HLf : forall m : nat, Z.of_nat m <= nsw k -> lft k w m = Q (r - p - k - 1 + Z.of_nat m)).
    { induction m as [|m IH]; intros Hm.
      - cbn [lft]. rewrite HA by lia. unfold ins1. destruct (Z.ltb_spec (r - p - k - 1) (r - p - k)); [|lia]. f_equal. lia.
      - cbn [lft]. rewrite IH by lia. rewrite HA by lia. rewrite HI by lia.
        set (i := r - p - k + Z.of_nat m). replace (r - p - k - 1 + Z.of_nat m) with (i - 1) by lia.
        replace (r - p - k - 1 + Z.of_nat (S m)) with i by lia.
        pose proof (ral_bd k i Hk ltac:(lia) ltac:(lia) ltac:(lia)). vext. field. lra. }
    assert (HRt : forall m : nat, Z.of_nat m <= nsw k -> rgt k w m = Q (r - s - Z.of_nat m)).
    { induction m as [|m IH]; intros Hm.
      - cbn [rgt]. replace (r - s + k + 1) with (r - s + 1 + k) by lia. rewrite HB by lia. unfold ins1.
        destruct (Z.ltb_spec (r - s + 1) (r - p - k)); [lia|]. destruct (Z.leb_spec (r - s + 1) (r - s)); [lia|]. f_equal. lia.
      - cbn [rgt]. rewrite IH by lia. replace (r - s + k - Z.of_nat m) with (r - s - Z.of_nat m + k) by lia.
        destruct (Z_le_gt_dec (r - s - Z.of_nat m) (cutL k)) as [Hcc|Hcc].
        { exfalso. lia. }
        rewrite HB by lia. rewrite HI by lia.
        set (j := r - s - Z.of_nat m). replace (j + k - k) with j by lia.
        replace (r - s - Z.of_nat (S m)) with (j - 1) by lia.
        pose proof (ral_bd k j Hk ltac:(lia) ltac:(lia) ltac:(lia)). vext. field. lra. }
    split.
    - unfold rdelta. destruct (Z.eqb_spec ((p - s + k) mod 2) 0) as [Hev|Hod].
      + rewrite HLf, HRt, HA, HI by lia.
        replace (r - s - Z.of_nat (Z.to_nat (nsw k))) with (r - p - k + nsw k) by lia.
        replace (r - p - k - 1 + Z.of_nat (Z.to_nat (nsw k))) with (r - p - k + nsw k - 1) by lia.
        rewrite pl_comm. apply edist_refl.
      + rewrite HLf, HRt by lia. replace (r - s - Z.of_nat (Z.to_nat (nsw k))) with (r - p - k - 1 + Z.of_nat (Z.to_nat (nsw k))) by lia.
        apply edist_refl.
    - intros i Hi. unfold gap. destruct (Z.leb_spec i kap) as [Hik|Hik].
      + unfold wnext. destruct (Z.leb_spec (r - p - k) i) as [Hfi|Hfi].
        * destruct (Z.ltb_spec i (r - p - k + nsw k)); [|destruct Hc as [?|[? ?]]; lia]. cbn [andb]. rewrite HLf by lia. f_equal. lia.
        * cbn [andb]. destruct (Z.ltb_spec (r - s + k - nsw k) i); [lia|]. cbn [andb].
          rewrite HA by (destruct Hc as [?|[? ?]]; lia). unfold ins1. destruct (Z.ltb_spec i (r - p - k)); [reflexivity|lia].
      + unfold wnext. destruct (Z.ltb_spec (i + (k + 1)) (r - p - k + nsw k)); [destruct Hc as [?|[? ?]]; lia|]. rewrite andb_false_r.
        destruct (Z.leb_spec (i + (k + 1)) (r - s + k)) as [Hle|Hgt].
        * destruct (Z.ltb_spec (r - s + k - nsw k) (i + (k + 1))); [|destruct Hc as [?|[? ?]]; lia]. cbn [andb].
          rewrite HRt by lia. f_equal. lia.
        * rewrite andb_false_r. replace (i + (k + 1)) with (i + 1 + k) by lia. rewrite HB by (destruct Hc as [?|[? ?]]; lia).
          unfold ins1. destruct (Z.ltb_spec (i + 1) (r - p - k)); [lia|]. destruct (Z.leb_spec (i + 1) (r - s)); [lia|]. f_equal. lia.
  Qed.

  (** Insertion is a contraction. *)
  Lemma ins1_near k X Y n e : 0 <= k -> lo <= r - p - k -> r - s + p + 1 + k <= hi -> 0 < r - p - k -> r - s < n - k - 1 ->
    (forall i, 0 <= i < n - k - 1 -> (edist (X i) (Y i) <= e)%R) ->
    forall i, 0 <= i < n - k -> (edist (ins1 k X i) (ins1 k Y i) <= e)%R.
  Proof.
    intros Hk H1 H2 Hf Hl H i Hi. unfold ins1.
    destruct (Z.ltb_spec i (r - p - k)); [apply H; lia|]. destruct (Z.leb_spec i (r - s)); [|apply H; lia].
    pose proof (ral_bd k i Hk ltac:(lia) ltac:(lia) ltac:(lia)). apply edist_convex; [lra|apply H; lia|apply H; lia].
  Qed.
  Lemma reins_near m : forall k X Y n e, 0 <= k -> lo <= r - p - k - Z.of_nat m -> r - s + p + k + Z.of_nat m <= hi ->
    Z.of_nat m <= r - p - k -> r - s < n - k - Z.of_nat m ->
    (forall i, 0 <= i < n - k - Z.of_nat m -> (edist (X i) (Y i) <= e)%R) ->
    forall i, 0 <= i < n - k -> (edist (reins m k X i) (reins m k Y i) <= e)%R.
  Proof.
    induction m as [|m IH]; intros k X Y n e Hk H1 H2 Hf Hl H.
    - cbn [reins]. intros i Hi. apply H. lia.
    - cbn [reins]. apply ins1_near; try lia. intros i Hi. apply (IH (k + 1) X Y n e); try lia. intros i' Hi'. apply H. lia.
  Qed.
  Lemma reins_app m : forall k X i, reins (S m) k X i = reins m k (ins1 (k + Z.of_nat m) X) i.
  Proof.
    clear Hs Hlo Hhi lo hi.
    induction m as [|m IH]; intros k X i.
    - cbn [reins]. f_equal. lia.
    - change (reins (S (S m)) k X i) with (ins1 k (reins (S m) (k + 1) X) i).
      change (reins (S m) k (ins1 (k + Z.of_nat (S m)) X) i) with (ins1 k (reins m (k + 1) (ins1 (k + Z.of_nat (S m)) X)) i).
      assert (E : forall j, reins (S m) (k + 1) X j = reins m (k + 1) (ins1 (k + Z.of_nat (S m)) X) j).
      { intros j. rewrite IH. replace (k + 1 + Z.of_nat m) with (k + Z.of_nat (S m)) by lia. reflexivity. }
      unfold ins1 at 1 2. destruct (i <? r - p - k); [apply E|]. destruct (i <=? r - s); [now rewrite !E|apply E].
  Qed.
End RemMath.
