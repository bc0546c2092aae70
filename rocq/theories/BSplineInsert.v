(** Knot insertion: the new control points are the old polar forms at the new knots. *)
From Coq Require Import Reals Lra Lia ZArith List Permutation Bool.
From Verif Require Import Monad MonadFacts LoopFacts Scalar ScalarFacts Spec SpecFacts Polar ModelCurve CurveFacts ModelBezier
  BezierFacts BezierMath BezierThms BSplineMath ModelBSpline BSplineFacts BSplineThms.
Import ListNotations.
Local Open Scope R_scope.

(** New knots and control points. *)
Definition insU (U : Z -> R) (k r : Z) (t : R) (i : Z) : R :=
  if (i <=? k)%Z then U i else if (i <=? k + r)%Z then t else U (i - r)%Z.

Section InsQ.
  Context {P : Type} {V : PointOps R P}.
  Definition insT U (p : nat) (t : R) (cp : Z -> P) (j g : Z) : P :=
    tri (alU U p) cp (repeat t (Z.to_nat j)) g.
  Definition insQ U (p : nat) (k s r : Z) (t : R) (cp : Z -> P) (i : Z) : P :=
    if (i <=? k - Z.of_nat p)%Z then cp i
    else if (i <=? k - Z.of_nat p + r)%Z then insT U p t cp (i - (k - Z.of_nat p)) i
    else if (i <? k - s)%Z then insT U p t cp r i
    else if (i <? k - s + r)%Z then insT U p t cp (k + r - s - i) (k - s)
    else cp (i - r)%Z.
End InsQ.

(** Pieces of the new knot vector. *)
Section InsSeg.
  Variables (U : Z -> R) (k r : Z) (t : R).
  Hypothesis Hr : (0 <= r)%Z.
  Let U' := insU U k r t.

  Lemma insU_low i : (i <= k)%Z -> U' i = U i.
  Proof. intros H. unfold U', insU. destruct (Z.leb_spec i k); [reflexivity|lia]. Qed.
  Lemma insU_mid i : (k < i <= k + r)%Z -> U' i = t.
  Proof. intros H. unfold U', insU. destruct (Z.leb_spec i k); [lia|]. destruct (Z.leb_spec i (k + r)); [reflexivity|lia]. Qed.
  Lemma insU_high i : (k + r < i)%Z -> U' i = U (i - r)%Z.
  Proof. intros H. unfold U', insU. destruct (Z.leb_spec i k); [lia|]. destruct (Z.leb_spec i (k + r)); [lia|reflexivity]. Qed.

  (** a pieces of U up to k, then the copies of t, then the rest. *)
  Lemma seg_ins3 i (a b : nat) : (i + Z.of_nat a = k + 1)%Z ->
    seg U' i (a + (Z.to_nat r + b)) = seg U i a ++ repeat t (Z.to_nat r) ++ seg U (k + 1) b.
  Proof.
    intros Ha. rewrite !seg_app. f_equal; [|f_equal].
    - apply seg_ext. intros j Hj. apply insU_low. lia.
    - apply seg_const. intros j Hj. apply insU_mid. lia.
    - apply seg_shift. intros j Hj. rewrite insU_high by lia. f_equal. lia.
  Qed.
  Lemma seg_ins2 i (a b : nat) : (i + Z.of_nat a = k + 1)%Z -> (Z.of_nat b <= r)%Z ->
    seg U' i (a + b) = seg U i a ++ repeat t b.
  Proof.
    intros Ha Hb. rewrite !seg_app. f_equal.
    - apply seg_ext. intros j Hj. apply insU_low. lia.
    - apply seg_const. intros j Hj. apply insU_mid. lia.
  Qed.
  Lemma seg_ins_t i (a b : nat) : (k < i)%Z -> (i + Z.of_nat a = k + r + 1)%Z ->
    seg U' i (a + b) = repeat t a ++ seg U (k + 1) b.
  Proof.
    intros Hi Ha. rewrite !seg_app. f_equal.
    - apply seg_const. intros j Hj. apply insU_mid. lia.
    - apply seg_shift. intros j Hj. rewrite insU_high by lia. f_equal. lia.
  Qed.
  Lemma seg_ins_low i (a : nat) : (i + Z.of_nat a <= k + 1)%Z -> seg U' i a = seg U i a.
  Proof. intros Ha. apply seg_ext. intros j Hj. apply insU_low. lia. Qed.
  Lemma seg_ins_high i (a : nat) : (k + r < i)%Z -> seg U' i a = seg U (i - r) a.
  Proof. intros Ha. apply seg_shift. intros j Hj. rewrite insU_high by lia. f_equal. lia. Qed.
End InsSeg.

Section InsMath.
  Variables (U : Z -> R) (p : nat) (k s r : Z) (t : R) (lo hi : Z).
  Hypothesis Hm : mono U lo hi.
  Hypothesis Hkt : U k <= t <= U (k + 1)%Z.
  Hypothesis Hk : U k < U (k + 1)%Z.
  Hypothesis Hs : (0 <= s)%Z.
  Hypothesis Hst : forall i, (k - s < i <= k)%Z -> U i = t.
  Hypothesis Hr : (1 <= r)%Z.
  Hypothesis Hrs : (r + s <= Z.of_nat p)%Z.
  Let U' := insU U k r t.

  (** Old span of a new span. *)
  Definition old_span (m : Z) : Z := if (m <=? k)%Z then m else (m - r)%Z.

  Lemma perm_tail (l1 l2 l3 : list R) : Permutation (l1 ++ l2 ++ l3) (l2 ++ l1 ++ l3).
  Proof. rewrite !app_assoc. apply Permutation_app_tail. apply Permutation_app_comm. Qed.

  Lemma insQ_polar (cp : Z -> R) (m i : Z) :
    U' m < U' (m + 1)%Z -> (m - Z.of_nat p <= i <= m)%Z ->
    (lo <= old_span m - Z.of_nat p + 1)%Z -> (old_span m + Z.of_nat p <= hi)%Z ->
    (lo <= old_span m)%Z -> (old_span m + 1 <= hi)%Z -> U (old_span m) < U (old_span m + 1)%Z ->
    insQ U p k s r t cp i
    = tri (alU U p) cp (seg U' (i + 1) p) (old_span m).
  Proof.
    intros Hne Hi Hlo Hhi Hlo' Hhi' Hold.
    set (k' := old_span m) in *.
    assert (Hsep : sepk U p k') by (apply (sepk_mono U lo hi); auto).
    set (G := fun l => tri (alU U p) cp l k').
    assert (HG : polar p G) by (apply tri_polar; exact Hsep).
    assert (Hc : forall i, (k' - Z.of_nat p <= i <= k')%Z -> cp i = G (seg U (i + 1) p)).
    { intros i' Hi'. unfold G. symmetry. apply tri_at_knots; assumption. }
    assert (HT : forall j g, (0 <= j <= Z.of_nat p)%Z -> (k' - Z.of_nat p + j <= g <= k')%Z ->
       insT U p t cp j g = G (repeat t (Z.to_nat j) ++ seg U (g + 1) (p - Z.to_nat j))).
    { intros j g Hj Hg. unfold insT. rewrite (tri_reproduce U p k' Hsep cp G) by (rewrite ?repeat_length; auto; lia).
      now rewrite repeat_length. }
    (* the new span m is not one of the empty ones *)
    assert (Hmr : ((m <= k)%Z /\ k' = m) \/ ((k + r <= m)%Z /\ k' = (m - r)%Z)).
    { unfold k', old_span. destruct (Z.leb_spec m k); [left; auto|right; split; [|reflexivity]].
      destruct (Z_le_gt_dec (k + r) m); [assumption|exfalso].
      unfold U' in Hne. rewrite !insU_mid in Hne by lia. lra. }
    assert (Hmk : (m <= k)%Z -> (m <= k - s)%Z).
    { intros Hle. destruct (Z_le_gt_dec m (k - s)); [assumption|exfalso].
      unfold U' in Hne. rewrite insU_low in Hne by lia. rewrite (Hst m) in Hne by lia.
      destruct (Z.eq_dec m k) as [->|].
      - rewrite insU_mid in Hne by lia. lra.
      - rewrite insU_low, (Hst (m + 1)%Z) in Hne by lia. lra. }
    unfold insQ.
    destruct (Z.leb_spec i (k - Z.of_nat p)) as [HA|HA].
    { rewrite (Hc i) by lia. unfold G, U'. rewrite seg_ins_low by lia. reflexivity. }
    destruct (Z.leb_spec i (k - Z.of_nat p + r)) as [HB|HB].
    { rewrite HT by lia.
      replace (seg U' (i + 1) p) with (seg U' (i + 1) (Z.to_nat (k - i) + Z.to_nat (i - (k - Z.of_nat p)))) by (f_equal; lia).
      unfold U'. rewrite seg_ins2 by lia. unfold G.
      change (G (repeat t (Z.to_nat (i - (k - Z.of_nat p))) ++ seg U (i + 1) (p - Z.to_nat (i - (k - Z.of_nat p))))
        = G (seg U (i + 1) (Z.to_nat (k - i)) ++ repeat t (Z.to_nat (i - (k - Z.of_nat p))))).
      apply (po_sym p G HG); [rewrite app_length, repeat_length, seg_length; lia|].
      replace (p - Z.to_nat (i - (k - Z.of_nat p)))%nat with (Z.to_nat (k - i)) by lia. apply Permutation_app_comm. }
    destruct (Z.ltb_spec i (k - s)) as [HC|HC].
    { rewrite HT by lia.
      set (b := Z.to_nat (i + Z.of_nat p - k - r)).
      replace (seg U' (i + 1) p) with (seg U' (i + 1) (Z.to_nat (k - i) + (Z.to_nat r + b))) by (f_equal; lia).
      unfold U'. rewrite seg_ins3 by lia.
      apply (po_sym p G HG); [rewrite app_length, repeat_length, seg_length; lia|].
      replace (p - Z.to_nat r)%nat with (Z.to_nat (k - i) + b)%nat by lia. rewrite seg_app.
      replace (i + 1 + Z.of_nat (Z.to_nat (k - i)))%Z with (k + 1)%Z by lia. apply perm_tail. }
    destruct (Z.ltb_spec i (k - s + r)) as [HD|HD].
    { set (j := (k + r - s - i)%Z).
      rewrite HT by lia.
      set (b := Z.to_nat (i + Z.of_nat p - k - r)).
      replace (p - Z.to_nat j)%nat with (Z.to_nat s + b)%nat by lia.
      rewrite seg_app. rewrite (seg_const U (k - s + 1) (Z.to_nat s) t) by (intros; apply Hst; lia).
      replace (k - s + 1 + Z.of_nat (Z.to_nat s))%Z with (k + 1)%Z by lia.
      unfold G. f_equal.
      destruct (Z_le_gt_dec k i) as [Hki|Hki].
      - replace (seg U' (i + 1) p) with (seg U' (i + 1) (Z.to_nat (k + r - i) + b)) by (f_equal; lia).
        unfold U'. rewrite seg_ins_t by lia. rewrite app_assoc, <- repeat_app. f_equal. f_equal. lia.
      - replace (seg U' (i + 1) p) with (seg U' (i + 1) (Z.to_nat (k - i) + (Z.to_nat r + b))) by (f_equal; lia).
        unfold U'. rewrite seg_ins3 by lia. rewrite (seg_const U (i + 1) _ t) by (intros; apply Hst; lia).
        rewrite !app_assoc, <- !repeat_app. f_equal. f_equal. lia. }
    { (* E *)
      assert (Hmk2 : (k + r <= m)%Z) by (destruct Hmr as [[H1 H2]|[H1 H2]]; [specialize (Hmk H1); lia|exact H1]).
      assert (Ek' : k' = (m - r)%Z) by (destruct Hmr as [[H1 H2]|[H1 H2]]; lia).
      rewrite (Hc (i - r)%Z) by lia. unfold G. f_equal.
      destruct (Z_le_gt_dec (k + r) i) as [Hki|Hki].
      - unfold U'. rewrite seg_ins_high by lia. f_equal. lia.
      - set (b := Z.to_nat (i + Z.of_nat p - k - r)).
        assert (E1 : seg U (i - r + 1) p = repeat t (Z.to_nat (k + r - i)) ++ seg U (k + 1) b).
        { replace p with (Z.to_nat (k + r - i) + b)%nat at 1 by lia. rewrite seg_app. f_equal.
          - apply seg_const. intros; apply Hst; lia.
          - f_equal. lia. }
        rewrite E1.
        destruct (Z_le_gt_dec k i) as [Hki2|Hki2].
        + replace (seg U' (i + 1) p) with (seg U' (i + 1) (Z.to_nat (k + r - i) + b)) by (f_equal; lia).
          unfold U'. rewrite seg_ins_t by lia. reflexivity.
        + replace (seg U' (i + 1) p) with (seg U' (i + 1) (Z.to_nat (k - i) + (Z.to_nat r + b))) by (f_equal; lia).
          unfold U'. rewrite seg_ins3 by lia. rewrite (seg_const U (i + 1) _ t) by (intros; apply Hst; lia).
          rewrite !app_assoc, <- !repeat_app. f_equal. f_equal. lia. }
  Qed.

  Lemma insU_mono : (lo <= k)%Z -> (k + 1 <= hi)%Z -> mono U' lo (hi + r).
  Proof.
    intros Hlk Hkh i j H1 H2 H3. unfold U', insU.
    destruct (Z.leb_spec i k), (Z.leb_spec j k); try lia; try (apply Hm; lia).
    - destruct (Z.leb_spec j (k + r)).
      + assert (U i <= U k) by (apply Hm; lia). lra.
      + apply Hm; lia.
    - destruct (Z.leb_spec i (k + r)), (Z.leb_spec j (k + r)); try lia; try lra.
      + assert (U (k + 1)%Z <= U (j - r)%Z) by (apply Hm; lia). lra.
      + apply Hm; lia.
  Qed.

  (** Every non-empty new span lies in the old span [old_span m]. *)
  Lemma old_span_in tmax m u : in_span U' tmax m u -> in_span U tmax (old_span m) u.
  Proof.
    intros H. unfold old_span. destruct (Z.leb_spec m k) as [Hmk|Hmk].
    - destruct (Z.eq_dec m k) as [->|].
      + unfold in_span in *. unfold U' in H. rewrite insU_low in H by lia. rewrite insU_mid in H by lia.
        destruct H as [H|H]; [left; lra|right; lra].
      + unfold in_span in *. unfold U' in H. rewrite !insU_low in H by lia. exact H.
    - destruct (Z_lt_le_dec m (k + r)) as [Hlt|Hge].
      + destruct (in_span_bounds _ _ _ _ H) as [_ H']. unfold U' in H'. rewrite !insU_mid in H' by lia. lra.
      + unfold in_span in *. destruct (Z.eq_dec m (k + r)) as [->|].
        * unfold U' in H. rewrite insU_mid in H by lia. rewrite insU_high in H by lia.
          replace (k + r - r)%Z with k by lia. replace (k + r + 1 - r)%Z with (k + 1)%Z in H by lia.
          destruct H as [H|H]; [left; lra|right; lra].
        * unfold U' in H. rewrite !insU_high in H by lia. replace (m + 1 - r)%Z with (m - r + 1)%Z in H by lia. exact H.
  Qed.

  Lemma insQ_eval (cp : Z -> R) tmax m u :
    in_span U' tmax m u ->
    (lo <= old_span m - Z.of_nat p + 1)%Z -> (old_span m + Z.of_nat p <= hi)%Z ->
    (lo <= old_span m)%Z -> (old_span m + 1 <= hi)%Z -> (lo <= k)%Z -> (k + 1 <= hi)%Z ->
    (lo <= m - Z.of_nat p + 1)%Z -> (m + Z.of_nat p <= hi + r)%Z -> (lo <= m)%Z -> (m + 1 <= hi + r)%Z ->
    tri (alU U' p) (insQ U p k s r t cp) (repeat u p) m = tri (alU U p) cp (repeat u p) (old_span m).
  Proof.
    intros H H1 H2 H3 H4 H5 H6 H7 H8 H9 H10.
    destruct (in_span_bounds _ _ _ _ H) as [_ Hne].
    destruct (in_span_bounds _ _ _ _ (old_span_in _ _ _ H)) as [_ Hold].
    set (G := fun l => tri (alU U p) cp l (old_span m)).
    assert (HG : polar p G) by (apply tri_polar; apply (sepk_mono U lo hi); auto).
    rewrite (tri_reproduce U' p m) with (G := G); [|apply (sepk_mono U' lo (hi + r)); auto; now apply insU_mono|exact HG| |rewrite repeat_length; lia|rewrite repeat_length; lia].
    - rewrite repeat_length, Nat.sub_diag. cbn [seg]. rewrite app_nil_r. reflexivity.
    - intros i Hi. apply insQ_polar; assumption.
  Qed.
  Lemma insQ_convex {P} {V : PointOps R P} (Q : P -> Prop) (cp : Z -> P) n : convexP Q ->
    (lo <= k - Z.of_nat p)%Z -> (k + Z.of_nat p <= hi)%Z ->
    (Z.of_nat p <= k < n)%Z ->
    (forall i, (0 <= i < n)%Z -> Q (cp i)) -> forall i, (0 <= i < n + r)%Z -> Q (insQ U p k s r t cp i).
  Proof.
    intros HQ Hlo Hhi Hkn Hc i Hi.
    assert (HT : forall j g, (1 <= j <= r)%Z -> (k - Z.of_nat p + j <= g <= k - s)%Z -> Q (insT U p t cp j g)).
    { intros j g Hj Hg. refine (tri_convex Q (alU U p) cp t (Z.to_nat j) g HQ _ _); [intros i' Hi'; apply Hc; lia|].
      intros r' j' Hr' Hj'. unfold alU.
      assert (U j' <= U k) by (apply Hm; lia). assert (U (k + 1)%Z <= U (j' + Z.of_nat p + 1 - Z.of_nat r')%Z) by (apply Hm; lia).
      split.
      - apply Rmult_le_pos; [lra|]. apply Rlt_le, Rinv_0_lt_compat. lra.
      - apply (Rmult_le_reg_r (U (j' + Z.of_nat p + 1 - Z.of_nat r')%Z - U j')); [lra|]. unfold Rdiv.
        rewrite Rmult_assoc, Rinv_l by lra. lra. }
    unfold insQ. zbool.
    - apply Hc; lia.
    - apply HT; lia.
    - apply HT; lia.
    - apply HT; lia.
    - apply Hc; lia.
  Qed.
End InsMath.

Lemma coord_insQ {d} e U p k s r t (cp : Z -> vec R d) i : (e < d)%nat ->
  coord d e (insQ U p k s r t cp i) = insQ U p k s r t (fun j => coord d e (cp j)) i.
Proof.
  intros He. unfold insQ, insT.
  destruct (Z.leb_spec i (k - Z.of_nat p)); [reflexivity|].
  destruct (Z.leb_spec i (k - Z.of_nat p + r)); [now apply coord_tri|].
  destruct (Z.ltb_spec i (k - s)); [now apply coord_tri|].
  destruct (Z.ltb_spec i (k - s + r)); [now apply coord_tri|reflexivity].
Qed.
