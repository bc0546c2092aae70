(** Knot removal: the loops of remove_knot. *)
From Coq Require Import Reals Lra Lia ZArith List Permutation Bool.
From Verif Require Import Monad MonadFacts LoopFacts Scalar ScalarFacts Spec SpecFacts SpecGeom Polar ModelCurve CurveFacts ModelBezier
  BezierFacts BezierMath BezierThms BSplineMath ModelBSpline BSplineFacts BSplineThms BSplineInsert BSplineInsert2 CurveThms
  RationalThms PrimitiveFacts EdistFacts BSplineRemove.
Import ListNotations.
Local Open Scope R_scope.
Local Open Scope Z_scope.
Ltac Zify.zify_post_hook ::= Z.div_mod_to_equations.

(** Knots with [c] copies removed. *)
Definition remV (U : Z -> R) (r c : Z) (i : Z) : R := if i <=? r - c then U i else U (i + c).

(** Removing rounds and [insQ]. *)
Lemma reins_insQ {d} U p r s t c m (X : Z -> vec R d) : 0 <= c <= s -> s <= p -> Z.of_nat m <= c ->
  forall i, reins U p r s t m (c - Z.of_nat m) X i = insQ (remV U r c) (Z.to_nat p) (r - c) (s - c) (Z.of_nat m) t X i.
Proof.
  intros Hc Hs. induction m as [|m IH]; intros Hm i.
  - cbn [reins]. unfold insQ. rewrite !Z2Nat.id by lia. zbool; try reflexivity; unfold insT; simpl; f_equal; lia.
  - cbn [reins]. replace (c - Z.of_nat (S m) + 1) with (c - Z.of_nat m) by lia.
    set (k := c - Z.of_nat (S m)). unfold ins1. rewrite !IH by lia. clear IH.
    assert (HT : r - p - k <= i <= r - s ->
      insT (remV U r c) (Z.to_nat p) t X (Z.of_nat (S m)) i
      = padd (pmul (1 - ral U p t k i)%R (insT (remV U r c) (Z.to_nat p) t X (Z.of_nat m) (i - 1)))
          (pmul (ral U p t k i) (insT (remV U r c) (Z.to_nat p) t X (Z.of_nat m) i))).
    { intros Hi. rewrite insT_step by lia. replace (Z.of_nat (S m) - 1) with (Z.of_nat m) by lia.
      assert (E : alU (remV U r c) (Z.to_nat p) (Z.to_nat (Z.of_nat (S m))) i t = ral U p t k i).
      { unfold alU, ral, remV. destruct (Z.leb_spec i (r - c)); [|lia].
        match goal with |- context [Z.leb ?a ?b] => destruct (Z.leb_spec a b); [lia|] end.
        f_equal. f_equal. f_equal. lia. }
      rewrite E. reflexivity. }
    assert (H0 : forall j, insT (remV U r c) (Z.to_nat p) t X 0 j = X j) by reflexivity.
    unfold insQ. rewrite !Z2Nat.id by lia.
    destruct (Z.ltb_spec i (r - p - k)) as [Ha|Ha].
    + destruct (Z.leb_spec i (r - c - p)); [reflexivity|]. zbool. reflexivity.
    + destruct (Z.leb_spec i (r - s)) as [Hb|Hb].
      * destruct (Z.leb_spec i (r - c - p)); [lia|].
        assert (H0' : forall j, m = 0%nat -> insT (remV U r c) (Z.to_nat p) t X (Z.of_nat m) j = X j) by (intros j ->; reflexivity).
        specialize (HT ltac:(lia)).
        assert (E : (if i <=? r - c - p + Z.of_nat (S m) then insT (remV U r c) (Z.to_nat p) t X (i - (r - c - p)) i
             else if i <? r - c - (s - c) then insT (remV U r c) (Z.to_nat p) t X (Z.of_nat (S m)) i
             else if i <? r - c - (s - c) + Z.of_nat (S m)
              then insT (remV U r c) (Z.to_nat p) t X (r - c + Z.of_nat (S m) - (s - c) - i) (r - c - (s - c))
              else X (i - Z.of_nat (S m))) = insT (remV U r c) (Z.to_nat p) t X (Z.of_nat (S m)) i).
        { zbool; try reflexivity; f_equal; lia. }
        rewrite E, HT. clear E HT. f_equal; f_equal.
        -- zbool; try reflexivity; try (rewrite H0' by lia; f_equal; lia); f_equal; lia.
        -- zbool; try reflexivity; try (rewrite H0' by lia; f_equal; lia); f_equal; lia.
      * zbool; f_equal; lia.
Qed.

Local Lemma Ok_inj {A} (a b : A) : Ok a = Ok b -> a = b.
Proof. now intros [=]. Qed.

Section RemProg.
  Context {d : nat}.
  Notation P := (vec R d).
  Variables (c : bspline R P) (n p : Z) (U : Z -> R) (cp : Z -> P) (r s : Z) (t : R).
  Hypothesis Hr : bsrep c n p U cp.
  Hypothesis Hs : 1 <= s <= p.
  Hypothesis Hlo : forall i, 0 <= i <= r - s -> (U i < t)%R.
  Hypothesis Hhi : forall i, r < i <= n + p -> (t < U i)%R.
  Hypothesis Hrn : p < r < n.
  Notation lft := (lft U p r t).
  Notation rgt := (rgt U p r s t).
  Notation ral := (ral U p t).
  Notation nsw := (nsw p s).

  Lemma ddiv_R (a b : R) : b <> 0%R -> ddiv a b = Ok (a / b)%R.
  Proof. intros Hb. unfold ddiv. simpl. destruct (Reqb_spec b 0%R); [contradiction|reflexivity]. Qed.

  Definition swI (k : Z) (w : Z -> P) (a : Z) (st : list P * Z * Z * Z * Z) : Prop :=
    exists temp f, st = (temp, r - p - k + a, r - s + k - a, 1 + a, p - s + 2 * k + 1 - a) /\ 0 <= a <= nsw k /\
      arr temp n f /\ (forall m, 0 <= m <= a -> f m = lft k w (Z.to_nat m)) /\
      (forall m, 0 <= m <= a -> f (p - s + 2 * k + 2 - m) = rgt k w (Z.to_nat m)).

  Lemma sweep_spec k (Pw : list P) (w : Z -> P) (temp : list P) f : 0 <= k < s -> k < r - p -> arr Pw n w -> arr temp n f ->
    f 0 = w (r - p - k - 1) -> f (p - s + 2 * k + 2) = w (r - s + k + 1) ->
    exists st, remove_sweep (bs_knots c) Pw t (p + 1) k (temp, r - p - k, r - s + k, 1, p - s + 2 * k + 1) = Ok st /\
      swI k w (nsw k) st.
  Proof.
    intros Hk Hkr HP HT Hf0 Hf1. unfold remove_sweep.
    pose proof (rep_nknots _ _ _ _ _ Hr) as HnU. unfold zlen in HnU. pose proof (arr_len _ _ _ HP) as HnP. unfold zlen in HnP.
    assert (Hns : nsw k = (p - s + k + 1) / 2) by reflexivity.
    pose (Inv := fun st => exists a, swI k w a st).
    pose (ms := fun st : list P * Z * Z * Z * Z => let '(_, i, j, _, _) := st in Z.to_nat (j - i)).
    match goal with |- exists st, while ?f ?cc ?b ?s0 = Ok st /\ _ =>
      destruct (while_inv Inv ms f cc b s0) as (st & E & HI & Hc) end.
    - exists 0, temp, f. split; [apply f_equal2; [apply f_equal2; [apply f_equal2; [apply f_equal2; [reflexivity|lia]|lia]|lia]|lia]|]. split; [lia|]. split; [exact HT|]. split.
      + intros m Hm. replace m with 0 by lia. exact Hf0.
      + intros m Hm. replace m with 0 by lia. cbn [Z.to_nat]. rewrite Z.sub_0_r. exact Hf1.
    - unfold ms. lia.
    - intros [[[[? ?] ?] ?] ?] _. eexists; reflexivity.
    - intros st (a & tp & g & -> & Ha & Hg & HL & HR) Hc. apply Ok_inj in Hc. apply Z.ltb_lt in Hc.
      assert (Hae : a < nsw k) by lia.
      pose proof (ral_bd U p r s t 0 (n + p) Hlo Hhi k (r - p - k + a) ltac:(lia) ltac:(lia) ltac:(lia) ltac:(lia)) as Hai.
      pose proof (ral_bd U p r s t 0 (n + p) Hlo Hhi k (r - s + k - a - k) ltac:(lia) ltac:(lia) ltac:(lia) ltac:(lia)) as Haj.
      pose proof (Hlo (r - p - k + a) ltac:(lia)). pose proof (Hhi (r - p - k + a + (p + 1) + k) ltac:(lia)).
      pose proof (Hlo (r - s + k - a - k) ltac:(lia)). pose proof (Hhi (r - s + k - a + (p + 1)) ltac:(lia)).
      rewrite (rep_get _ _ _ _ _ (r - p - k + a) Hr) by lia. rewrite bind_Ok.
      rewrite (rep_get _ _ _ _ _ (r - p - k + a + (p + 1) + k) Hr) by lia. rewrite bind_Ok.
      rewrite ddiv_R by (simpl; lra). rewrite bind_Ok.
      rewrite (rep_get _ _ _ _ _ (r - s + k - a - k) Hr) by lia. rewrite bind_Ok.
      rewrite (rep_get _ _ _ _ _ (r - s + k - a + (p + 1)) Hr) by lia. rewrite bind_Ok.
      rewrite ddiv_R by (simpl; lra). rewrite bind_Ok.
      assert (Ei : (ssub t (U (r - p - k + a)%Z) / ssub (U (r - p - k + a + (p + 1) + k)%Z) (U (r - p - k + a)%Z))%R = ral k (r - p - k + a)).
      { unfold BSplineRemove.ral. simpl. f_equal. f_equal. f_equal. lia. }
      assert (Ej : (ssub t (U (r - s + k - a - k)%Z) / ssub (U (r - s + k - a + (p + 1))%Z) (U (r - s + k - a - k)%Z))%R = ral k (r - s + k - a - k)).
      { unfold BSplineRemove.ral. simpl. f_equal. f_equal. f_equal. lia. }
      rewrite Ei, Ej. clear Ei Ej.
      rewrite (arr_get _ _ _ _ HP) by lia. rewrite bind_Ok.
      replace (1 + a - 1) with a by lia. rewrite (arr_get _ _ _ _ Hg) by lia. rewrite bind_Ok.
      rewrite pdivs_ok by lra. rewrite bind_Ok.
      match goal with |- context [set tp (1 + a) ?v] => set (vi := v); destruct (arr_set tp n g (1 + a) vi Hg) as (tp1 & Et1 & Hg1); [lia|] end.
      rewrite Et1, bind_Ok.
      rewrite (arr_get _ _ _ (r - s + k - a) HP) by lia. rewrite bind_Ok.
      rewrite (arr_get _ _ _ (p - s + 2 * k + 1 - a + 1) Hg1) by lia. rewrite bind_Ok.
      rewrite pdivs_ok by (simpl; lra). rewrite bind_Ok.
      match goal with |- context [set tp1 ?x ?v] => set (vj := v); destruct (arr_set tp1 n _ x vj Hg1) as (tp2 & Et2 & Hg2); [lia|] end.
      rewrite Et2, bind_Ok.
      eexists. split; [reflexivity|]. split; [|unfold ms; lia].
      exists (a + 1), tp2, (fupd (fupd g (1 + a) vi) (p - s + 2 * k + 1 - a) vj).
      split; [apply f_equal2; [apply f_equal2; [apply f_equal2; [apply f_equal2; [reflexivity|lia]|lia]|lia]|lia]|]. split; [lia|]. split; [exact Hg2|].
      assert (Hvi : vi = lft k w (Z.to_nat (a + 1))).
      { replace (Z.to_nat (a + 1)) with (S (Z.to_nat a)) by lia. cbn [BSplineRemove.lft].
        replace (r - p - k + Z.of_nat (Z.to_nat a)) with (r - p - k + a) by lia.
        unfold vi. rewrite HL by lia. reflexivity. }
      assert (Hvj : vj = rgt k w (Z.to_nat (a + 1))).
      { replace (Z.to_nat (a + 1)) with (S (Z.to_nat a)) by lia. cbn [BSplineRemove.rgt].
        replace (r - s + k - Z.of_nat (Z.to_nat a)) with (r - s + k - a) by lia.
        unfold vj. rewrite fupd_neq by lia. replace (p - s + 2 * k + 1 - a + 1) with (p - s + 2 * k + 2 - a) by lia.
        rewrite HR by lia. reflexivity. }
      split.
      + intros m Hm. rewrite fupd_neq by lia. destruct (Z.eq_dec m (a + 1)) as [->|Hne].
        * replace (a + 1) with (1 + a) at 1 by lia. rewrite fupd_eq. exact Hvi.
        * rewrite fupd_neq by lia. apply HL. lia.
      + intros m Hm. destruct (Z.eq_dec m (a + 1)) as [->|Hne].
        * replace (p - s + 2 * k + 2 - (a + 1)) with (p - s + 2 * k + 1 - a) by lia. rewrite fupd_eq. exact Hvj.
        * rewrite !fupd_neq by lia. apply HR. lia.
    - exists st. split; [exact E|]. destruct HI as (a & tp & g & -> & Ha & Hg & HL & HR).
      apply Ok_inj in Hc. apply Z.ltb_ge in Hc. assert (a = nsw k) by lia. subst a.
      exists tp, g. repeat (split; [assumption||reflexivity|]). exact HR.
  Qed.

  Lemma copy_spec k (Pw : list P) (w : Z -> P) (temp : list P) f : 0 <= k < s -> k < r - p -> arr Pw n w -> arr temp n f ->
    (forall m, 0 <= m <= nsw k -> f m = lft k w (Z.to_nat m)) ->
    (forall m, 0 <= m <= nsw k -> f (p - s + 2 * k + 2 - m) = rgt k w (Z.to_nat m)) ->
    exists Pw', remove_copy Pw temp (r - p - k) (r - s + k) (r - p - k - 1) k = Ok Pw' /\ arr Pw' n (wnext U p r s t k w).
  Proof.
    intros Hk Hkr HP HT HL HR. unfold remove_copy.
    pose proof (arr_len _ _ _ HP) as HnP. unfold zlen in HnP.
    assert (Hns : nsw k = (p - s + k + 1) / 2) by reflexivity.
    pose (Inv := fun st => exists a g Pw, st = (Pw, r - p - k + a, r - s + k - a) /\ 0 <= a <= nsw k /\ arr Pw n g /\
      forall i, 0 <= i < n -> g i = if (r - p - k <=? i) && (i <? r - p - k + a) then lft k w (Z.to_nat (i - (r - p - k) + 1))
        else if (r - s + k - a <? i) && (i <=? r - s + k) then rgt k w (Z.to_nat (r - s + k - i + 1)) else w i).
    pose (ms := fun st : list P * Z * Z => let '(_, i, j) := st in Z.to_nat (j - i)).
    match goal with |- context [while ?f ?cc ?b ?s0] =>
      destruct (while_inv Inv ms f cc b s0) as (st & E & HI & Hc) end.
    - exists 0, w, Pw. split; [apply f_equal2; [apply f_equal2; [reflexivity|lia]|lia]|]. split; [lia|]. split; [exact HP|].
      intros i Hi. zbool; try reflexivity.
    - unfold ms. lia.
    - intros [[? ?] ?] _. eexists; reflexivity.
    - intros st (a & g & Q & -> & Ha & Hg & HI) Hc. apply Ok_inj in Hc. apply Z.ltb_lt in Hc.
      assert (Hae : a < nsw k) by lia.
      rewrite (arr_get _ _ _ _ HT) by lia. rewrite bind_Ok.
      match goal with |- context [set Q ?x ?v] => destruct (arr_set Q n g x v Hg) as (Q1 & E1 & Hg1); [lia|] end.
      rewrite E1, bind_Ok. rewrite (arr_get _ _ _ _ HT) by lia. rewrite bind_Ok.
      match goal with |- context [set Q1 ?x ?v] => destruct (arr_set Q1 n _ x v Hg1) as (Q2 & E2 & Hg2); [lia|] end.
      rewrite E2, bind_Ok. eexists. split; [reflexivity|]. split; [|unfold ms; lia].
      exists (a + 1). eexists. exists Q2. split; [apply f_equal2; [apply f_equal2; [reflexivity|lia]|lia]|]. split; [lia|]. split; [exact Hg2|].
      intros i Hi. unfold fupd.
      replace (r - p - k + a - (r - p - k - 1)) with (a + 1) by lia. rewrite (HL (a + 1)) by lia.
      replace (r - s + k - a - (r - p - k - 1)) with (p - s + 2 * k + 2 - (a + 1)) by lia. rewrite (HR (a + 1)) by lia.
      destruct (Z.eqb_spec i (r - s + k - a)) as [->|H1].
      + zbool. f_equal. lia.
      + destruct (Z.eqb_spec i (r - p - k + a)) as [->|H2].
        * zbool. f_equal. lia.
        * rewrite HI by lia. zbool; reflexivity.
    - rewrite E, bind_Ok. destruct HI as (a & g & Q & -> & Ha & Hg & HI).
      apply Ok_inj in Hc. apply Z.ltb_ge in Hc. assert (a = nsw k) by lia. subst a.
      exists Q. split; [reflexivity|]. eapply arr_ext; [exact Hg|]. intros i Hi. rewrite HI by exact Hi. reflexivity.
  Qed.
End RemProg.
