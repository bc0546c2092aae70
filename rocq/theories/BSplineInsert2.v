(** Knot insertion: the loops of insert_knot compute [insU] and [insQ]. *)
From Coq Require Import Reals Lra Lia ZArith List Permutation Bool.
From Verif Require Import Monad MonadFacts LoopFacts Scalar ScalarFacts Spec SpecFacts Polar ModelCurve CurveFacts ModelBezier
  BezierFacts BezierMath BezierThms BSplineMath ModelBSpline BSplineFacts BSplineThms BSplineInsert.
Import ListNotations.
Local Open Scope R_scope.
Local Open Scope Z_scope.

Section Loop.
  Context {P : Type} {V : PointOps R P} {L : PointLaws P}.

  (** Row [i'] after round [j]. *)
  Definition insRow U (p : Z) (k s : Z) (t : R) (cp : Z -> P) (j i' : Z) : P :=
    insT U (Z.to_nat p) t cp j (k - p + j + i').

  Lemma insT_step U (p : nat) t (cp : Z -> P) j g : 1 <= j ->
    insT U p t cp j g =
    padd (pmul (1 - alU U p (Z.to_nat j) g t)%R (insT U p t cp (j - 1) (g - 1)))
         (pmul (alU U p (Z.to_nat j) g t) (insT U p t cp (j - 1) g)).
  Proof.
    intros Hj. unfold insT. replace (Z.to_nat j) with (S (Z.to_nat (j - 1))) by lia.
    cbn [repeat tri length]. now rewrite repeat_length.
  Qed.

  (** One round on the rows. *)
  Lemma insert_round c n p U (cp : Z -> P) (t : R) (k s j : Z) (Rw : list P) (N : Z) f :
    bsrep c n p U cp -> mono U 0 (n + p) -> p <= k < n -> (U k < U (k + 1)%Z)%R ->
    0 <= s -> 1 <= j -> j + s <= p -> N = p - s + 1 ->
    arr Rw N f -> (forall i, 0 <= i <= p - (j - 1) - s -> f i = insRow U p k s t cp (j - 1) i) ->
    exists Rw', for_up 0 (p - j - s + 1) (fun i Rw =>
        do u1 <- get (bs_knots c) (i + k + 1);
        do u0 <- get (bs_knots c) (k - p + j + i);
        let diff := (u1 - u0)%S in
        do alpha <- (if (s0 <? diff)%S then ddiv (t - u0)%S diff else Ok s0);
        do a <- get Rw (i + 1);
        do b <- get Rw i;
        set Rw i (padd (pmul alpha a) (pmul (s1 - alpha)%S b))) Rw = Ok Rw' /\
      exists f', arr Rw' N f' /\ (forall i, 0 <= i <= p - j - s -> f' i = insRow U p k s t cp j i).
  Proof.
    intros H Hm Hk Hlt Hs Hj Hjs EN HR Hf. pose proof (rep_p _ _ _ _ _ H) as Hp.
    set (f' := fun i => if (0 <=? i) && (i <? p - j - s + 1) then insRow U p k s t cp j i else f i).
    match goal with |- exists Rw', for_up 0 _ ?B Rw = _ /\ _ =>
      destruct (for_up_fill 0 (p - j - s + 1) N B Rw f (insRow U p k s t cp j) HR) as (o & Eo & Ho) end.
    - lia.
    - lia.
    - intros i w Hi Hw.
      rewrite (rep_get _ _ _ _ _ (i + k + 1) H), bind_Ok by lia.
      rewrite (rep_get _ _ _ _ _ (k - p + j + i) H), bind_Ok by lia.
      assert (Hd : (U (k - p + j + i)%Z < U (i + k + 1)%Z)%R).
      { assert (U (k - p + j + i)%Z <= U k)%R by (apply Hm; lia).
        assert (U (k + 1)%Z <= U (i + k + 1)%Z)%R by (apply Hm; lia). lra. }
      simpl ssub. simpl slt. cbn [s0 R_ops]. rewrite Rltb_true by lra. rewrite ddiv_R by lra. rewrite bind_Ok.
      rewrite (arr_get _ _ _ (i + 1) Hw), bind_Ok by lia.
      rewrite (arr_get _ _ _ i Hw), bind_Ok by lia. cbv beta.
      replace ((0 <=? i + 1) && (i + 1 <? i)) with false by (symmetry; apply andb_false_iff; right; apply Z.ltb_ge; lia).
      replace ((0 <=? i) && (i <? i)) with false by (symmetry; apply andb_false_iff; right; apply Z.ltb_ge; lia).
      f_equal. rewrite (Hf (i + 1)), (Hf i) by lia. unfold insRow.
      rewrite (insT_step _ _ _ _ j) by lia. simpl s1.
      replace (k - p + j + i - 1) with (k - p + (j - 1) + i) by lia.
      replace (k - p + (j - 1) + (i + 1)) with (k - p + j + i) by lia.
      rewrite pl_comm.
      assert (EA : alU U (Z.to_nat p) (Z.to_nat j) (k - p + j + i) t = ((t - U (k - p + j + i)%Z) / (U (i + k + 1)%Z - U (k - p + j + i)%Z))%R).
      { unfold alU. do 3 f_equal. lia. }
      rewrite EA. reflexivity.
    - exists o. split; [exact Eo|]. eexists. split; [exact Ho|]. intros i Hi. cbv beta.
      replace ((0 <=? i) && (i <? p - j - s + 1)) with true; [reflexivity|].
      symmetry. apply andb_true_iff. split; [apply Z.leb_le; lia|apply Z.ltb_lt; lia].
  Qed.

  (** State of the new control points before round [j]. *)
  Definition insC U (p : Z) (k s r : Z) (t : R) (cp C0 : Z -> P) (j i : Z) : P :=
    if (k - p <? i) && (i <? k - p + j) then insT U (Z.to_nat p) t cp (i - (k - p)) i
    else if (k + r - s - j <? i) && (i <? k + r - s) then insT U (Z.to_nat p) t cp (k + r - s - i) (k - s)
    else C0 i.


  Lemma insert_rounds_correct c n p U (cp : Z -> P) (t : R) (k s r : Z) (Rw Cn : list P) C0 (N : Z) :
    bsrep c n p U cp -> mono U 0 (n + p) -> p <= k < n -> (U k < U (k + 1)%Z)%R ->
    0 <= s -> 1 <= r -> r + s <= p -> N = p - s + 1 ->
    arr Rw N (fun i => cp (k - p + i)) -> arr Cn (n + r) C0 ->
    exists Rw' Cn' f', insert_rounds (bs_knots c) t p k s r Rw Cn = Ok (Rw', Cn') /\
      arr Rw' N f' /\ (forall i, 0 <= i <= p - r - s -> f' i = insRow U p k s t cp r i) /\
      arr Cn' (n + r) (insC U p k s r t cp C0 (r + 1)).
  Proof.
    intros H Hm Hk Hlt Hs Hr Hrs EN HR HC. pose proof (rep_p _ _ _ _ _ H) as Hp.
    unfold insert_rounds.
    match goal with |- context [for_up 1 (r + 1) ?B (Rw, Cn)] =>
      destruct (for_up_inv (fun j st => (exists f, arr (fst st) N f /\
           forall i, 0 <= i <= p - (j - 1) - s -> f i = insRow U p k s t cp (j - 1) i) /\
           arr (snd st) (n + r) (insC U p k s r t cp C0 j)) 1 (r + 1) B (Rw, Cn))
        as ([Rw' Cn'] & E & (f' & Hf1 & Hf2) & HC') end.
    - lia.
    - split.
      + exists (fun i => cp (k - p + i)). split; [exact HR|]. intros i Hi. unfold insRow, insT. cbn [Z.sub Z.opp Z.add Z.to_nat repeat tri].
        simpl. f_equal. lia.
      + simpl. eapply arr_ext; [exact HC|]. intros i Hi. unfold insC. zbool; reflexivity.
    - intros j [Rw1 Cn1] Hj [(f & Hf1 & Hf2) HC1]. cbn [fst snd] in *.
      destruct (insert_round c n p U cp t k s j Rw1 N f H Hm Hk Hlt Hs) as (Rw2 & E2 & f2 & Hf21 & Hf22); try assumption; try lia.
      match goal with |- context [bind (for_up ?a ?b ?B ?l) ?K] =>
        let Heq := fresh in assert (Heq : for_up a b B l = Ok Rw2) by exact E2; rewrite Heq; clear Heq end.
      rewrite bind_Ok.
      rewrite (arr_get _ _ _ 0 Hf21), bind_Ok by lia. rewrite Hf22 by lia.
      destruct (arr_set _ _ _ (k - p + j) (insRow U p k s t cp j 0) HC1) as (C2 & EC2 & HC2); [lia|].
      rewrite EC2, bind_Ok.
      rewrite (arr_get _ _ _ (p - j - s) Hf21), bind_Ok by lia. rewrite Hf22 by lia.
      destruct (arr_set _ _ _ (k + r - j - s) (insRow U p k s t cp j (p - j - s)) HC2) as (C3 & EC3 & HC3); [lia|].
      rewrite EC3, bind_Ok. eexists. split; [reflexivity|]. cbn [fst snd]. split.
      + exists f2. split; [exact Hf21|]. intros i Hi. replace (j + 1 - 1) with j by lia. apply Hf22. lia.
      + eapply arr_ext; [exact HC3|]. intros i Hi. unfold fupd, insC, insRow.
        destruct (Z.eqb_spec i (k + r - j - s)) as [->|Hne1].
        * replace (k - p + j + (p - j - s)) with (k - s) by lia.
          destruct (Z.ltb_spec (k - p) (k + r - j - s)) as [Ha|Ha]; [|lia].
          destruct (Z.ltb_spec (k + r - j - s) (k - p + (j + 1))) as [Hb|Hb]; cbn [andb].
          -- f_equal; lia.
          -- zbool. f_equal. lia.
        * destruct (Z.eqb_spec i (k - p + j)) as [->|Hne2].
          -- zbool. f_equal; lia.
          -- zbool; try reflexivity.
    - exists Rw', Cn', f'. cbn [fst snd] in *. split; [exact E|]. split; [exact Hf1|]. split; [|exact HC'].
      intros i Hi. rewrite Hf2 by lia. f_equal. lia.
  Qed.

  Lemma bs_insert_gen c n p U (cp : Z -> P) (t : R) (r k s : Z) :
    bsrep c n p U cp -> mono U 0 (n + p) -> (U p <= t <= U n)%R -> locate_span c t = Ok k -> p <= k < n ->
    (U k < U (k + 1)%Z)%R ->
    (if Reqb t (U k) then get_multiplicity c k else Ok 0) = Ok s -> 0 <= s -> 1 <= r -> r + s <= p ->
    exists c', bs_insert_knot c t r = Ok c' /\ bs_periodic c' = bs_periodic c /\
      bsrep c' (n + r) p (insU U k r t) (insQ U (Z.to_nat p) k s r t cp).
  Proof.
    intros H Hm Ht Ek Hk Hlt Es Hs Hr Hrs. pose proof (rep_p _ _ _ _ _ H) as Hp.
    unfold bs_insert_knot. destruct (Z.leb_spec 1 r); [|lia]. cbn [assert_]. rewrite bind_Ok.
    unfold bs_in_domain. rewrite (rep_degree _ _ _ _ _ H), (rep_nknots _ _ _ _ _ H), (rep_npts _ _ _ _ _ H).
    rewrite (rep_get _ _ _ _ _ p H), bind_Ok by lia.
    replace (n + p + 1 - p - 1) with n by lia.
    rewrite (rep_get _ _ _ _ _ n H), !bind_Ok by lia.
    assert (Hdom : (sle (ssub (U p) seps) t && sle t (sadd (U n) seps))%bool = true).
    { pose proof seps_pos as He. generalize dependent (seps : R). intros e He. simpl. rewrite !Rleb_true by lra. reflexivity. }
    rewrite Hdom. cbn [assert_]. rewrite bind_Ok.
    rewrite (rep_validate _ _ _ _ _ H), bind_Ok, Ek, bind_Ok.
    rewrite (rep_get _ _ _ _ _ k H), bind_Ok by lia.
    match goal with |- context [bind (if ?b then ?x else Ok 0) _] =>
      let Heq := fresh in assert (Heq : (if b then x else Ok 0) = Ok s) by exact Es; rewrite Heq; clear Heq end.
    rewrite bind_Ok.
    destruct (Z.leb_spec p k); [|lia]. cbn [assert_]. rewrite bind_Ok.
    destruct (Z.leb_spec (r + s) p); [|lia]. cbn [assert_]. rewrite bind_Ok.
    pose proof (rep_knots _ _ _ _ _ H) as HU. pose proof (rep_pts _ _ _ _ _ H) as HP.
    replace (n + p + 1 - 1 + r + 1) with (n + p + r + 1) by lia.
    destruct (arr_alloc (s0 : R) (n + p + r + 1)) as (K0 & EK0 & HK0); [lia|]. rewrite EK0, bind_Ok.
    destruct (arr_block _ _ _ 0 (k + 1) HU) as (x1 & Ex1 & Hx1); [lia|lia|lia|]. rewrite Ex1, bind_Ok.
    destruct (arr_blit _ _ _ 0 _ _ _ HK0 Hx1) as (K1 & EK1 & HK1); [lia|lia|]. rewrite EK1, bind_Ok.
    destruct (arr_alloc t r) as (x2 & Ex2 & Hx2); [lia|]. rewrite Ex2, bind_Ok.
    destruct (arr_blit _ _ _ (k + 1) _ _ _ HK1 Hx2) as (K2 & EK2 & HK2); [lia|lia|]. rewrite EK2, bind_Ok.
    destruct (arr_block _ _ _ (k + 1) (n + p + 1 - 1 - k - 1) HU) as (x3 & Ex3 & Hx3); [lia|lia|lia|]. rewrite Ex3, bind_Ok.
    destruct (arr_blit _ _ _ (k + 1 + r) _ _ _ HK2 Hx3) as (K3 & EK3 & HK3); [lia|lia|]. rewrite EK3, bind_Ok.
    replace (n + p + 1 - 1) with (n + p) by lia.
    rewrite (rep_get _ _ _ _ _ (n + p) H), bind_Ok by lia.
    destruct (arr_set _ _ _ (n + p + r) (U (n + p)) HK3) as (K4 & EK4 & HK4); [lia|]. rewrite EK4, bind_Ok.
    replace (n - 1 + r + 1) with (n + r) by lia.
    destruct (arr_alloc (p0 : P) (n + r)) as (C0 & EC0 & HC0); [lia|]. rewrite EC0, bind_Ok.
    destruct (Z.leb_spec 0 (k - p + 1)); [|lia]. cbn [assert_]. rewrite bind_Ok.
    destruct (Z.ltb_spec 0 (k - p + 1)); [|lia].
    destruct (arr_topRows _ _ _ (k - p + 1) HP) as (y1 & Ey1 & Hy1); [lia|]. rewrite Ey1, bind_Ok.
    destruct (arr_blit _ _ _ 0 _ _ _ HC0 Hy1) as (C1 & EC1 & HC1); [lia|lia|]. rewrite EC1, bind_Ok.
    destruct (Z.leb_spec 0 (n - 1 - k + s + 1)); [|lia]. cbn [assert_]. rewrite bind_Ok.
    destruct (Z.ltb_spec 0 (n - 1 - k + s + 1)); [|lia].
    destruct (arr_bottomRows _ _ _ (n - 1 - k + s + 1) HP) as (y2 & Ey2 & Hy2); [lia|]. rewrite Ey2, bind_Ok.
    rewrite (arr_len _ _ _ HC1).
    destruct (arr_blit _ _ _ (n + r - (n - 1 - k + s + 1)) _ _ _ HC1 Hy2) as (C2 & EC2 & HC2); [lia|lia|]. rewrite EC2, bind_Ok.
    destruct (arr_block _ _ _ (k - p) (p - s + 1) HP) as (Rw & ERw & HRw); [lia|lia|lia|]. rewrite ERw, bind_Ok.
    destruct (insert_rounds_correct c n p U cp t k s r Rw C2 _ _ H Hm Hk Hlt Hs Hr Hrs eq_refl HRw HC2)
      as (Rw' & Cn' & f' & ER & HRw' & Hf' & HCn'). rewrite ER, bind_Ok.
    match goal with |- context [for_up (k - p + r) (k - s) ?B Cn'] =>
      destruct (for_up_fill (k - p + r) (k - s) (n + r) B Cn' _ (fun i => insT U (Z.to_nat p) t cp r i) HCn') as (o & Eo & Ho) end.
    { lia. } { lia. }
    { intros i w Hi _. rewrite (arr_get _ _ _ (i - k + p - r) HRw'), bind_Ok by lia. rewrite Hf' by lia.
      unfold insRow. do 2 f_equal. lia. }
    rewrite Eo, bind_Ok. eexists. split; [reflexivity|]. split; [reflexivity|]. split; [| |lia|lia]; cbn [bs_pts bs_knots].
    - eapply arr_ext; [exact Ho|]. intros i Hi. cbv beta. unfold insC, insQ. rewrite Z2Nat.id by lia.
      zbool; try reflexivity; try (f_equal; lia).
    - replace (n + r + p + 1) with (n + p + r + 1) by lia.
      eapply arr_ext; [exact HK4|]. intros i Hi. cbv beta. unfold fupd, insU.
      zbool; try reflexivity; try (f_equal; lia).
  Qed.
End Loop.
