(** The B-spline loops compute the de Boor triangle; span location; multiplicities. *)
From Coq Require Import Reals Lra Lia ZArith QArith List Permutation Bool.
From Verif Require Import Monad MonadFacts Scalar ScalarFacts Spec SpecFacts Polar ModelCurve ModelBezier
  BezierFacts BSplineMath ModelBSpline.
Import ListNotations.
Local Open Scope R_scope.
Local Open Scope Z_scope.

(** The threshold used in blossom (BSpline.h:501). *)
Definition btol : R := sofQ (1 # (10 ^ 16)%positive)%Q.
Lemma btol_val : btol = (/ IZR (10 ^ 16))%R.
Proof. unfold btol. simpl. unfold Rdiv. now rewrite Rmult_1_l. Qed.
Lemma btol_pos : (0 < btol)%R.
Proof. rewrite btol_val. apply Rinv_0_lt_compat. apply IZR_lt. reflexivity. Qed.

Section Loops.
  Context {P : Type} {V : PointOps R P} {L : PointLaws P}.

  (** A B-spline curve object with [n] control points [cp], degree [p] and knots [U]. *)
  Record bsrep (c : bspline R P) (n p : Z) (U : Z -> R) (cp : Z -> P) : Prop := {
    rep_pts : arr (bs_pts c) n cp;
    rep_knots : arr (bs_knots c) (n + p + 1) U;
    rep_p : 0 <= p;
    rep_pn : p < n;
  }.

  Lemma rep_degree c n p U cp : bsrep c n p U cp -> bs_degree c = p.
  Proof.
    intros H. unfold bs_degree. rewrite (arr_len _ _ _ (rep_pts _ _ _ _ _ H)), (arr_len _ _ _ (rep_knots _ _ _ _ _ H)).
    lia.
  Qed.

  Lemma rep_nknots c n p U cp : bsrep c n p U cp -> zlen (bs_knots c) = n + p + 1.
  Proof. intros H. apply (arr_len _ _ _ (rep_knots _ _ _ _ _ H)). Qed.
  Lemma rep_npts c n p U cp : bsrep c n p U cp -> zlen (bs_pts c) = n.
  Proof. intros H. apply (arr_len _ _ _ (rep_pts _ _ _ _ _ H)). Qed.

  Lemma rep_get c n p U cp i : bsrep c n p U cp -> 0 <= i <= n + p -> get (bs_knots c) i = Ok (U i).
  Proof. intros H Hi. apply (arr_get _ _ _ _ (rep_knots _ _ _ _ _ H)). lia. Qed.

  Lemma rep_validate c n p U cp : bsrep c n p U cp -> bs_validate c = Ok tt.
  Proof.
    intros H. unfold bs_validate. rewrite (rep_degree _ _ _ _ _ H).
    pose proof (rep_p _ _ _ _ _ H). destruct (Z.ltb_spec p 0); [lia|reflexivity].
  Qed.

  Lemma rep_lower c n p U cp : bsrep c n p U cp -> bs_lower c = Ok (U p).
  Proof.
    intros H. unfold bs_lower. rewrite (rep_degree _ _ _ _ _ H).
    pose proof (rep_p _ _ _ _ _ H). pose proof (rep_pn _ _ _ _ _ H).
    apply (rep_get _ _ _ _ _ _ H). lia.
  Qed.
  Lemma rep_upper c n p U cp : bsrep c n p U cp -> bs_upper c = Ok (U n).
  Proof.
    intros H. unfold bs_upper. rewrite (rep_degree _ _ _ _ _ H), (rep_nknots _ _ _ _ _ H).
    pose proof (rep_p _ _ _ _ _ H). pose proof (rep_pn _ _ _ _ _ H).
    replace (n + p + 1 - p - 1) with n by lia. apply (rep_get _ _ _ _ _ _ H). lia.
  Qed.

  (** ** Skipping equal knots *)
  Lemma bypass_before_correct (l : list R) N U i :
    arr l N U -> 0 <= i < N ->
    exists j, bypass_before l i = Ok j /\ 0 <= j <= i /\ (forall m, j <= m <= i -> U m = U i) /\
      (j = 0 \/ U (j - 1)%Z <> U j).
  Proof.
    intros Hl Hi. unfold bypass_before. pose proof (arr_len _ _ _ Hl) as HN.
    destruct (while_inv (fun j => 0 <= j <= i /\ forall m, j <= m <= i -> U m = U i) (fun j => Z.to_nat j)
      (S (length l))
      (fun i => if 0 <=? i - 1 then do a <- get l i; do b <- get l (i - 1); Ok (seq_ a b) else Ok false)
      (fun i => Ok (i - 1)) i) as (j & E & (Hj1 & Hj2) & Hc).
    - split; [lia|]. intros m Hm. f_equal. lia.
    - unfold zlen in HN. lia.
    - intros j [Hj _]. destruct (Z.leb_spec 0 (j - 1)); [|eauto].
      rewrite !(arr_get _ _ _ _ Hl) by lia. rewrite !bind_Ok. eauto.
    - intros j [Hj Hj2] Hc. destruct (Z.leb_spec 0 (j - 1)); [|discriminate].
      rewrite !(arr_get _ _ _ _ Hl) in Hc by lia. rewrite !bind_Ok in Hc. simpl in Hc.
      destruct (Reqb_spec (U j) (U (j - 1)%Z)) as [E|E]; [|discriminate].
      exists (j - 1). split; [reflexivity|]. split; [split; [lia|]|lia].
      intros m Hm. destruct (Z.eq_dec m (j - 1)) as [->|Hne]; [rewrite <- E; apply Hj2; lia|apply Hj2; lia].
    - exists j. split; [exact E|]. split; [exact Hj1|]. split; [exact Hj2|].
      destruct (Z.leb_spec 0 (j - 1)); [right|left; lia].
      rewrite !(arr_get _ _ _ _ Hl) in Hc by lia. rewrite !bind_Ok in Hc. simpl in Hc.
      destruct (Reqb_spec (U j) (U (j - 1)%Z)); [discriminate|congruence].
  Qed.

  Lemma bypass_after_stay (l : list R) N U i :
    arr l N U -> 0 <= i -> i + 1 < N -> U i <> U (i + 1)%Z -> bypass_after l i = Ok i.
  Proof.
    intros Hl Hi HN Hne. unfold bypass_after. cbn [while].
    rewrite (arr_len _ _ _ Hl). destruct (Z.ltb_spec (i + 1) N); [|lia].
    rewrite !(arr_get _ _ _ _ Hl) by lia. rewrite !bind_Ok. simpl.
    destruct (Reqb_spec (U i) (U (i + 1)%Z)); [contradiction|reflexivity].
  Qed.

  Lemma bypass_after_defined (l : list R) N U i :
    arr l N U -> 0 <= i < N -> exists j, bypass_after l i = Ok j /\ i <= j < N.
  Proof.
    intros Hl Hi. unfold bypass_after. pose proof (arr_len _ _ _ Hl) as HN. rewrite HN.
    destruct (while_inv (fun j => i <= j < N) (fun j => Z.to_nat (N - j))
      (S (length l))
      (fun i => if i + 1 <? N then do a <- get l i; do b <- get l (i + 1); Ok (seq_ a b) else Ok false)
      (fun i => Ok (i + 1)) i) as (j & E & Hj & _).
    - lia.
    - unfold zlen in HN. lia.
    - intros j Hj. destruct (Z.ltb_spec (j + 1) N); [|eauto].
      rewrite !(arr_get _ _ _ _ Hl) by lia. rewrite !bind_Ok. eauto.
    - intros j Hj Hc. destruct (Z.ltb_spec (j + 1) N); [|discriminate].
      exists (j + 1). split; [reflexivity|lia].
    - eauto.
  Qed.

  (** ** Binary search *)
  Lemma span_search_correct (l : list R) N U t low high :
    arr l N U -> 0 <= low < high -> high < N -> (U low <= t < U high)%R ->
    exists k, span_search l t low high = Ok k /\ low <= k < high /\ (U k <= t < U (k + 1)%Z)%R.
  Proof.
    intros Hl Hlh HN Ht. unfold span_search. pose proof (arr_len _ _ _ Hl) as HL.
    set (cond := fun st : Z * Z * Z => let '(_, _, mid) := st in
       do a <- get l mid; if slt t a then Ok true else do b <- get l (mid + 1); Ok (sle b t)).
    set (body := fun st : Z * Z * Z => let '(low, high, mid) := st in
       do a <- get l mid; let '(low, high) := if slt t a then (low, mid) else (mid, high) in
       Ok (low, high, Z.quot (high + low) 2)).
    destruct (while_inv (fun st : Z * Z * Z => let '(lo, hi, mid) := st in
        low <= lo < hi /\ hi <= high /\ mid = Z.quot (hi + lo) 2 /\ (U lo <= t < U hi)%R)
      (fun st => let '(lo, hi, _) := st in Z.to_nat (hi - lo))
      (S (length l)) cond body (low, high, Z.quot (high + low) 2)) as ([[lo hi] mid] & E & (H1 & H2 & HS3 & H4) & Hc).
    - repeat split; lia || lra.
    - unfold zlen in HL. lia.
    - intros [[lo hi] mid] (A1 & A2 & A3 & A4). unfold cond.
      assert (Hmid : lo <= mid < hi).
      { subst mid. rewrite Z.quot_div_nonneg by lia. split; [apply Z.div_le_lower_bound|apply Z.div_lt_upper_bound]; lia. }
      rewrite (arr_get _ _ _ _ Hl) by lia. rewrite bind_Ok. destruct (slt t (U mid)); [eauto|].
      rewrite (arr_get _ _ _ _ Hl) by lia. rewrite bind_Ok. eauto.
    - intros [[lo hi] mid] (A1 & A2 & A3 & A4) Hc.
      assert (Hmid : lo <= mid < hi).
      { subst mid. rewrite Z.quot_div_nonneg by lia. split; [apply Z.div_le_lower_bound|apply Z.div_lt_upper_bound]; lia. }
      unfold body. unfold cond in Hc.
      rewrite (arr_get _ _ _ _ Hl) by lia. rewrite (arr_get _ _ _ _ Hl) in Hc by lia. rewrite bind_Ok. rewrite bind_Ok in Hc.
      simpl slt in *. revert Hc. destruct (Rltb_spec t (U mid)) as [Hlt|Hge]; intros Hc.
      + eexists. split; [reflexivity|]. split; [|].
        * repeat split; try lia; try lra.
          destruct (Z.eq_dec lo mid) as [Heq|]; [rewrite Heq in *; lra|lia].
        * lia.
      + rewrite (arr_get _ _ _ _ Hl) in Hc by lia. rewrite bind_Ok in Hc. simpl sle in Hc.
        revert Hc. destruct (Rleb_spec (U (mid + 1)%Z) t) as [Hle|Hgt]; [intros _|discriminate].
        assert (Hm2 : lo < mid).
        { destruct (Z.eq_dec lo mid) as [Heq|]; [|lia].
          assert (Hh : hi = lo + 1).
          { subst mid. rewrite Z.quot_div_nonneg in Heq by lia.
            pose proof (Z.div_mod (hi + lo) 2 ltac:(lia)) as Hd. pose proof (Z.mod_pos_bound (hi + lo) 2 ltac:(lia)). lia. }
          rewrite <- Heq, <- Hh in Hle. lra. }
        eexists. split; [reflexivity|]. split.
        * repeat split; try lia; try lra.
        * lia.
    - change (exists k, (do '(_, _, mid) <- while (S (length l)) cond body (low, high, Z.quot (high + low) 2); Ok mid) = Ok k
        /\ low <= k < high /\ (U k <= t < U (k + 1)%Z)%R).
      rewrite E, bind_Ok. exists mid. split; [reflexivity|].
      assert (Hmid : lo <= mid < hi).
      { subst mid. rewrite Z.quot_div_nonneg by lia. split; [apply Z.div_le_lower_bound|apply Z.div_lt_upper_bound]; lia. }
      unfold cond in Hc. rewrite (arr_get _ _ _ _ Hl) in Hc by lia. rewrite bind_Ok in Hc. simpl slt in Hc.
      revert Hc. destruct (Rltb_spec t (U mid)) as [Hlt|Hge]; [discriminate|intros Hc].
      rewrite (arr_get _ _ _ _ Hl) in Hc by lia. rewrite bind_Ok in Hc. simpl sle in Hc.
      revert Hc. destruct (Rleb_spec (U (mid + 1)%Z) t) as [Hle|Hgt]; [discriminate|intros _].
      split; [lia|lra].
  Qed.

  (** ** locate_span *)
  Lemma locate_span_low c n p U cp t :
    bsrep c n p U cp -> (t <= U p)%R -> locate_span c t = Ok p.
  Proof.
    intros H Ht. unfold locate_span. pose proof (rep_p _ _ _ _ _ H). pose proof (rep_pn _ _ _ _ _ H).
    rewrite (rep_degree _ _ _ _ _ H), (rep_nknots _ _ _ _ _ H), (rep_npts _ _ _ _ _ H).
    destruct (Z.ltb_spec n (n + p + 1)); [|lia]. cbn [assert_]. rewrite bind_Ok.
    rewrite (rep_get _ _ _ _ _ _ H) by lia. rewrite bind_Ok. simpl sle. now rewrite Rleb_true.
  Qed.

  Lemma locate_span_mid c n p U cp t :
    bsrep c n p U cp -> (U p < t < U n)%R ->
    exists k, locate_span c t = Ok k /\ p <= k < n /\ (U k <= t < U (k + 1)%Z)%R.
  Proof.
    intros H Ht. unfold locate_span. pose proof (rep_p _ _ _ _ _ H). pose proof (rep_pn _ _ _ _ _ H).
    rewrite (rep_degree _ _ _ _ _ H), (rep_nknots _ _ _ _ _ H), (rep_npts _ _ _ _ _ H).
    destruct (Z.ltb_spec n (n + p + 1)); [|lia]. cbn [assert_]. rewrite bind_Ok.
    rewrite (rep_get _ _ _ _ _ p H) by lia. rewrite bind_Ok. simpl sle. rewrite Rleb_false by lra.
    replace (n + p + 1 - p - 1) with n by lia.
    rewrite (rep_get _ _ _ _ _ n H) by lia. rewrite bind_Ok. rewrite Rleb_false by lra.
    destruct (span_search_correct (bs_knots c) (n + p + 1) U t p n (rep_knots _ _ _ _ _ H)) as (k & E & Hk & Hk2);
      [lia|lia|lra|].
    rewrite E, bind_Ok. rewrite (bypass_after_stay _ _ _ k (rep_knots _ _ _ _ _ H)) by (lia || lra).
    exists k. auto.
  Qed.

  Lemma locate_span_high c n p U cp t :
    bsrep c n p U cp -> (U p < U n)%R -> mono U 0 (n + p) -> (U n <= t)%R ->
    exists k, locate_span c t = Ok k /\ p <= k < n /\ (U k < U (k + 1)%Z /\ U (k + 1)%Z = U n)%R.
  Proof.
    intros H Hd Hm Ht. unfold locate_span. pose proof (rep_p _ _ _ _ _ H). pose proof (rep_pn _ _ _ _ _ H).
    rewrite (rep_degree _ _ _ _ _ H), (rep_nknots _ _ _ _ _ H), (rep_npts _ _ _ _ _ H).
    destruct (Z.ltb_spec n (n + p + 1)); [|lia]. cbn [assert_]. rewrite bind_Ok.
    rewrite (rep_get _ _ _ _ _ p H) by lia. rewrite bind_Ok. simpl sle. rewrite Rleb_false by lra.
    replace (n + p + 1 - p - 1) with n by lia.
    rewrite (rep_get _ _ _ _ _ n H) by lia. rewrite bind_Ok. rewrite Rleb_true by lra.
    destruct (bypass_before_correct (bs_knots c) (n + p + 1) U n (rep_knots _ _ _ _ _ H)) as (j & E & Hj & Hj2 & Hj3); [lia|].
    rewrite E, bind_Ok. exists (j - 1). split; [reflexivity|].
    assert (Hpj : p < j).
    { destruct (Z_lt_le_dec p j); [assumption|]. specialize (Hj2 p ltac:(lia)). lra. }
    split; [lia|]. replace (j - 1 + 1) with j by lia. split; [|apply Hj2; lia].
    destruct Hj3 as [->|Hne]; [lia|]. assert (U (j - 1)%Z <= U j)%R by (apply Hm; lia). lra.
  Qed.

  (** ** Multiplicity *)
  Lemma get_multiplicity_correct c n p U cp k :
    bsrep c n p U cp -> 0 <= k <= n + p ->
    exists a b, get_multiplicity c k = Ok (b - a + 1) /\ 0 <= a <= k /\ k <= b <= n + p /\
      (forall i, a <= i <= b -> U i = U k) /\
      (a = 0 \/ U (a - 1)%Z <> U k) /\ (b = n + p \/ U (b + 1)%Z <> U k).
  Proof.
    intros H Hk. unfold get_multiplicity. rewrite (rep_nknots _ _ _ _ _ H).
    pose (QA := fun s => exists a, s = k - a + 1 /\ 0 <= a <= k /\ (forall i, a <= i <= k -> U i = U k) /\
                   (a = 0 \/ U (a - 1)%Z <> U k)).
    match goal with |- context [forb_up 0 k ?B 1] =>
      destruct (forb_up_inv (fun i s => s = i + 1 /\ forall m, k - i <= m <= k -> U m = U k) QA 0 k B 1)
        as (x & E & Hx) end.
    - lia.
    - split; [lia|]. intros m Hm. f_equal. lia.
    - intros i s Hi [Hs1 Hs2].
      rewrite (rep_get _ _ _ _ _ (k - 1 - i) H) by lia. rewrite (rep_get _ _ _ _ _ k H) by lia.
      rewrite !bind_Ok. simpl seq_. destruct (Reqb_spec (U (k - 1 - i)%Z) (U k)) as [He|He].
      + eexists. split; [reflexivity|]. cbv beta iota. split; [lia|]. intros m Hm.
        destruct (Z.eq_dec m (k - 1 - i)) as [->|]; [exact He|apply Hs2; lia].
      + eexists. split; [reflexivity|]. cbv beta iota. exists (k - i). split; [lia|]. split; [lia|].
        split; [exact Hs2|]. right. replace (k - i - 1) with (k - 1 - i) by lia. exact He.
    - rewrite E, bind_Ok.
      assert (HA : exists s, match x with inl s => s | inr s => s end = s /\ QA s).
      { destruct x as [s|s].
        - destruct Hx as [Hx1 Hx2]. exists s. split; [reflexivity|]. exists 0. split; [lia|]. split; [lia|].
          split; [|left; reflexivity]. intros i Hi. apply Hx2. lia.
        - exists s. split; [reflexivity|exact Hx]. }
      destruct HA as (s & -> & (a & Ha & Ha1 & Ha2 & Ha3)). clear E Hx x.
      pose (QB := fun s => exists b, s = b - a + 1 /\ k <= b <= n + p /\ (forall i, k <= i <= b -> U i = U k) /\
                   (b = n + p \/ U (b + 1)%Z <> U k)).
      match goal with |- context [forb_up (k + 1) (n + p + 1) ?B s] =>
        destruct (forb_up_inv (fun i s => s = i - 1 - a + 1 /\ forall m, k <= m <= i - 1 -> U m = U k) QB (k + 1) (n + p + 1) B s)
          as (x & E & Hx) end.
      + lia.
      + split; [lia|]. intros m Hm. f_equal. lia.
      + intros i s' Hi [Hs1 Hs2].
        rewrite (rep_get _ _ _ _ _ i H) by lia. rewrite (rep_get _ _ _ _ _ k H) by lia.
        rewrite !bind_Ok. simpl seq_. destruct (Reqb_spec (U i) (U k)) as [He|He].
        * eexists. split; [reflexivity|]. cbv beta iota. split; [lia|]. intros m Hm.
          destruct (Z.eq_dec m i) as [->|]; [exact He|apply Hs2; lia].
        * eexists. split; [reflexivity|]. cbv beta iota. exists (i - 1). split; [lia|]. split; [lia|].
          split; [exact Hs2|]. right. replace (i - 1 + 1) with i by lia. exact He.
      + rewrite E, bind_Ok.
        assert (HB : exists s, match x with inl s => s | inr s => s end = s /\ QB s).
        { destruct x as [s'|s'].
          - destruct Hx as [Hx1 Hx2]. exists s'. split; [reflexivity|]. exists (n + p). split; [lia|]. split; [lia|].
            split; [|left; reflexivity]. intros i Hi. apply Hx2. lia.
          - exists s'. split; [reflexivity|exact Hx]. }
        destruct HB as (s' & -> & (b & Hb & Hb1 & Hb2 & Hb3)).
        exists a, b. subst s'. split; [reflexivity|]. split; [lia|]. split; [lia|]. split; [|auto].
        intros i Hi. destruct (Z_le_gt_dec i k); [apply Ha2; lia|apply Hb2; lia].
  Qed.

  (** ** Blossom *)
  Definition bs_rows U (c : Z -> P) (b : Z -> R) (p k r : Z) : Z -> P :=
    fun j => if j <=? p then
       tri (algd btol U (Z.to_nat p)) (fun i => c (i - (k - p))) (blist b (Z.to_nat (Z.min r j))) (j + (k - p))
     else c j.

  Lemma bs_blossom_correct knots N U bv m b pts n c p k :
    arr knots N U -> arr bv m b -> arr pts n c -> 0 <= p < n -> p <= m ->
    (p = 0 \/ (0 <= k - p + 1 /\ k + p < N)) ->
    exists pts', bs_blossom knots bv p k pts = Ok pts' /\ arr pts' n (bs_rows U c b p k p).
  Proof.
    intros HU Hb Hc Hp Hm HN. unfold bs_blossom. rewrite (arr_len _ _ _ Hc).
    destruct (Z.leb_spec (p + 1) n); [|lia]. cbn [assert_]. rewrite bind_Ok.
    match goal with |- context [for_up 1 (p + 1) ?B pts] =>
      destruct (for_up_inv (fun r s => arr s n (bs_rows U c b p k (r - 1))) 1 (p + 1) B pts) as (s' & E & H') end.
    - lia.
    - eapply arr_ext; [exact Hc|]. intros i Hi. unfold bs_rows.
      replace (Z.to_nat (Z.min (1 - 1) i)) with O by lia. cbn [blist tri].
      replace (i + (k - p) - (k - p)) with i by lia. destruct (i <=? p); reflexivity.
    - intros r s Hr Hs.
      rewrite (arr_get _ _ _ (r - 1) Hb) by lia. rewrite bind_Ok.
      match goal with |- context [for_down p r ?B s] =>
        destruct (for_down_inv (fun j s => arr s n (fun i =>
          if i <=? p then
            if j <? i then bs_rows U c b p k r i else bs_rows U c b p k (r - 1) i
          else c i)) p r B s) as (s2 & E2 & H2) end.
      + lia.
      + eapply arr_ext; [exact Hs|]. intros i Hi.
        destruct (Z.leb_spec i p).
        * destruct (Z.ltb_spec p i); [lia|reflexivity].
        * unfold bs_rows. destruct (Z.leb_spec i p); [lia|reflexivity].
      + intros j s0 Hj Hs0.
        rewrite (arr_get _ _ _ (j + k + 1 - r) HU) by lia. rewrite bind_Ok.
        rewrite (arr_get _ _ _ (j + k - p) HU) by lia. rewrite bind_Ok.
        set (alpha := algd btol U (Z.to_nat p) (Z.to_nat r) (j + (k - p)) (b (r - 1))).
        match goal with |- context [bind (if ?c then ?d else Ok ?z) _] =>
          assert (EA : (if c then d else Ok z) = Ok alpha) end.
        { unfold alpha, algd, btol.
          replace (j + (k - p) + Z.of_nat (Z.to_nat p) + 1 - Z.of_nat (Z.to_nat r)) with (j + k + 1 - r) by lia.
          replace (j + (k - p)) with (j + k - p) by lia.
          pose proof btol_pos as Hbt. unfold btol in Hbt. generalize dependent (sofQ (1 # (10 ^ 16)%positive) : R).
          intros tol Htol. simpl ssub. simpl slt.
          destruct (Rltb_spec tol (U (j + k + 1 - r)%Z - U (j + k - p)%Z)) as [Hlt|Hge]; [|reflexivity].
          rewrite ddiv_R by lra. reflexivity. }
        rewrite EA, bind_Ok.
        rewrite (arr_get _ _ _ (j - 1) Hs0) by lia. rewrite bind_Ok.
        rewrite (arr_get _ _ _ j Hs0) by lia. rewrite bind_Ok.
        destruct (Z.leb_spec j p); [|lia]. destruct (Z.leb_spec (j - 1) p); [|lia].
        destruct (Z.ltb_spec j j); [lia|]. destruct (Z.ltb_spec j (j - 1)); [lia|].
        match goal with |- exists s', set _ _ ?v = _ /\ _ =>
          destruct (arr_set s0 n _ j v Hs0) as (s3 & E3 & HS3); [lia|] end.
        exists s3. split; [exact E3|]. eapply arr_ext; [exact HS3|]. intros i Hi. cbv beta. unfold fupd.
        destruct (Z.eqb_spec i j) as [->|Hne].
        * destruct (Z.leb_spec j p); [|lia]. destruct (Z.ltb_spec (j - 1) j); [|lia].
          unfold bs_rows. destruct (Z.leb_spec j p); [|lia]. destruct (Z.leb_spec (j - 1) p); [|lia].
          replace (Z.to_nat (Z.min r j)) with (S (Z.to_nat (r - 1))) by lia.
          replace (Z.to_nat (Z.min (r - 1) j)) with (Z.to_nat (r - 1)) by lia.
          replace (Z.to_nat (Z.min (r - 1) (j - 1))) with (Z.to_nat (r - 1)) by lia.
          cbn [blist tri length]. rewrite blist_length.
          replace (Z.of_nat (Z.to_nat (r - 1))) with (r - 1) by lia.
          replace (S (Z.to_nat (r - 1))) with (Z.to_nat r) by lia.
          fold alpha. replace (j + (k - p) - 1) with (j - 1 + (k - p)) by lia. reflexivity.
        * destruct (Z.leb_spec i p); [|reflexivity].
          destruct (Z.ltb_spec j i); destruct (Z.ltb_spec (j - 1) i); try lia; reflexivity.
      + exists s2. split; [exact E2|]. eapply arr_ext; [exact H2|]. intros i Hi. cbv beta.
        unfold bs_rows. destruct (Z.leb_spec i p); [|reflexivity].
        destruct (Z.ltb_spec (r - 1) i).
        * do 3 f_equal. lia.
        * do 3 f_equal. lia.
    - exists s'. split; [exact E|]. replace (p + 1 - 1) with p in H' by lia. exact H'.
  Qed.

  Lemma bs_deBoor_correct c n p0_ U cp t pts np f p k :
    bsrep c n p0_ U cp -> arr pts np f -> 0 <= p < np -> p <= p0_ ->
    (p = 0 \/ (0 <= k - p + 1 /\ k + p < n + p0_ + 1)) ->
    bs_deBoor c t p k pts
    = Ok (tri (algd btol U (Z.to_nat p)) (fun i => f (i - (k - p))) (repeat t (Z.to_nat p)) k).
  Proof.
    intros H Hf Hp Hpp Hk. unfold bs_deBoor. rewrite (rep_degree _ _ _ _ _ H).
    destruct (Z.ltb_spec 0 p).
    - destruct (arr_alloc t p0_) as (bv & Eb & Hb); [lia|]. rewrite Eb, bind_Ok.
      destruct (bs_blossom_correct (bs_knots c) _ U bv p0_ _ pts np f p k (rep_knots _ _ _ _ _ H) Hb Hf)
        as (p' & E & H'); [lia|lia|exact Hk|].
      rewrite E, bind_Ok. rewrite (arr_get _ _ _ p H') by lia. unfold bs_rows.
      destruct (Z.leb_spec p p); [|lia]. rewrite Z.min_id, blist_const.
      replace (p + (k - p)) with k by lia. reflexivity.
    - rewrite bind_Ok. replace p with 0 in * by lia. rewrite (arr_get _ _ _ 0 Hf) by lia.
      cbn [repeat tri Z.to_nat]. do 2 f_equal. lia.
  Qed.

  Lemma span_points_correct c n p U cp k :
    bsrep c n p U cp -> p <= k < n ->
    exists l, span_points c p k = Ok l /\ arr l (p + 1) (fun i => cp (k - p + i)).
  Proof.
    intros H Hk. pose proof (rep_p _ _ _ _ _ H). unfold span_points.
    destruct (arr_alloc (p0 : P) (p + 1)) as (l & E & Hl); [lia|]. rewrite E, bind_Ok.
    match goal with |- context [for_up 0 (p + 1) ?B l] =>
      destruct (for_up_inv (fun i0 s => arr s (p + 1) (fun i => if i <? i0 then cp (k - p + i) else p0)) 0 (p + 1) B l)
        as (s' & Es & Hs') end.
    - lia.
    - eapply arr_ext; [exact Hl|]. intros i Hi. destruct (Z.ltb_spec i 0); [lia|reflexivity].
    - intros i s Hi Hs. rewrite (rep_npts _ _ _ _ _ H).
      destruct (Z.leb_spec 0 (k - p + i)); [|lia]. cbn [assert_]. rewrite bind_Ok.
      destruct (Z.ltb_spec (k - p + i) n); [|lia]. cbn [assert_]. rewrite bind_Ok.
      rewrite (arr_get _ _ _ _ (rep_pts _ _ _ _ _ H)) by lia. rewrite bind_Ok.
      destruct (arr_set s _ _ i (cp (k - p + i)) Hs) as (s3 & E3 & HS3); [lia|].
      exists s3. split; [exact E3|]. eapply arr_ext; [exact HS3|]. intros j Hj. cbv beta. unfold fupd.
      destruct (Z.eqb_spec j i) as [->|Hne].
      + destruct (Z.ltb_spec i (i + 1)); [reflexivity|lia].
      + destruct (Z.ltb_spec j i); destruct (Z.ltb_spec j (i + 1)); try lia; reflexivity.
    - exists s'. split; [exact Es|]. eapply arr_ext; [exact Hs'|]. intros i Hi. cbv beta.
      destruct (Z.ltb_spec i (p + 1)); [reflexivity|lia].
  Qed.

  (** Derivative coefficients, in global indices: entry [g]. *)
  Definition dcoef U (q : Z) (cp : Z -> P) (g : Z) : P :=
    pmul (if Rltb 0 (U (g + q)%Z - U g) then (IZR q / (U (g + q)%Z - U g))%R else 0%R) (psub (cp g) (cp (g - 1))).

  Lemma bs_derivative_coefficients_correct c n p0_ U cp q k pts np f :
    bsrep c n p0_ U cp -> arr pts np f -> 0 <= q -> q + 1 < np ->
    0 <= k - q -> k + q + 1 <= n + p0_ ->
    exists pts', bs_derivative_coefficients c q k pts = Ok pts' /\
      arr pts' np (fun i => if i <=? q then dcoef U (q + 1)%Z (fun g => f (g - (k - q) + 1)) (k - q + i) else f i).
  Proof.
    intros H Hf Hq Hnp Hk1 Hk2. unfold bs_derivative_coefficients.
    match goal with |- context [for_up 0 (q + 1) ?B pts] =>
      destruct (for_up_inv (fun i0 s => arr s np (fun i => if i <? i0 then
          dcoef U (q + 1)%Z (fun g => f (g - (k - q) + 1)) (k - q + i) else f i)) 0 (q + 1) B pts)
        as (s' & Es & Hs') end.
    - lia.
    - eapply arr_ext; [exact Hf|]. intros i Hi. destruct (Z.ltb_spec i 0); [lia|reflexivity].
    - intros i s Hi Hs.
      rewrite (rep_get _ _ _ _ _ (i + k + 1) H) by lia. rewrite bind_Ok.
      rewrite (rep_get _ _ _ _ _ (i + k + 1 - (q + 1)) H) by lia. rewrite bind_Ok.
      set (alpha := if Rltb 0 (U (k - q + i + (q + 1)) - U (k - q + i)%Z) then
          (IZR (q + 1) / (U (k - q + i + (q + 1))%Z - U (k - q + i)%Z))%R else 0%R).
      match goal with |- context [bind (if ?c then ?d else Ok ?z) _] =>
        assert (EA : (if c then d else Ok z) = Ok alpha) end.
      { unfold alpha. replace (k - q + i + (q + 1)) with (i + k + 1) by lia.
        replace (k - q + i) with (i + k + 1 - (q + 1)) by lia.
        simpl ssub. simpl slt. cbn [s0 R_ops].
        destruct (Rltb_spec 0 (U (i + k + 1)%Z - U (i + k + 1 - (q + 1)))) as [Hlt|Hge]; [|reflexivity].
        rewrite ddiv_R by lra. reflexivity. }
      rewrite EA, bind_Ok.
      rewrite (arr_get _ _ _ (i + 1) Hs) by lia. rewrite bind_Ok.
      rewrite (arr_get _ _ _ i Hs) by lia. rewrite bind_Ok.
      destruct (Z.ltb_spec (i + 1) i); [lia|]. destruct (Z.ltb_spec i i); [lia|].
      match goal with |- exists s', set _ _ ?v = _ /\ _ =>
        destruct (arr_set s np _ i v Hs) as (s3 & E3 & HS3); [lia|] end.
      exists s3. split; [exact E3|]. eapply arr_ext; [exact HS3|]. intros j Hj. cbv beta. unfold fupd.
      destruct (Z.eqb_spec j i) as [->|Hne].
      + destruct (Z.ltb_spec i (i + 1)); [|lia]. unfold dcoef. fold alpha.
        replace (k - q + i - (k - q) + 1) with (i + 1) by lia.
        replace (k - q + i - 1 - (k - q) + 1) with i by lia. reflexivity.
      + destruct (Z.ltb_spec j i); destruct (Z.ltb_spec j (i + 1)); try lia; reflexivity.
    - exists s'. split; [exact Es|]. eapply arr_ext; [exact Hs'|]. intros i Hi. cbv beta.
      destruct (Z.ltb_spec i (q + 1)); destruct (Z.leb_spec i q); try lia; reflexivity.
  Qed.

  (** ** Evaluation in a located span (no periodic wrap-around) *)
  Definition evalspan U (p : nat) (cp : Z -> P) (t : R) (k : Z) : P :=
    tri (algd btol U p) cp (repeat t p) k.

  Lemma tri_shift_ext al (f g : Z -> P) xs k :
    (forall i, k - Z.of_nat (length xs) <= i <= k -> f i = g i) -> tri al f xs k = tri al g xs k.
  Proof. intros H. apply tri_ext; [reflexivity|exact H]. Qed.

  Lemma bs_unwrap_off (c : bspline R P) t : bs_periodic c = false -> bs_unwrap c t = Ok t.
  Proof. intros E. unfold bs_unwrap. now rewrite E. Qed.

  Lemma bs_evaluate_gen c n p U cp t u k :
    bsrep c n p U cp -> bs_unwrap c t = Ok u -> locate_span c u = Ok k -> p <= k < n ->
    bs_evaluate c t = Ok (evalspan U (Z.to_nat p) cp u k).
  Proof.
    intros H Eu Ek Hk. unfold bs_evaluate.
    pose proof (rep_p _ _ _ _ _ H) as Hp. rewrite (rep_validate _ _ _ _ _ H), bind_Ok, Eu, bind_Ok.
    rewrite (rep_degree _ _ _ _ _ H), Ek, bind_Ok.
    destruct (Z.leb_spec 0 p); [|lia]. cbn [assert_]. rewrite bind_Ok.
    rewrite (rep_nknots _ _ _ _ _ H), (rep_npts _ _ _ _ _ H), Z.eqb_refl. cbn [assert_]. rewrite bind_Ok.
    destruct (span_points_correct _ _ _ _ _ k H Hk) as (l & El & Hl). rewrite El, bind_Ok.
    rewrite (bs_deBoor_correct c n p U cp u l (p + 1) _ p k H Hl) by lia.
    f_equal. unfold evalspan. apply tri_shift_ext. rewrite repeat_length. intros i Hi. f_equal. lia.
  Qed.

  Lemma bs_evaluate_derivative_gen c n p U cp t u k :
    bsrep c n p U cp -> bs_unwrap c t = Ok u -> locate_span c u = Ok k -> p <= k < n ->
    bs_evaluate_derivative c t = Ok (if p =? 0 then p0 else evalspan U (Z.to_nat (p - 1)) (dcoef U p cp) u k).
  Proof.
    intros H Eu Ek Hk. unfold bs_evaluate_derivative.
    pose proof (rep_p _ _ _ _ _ H) as Hp. rewrite (rep_validate _ _ _ _ _ H), bind_Ok, Eu, bind_Ok.
    rewrite (rep_degree _ _ _ _ _ H), Ek, bind_Ok.
    destruct (Z.leb_spec 0 p); [|lia]. cbn [assert_]. rewrite bind_Ok.
    rewrite (rep_nknots _ _ _ _ _ H), (rep_npts _ _ _ _ _ H), Z.eqb_refl. cbn [assert_]. rewrite bind_Ok.
    destruct (Z.eqb_spec p 0); [reflexivity|].
    destruct (span_points_correct _ _ _ _ _ k H Hk) as (l & El & Hl). rewrite El, bind_Ok.
    destruct (bs_derivative_coefficients_correct c n p U cp (p - 1) k l (p + 1) _ H Hl) as (l' & El' & Hl'); [lia|lia|lia|lia|].
    rewrite El', bind_Ok.
    rewrite (bs_deBoor_correct c n p U cp u l' (p + 1) _ (p - 1) k H Hl') by lia.
    f_equal. unfold evalspan. apply tri_shift_ext. rewrite repeat_length. intros i Hi.
    destruct (Z.leb_spec (i - (k - (p - 1))) (p - 1)); [|lia].
    unfold dcoef. replace (p - 1 + 1) with p by lia.
    replace (k - (p - 1) + (i - (k - (p - 1)))) with i by lia.
    do 2 f_equal; f_equal; lia.
  Qed.

  Lemma dcoef_ext U q f g i : f i = g i -> f (i - 1) = g (i - 1) -> dcoef U q f i = dcoef U q g i.
  Proof. intros E1 E2. unfold dcoef. now rewrite E1, E2. Qed.

  Lemma bs_evaluate_2nd_derivative_gen c n p U cp t u k :
    bsrep c n p U cp -> bs_unwrap c t = Ok u -> locate_span c u = Ok k -> p <= k < n ->
    bs_evaluate_2nd_derivative c t
    = Ok (if p <=? 1 then p0 else evalspan U (Z.to_nat (p - 2)) (dcoef U (p - 1)%Z (dcoef U p cp)) u k).
  Proof.
    intros H Eu Ek Hk. unfold bs_evaluate_2nd_derivative.
    pose proof (rep_p _ _ _ _ _ H) as Hp. rewrite (rep_validate _ _ _ _ _ H), bind_Ok, Eu, bind_Ok.
    rewrite (rep_degree _ _ _ _ _ H), Ek, bind_Ok.
    destruct (Z.leb_spec 0 p); [|lia]. cbn [assert_]. rewrite bind_Ok.
    rewrite (rep_nknots _ _ _ _ _ H), (rep_npts _ _ _ _ _ H), Z.eqb_refl. cbn [assert_]. rewrite bind_Ok.
    destruct (Z.leb_spec p 1); [reflexivity|].
    destruct (span_points_correct _ _ _ _ _ k H Hk) as (l & El & Hl). rewrite El, bind_Ok.
    destruct (bs_derivative_coefficients_correct c n p U cp (p - 1) k l (p + 1) _ H Hl) as (l' & El' & Hl'); [lia|lia|lia|lia|].
    rewrite El', bind_Ok.
    destruct (bs_derivative_coefficients_correct c n p U cp (p - 2) k l' (p + 1) _ H Hl') as (l2 & El2 & Hl2); [lia|lia|lia|lia|].
    rewrite El2, bind_Ok.
    rewrite (bs_deBoor_correct c n p U cp u l2 (p + 1) _ (p - 2) k H Hl2) by lia.
    f_equal. unfold evalspan. apply tri_shift_ext. rewrite repeat_length. intros i Hi.
    destruct (Z.leb_spec (i - (k - (p - 2))) (p - 2)); [|lia].
    replace (p - 2 + 1) with (p - 1) by lia. replace (k - (p - 2) + (i - (k - (p - 2)))) with i by lia.
    apply dcoef_ext; cbv beta.
    - destruct (Z.leb_spec (i - (k - (p - 2)) + 1) (p - 1)); [|lia].
      replace (p - 1 + 1) with p by lia. replace (k - (p - 1) + (i - (k - (p - 2)) + 1)) with i by lia.
      apply dcoef_ext; f_equal; lia.
    - destruct (Z.leb_spec (i - 1 - (k - (p - 2)) + 1) (p - 1)); [|lia].
      replace (p - 1 + 1) with p by lia. replace (k - (p - 1) + (i - 1 - (k - (p - 2)) + 1)) with (i - 1) by lia.
      apply dcoef_ext; f_equal; lia.
  Qed.
End Loops.
