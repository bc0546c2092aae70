(** Knot removal: the whole function on index functions. *)
From Coq Require Import Reals Lra Lia ZArith List Permutation Bool.
From Verif Require Import Monad MonadFacts LoopFacts Scalar ScalarFacts Spec SpecFacts SpecGeom Polar ModelCurve CurveFacts ModelBezier
  BezierFacts BezierMath BezierThms BSplineMath ModelBSpline BSplineFacts BSplineThms BSplineInsert BSplineInsert2 CurveThms
  RationalThms PrimitiveFacts EdistFacts BSplineRemove BSplineRemove2.
Import ListNotations.
Local Open Scope R_scope.
Local Open Scope Z_scope.
Ltac Zify.zify_post_hook ::= Z.div_mod_to_equations.

Section RemAll.
  Context {d : nat}.
  Notation P := (vec R d).
  Variables (c : bspline R P) (n p : Z) (U : Z -> R) (cp : Z -> P) (r s : Z) (t : R) (N : Z) (tol : R).
  Hypothesis Hr : bsrep c n p U cp.
  Hypothesis Hs : 1 <= s <= p.
  Hypothesis Hlo : forall i, 0 <= i <= r - s -> (U i < t)%R.
  Hypothesis Hrun : forall i, r - s < i <= r -> U i = t.
  Hypothesis Hhi : forall i, r < i <= n + p -> (t < U i)%R.
  Hypothesis Hrn : p < r < n.
  Hypothesis HN : 1 <= N <= s.
  Hypothesis HNr : N <= r - p.
  Hypothesis Htol : (0 <= tol)%R.
  Hypothesis Eloc : locate_span c t = Ok r.
  Hypothesis Emul : get_multiplicity c r = Ok s.
  Notation reins := (reins U p r s t).

  Definition kcut (k kap : Z) : Prop := k = 0 \/ cut_ok p r s (k - 1) kap.
  (** State of the points after [k] rounds. *)
  Definition remI (k : Z) (w : Z -> P) : Prop :=
    (forall kap, kcut k kap -> forall i, 0 <= i < n ->
      (edist (cp i) (reins (Z.to_nat k) 0 (gap k kap w) i) <= IZR k * tol)%R) /\
    (forall m Y, k <= Z.of_nat m <= N -> (forall i, 0 <= i < n -> cp i = reins m 0 Y i) ->
      forall kap, kcut k kap -> forall i, 0 <= i < n - k -> gap k kap w i = reins (m - Z.to_nat k) k Y i).
  (** No further copy could be removed exactly. *)
  Definition remStop (k : Z) : Prop :=
    forall m Y, Z.of_nat m <= N -> (forall i, 0 <= i < n -> cp i = reins m 0 Y i) -> Z.of_nat m <= k.

  Lemma kcut_cutL k : 0 <= k -> kcut k (cutL p r s k).
  Proof.
    intros Hk. destruct (Z.eq_dec k 0) as [->|Hne]; [now left|]. right. left. unfold cutL, nsw.
    replace (p - s + (k - 1) + 1) with (p - s + k) by lia. lia.
  Qed.
  Lemma gap0 kap (w : Z -> P) i : gap 0 kap w i = w i.
  Proof. unfold gap. destruct (i <=? kap); [reflexivity|f_equal; lia]. Qed.

  Lemma remI_0 : remI 0 cp.
  Proof.
    split.
    - intros kap _ i Hi. cbn [Z.to_nat BSplineRemove.reins]. rewrite gap0, edist_refl. lra.
    - intros m Y Hm H kap _ i Hi. rewrite gap0. change (Z.to_nat 0) with 0%nat. rewrite Nat.sub_0_r. apply H. lia.
  Qed.

  Lemma remI_next k w : 0 <= k < N -> remI k w -> (rdelta U p r s t k w <= tol)%R -> remI (k + 1) (wnext U p r s t k w).
  Proof.
    intros Hk [HA HB] Hd. split.
    - intros kap [Hc|Hc] i Hi; [lia|]. replace (k + 1 - 1) with k in Hc by lia.
      replace (Z.to_nat (k + 1)) with (S (Z.to_nat k)) by lia. rewrite reins_app.
      replace (0 + Z.of_nat (Z.to_nat k)) with k by lia.
      eapply Rle_trans; [apply (edist_triangle _ (reins (Z.to_nat k) 0 (gap k (cutL p r s k) w) i))|].
      rewrite plus_IZR, Rmult_plus_distr_r, Rmult_1_l. apply Rplus_le_compat.
      + apply HA; [apply kcut_cutL; lia|exact Hi].
      + apply (reins_near U p r s t 0 (n + p) ltac:(lia) Hlo Hhi (Z.to_nat k) 0 _ _ n tol); try lia.
        intros i' Hi'. apply (round_near U p r s t 0 (n + p) ltac:(lia) Hlo Hhi k w kap n tol); try lia; assumption.
    - intros m Y Hm H kap [Hc|Hc] i Hi; [lia|]. replace (k + 1 - 1) with k in Hc by lia.
      pose proof (HB m Y ltac:(lia) H (cutL p r s k) (kcut_cutL k ltac:(lia))) as HQ.
      replace (m - Z.to_nat k)%nat with (S (m - Z.to_nat (k + 1))) in HQ by lia. cbn [BSplineRemove.reins] in HQ.
      apply (round_undo U p r s t 0 (n + p) ltac:(lia) Hlo Hhi k w _ kap n); try lia; assumption.
  Qed.
  Lemma remI_stop k w : 0 <= k < N -> remI k w -> (tol < rdelta U p r s t k w)%R -> remStop k.
  Proof.
    intros Hk [HA HB] Hd m Y Hm H. destruct (Z_le_gt_dec (Z.of_nat m) k) as [|Hgt]; [assumption|exfalso].
    pose proof (HB m Y ltac:(lia) H (cutL p r s k) (kcut_cutL k ltac:(lia))) as HQ.
    replace (m - Z.to_nat k)%nat with (S (m - Z.to_nat (k + 1))) in HQ by lia. cbn [BSplineRemove.reins] in HQ.
    destruct (round_undo U p r s t 0 (n + p) ltac:(lia) Hlo Hhi k w _ (r - p - k + nsw p s k - 1) n ltac:(lia) ltac:(lia) ltac:(lia)
      (or_introl eq_refl) ltac:(lia) ltac:(lia) HQ) as [E _].
    lra.
  Qed.

  Lemma shift_spec count : 0 <= count <= r -> count <= N ->
    exists U1, for_up (r + 1) (n + p + 1) (fun k U => do a <- get U k; set U (k - count) a) (bs_knots c) = Ok U1 /\
      arr U1 (n + p + 1) (fun x => if (r + 1 - count <=? x) && (x <? n + p + 1 - count) then U (x + count) else U x).
  Proof.
    intros Hc HcN.
    destruct (for_up_inv (fun k l => arr l (n + p + 1) (fun x => if (r + 1 - count <=? x) && (x <? k - count) then U (x + count) else U x))
      (r + 1) (n + p + 1) (fun k U => do a <- get U k; set U (k - count) a) (bs_knots c)) as (U1 & E & H1).
    - lia.
    - eapply arr_ext; [exact (rep_knots _ _ _ _ _ Hr)|]. intros i Hi. zbool; reflexivity.
    - intros k l Hk Hl. rewrite (arr_get _ _ _ _ Hl) by lia. rewrite bind_Ok.
      match goal with |- context [set l ?x ?v] => destruct (arr_set l _ _ x v Hl) as (l' & E & Hl'); [lia|] end.
      exists l'. split; [exact E|]. eapply arr_ext; [exact Hl'|]. intros i Hi. unfold fupd.
      destruct (Z.eqb_spec i (k - count)) as [->|Hne].
      + zbool; f_equal; lia.
      + zbool; reflexivity.
    - exists U1. split; [exact E|exact H1].
  Qed.

  Lemma ij_spec count f : 1 <= count ->
    for_up 1 count (fun k (st : Z * Z) => let '(i, j) := st in if Z.rem k 2 =? 1 then Ok (i + 1, j) else Ok (i, j - 1)) (f, f)
    = Ok (f + count / 2, f - (count - 1) / 2).
  Proof.
    intros Hc.
    destruct (for_up_inv (fun k (st : Z * Z) => st = (f + k / 2, f - (k - 1) / 2)) 1 count
      (fun k (st : Z * Z) => let '(i, j) := st in if Z.rem k 2 =? 1 then Ok (i + 1, j) else Ok (i, j - 1)) (f, f)) as (st & E & ->).
    - lia.
    - apply f_equal2; lia.
    - intros k st Hk ->. rewrite Z.rem_mod_nonneg by lia. destruct (Z.eqb_spec (k mod 2) 1) as [Ho|Ho]; eexists; (split; [reflexivity|]); apply f_equal2; lia.
    - exact E.
  Qed.

  Lemma compact_spec (Pw : list P) w count i j : arr Pw n w -> 1 <= count -> 0 <= j -> i + 1 - j = count -> i + 1 <= n ->
    exists Pw', for_up (i + 1) n (fun k (st : list P * Z) => let '(Pw, j) := st in
          do a <- get Pw k; do Pw <- set Pw j a; Ok (Pw, j + 1)) (Pw, j) = Ok (Pw', n - count) /\
      arr Pw' n (fun x => if (j <=? x) && (x <? n - count) then w (x + count) else w x).
  Proof.
    intros HP Hc Hj Hij Hin.
    destruct (for_up_inv (fun k (st : list P * Z) => exists Q, st = (Q, k - count) /\
        arr Q n (fun x => if (j <=? x) && (x <? k - count) then w (x + count) else w x)) (i + 1) n
      (fun k (st : list P * Z) => let '(Pw, j) := st in do a <- get Pw k; do Pw <- set Pw j a; Ok (Pw, j + 1)) (Pw, j)) as (st & E & Q & -> & HQ).
    - lia.
    - exists Pw. split; [apply f_equal2; [reflexivity|lia]|]. eapply arr_ext; [exact HP|]. intros x Hx. zbool; reflexivity.
    - intros k st Hk (Q & -> & HQ). rewrite (arr_get _ _ _ _ HQ) by lia. rewrite bind_Ok.
      match goal with |- context [set Q ?x ?v] => destruct (arr_set Q _ _ x v HQ) as (Q' & E & HQ'); [lia|] end.
      rewrite E, bind_Ok. eexists. split; [reflexivity|]. exists Q'. split; [apply f_equal2; [reflexivity|lia]|].
      eapply arr_ext; [exact HQ'|]. intros x Hx. unfold fupd. destruct (Z.eqb_spec x (k - count)) as [->|Hne].
      + zbool; f_equal; lia.
      + zbool; reflexivity.
    - exists Q. split; [exact E|exact HQ].
  Qed.

  Lemma rem_gen : (U p <= t <= U n)%R ->
    exists c' count X, bs_remove_knot c t N tol = Ok (c', count) /\ 0 <= count <= N /\ bs_periodic c' = bs_periodic c /\
      bsrep c' (n - count) p (remV U r count) X /\
      (forall i, 0 <= i < n -> (edist (cp i) (reins (Z.to_nat count) 0 X i) <= IZR count * tol)%R) /\
      (forall m Y, Z.of_nat m <= N -> (forall i, 0 <= i < n -> cp i = reins m 0 Y i) ->
        Z.of_nat m <= count /\ (Z.of_nat m = count -> forall i, 0 <= i < n - count -> X i = Y i)).
  Proof.
    intros Hdom. pose proof (rep_p _ _ _ _ _ Hr) as Hp.
    unfold bs_remove_knot. destruct (Z.leb_spec 1 N); [|lia]. cbn [assert_]. rewrite bind_Ok.
    unfold bs_in_domain. rewrite (rep_degree _ _ _ _ _ Hr), (rep_nknots _ _ _ _ _ Hr), (rep_npts _ _ _ _ _ Hr).
    rewrite (rep_get _ _ _ _ _ p Hr), bind_Ok by lia.
    replace (n + p + 1 - p - 1) with n by lia.
    rewrite (rep_get _ _ _ _ _ n Hr), !bind_Ok by lia.
    assert (Hd : (sle (ssub (U p) seps) t && sle t (sadd (U n) seps))%bool = true).
    { pose proof seps_pos as He. generalize dependent (seps : R). intros e He. simpl. rewrite !Rleb_true by lra. reflexivity. }
    rewrite Hd. cbn [assert_]. rewrite bind_Ok. clear Hd.
    rewrite (rep_validate _ _ _ _ _ Hr), bind_Ok, Eloc, bind_Ok.
    rewrite (rep_get _ _ _ _ _ r Hr), bind_Ok by lia.
    assert (Ur : U r = t) by (apply Hrun; lia).
    assert (Etr : seq_ t (U r) = true).
    { rewrite Ur. simpl. destruct (Reqb_spec t t); [reflexivity|congruence]. }
    rewrite Etr, Emul, bind_Ok. clear Etr.
    destruct (Z.eqb_spec s 0); [lia|]. destruct (Z.leb_spec r p); [lia|].
    replace (n + p + 1 - 1 - p) with n by lia. destruct (Z.leb_spec n r); [lia|]. cbn [orb].
    destruct (Z.leb_spec p r); [|lia]. cbn [assert_]. rewrite bind_Ok.
    rewrite (rep_get _ _ _ _ _ (r + 1) Hr), bind_Ok by lia.
    assert (Hr1 : (t < U (r + 1)%Z)%R) by (apply Hhi; lia).
    assert (Etr : seq_ (U (r + 1)) (U r) = false).
    { rewrite Ur. simpl. destruct (Reqb_spec (U (r + 1)) t); [lra|reflexivity]. }
    rewrite Etr. cbn [negb assert_]. rewrite bind_Ok. clear Etr.
    replace (n - 1 + 1) with n by lia. replace (n + p + 1 - 1) with (n + p) by lia.
    destruct (arr_alloc (p0 : P) n) as (T0 & ET0 & HT0); [lia|]. rewrite ET0, bind_Ok.
    (* the rounds *)
    match goal with |- context [forb_up 0 N ?b ?s0] =>
      destruct (forb_up_inv
        (fun k st => exists Pw temp w f, st = (Pw, temp, r - p - k, r - s + k, k) /\ arr Pw n w /\ arr temp n f /\ remI k w)
        (fun res => exists Pw w count, res = (Pw, count) /\ arr Pw n w /\ 0 <= count < N /\ remI count w /\ remStop count)
        0 N b s0) as (x & Ex & Hx) end.
    { lia. }
    { exists (bs_pts c), T0, cp, (fun _ => p0). split; [apply f_equal2; [apply f_equal2; [apply f_equal2; [reflexivity|lia]|lia]|lia]|].
      split; [exact (rep_pts _ _ _ _ _ Hr)|]. split; [exact HT0|exact remI_0]. }
    { intros k st Hk (Pw & temp & w & f & -> & HP & HT & HI). cbv beta iota zeta.
      rewrite (arr_get _ _ _ _ HP) by lia. rewrite bind_Ok.
      match goal with |- context [set temp 0 ?v] => destruct (arr_set temp n f 0 v HT) as (t1 & E1 & Ht1); [lia|] end.
      rewrite E1, bind_Ok. clear E1.
      rewrite (arr_get _ _ _ _ HP) by lia. rewrite bind_Ok.
      replace (r - s + k + 1 - (r - p - k - 1)) with (p - s + 2 * k + 2) by lia.
      match goal with |- context [set t1 ?i ?v] => destruct (arr_set t1 n _ i v Ht1) as (t2 & E2 & Ht2); [lia|] end.
      rewrite E2, bind_Ok. clear E2.
      replace (r - s + k - (r - p - k - 1)) with (p - s + 2 * k + 1) by lia.
      destruct (sweep_spec c n p U cp r s t Hr Hs Hlo Hhi Hrn k Pw w t2 _ ltac:(lia) ltac:(lia) HP Ht2) as (st & Est & t3 & g & -> & He & Hg & HL & HR).
      { rewrite fupd_neq by lia. rewrite fupd_eq. reflexivity. }
      { rewrite fupd_eq. f_equal. }
      rewrite Est, bind_Ok.
      set (e := nsw p s k) in *.
      assert (Hns : e = (p - s + k + 1) / 2) by reflexivity.
      assert (Hbad : exists bad, (if r - s + k - e - (r - p - k + e) <? k
         then do a <- get t3 (1 + e - 1); do b <- get t3 (p - s + 2 * k + 1 - e + 1); Ok (tol <? pnorm (a - b)%P)%S
         else do ui <- get (bs_knots c) (r - p - k + e); do uio <- get (bs_knots c) (r - p - k + e + (p + 1) + k);
           do alpha_i <- ddiv (t - ui)%S (uio - ui)%S; do pi <- get Pw (r - p - k + e);
           do a <- get t3 (1 + e + k + 1); do b <- get t3 (1 + e - 1);
           Ok (tol <? pnorm (pi - (alpha_i *: a + (s1 - alpha_i)%S *: b))%P)%S) = Ok bad /\
         (bad = true -> (tol < rdelta U p r s t k w)%R) /\ (bad = false -> (rdelta U p r s t k w <= tol)%R)).
      { replace (1 + e - 1) with e by lia. replace (p - s + 2 * k + 1 - e + 1) with (p - s + 2 * k + 2 - e) by lia.
        unfold rdelta. fold e.
        destruct (Z.ltb_spec (r - s + k - e - (r - p - k + e)) k).
        - rewrite (arr_get _ _ _ _ Hg) by lia. rewrite bind_Ok. rewrite (arr_get _ _ _ _ Hg) by lia. rewrite bind_Ok.
          destruct (Z.eqb_spec ((p - s + k) mod 2) 0); [lia|].
          rewrite (HL e), (HR e) by lia. eexists. split; [reflexivity|]. rewrite pnorm_edist. simpl.
          destruct (Rltb_spec tol (edist (lft U p r t k w (Z.to_nat e)) (rgt U p r s t k w (Z.to_nat e)))); split; intros; try discriminate; lra.
        - pose proof (Hlo (r - p - k + e) ltac:(lia)). pose proof (Hhi (r - p - k + e + (p + 1) + k) ltac:(lia)).
          rewrite (rep_get _ _ _ _ _ (r - p - k + e) Hr) by lia. rewrite bind_Ok.
          rewrite (rep_get _ _ _ _ _ (r - p - k + e + (p + 1) + k) Hr) by lia. rewrite bind_Ok.
          rewrite ddiv_R by (simpl; lra). rewrite bind_Ok.
          assert (Ei : (ssub t (U (r - p - k + e)%Z) / ssub (U (r - p - k + e + (p + 1) + k)%Z) (U (r - p - k + e)%Z))%R = ral U p t k (r - p - k + e)).
          { unfold ral. simpl. f_equal. f_equal. f_equal. lia. }
          rewrite Ei. rewrite (arr_get _ _ _ _ HP) by lia. rewrite bind_Ok.
          rewrite (arr_get _ _ _ _ Hg) by lia. rewrite bind_Ok. rewrite (arr_get _ _ _ _ Hg) by lia. rewrite bind_Ok.
          destruct (Z.eqb_spec ((p - s + k) mod 2) 0); [|lia].
          replace (1 + e + k + 1) with (p - s + 2 * k + 2 - e) by lia.
          rewrite (HL e), (HR e) by lia. eexists. split; [reflexivity|]. rewrite pnorm_edist. simpl.
          match goal with |- context [Rltb tol ?x] => destruct (Rltb_spec tol x) end; split; intros; try discriminate; lra. }
      destruct Hbad as (bad & Eb & Hb1 & Hb2). cbv beta iota.
      match goal with |- context [bind (if ?b then ?x else ?y) _] => 
        let Heq := fresh in assert (Heq : (if b then x else y) = Ok bad) by exact Eb; rewrite Heq; clear Heq end.
      rewrite bind_Ok. destruct bad.
      - eexists. split; [reflexivity|]. cbv beta iota. exists Pw, w, k. split; [reflexivity|]. split; [exact HP|]. split; [lia|]. split; [exact HI|].
        apply (remI_stop k w); [lia|exact HI|now apply Hb1].
      - destruct (copy_spec n p U r s t Hs Hlo Hhi Hrn k Pw w t3 g ltac:(lia) ltac:(lia) HP Hg HL HR) as (Pw' & Ec & HP').
        rewrite Ec, bind_Ok. eexists. split; [reflexivity|]. cbv beta iota.
        exists Pw', t3, (wnext U p r s t k w), g.
        split; [apply f_equal2; [apply f_equal2; [apply f_equal2; [reflexivity|lia]|lia]|lia]|].
        split; [exact HP'|]. split; [exact Hg|]. apply remI_next; [lia|exact HI|now apply Hb2]. }
    rewrite Ex, bind_Ok.
    assert (Hx' : exists Pw w count, match x with inl (Pw, _, _, _, count) => (Pw, count) | inr y => y end = (Pw, count) /\
       arr Pw n w /\ 0 <= count <= N /\ remI count w /\ remStop count).
    { destruct x as [st|b].
      - destruct Hx as (Pw & temp & w & f & -> & HP & _ & HI). exists Pw, w, N. split; [reflexivity|]. split; [exact HP|].
        split; [lia|]. split; [exact HI|]. intros m Y Hm _. exact Hm.
      - destruct Hx as (Pw & w & count & -> & HP & Hc & HI & HS). exists Pw, w, count. split; [reflexivity|]. split; [exact HP|].
        split; [lia|]. split; assumption. }
    destruct Hx' as (Pw & w & count & Em & HP & Hc & [HA HB] & HS).
    match goal with |- context [match x with inl _ => _ | inr _ => _ end] => idtac end.
    rewrite Em. clear Ex Hx Em.
    destruct (Z.eqb_spec count 0) as [->|Hc0].
    - exists {| bs_pts := Pw; bs_knots := bs_knots c; bs_periodic := bs_periodic c |}, 0, w. split; [reflexivity|]. split; [lia|].
      split; [reflexivity|]. split.
      { split; cbn [bs_pts bs_knots]; try lia.
        - rewrite Z.sub_0_r. exact HP.
        - rewrite Z.sub_0_r. eapply arr_ext; [exact (rep_knots _ _ _ _ _ Hr)|]. intros i Hi. unfold remV.
          destruct (i <=? r - 0); [reflexivity|f_equal; lia]. }
      split.
      { intros i Hi. specialize (HA 0 (or_introl eq_refl) i Hi). cbn [Z.to_nat BSplineRemove.reins] in *. rewrite gap0 in HA. exact HA. }
      intros m Y Hm HY. split; [apply (HS m Y Hm HY)|]. intros Em i Hi.
      pose proof (HB m Y ltac:(lia) HY 0 (or_introl eq_refl) i Hi) as E. rewrite gap0 in E. rewrite E.
      replace (m - Z.to_nat 0)%nat with 0%nat by lia. reflexivity.
    - destruct (shift_spec count ltac:(lia) ltac:(lia)) as (U1 & EU1 & HU1).
      replace (n + p + 1) with (n + p + 1) in EU1 by lia. rewrite EU1, bind_Ok.
      destruct (arr_topRows U1 _ _ (n + p - count + 1) HU1 ltac:(lia)) as (U2 & EU2 & HU2). rewrite EU2, bind_Ok.
      rewrite (ij_spec count _ ltac:(lia)), bind_Ok. rewrite Z.quot_div_nonneg by lia.
      destruct (compact_spec Pw w count ((2 * r - s - p) / 2 + count / 2) ((2 * r - s - p) / 2 - (count - 1) / 2) HP
        ltac:(lia) ltac:(lia) ltac:(lia) ltac:(lia)) as (Pw1 & EP1 & HP1).
      rewrite EP1, bind_Ok.
      destruct (arr_topRows Pw1 _ _ (n - count) HP1 ltac:(lia)) as (Pw2 & EP2 & HP2). rewrite EP2, bind_Ok.
      set (kap := (2 * r - s - p) / 2 - (count - 1) / 2 - 1).
      assert (Hkap : kcut count kap).
      { right. unfold cut_ok, nsw, kap. destruct (Z.eq_dec ((2 * r - s - p) / 2 - (count - 1) / 2 - 1) (r - p - (count - 1) + (p - s + (count - 1) + 1) / 2 - 1)) as [E|E]; [left; exact E|right].
        split; lia. }
      exists {| bs_pts := Pw2; bs_knots := U2; bs_periodic := bs_periodic c |}, count, (gap count kap w).
      split; [reflexivity|]. split; [lia|]. split; [reflexivity|]. split.
      { split; cbn [bs_pts bs_knots]; try lia.
        - eapply arr_ext; [exact HP2|]. intros i Hi. unfold gap, kap. cbv beta. zbool; reflexivity.
        - replace (n - count + p + 1) with (n + p - count + 1) by lia. eapply arr_ext; [exact HU2|]. intros i Hi. unfold remV. cbv beta. zbool; reflexivity. }
      split; [intros i Hi; apply HA; assumption|].
      intros m Y Hm HY. split; [apply (HS m Y Hm HY)|]. intros Em i Hi.
      rewrite (HB m Y ltac:(lia) HY kap Hkap i Hi). replace (m - Z.to_nat count)%nat with 0%nat by lia. reflexivity.
  Qed.
End RemAll.
