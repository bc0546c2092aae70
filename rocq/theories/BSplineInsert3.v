(** Knot insertion keeps the curve. *)
From Coq Require Import Reals Lra Lia ZArith List Permutation Bool.
From Verif Require Import Monad MonadFacts LoopFacts Scalar ScalarFacts Spec SpecFacts Polar ModelCurve CurveFacts ModelBezier
  BezierFacts BezierMath BezierThms BSplineMath ModelBSpline BSplineFacts BSplineThms BSplineThms2 BSplineThms3
  BSplineInsert BSplineInsert2.
Import ListNotations.
Local Open Scope R_scope.

(** [t] is a knot or more than [btol] away from every knot. *)
Definition tapart (n p : Z) (U : Z -> R) (t : R) : Prop :=
  forall i, (0 <= i <= n + p)%Z -> U i = t \/ btol < Rabs (U i - t).
(** No [m+1] consecutive knots equal [t]. *)
Definition mult_le (n p : Z) (U : Z -> R) (t : R) (m : Z) : Prop :=
  forall i, (0 <= i)%Z -> (i + m <= n + p)%Z -> U i = t -> U (i + m)%Z = t -> False.

Lemma arr_Forall {A} (Q : A -> Prop) l n f : arr l n f -> (Forall Q l <-> forall i, (0 <= i < n)%Z -> Q (f i)).
Proof.
  intros H. pose proof (arr_len _ _ _ H) as HL. unfold zlen in HL. split.
  - intros HF i Hi. pose proof (arr_get _ _ _ i H Hi) as E. unfold get in E. destruct (Z.ltb_spec i 0); [lia|].
    destruct (nth_error l (Z.to_nat i)) as [a|] eqn:Ea; [|discriminate]. injection E as <-.
    rewrite Forall_forall in HF. apply HF. eapply nth_error_In; eassumption.
  - intros Hf. apply Forall_forall. intros a Ha. apply In_nth_error in Ha. destruct Ha as (m & Em).
    assert (Hm : (m < length l)%nat) by (apply nth_error_Some; congruence).
    pose proof (arr_get _ _ _ (Z.of_nat m) H ltac:(lia)) as E. unfold get in E. destruct (Z.ltb_spec (Z.of_nat m) 0); [lia|].
    rewrite Nat2Z.id, Em in E. injection E as ->. apply Hf. lia.
Qed.

Lemma rep_conv {P} {V : PointOps R P} (c c' : bspline R P) n n' p p' U U' cp cp' : bsrep c n p U cp -> bsrep c' n' p' U' cp' ->
  (forall Q : P -> Prop, convexP Q -> (forall i, (0 <= i < n)%Z -> Q (cp i)) -> forall i, (0 <= i < n')%Z -> Q (cp' i)) ->
  conv_pres (bs_pts c) (bs_pts c').
Proof.
  intros Hr Hr' H Q HQ HF. apply (arr_Forall Q _ _ _ (rep_pts _ _ _ _ _ Hr')). apply H; [exact HQ|].
  now apply (arr_Forall Q _ _ _ (rep_pts _ _ _ _ _ Hr)).
Qed.

Section Ins.
  Context {d : nat}.
  Variables (c : bspline R (vec R d)) (n p : Z) (U : Z -> R) (cp : Z -> vec R d) (t : R) (r : Z).
  Hypothesis Hr : bsrep c n p U cp.
  Hypothesis Hv : kval n p U.
  Hypothesis Hap : kapart n p U.
  Hypothesis Hst : kstart p U.
  Hypothesis Ht : U p <= t <= U n.
  Hypothesis Hreg : U p < U (p + 1)%Z \/ U p < t.
  Hypothesis Hta : tapart n p U t.
  Hypothesis Hr1 : (1 <= r <= p)%Z.
  Hypothesis Hmul : mult_le n p U t (p - r).

  Lemma ins_setup : exists k s, locate_span c t = Ok k /\ (p <= k < n)%Z /\ in_span U (U n) k t /\
    (if Reqb t (U k) then get_multiplicity c k else Ok 0%Z) = Ok s /\ (0 <= s)%Z /\ (r + s <= p)%Z /\
    (forall i, (k - s < i <= k)%Z -> U i = t) /\ (s <= k + 1)%Z /\ (t = U k -> (1 <= s)%Z) /\
    (t <> U k -> s = 0%Z) /\ (t = U k -> (k - s = -1)%Z \/ U (k - s)%Z < t).
  Proof.
    pose proof (rep_p _ _ _ _ _ Hr) as Hp.
    destruct (locate_span_regular c n p U cp t Hr Hv Hreg Ht) as (k & Ek & Hk & Hs).
    destruct (in_span_bounds _ _ _ _ Hs) as [Hb Hlt]. destruct Hv as [Hm Hd].
    destruct (Reqb_spec t (U k)) as [E|E].
    - destruct (get_multiplicity_correct c n p U cp k Hr ltac:(lia)) as (a & b & Em & Ha & Hb' & Hrun & Hla & Hlb).
      assert (b = k).
      { destruct (Z.eq_dec b k); [assumption|exfalso].
        specialize (Hrun (k + 1)%Z ltac:(lia)). lra. }
      subst b. exists k, (k - a + 1)%Z. split; [exact Ek|]. split; [exact Hk|]. split; [exact Hs|].
      destruct (Reqb_spec t (U k)) as [_|]; [|congruence].
      split; [exact Em|]. split; [lia|]. split.
      { destruct (Z_le_gt_dec (r + (k - a + 1)) p); [assumption|exfalso].
        apply (Hmul (k - (p - r))%Z); try lia.
        - rewrite E. apply Hrun. lia.
        - rewrite E. f_equal. lia. }
      split; [intros i Hi; rewrite E; apply Hrun; lia|]. split; [lia|]. split; [lia|]. split; [congruence|].
      intros _. destruct (Z.eq_dec a 0) as [->|Ha0]; [left; lia|right]. destruct Hla as [Hla|Hla]; [lia|].
      replace (k - (k - a + 1))%Z with (a - 1)%Z by lia. assert (U (a - 1)%Z <= U k) by (apply Hm; lia). lra.
    - exists k, 0%Z. split; [exact Ek|]. split; [exact Hk|]. split; [exact Hs|].
      destruct (Reqb_spec t (U k)) as [|_]; [congruence|].
      split; [reflexivity|]. split; [lia|]. split; [lia|]. split; [intros; lia|]. split; [lia|].
      split; [congruence|]. split; [reflexivity|congruence].
  Qed.

  (** [nonper c] is the curve with the periodic flag off. *)
  Lemma ins_full : exists c' k s,
    bs_insert_knot c t r = Ok c' /\ bs_periodic c' = bs_periodic c /\ (p <= k < n)%Z /\ in_span U (U n) k t /\
    ((0 <= s)%Z /\ (r + s <= p)%Z /\ (forall i, (k - s < i <= k)%Z -> U i = t) /\ (s <= k + 1)%Z /\
     ((k - s = -1)%Z \/ U (k - s)%Z < t)) /\
    (exists cp', bsrep c' (n + r) p (insU U k r t) cp') /\
    kval (n + r) p (insU U k r t) /\ kapart (n + r) p (insU U k r t) /\ kstart p (insU U k r t) /\
    insU U k r t p = U p /\ insU U k r t (n + r)%Z = U n /\
    (forall x, (bs_periodic c = true \/ U p <= x <= U n) -> bs_evaluate c' x = bs_evaluate c x) /\
    (forall x, U p <= x <= U n -> bs_evaluate (nonperiodic c') x = bs_evaluate (nonperiodic c) x) /\
    conv_pres (bs_pts c) (bs_pts c').
  Proof.
    pose proof (rep_p _ _ _ _ _ Hr) as Hp. pose proof (rep_pn _ _ _ _ _ Hr) as Hpn.
    destruct ins_setup as (k & s & Ek & Hk & Hsp & Es & Hs0 & Hrs & Hrun & Hsk & Hs1 & Hs2 & Hs3).
    destruct (in_span_bounds _ _ _ _ Hsp) as [Hb Hlt].
    destruct Hv as [Hm Hd].
    destruct (bs_insert_gen c n p U cp t r k s Hr Hm Ht Ek Hk Hlt Es Hs0 ltac:(lia) Hrs) as (c' & Ec' & Hper & Hr').
    set (U' := insU U k r t) in *. set (Q := insQ U (Z.to_nat p) k s r t cp) in *.
    assert (Hm' : mono U' 0 (n + r + p)).
    { replace (n + r + p)%Z with (n + p + r)%Z by lia. apply (insU_mono U 0%nat k r t 0 (n + p) Hm); (lia || exact Hb). }
    assert (EUp : U' p = U p) by (apply insU_low; lia).
    assert (EUn : U' (n + r)%Z = U n).
    { unfold U'. rewrite insU_high by lia. f_equal. lia. }
    assert (Hv' : kval (n + r) p U') by (split; [exact Hm'|rewrite EUp, EUn; exact Hd]).
    assert (Hval : forall i, (0 <= i <= n + r + p)%Z -> U' i = t \/ exists i0, (0 <= i0 <= n + p)%Z /\ U' i = U i0).
    { intros i Hi. unfold U', insU. destruct (Z.leb_spec i k); [right; exists i; split; [lia|reflexivity]|].
      destruct (Z.leb_spec i (k + r)); [left; reflexivity|right; exists (i - r)%Z; split; [lia|reflexivity]]. }
    assert (Hap' : kapart (n + r) p U').
    { intros i j Hi Hj Hij. destruct (Hval i Hi) as [Ei|(i0 & Hi0 & Ei)]; destruct (Hval j Hj) as [Ej|(j0 & Hj0 & Ej)];
        rewrite Ei, Ej in *.
      - lra.
      - destruct (Hta j0 Hj0) as [E|E]; [lra|]. rewrite Rabs_right in E by lra. exact E.
      - destruct (Hta i0 Hi0) as [E|E]; [lra|]. rewrite Rabs_left in E by lra. lra.
      - apply Hap; assumption. }
    assert (Hst' : kstart p U').
    { destruct (Rlt_dec (U p) t) as [Hlt2|Hge].
      - destruct Hst as [H0|[H0 H1]].
        + left. rewrite EUp. unfold U', insU. destruct (Z.leb_spec (p + 1) k); [exact H0|].
          destruct (Z.leb_spec (p + 1) (k + r)); [exact Hlt2|lia].
        + destruct (Rlt_dec (U p) (U (p + 1)%Z)) as [H2|H2].
          * left. rewrite EUp. unfold U', insU. destruct (Z.leb_spec (p + 1) k); [exact H2|].
            destruct (Z.leb_spec (p + 1) (k + r)); [exact Hlt2|lia].
          * right. split; [exact H0|]. intros i Hi.
            assert (EUi : U' i = U i) by (apply insU_low; lia). rewrite EUi.
            destruct (Z_le_gt_dec (i + p) k) as [Hik|Hik].
            { unfold U'. rewrite insU_low by lia. now apply H1. }
            assert (t <= U' (i + p)%Z).
            { apply Rle_trans with (U' (k + 1)%Z); [unfold U'; rewrite insU_mid by lia; lra|apply Hm'; lia]. }
            assert (U i <= U p) by (apply Hm; lia). lra.
      - assert (Et : t = U p) by lra.
        destruct Hreg as [H2|H2]; [|lra].
        assert (k = p).
        { destruct (Z.eq_dec k p); [assumption|exfalso]. assert (U (p + 1)%Z <= U k) by (apply Hm; lia). lra. }
        subst k. right. split; [lia|]. intros i Hi. specialize (Hs1 Et). specialize (Hs3 Et).
        assert (Hp1 : U' i <= U' (i + p)%Z) by (apply Hm'; lia).
        destruct (Req_EM_T (U' i) (U' (i + p)%Z)) as [Eq|Ne]; [exfalso|lra].
        assert (EUi : U' i = U i) by (apply insU_low; lia).
        assert (Hip : t <= U' (i + p)%Z).
        { apply Rle_trans with (U' (p + 1)%Z); [unfold U'; rewrite insU_mid by lia; lra|apply Hm'; lia]. }
        assert (U i <= U p) by (apply Hm; lia).
        destruct (Z_le_gt_dec i (p - s)) as [Hi2|Hi2].
        + destruct Hs3 as [Hs3|Hs3]; [lia|]. assert (U i <= U (p - s)%Z) by (apply Hm; lia). lra.
        + assert (U' (p + r + 1)%Z = U (p + 1)%Z) by (unfold U'; rewrite insU_high by lia; f_equal; lia).
          assert (U' (p + r + 1)%Z <= U' (i + p)%Z) by (apply Hm'; lia). lra. }
    assert (Hgen : forall c1 c1' x u, bsrep c1 n p U cp -> bsrep c1' (n + r) p U' Q -> bs_unwrap c1 x = Ok u ->
      bs_unwrap c1' x = Ok u -> U p <= u <= U n -> bs_evaluate c1' x = bs_evaluate c1 x).
    { intros c1 c1' x u Hc1 Hc1' Eu Eu' Hu.
    destruct (bs_eval_tri c1 n p U cp x u Hc1 (Build_kval _ _ _ Hm Hd) Hap (or_introl Hst) Eu Hu) as (k0 & Hk0 & Hs0' & E0).
    destruct (bs_eval_tri c1' (n + r) p U' Q x u Hc1' Hv' Hap' (or_introl Hst') Eu' ltac:(rewrite EUp, EUn; exact Hu)) as (m & Hmr & Hsm & Em).
    rewrite E0, Em. f_equal.
    rewrite EUn in Hsm.
    assert (Hok : k0 = old_span k r m).
    { apply (in_span_unique U (U n) 0 (n + p) k0 (old_span k r m) u Hm); [lia| |exact Hs0'|].
      - unfold old_span. destruct (Z.leb_spec m k); lia.
      - apply (old_span_in U 0%nat k r t Hb ltac:(lia)). exact Hsm. }
    subst k0.
    apply vec_ext. intros e He. rewrite !coord_tri by assumption.
    rewrite (tri_ext (alU U' (Z.to_nat p)) (alU U' (Z.to_nat p)) (fun i => coord d e (Q i)) (insQ U (Z.to_nat p) k s r t (fun i => coord d e (cp i))));
      [|reflexivity|intros; unfold Q; now apply coord_insQ].
    assert (Hord : (0 <= old_span k r m - p + 0)%Z /\ (old_span k r m < n)%Z) by lia.
    apply (insQ_eval U (Z.to_nat p) k s r t 0 (n + p) Hm Hb Hs0 Hrun ltac:(lia) ltac:(lia) _ (U n)); try lia.
    exact Hsm. }
    exists c', k, s. split; [exact Ec'|]. split; [exact Hper|]. split; [exact Hk|]. split; [exact Hsp|].
    split; [repeat (split; [assumption|]);
      destruct (Req_EM_T t (U k)) as [Etk|Etk]; [exact (Hs3 Etk)|right; rewrite (Hs2 Etk); replace (k - 0)%Z with k by lia; lra]|].
    split; [exists Q; exact Hr'|]. split; [exact Hv'|]. split; [exact Hap'|]. split; [exact Hst'|].
    split; [exact EUp|]. split; [exact EUn|].
    split.
    - intros x Hx.
    destruct (bs_unwrap_total c n p U cp x Hr (Build_kval _ _ _ Hm Hd)) as (u & Eu & Hu1 & Hu2).
    assert (Hu : U p <= u <= U n).
    { destruct (bs_periodic c) eqn:Epr.
      - destruct (Hu2 eq_refl). lra.
      - destruct Hx as [Hx|Hx]; [discriminate|]. rewrite (Hu1 eq_refl). exact Hx. }
    assert (Eu' : bs_unwrap c' x = Ok u).
    { rewrite <- Eu. unfold bs_unwrap. rewrite Hper. destruct (bs_periodic c); [|reflexivity].
      rewrite (rep_lower _ _ _ _ _ Hr), (rep_upper _ _ _ _ _ Hr), (rep_lower _ _ _ _ _ Hr'), (rep_upper _ _ _ _ _ Hr').
      rewrite EUp, EUn. reflexivity. }
    exact (Hgen c c' x u Hr Hr' Eu Eu' Hu).
    - split; [|apply (rep_conv c c' n (n + r) p p U U' cp Q Hr Hr');
        intros q Hq Hc; apply (insQ_convex U (Z.to_nat p) k s r t 0 (n + p) Hm Hb Hlt Hs0 ltac:(lia) ltac:(lia) q cp n Hq); (lia || exact Hc)].
      intros x Hx. apply (Hgen (nonperiodic c) (nonperiodic c') x x); try reflexivity; try assumption.
      + destruct Hr; split; assumption.
      + destruct Hr'; split; assumption.
  Qed.

  Lemma ins_correct : exists c' k,
    bs_insert_knot c t r = Ok c' /\ bs_periodic c' = bs_periodic c /\ (p <= k < n)%Z /\ in_span U (U n) k t /\
    (exists cp', bsrep c' (n + r) p (insU U k r t) cp') /\
    kval (n + r) p (insU U k r t) /\ kapart (n + r) p (insU U k r t) /\ kstart p (insU U k r t) /\
    insU U k r t p = U p /\ insU U k r t (n + r)%Z = U n /\
    forall x, (bs_periodic c = true \/ U p <= x <= U n) -> bs_evaluate c' x = bs_evaluate c x.
  Proof.
    destruct ins_full as (c' & k & s & H1 & H2 & H3 & H4 & _ & H5 & H6 & H7 & H8 & H9 & H10 & H11 & _).
    exists c', k. repeat (split; [assumption|]). assumption.
  Qed.
End Ins.

(** ** From index functions back to lists *)
Lemma rep_valid {P} {V : PointOps R P} (c : bspline R P) n p U cp : bsrep c n p U cp -> kval n p U ->
  valid_bspline (bs_pts c) (bs_knots c) /\ Z.of_nat (bspline_degree (bs_pts c) (bs_knots c)) = p /\
  Z.of_nat (length (bs_pts c)) = n /\
  (forall i, (0 <= i <= n + p)%Z -> knot_of (bs_knots c) i = U i) /\
  (forall i, (0 <= i < n)%Z -> pts_at (bs_pts c) i = cp i).
Proof.
  intros H [Hm Hd]. pose proof (rep_p _ _ _ _ _ H) as Hp. pose proof (rep_pn _ _ _ _ _ H) as Hpn.
  pose proof (rep_nknots _ _ _ _ _ H) as Hnk. pose proof (rep_npts _ _ _ _ _ H) as Hnp. unfold zlen in *.
  assert (Hdeg : Z.of_nat (bspline_degree (bs_pts c) (bs_knots c)) = p) by (unfold bspline_degree; lia).
  assert (HU : forall i, (0 <= i <= n + p)%Z -> knot_of (bs_knots c) i = U i).
  { intros i Hi. pose proof (rep_get _ _ _ _ _ i H Hi) as E.
    rewrite (get_nth _ _ 0) in E by (unfold zlen; lia). inversion E. reflexivity. }
  split; [|split; [exact Hdeg|split; [exact Hnp|split; [exact HU|]]]].
  - split.
    + lia.
    + lia.
    + intros i j Hij. rewrite <- !knot_of_nat. rewrite !HU by lia. apply Hm; lia.
    + rewrite <- !knot_of_nat. rewrite !HU by lia. rewrite Hdeg, Hnp. exact Hd.
  - intros i Hi. pose proof (arr_get _ _ _ i (rep_pts _ _ _ _ _ H) Hi) as E.
    rewrite (get_nth _ _ p0) in E by (unfold zlen; lia). inversion E. reflexivity.
Qed.

Lemma count_run (l : list R) (t : R) a s : (a + s <= length l)%nat ->
  (forall i, (a <= i < a + s)%nat -> nth i l 0 = t) -> (s <= count_occ Req_EM_T l t)%nat.
Proof.
  revert a s; induction l as [|x l IH]; intros a s Hl H; [simpl in *; lia|].
  simpl count_occ. destruct a as [|a].
  - destruct s as [|s]; [lia|].
    assert (x = t) by (apply (H 0%nat); lia). destruct (Req_EM_T x t); [|congruence].
    apply le_n_S. apply (IH 0%nat); [simpl in Hl; lia|]. intros i Hi. apply (H (S i)). lia.
  - assert (s <= count_occ Req_EM_T l t)%nat.
    { apply (IH a); [simpl in Hl; lia|]. intros i Hi. apply (H (S i)). lia. }
    destruct (Req_EM_T x t); lia.
Qed.

Lemma mult_rep {P} (c : bspline R P) t (r : nat) : valid_bspline (bs_pts c) (bs_knots c) ->
  (r + count_occ Req_EM_T (bs_knots c) t <= bspline_degree (bs_pts c) (bs_knots c))%nat ->
  mult_le (Z.of_nat (length (bs_pts c))) (Z.of_nat (bspline_degree (bs_pts c) (bs_knots c))) (knot_of (bs_knots c)) t
    (Z.of_nat (bspline_degree (bs_pts c) (bs_knots c)) - Z.of_nat r).
Proof.
  intros Hv H i Hi Him E1 E2. set (p := bspline_degree (bs_pts c) (bs_knots c)) in *.
  assert (Hlen : length (bs_knots c) = (length (bs_pts c) + p + 1)%nat).
  { destruct Hv as [H1 H2 H3 H4]. unfold p, bspline_degree. lia. }
  assert (p - r + 1 <= count_occ Req_EM_T (bs_knots c) t)%nat; [|lia].
  apply (count_run _ _ (Z.to_nat i)); [lia|].
  intros j Hj.
  assert (nth (Z.to_nat i) (bs_knots c) 0 <= nth j (bs_knots c) 0) by (apply (vb_sorted _ _ Hv); lia).
  assert (nth j (bs_knots c) 0 <= nth (Z.to_nat (i + (Z.of_nat p - Z.of_nat r))) (bs_knots c) 0) by (apply (vb_sorted _ _ Hv); lia).
  unfold knot_of in E1, E2. lra.
Qed.

Lemma nth_firstn_lt {A} (l : list A) m i d : (i < m)%nat -> nth i (firstn m l) d = nth i l d.
Proof.
  revert m i; induction l as [|a l IH]; intros [|m] [|i] H; try lia; simpl; auto. apply IH. lia.
Qed.
Lemma nth_skipn_add {A} (l : list A) m i d : nth i (skipn m l) d = nth (m + i) l d.
Proof.
  revert m i; induction l as [|a l IH]; intros [|m] i; simpl; auto. destruct i; reflexivity.
Qed.

Lemma bspline_insert_full d (c : bspline R (vec R d)) t (r : nat) :
  valid_bspline (bs_pts c) (bs_knots c) -> knots_apart (/ IZR (10 ^ 16)) (bs_knots c) ->
  regular_start (bs_pts c) (bs_knots c) ->
  lower_of (bs_pts c) (bs_knots c) <= t <= upper_of (bs_pts c) (bs_knots c) ->
  (forall u, In u (bs_knots c) -> u = t \/ / IZR (10 ^ 16) < Rabs (u - t)) ->
  (nth (bspline_degree (bs_pts c) (bs_knots c)) (bs_knots c) 0
     < nth (bspline_degree (bs_pts c) (bs_knots c) + 1) (bs_knots c) 0
   \/ lower_of (bs_pts c) (bs_knots c) < t) ->
  (1 <= r)%nat -> (r + count_occ Req_EM_T (bs_knots c) t <= bspline_degree (bs_pts c) (bs_knots c))%nat ->
  exists c', bs_insert_knot c t (Z.of_nat r) = Ok c' /\ bs_periodic c' = bs_periodic c /\
    valid_bspline (bs_pts c') (bs_knots c') /\
    bspline_degree (bs_pts c') (bs_knots c') = bspline_degree (bs_pts c) (bs_knots c) /\
    Permutation (bs_knots c') (repeat t r ++ bs_knots c) /\
    lower_of (bs_pts c') (bs_knots c') = lower_of (bs_pts c) (bs_knots c) /\
    upper_of (bs_pts c') (bs_knots c') = upper_of (bs_pts c) (bs_knots c) /\
    (forall x, (bs_periodic c = true \/ lower_of (bs_pts c) (bs_knots c) <= x <= upper_of (bs_pts c) (bs_knots c)) ->
      bs_evaluate c' x = bs_evaluate c x) /\
    knots_apart (/ IZR (10 ^ 16)) (bs_knots c') /\ regular_start (bs_pts c') (bs_knots c') /\
    (forall x, lower_of (bs_pts c) (bs_knots c) <= x <= upper_of (bs_pts c) (bs_knots c) ->
      bs_evaluate (nonperiodic c') x = bs_evaluate (nonperiodic c) x) /\
    conv_pres (bs_pts c) (bs_pts c').
Proof.
  intros Hv Ha Hs Ht Hta Hreg Hr1 Hr2. destruct (valid_rep c Hv) as [Hr Hk].
  assert (EL0 : lower_of (bs_pts c) (bs_knots c) = knot_of (bs_knots c) (Z.of_nat (bspline_degree (bs_pts c) (bs_knots c))))
    by (unfold lower_of; now rewrite knot_of_nat).
  assert (EU0 : upper_of (bs_pts c) (bs_knots c) = knot_of (bs_knots c) (Z.of_nat (length (bs_pts c))))
    by (unfold upper_of; now rewrite knot_of_nat).
  rewrite EL0, EU0 in *. rewrite <- knot_of_nat, <- knot_of_nat1 in Hreg.
  set (n := Z.of_nat (length (bs_pts c))) in *. set (p := bspline_degree (bs_pts c) (bs_knots c)) in *.
  set (U := knot_of (bs_knots c)) in *.
  assert (Hlen : length (bs_knots c) = Z.to_nat (n + Z.of_nat p + 1)).
  { pose proof (rep_nknots _ _ _ _ _ Hr). unfold zlen in *. lia. }
  destruct (ins_full c n (Z.of_nat p) U _ t (Z.of_nat r) Hr Hk (apart_rep c Hv Ha) (start_rep c Hs) Ht Hreg)
    as (c' & k & s' & Ec & Hper & Hkr & Hsp & _ & (cp' & Hr') & Hk' & Hap' & Hst' & EL & EU & Hev & Hnev & Hcv).
  - intros i Hi. rewrite btol_val. apply Hta. unfold U, knot_of. apply nth_In. lia.
  - lia.
  - apply (mult_rep c t r Hv Hr2).
  - destruct (rep_valid c' _ _ _ _ Hr' Hk') as (Hv' & Hdeg & Hnp & HU' & _).
    exists c'. split; [exact Ec|]. split; [exact Hper|]. split; [exact Hv'|].
    assert (Hdeg' : bspline_degree (bs_pts c') (bs_knots c') = p) by lia.
    split; [exact Hdeg'|]. split; [|split; [|split; [|split; [|split; [|split; [|split; [|exact Hcv]]]]]]].
    + (* the new knots *)
      assert (E : bs_knots c' = firstn (Z.to_nat (k + 1)) (bs_knots c) ++ repeat t r ++ skipn (Z.to_nat (k + 1)) (bs_knots c)).
      { pose proof (rep_nknots _ _ _ _ _ Hr') as HL'. unfold zlen in HL'.
        apply (nth_ext _ _ 0 0).
        - rewrite !app_length, firstn_length, repeat_length, skipn_length. lia.
        - intros i Hi. rewrite <- knot_of_nat, HU' by lia. unfold insU.
          destruct (Z.leb_spec (Z.of_nat i) k) as [H1|H1].
          + rewrite app_nth1 by (rewrite firstn_length; lia).
            unfold U. rewrite knot_of_nat. rewrite nth_firstn_lt by lia. reflexivity.
          + rewrite app_nth2 by (rewrite firstn_length; lia). rewrite firstn_length, Nat.min_l by lia.
            destruct (Z.leb_spec (Z.of_nat i) (k + Z.of_nat r)) as [H2|H2].
            * rewrite app_nth1 by (rewrite repeat_length; lia).
              rewrite nth_indep with (d' := t) by (rewrite repeat_length; lia). now rewrite nth_repeat.
            * rewrite app_nth2 by (rewrite repeat_length; lia). rewrite repeat_length.
              unfold U, knot_of. rewrite nth_skipn_add. f_equal. lia. }
      rewrite E. apply Permutation_trans with (repeat t r ++ (firstn (Z.to_nat (k + 1)) (bs_knots c) ++ skipn (Z.to_nat (k + 1)) (bs_knots c))).
      * rewrite !app_assoc. apply Permutation_app_tail. apply Permutation_app_comm.
      * rewrite firstn_skipn. apply Permutation_refl.
    + unfold lower_of. rewrite <- knot_of_nat, Hdeg', HU' by lia. exact EL.
    + unfold upper_of. rewrite <- knot_of_nat, Hnp, HU' by lia. exact EU.
    + exact Hev.
    + pose proof (rep_nknots _ _ _ _ _ Hr') as HL'. unfold zlen in HL'.
      intros i j Hij Hlt. rewrite <- !knot_of_nat in Hlt |- *. rewrite !HU' in Hlt |- * by lia.
      rewrite <- btol_val. apply Hap'; (lia || exact Hlt).
    + unfold regular_start. rewrite Hdeg'. pose proof (rep_pn _ _ _ _ _ Hr') as Hpn'. pose proof (rep_p _ _ _ _ _ Hr') as Hp'.
      destruct Hst' as [H|[H1 H2]].
      * left. rewrite <- !knot_of_nat. rewrite !HU' by lia. replace (Z.of_nat (p + 1)) with (Z.of_nat p + 1)%Z by lia. exact H.
      * right. split; [lia|]. intros i Hi. rewrite <- !knot_of_nat. rewrite !HU' by lia.
        replace (Z.of_nat (i + p)) with (Z.of_nat i + Z.of_nat p)%Z by lia. apply H2. lia.
    + exact Hnev.
Qed.

Lemma bspline_insert d (c : bspline R (vec R d)) t (r : nat) :
  valid_bspline (bs_pts c) (bs_knots c) -> knots_apart (/ IZR (10 ^ 16)) (bs_knots c) ->
  regular_start (bs_pts c) (bs_knots c) ->
  lower_of (bs_pts c) (bs_knots c) <= t <= upper_of (bs_pts c) (bs_knots c) ->
  (forall u, In u (bs_knots c) -> u = t \/ / IZR (10 ^ 16) < Rabs (u - t)) ->
  (nth (bspline_degree (bs_pts c) (bs_knots c)) (bs_knots c) 0
     < nth (bspline_degree (bs_pts c) (bs_knots c) + 1) (bs_knots c) 0
   \/ lower_of (bs_pts c) (bs_knots c) < t) ->
  (1 <= r)%nat -> (r + count_occ Req_EM_T (bs_knots c) t <= bspline_degree (bs_pts c) (bs_knots c))%nat ->
  exists c', bs_insert_knot c t (Z.of_nat r) = Ok c' /\ bs_periodic c' = bs_periodic c /\
    valid_bspline (bs_pts c') (bs_knots c') /\
    bspline_degree (bs_pts c') (bs_knots c') = bspline_degree (bs_pts c) (bs_knots c) /\
    Permutation (bs_knots c') (repeat t r ++ bs_knots c) /\
    lower_of (bs_pts c') (bs_knots c') = lower_of (bs_pts c) (bs_knots c) /\
    upper_of (bs_pts c') (bs_knots c') = upper_of (bs_pts c) (bs_knots c) /\
    forall x, (bs_periodic c = true \/ lower_of (bs_pts c) (bs_knots c) <= x <= upper_of (bs_pts c) (bs_knots c)) ->
      bs_evaluate c' x = bs_evaluate c x.
Proof.
  intros Hv Ha Hs Ht Hta Hreg Hr1 Hr2.
  destruct (bspline_insert_full d c t r Hv Ha Hs Ht Hta Hreg Hr1 Hr2) as (c' & H1 & H2 & H3 & H4 & H5 & H6 & H7 & H8 & _).
  exists c'. repeat (split; [assumption|]). exact H8.
Qed.
