(** Knot removal: the ends of the domain, zero tolerance. *)
From Coq Require Import Reals Lra Lia ZArith List Permutation Bool.
From Verif Require Import Monad MonadFacts LoopFacts Scalar ScalarFacts Spec SpecFacts SpecGeom Polar ModelCurve CurveFacts ModelBezier
  BezierFacts BezierMath BezierThms BSplineMath ModelBSpline BSplineFacts BSplineThms BSplineThms2 BSplineThms3 BSplineInsert
  BSplineInsert2 BSplineInsert3 BSplineSplit BSplineConvert CurveThms RationalThms PrimitiveFacts EdistFacts BSplineRemove BSplineRemove2
  BSplineRemove3 BSplineRemove4 BSplineRemove5.
Import ListNotations.
Local Open Scope R_scope.

(** At the two ends of the domain nothing is ever removed. *)
Lemma rem_ends d (c : bspline R (vec R d)) n p U cp t N tol : bsrep c n p U cp -> kval n p U -> (1 <= N)%Z ->
  t = U p \/ t = U n -> bs_remove_knot c t N tol = Ok (c, 0%Z).
Proof.
  intros Hr [Hm Hd] HN Ht. pose proof (rep_p _ _ _ _ _ Hr) as Hp. pose proof (rep_pn _ _ _ _ _ Hr) as Hpn.
  unfold bs_remove_knot. destruct (Z.leb_spec 1 N); [|lia]. cbn [assert_]. rewrite bind_Ok.
  unfold bs_in_domain. rewrite (rep_degree _ _ _ _ _ Hr), (rep_nknots _ _ _ _ _ Hr), (rep_npts _ _ _ _ _ Hr).
  rewrite (rep_get _ _ _ _ _ p Hr), bind_Ok by lia.
  replace (n + p + 1 - p - 1)%Z with n by lia.
  rewrite (rep_get _ _ _ _ _ n Hr), !bind_Ok by lia.
  assert (Hb : (sle (ssub (U p) seps) t && sle t (sadd (U n) seps))%bool = true).
  { pose proof seps_pos as He. generalize dependent (seps : R). intros e He. simpl. destruct Ht as [->| ->]; rewrite !Rleb_true by lra; reflexivity. }
  rewrite Hb. cbn [assert_]. rewrite bind_Ok. clear Hb.
  rewrite (rep_validate _ _ _ _ _ Hr), bind_Ok.
  destruct Ht as [Ht|Ht].
  - rewrite (locate_span_low c _ _ _ _ t Hr) by lra. rewrite bind_Ok. rewrite (rep_get _ _ _ _ _ p Hr), bind_Ok by lia.
    destruct (get_multiplicity_correct c n p U cp p Hr ltac:(lia)) as (a & b & Em & _).
    replace (seq_ t (U p)) with true by (subst t; simpl; destruct (Reqb_spec (U p) (U p)); congruence).
    rewrite Em, bind_Ok. destruct (Z.eqb_spec (b - a + 1) 0); [reflexivity|].
    destruct (Z.leb_spec p p); [|lia]. reflexivity.
  - destruct (locate_span_high c _ _ _ _ t Hr Hd Hm ltac:(lra)) as (k & -> & Hk & Hlt & Ek). rewrite bind_Ok.
    rewrite (rep_get _ _ _ _ _ k Hr), bind_Ok by lia.
    replace (seq_ t (U k)) with false by (subst t; simpl; destruct (Reqb_spec (U n) (U k)); [lra|reflexivity]).
    rewrite bind_Ok. reflexivity.
Qed.

Lemma bspline_remove_ends d (c : bspline R (vec R d)) t (N : nat) tol :
  valid_bspline (bs_pts c) (bs_knots c) -> (1 <= N)%nat ->
  (t = lower_of (bs_pts c) (bs_knots c) \/ t = upper_of (bs_pts c) (bs_knots c)) ->
  bs_remove_knot c t (Z.of_nat N) tol = Ok (c, 0%Z).
Proof.
  intros Hv HN Ht. destruct (valid_rep c Hv) as [Hr Hk]. apply (rem_ends d c _ _ _ _ t _ tol Hr Hk); [lia|].
  destruct Ht as [->| ->]; [left; unfold lower_of|right; unfold upper_of]; now rewrite knot_of_nat.
Qed.

Lemma bspline_remove_exact d (c c' : bspline R (vec R d)) t (N : nat) r :
  valid_bspline (bs_pts c) (bs_knots c) -> knots_apart (/ IZR (10 ^ 16)) (bs_knots c) ->
  regular_start (bs_pts c) (bs_knots c) ->
  lower_of (bs_pts c) (bs_knots c) <= t <= upper_of (bs_pts c) (bs_knots c) ->
  (1 <= N <= count_occ Req_EM_T (bs_knots c) t)%nat ->
  (count_occ Req_EM_T (bs_knots c) t <= bspline_degree (bs_pts c) (bs_knots c))%nat ->
  bs_remove_knot c t (Z.of_nat N) 0 = Ok (c', r) ->
  (0 <= r <= Z.of_nat N)%Z /\ Permutation (bs_knots c) (repeat t (Z.to_nat r) ++ bs_knots c') /\
  ((1 <= r)%Z -> bs_insert_knot c' t r = Ok c) /\
  forall x, (bs_periodic c = true \/ lower_of (bs_pts c) (bs_knots c) <= x <= upper_of (bs_pts c) (bs_knots c)) ->
    bs_evaluate c' x = bs_evaluate c x.
Proof.
  intros Hv Ha Hs Ht HN Hcp E.
  destruct (Req_dec t (lower_of (bs_pts c) (bs_knots c))) as [El|Hl].
  { rewrite (bspline_remove_ends d c t N 0 Hv ltac:(lia) (or_introl El)) in E. injection E as <- <-.
    split; [lia|]. split; [apply Permutation_refl|]. split; [lia|reflexivity]. }
  destruct (Req_dec t (upper_of (bs_pts c) (bs_knots c))) as [Eu|Hu].
  { rewrite (bspline_remove_ends d c t N 0 Hv ltac:(lia) (or_intror Eu)) in E. injection E as <- <-.
    split; [lia|]. split; [apply Permutation_refl|]. split; [lia|reflexivity]. }
  destruct (bspline_remove d c t N 0 Hv Ha Hs ltac:(lra) HN Hcp ltac:(lra))
    as (c1 & count & E1 & Hc & Hper & Hv' & Hdeg & HP & EL & EU & _ & _ & Hins & Hev & _).
  rewrite E1 in E. injection E as <- <-. rewrite Nat2Z.id. split; [lia|]. split; [exact HP|]. split.
  - intros H. destruct (Hins ltac:(lia)) as (c'' & Ei & Ek & Eper & HF). rewrite Ei. f_equal.
    assert (Epts : bs_pts c'' = bs_pts c).
    { clear -HF. induction HF as [|a b l l' Hab _ IH]; [reflexivity|]. rewrite IH. f_equal. symmetry. apply edist_eq0. lra. }
    destruct c as [a b e], c'' as [a' b' e']. cbn in *. congruence.
  - intros x Hx. destruct (Hev x Hx) as (v & v' & -> & -> & Hd). f_equal. symmetry. apply edist_eq0. lra.
Qed.

(** Copies inserted at an end of the domain are not removed again. *)
Lemma bspline_undo_ends d (c : bspline R (vec R d)) t (m : nat) :
  valid_bspline (bs_pts c) (bs_knots c) -> knots_apart (/ IZR (10 ^ 16)) (bs_knots c) ->
  regular_start (bs_pts c) (bs_knots c) ->
  (t = upper_of (bs_pts c) (bs_knots c) \/
   (t = lower_of (bs_pts c) (bs_knots c) /\
    nth (bspline_degree (bs_pts c) (bs_knots c)) (bs_knots c) 0 < nth (bspline_degree (bs_pts c) (bs_knots c) + 1) (bs_knots c) 0)) ->
  (1 <= m)%nat -> (m + count_occ Req_EM_T (bs_knots c) t <= bspline_degree (bs_pts c) (bs_knots c))%nat ->
  exists c1, bs_insert_knot c t (Z.of_nat m) = Ok c1 /\ length (bs_knots c1) = (m + length (bs_knots c))%nat /\
    forall (N : nat) tol, (1 <= N)%nat -> bs_remove_knot c1 t (Z.of_nat N) tol = Ok (c1, 0%Z).
Proof.
  intros Hv Ha Hs Ht Hm Hc. pose proof (vb_domain _ _ Hv) as Hd. cbv zeta in Hd.
  assert (Hd' : lower_of (bs_pts c) (bs_knots c) < upper_of (bs_pts c) (bs_knots c)) by exact Hd.
  destruct (bspline_insert_full d c t m Hv Ha Hs) as (c1 & E & _ & Hv1 & Hdeg & HP & EL & EU & _); try assumption.
  - destruct Ht as [->|[-> _]]; lra.
  - intros u Hu. assert (In t (bs_knots c)).
    { pose proof (vb_pts _ _ Hv). pose proof (vb_len _ _ Hv). destruct Ht as [->|[-> _]]; [unfold upper_of|unfold lower_of]; apply nth_In; unfold bspline_degree in *; lia. }
    apply (In_nth _ _ 0) in Hu. apply (In_nth _ _ 0) in H. destruct Hu as (i & Hi & <-), H as (j & Hj & <-).
    pose proof (apart_rep c Hv Ha) as Hap. rewrite <- !knot_of_nat. rewrite <- btol_val.
    destruct (valid_rep c Hv) as [Hr _]. pose proof (rep_nknots _ _ _ _ _ Hr) as HL. unfold zlen in HL.
    destruct (Rtotal_order (knot_of (bs_knots c) (Z.of_nat i)) (knot_of (bs_knots c) (Z.of_nat j))) as [Hlt|[Heq|Hgt]]; [right|now left|right].
    + pose proof (Hap (Z.of_nat i) (Z.of_nat j) ltac:(lia) ltac:(lia) Hlt). rewrite Rabs_left by lra. lra.
    + pose proof (Hap (Z.of_nat j) (Z.of_nat i) ltac:(lia) ltac:(lia) ltac:(lra)). rewrite Rabs_right by lra. lra.
  - destruct Ht as [->|[-> H]]; [right; exact Hd'|left; exact H].
  - exists c1. split; [exact E|]. split.
    + rewrite (Permutation_length HP), app_length, repeat_length. reflexivity.
    + intros N tol HN. apply bspline_remove_ends; [exact Hv1|exact HN|]. rewrite EL, EU. tauto.
Qed.
