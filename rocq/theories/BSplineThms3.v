(** B-spline theorems, continued: affine maps, convex hull, periodicity, end points, hodograph. *)
From Coq Require Import Reals Lra Lia ZArith QArith List Permutation Bool.
From Verif Require Import Monad MonadFacts LoopFacts Scalar ScalarFacts Spec SpecFacts Polar ModelCurve CurveFacts ModelBezier
  BezierFacts BezierMath BezierThms BSplineMath ModelBSpline BSplineFacts BSplineThms BSplineThms2.
Import ListNotations.
Local Open Scope R_scope.

Definition nonperiodic {P} (c : bspline R P) : bspline R P := mk_bspline (bs_pts c) (bs_knots c).
Definition map_bspline {P P'} (f : P -> P') (c : bspline R P) : bspline R P' :=
  {| bs_pts := map f (bs_pts c); bs_knots := bs_knots c; bs_periodic := bs_periodic c |}.

(** ** Affine maps *)
Lemma bspline_affine d d' (f : vec R d -> vec R d') (c : bspline R (vec R d)) t :
  (forall x a b, f (padd (pmul (1 - x) a) (pmul x b)) = padd (pmul (1 - x) (f a)) (pmul x (f b))) ->
  valid_bspline (bs_pts c) (bs_knots c) ->
  exists q, bs_evaluate c t = Ok q /\
    bs_evaluate {| bs_pts := map f (bs_pts c); bs_knots := bs_knots c; bs_periodic := bs_periodic c |} t = Ok (f q).
Proof.
  intros Hf Hv. destruct (valid_rep c Hv) as [Hr Hk].
  destruct (bs_unwrap_total c _ _ _ _ t Hr Hk) as (u & Eu & _).
  destruct (locate_span_total c _ _ _ _ u Hr Hk) as (k & Ek & Hk2).
  eexists. split; [apply (bs_evaluate_gen _ _ _ _ _ _ _ _ Hr Eu Ek Hk2)|].
  fold (map_bspline f c).
  assert (Hr' : bsrep (map_bspline f c) (Z.of_nat (length (bs_pts c)))
     (Z.of_nat (bspline_degree (bs_pts c) (bs_knots c))) (knot_of (bs_knots c)) (fun i => f (pts_at (bs_pts c) i))).
  { destruct Hr as [[R1 R1'] R2 R3 R4]. split; auto. split; cbn [bs_pts map_bspline].
    - now rewrite zlen_map.
    - intros i Hi. rewrite get_map, R1' by assumption. reflexivity. }
  assert (Eu' : bs_unwrap (map_bspline f c) t = Ok u).
  { rewrite <- Eu. unfold bs_unwrap, bs_lower, bs_upper, bs_degree. simpl. now rewrite zlen_map. }
  assert (Ek' : locate_span (map_bspline f c) u = Ok k).
  { rewrite <- Ek. unfold locate_span, bs_degree. simpl. now rewrite zlen_map. }
  rewrite (bs_evaluate_gen _ _ _ _ _ _ _ _ Hr' Eu' Ek' Hk2).
  f_equal. unfold evalspan. symmetry. now apply tri_affmap.
Qed.

(** ** Convex hull of p+1 consecutive control points *)
Lemma nth_firstn_skipn {A} (l : list A) a m i d : (i < m)%nat -> (a + m <= length l)%nat ->
  nth i (firstn m (skipn a l)) d = nth (a + i) l d.
Proof.
  intros Hi Hl. rewrite <- (firstn_skipn a l) at 2. rewrite app_nth2 by (rewrite firstn_length; lia).
  rewrite firstn_length, Nat.min_l by lia. replace (a + i - a)%nat with i by lia.
  rewrite <- (firstn_skipn m (skipn a l)) at 2. rewrite app_nth1; [reflexivity|].
  rewrite firstn_length, skipn_length. lia.
Qed.

Lemma bspline_convex d (c : bspline R (vec R d)) t :
  valid_bspline (bs_pts c) (bs_knots c) -> knots_apart (/ IZR (10 ^ 16)) (bs_knots c) ->
  bs_periodic c = false ->
  lower_of (bs_pts c) (bs_knots c) <= t <= upper_of (bs_pts c) (bs_knots c) ->
  (regular_start (bs_pts c) (bs_knots c) \/ lower_of (bs_pts c) (bs_knots c) < t) ->
  let p := bspline_degree (bs_pts c) (bs_knots c) in
  exists (a : nat) q, (a + (p + 1) <= length (bs_pts c))%nat /\
    nth (a + p) (bs_knots c) 0 <= t <= nth (a + p + 1) (bs_knots c) 0 /\
    bs_evaluate c t = Ok q /\
    convex_comb (firstn (p + 1) (skipn a (bs_pts c))) q.
Proof.
  intros Hv Ha Hp Ht Hs p. destruct (valid_rep c Hv) as [Hr Hk]. fold p in Hr, Hk.
  unfold lower_of, upper_of in *. fold p in Ht, Hs. rewrite <- !knot_of_nat in Ht. rewrite <- !knot_of_nat in Hs.
  destruct (bs_eval_tri c _ _ _ _ t t Hr Hk (apart_rep c Hv Ha)) as (k & Hk1 & Hk2 & E).
  - destruct Hs as [Hs|Hs]; [left; now apply start_rep|right; exact Hs].
  - now apply bs_unwrap_off.
  - exact Ht.
  - destruct Hk as [Hm Hd].
    set (n := length (bs_pts c)) in *. set (U := knot_of (bs_knots c)) in *.
    exists (Z.to_nat k - p)%nat. eexists. split; [|split; [|split; [exact E|]]].
    + lia.
    + replace (Z.to_nat k - p + p)%nat with (Z.to_nat k) by lia.
      rewrite <- knot_of_nat, <- knot_of_nat1, Z2Nat.id by lia. fold U. apply in_span_bounds in Hk2. tauto.
    + rewrite Nat2Z.id.
      assert (HL : length (firstn (p + 1) (skipn (Z.to_nat k - p) (bs_pts c))) = S p).
      { rewrite firstn_length, skipn_length. lia. }
      exists (fun i => cox U (U (Z.of_nat n)) p (k - Z.of_nat p + Z.of_nat i) t). rewrite HL. split; [|split].
      * intros i Hi. apply (cox_nonneg U 0 (Z.of_nat n + Z.of_nat p) Hm (U (Z.of_nat n)) t k ltac:(lia) ltac:(lia) Hk2); lia.
      * apply (cox_partition U 0 (Z.of_nat n + Z.of_nat p) Hm (U (Z.of_nat n)) t k ltac:(lia) ltac:(lia) Hk2); lia.
      * apply vec_ext. intros i Hi. rewrite coord_tri, coord_psum by assumption.
        rewrite (tri_cox_span U 0 (Z.of_nat n + Z.of_nat p) Hm (U (Z.of_nat n)) t k ltac:(lia) ltac:(lia) Hk2) by lia.
        apply rsum_ext. intros j Hj. rewrite coord_mul by assumption. f_equal. f_equal.
        rewrite nth_firstn_skipn by lia. unfold pts_at. f_equal. lia.
Qed.

(** ** Periodicity *)
Lemma bspline_periodic_value d (c : bspline R (vec R d)) t :
  valid_bspline (bs_pts c) (bs_knots c) -> bs_periodic c = true ->
  let a := lower_of (bs_pts c) (bs_knots c) in
  let b := upper_of (bs_pts c) (bs_knots c) in
  exists (u : R) (k : Z), u = t - IZR k * (b - a) /\ a <= u < b /\
    bs_evaluate c t = bs_evaluate (mk_bspline (bs_pts c) (bs_knots c)) u /\
    bs_evaluate_derivative c t = bs_evaluate_derivative (mk_bspline (bs_pts c) (bs_knots c)) u /\
    bs_evaluate_2nd_derivative c t = bs_evaluate_2nd_derivative (mk_bspline (bs_pts c) (bs_knots c)) u.
Proof.
  intros Hv Hp a b. destruct (valid_rep c Hv) as [Hr Hk].
  destruct (bs_unwrap_total c _ _ _ _ t Hr Hk) as (u & Eu & _ & Hu).
  destruct (Hu Hp) as (H1 & k & H2). rewrite !knot_of_nat in H1, H2.
  exists u, k. split; [exact H2|]. split; [exact H1|].
  pose proof (bs_unwrap_off (mk_bspline (bs_pts c) (bs_knots c)) u eq_refl) as Eu'.
  unfold bs_evaluate, bs_evaluate_derivative, bs_evaluate_2nd_derivative. rewrite Eu, Eu'.
  destruct c as [pts knots per]. repeat split.
Qed.

Lemma bspline_periodic_shift d (c : bspline R (vec R d)) t (m : Z) :
  valid_bspline (bs_pts c) (bs_knots c) -> bs_periodic c = true ->
  let a := lower_of (bs_pts c) (bs_knots c) in
  let b := upper_of (bs_pts c) (bs_knots c) in
  bs_evaluate c (t + IZR m * (b - a)) = bs_evaluate c t /\
  bs_evaluate_derivative c (t + IZR m * (b - a)) = bs_evaluate_derivative c t /\
  bs_evaluate_2nd_derivative c (t + IZR m * (b - a)) = bs_evaluate_2nd_derivative c t.
Proof.
  intros Hv Hp a b.
  destruct (bspline_periodic_value d c t Hv Hp) as (u & k & Hu & Hr & E1 & E2 & E3).
  destruct (bspline_periodic_value d c (t + IZR m * (b - a)) Hv Hp) as (u' & k' & Hu' & Hr' & E1' & E2' & E3').
  fold a b in Hu, Hu', Hr, Hr'.
  assert (Euu : u' = u).
  { apply (wrap_unique a b u' u (m + k - k')); [lra|exact Hr'|exact Hr|].
    rewrite minus_IZR, plus_IZR. rewrite Hu', Hu. ring. }
  rewrite Euu in *. rewrite E1, E2, E3, E1', E2', E3'. repeat split; reflexivity.
Qed.

(** ** End points *)
Lemma bspline_clamped_start d (c : bspline R (vec R d)) :
  valid_bspline (bs_pts c) (bs_knots c) -> bs_periodic c = false ->
  (forall i, (1 <= i <= bspline_degree (bs_pts c) (bs_knots c))%nat ->
     nth i (bs_knots c) 0 = lower_of (bs_pts c) (bs_knots c)) ->
  bs_evaluate c (lower_of (bs_pts c) (bs_knots c)) = Ok (hd p0 (bs_pts c)).
Proof.
  intros Hv Hp Hc. destruct (valid_rep c Hv) as [Hr Hk].
  assert (EL : lower_of (bs_pts c) (bs_knots c) = knot_of (bs_knots c) (Z.of_nat (bspline_degree (bs_pts c) (bs_knots c)))).
  { unfold lower_of. now rewrite knot_of_nat. }
  rewrite EL in *. set (U := knot_of (bs_knots c)) in *. set (p := bspline_degree (bs_pts c) (bs_knots c)) in *.
  pose proof (rep_pn _ _ _ _ _ Hr).
  rewrite (bs_evaluate_gen _ _ _ _ _ _ _ (Z.of_nat p) Hr (bs_unwrap_off c _ Hp)); [|apply (locate_span_low _ _ _ _ _ _ Hr); lra|lia].
  f_equal. unfold evalspan. rewrite Nat2Z.id. rewrite <- (app_nil_r (repeat _ p)).
  rewrite tri_walk_left.
  - cbn [tri]. rewrite Z.sub_diag. unfold pts_at. simpl. destruct (bs_pts c); reflexivity.
  - intros r i Hi. assert (EU : U i = U (Z.of_nat p)).
    { rewrite <- (Hc (Z.to_nat i)) by lia. unfold U. rewrite <- knot_of_nat. f_equal. lia. }
    unfold algd. rewrite EU. destruct (Rltb _ _); [|reflexivity]. unfold Rdiv. ring.
Qed.

Lemma nth_last_pt {A} (l : list A) d : nth (length l - 1) l d = last l d.
Proof.
  induction l as [|a [|b l] IH]; [reflexivity|reflexivity|].
  change (last (a :: b :: l) d) with (last (b :: l) d). rewrite <- IH. simpl. now rewrite Nat.sub_0_r.
Qed.

Lemma bspline_clamped_end d (c : bspline R (vec R d)) :
  valid_bspline (bs_pts c) (bs_knots c) -> knots_apart (/ IZR (10 ^ 16)) (bs_knots c) -> bs_periodic c = false ->
  let n := length (bs_pts c) in
  nth (n - 1) (bs_knots c) 0 < nth n (bs_knots c) 0 ->
  (forall i, (n <= i < n + bspline_degree (bs_pts c) (bs_knots c))%nat ->
     nth i (bs_knots c) 0 = upper_of (bs_pts c) (bs_knots c)) ->
  bs_evaluate c (upper_of (bs_pts c) (bs_knots c)) = Ok (last (bs_pts c) p0).
Proof.
  intros Hv Ha Hp n Hlt Hc. destruct (valid_rep c Hv) as [Hr Hk]. fold n in Hr, Hk.
  assert (EU : upper_of (bs_pts c) (bs_knots c) = knot_of (bs_knots c) (Z.of_nat n)).
  { unfold upper_of. now rewrite knot_of_nat. }
  rewrite EU in *. set (U := knot_of (bs_knots c)) in *. set (p := bspline_degree (bs_pts c) (bs_knots c)) in *.
  pose proof (rep_pn _ _ _ _ _ Hr).
  destruct (bs_eval_tri c _ _ _ _ (U (Z.of_nat n)) (U (Z.of_nat n)) Hr Hk (apart_rep c Hv Ha)) as (k & Hk1 & Hk2 & E).
  - right. apply Hk.
  - now apply bs_unwrap_off.
  - destruct Hk. lra.
  - rewrite E. f_equal. rewrite Nat2Z.id.
    assert (EK : k = (Z.of_nat n - 1)%Z).
    { destruct Hk as [Hm Hd]. apply (in_span_unique U (U (Z.of_nat n)) 0 (Z.of_nat n + Z.of_nat p) k _ (U (Z.of_nat n)) Hm); try lia; auto.
      right. split; [reflexivity|]. replace (Z.of_nat n - 1 + 1)%Z with (Z.of_nat n) by lia.
      replace (Z.of_nat n - 1)%Z with (Z.of_nat (n - 1)) by lia.
      unfold U. rewrite !knot_of_nat. lra. }
    subst k. rewrite <- (app_nil_r (repeat _ p)). rewrite tri_stay.
    + cbn [tri]. unfold pts_at. replace (Z.to_nat (Z.of_nat n - 1)) with (n - 1)%nat by lia.
      apply nth_last_pt.
    + intros r Hrr. cbn [length] in Hrr. unfold alU.
      replace (Z.of_nat n - 1 + Z.of_nat p + 1 - Z.of_nat r)%Z with (Z.of_nat (n + p - r)) by lia.
      assert (EUr : U (Z.of_nat (n + p - r)) = U (Z.of_nat n)).
      { unfold U at 1. rewrite knot_of_nat. apply Hc. lia. }
      rewrite EUr. unfold U. replace (Z.of_nat n - 1)%Z with (Z.of_nat (n - 1)) by lia. rewrite !knot_of_nat.
      field. lra.
Qed.

(** ** Hodograph *)

Section Hodo.
  Context {P : Type} {V : PointOps R P} {L : PointLaws P}.

  Definition loc (U : Z -> R) (n p : Z) (u : R) (k : Z) : Prop :=
    (u <= U p /\ k = p) \/ (U p < u < U n /\ (p <= k < n)%Z /\ U k <= u < U (k + 1)%Z) \/
    (U p < u /\ U n <= u /\ (p <= k < n)%Z /\ U k < U (k + 1)%Z /\ U (k + 1)%Z = U n).

  Lemma locate_span_loc c n p U (cp : Z -> P) u : bsrep c n p U cp -> kval n p U ->
    exists k, locate_span c u = Ok k /\ (p <= k < n)%Z /\ loc U n p u k.
  Proof.
    intros H [Hm Hd]. pose proof (rep_p _ _ _ _ _ H). pose proof (rep_pn _ _ _ _ _ H).
    destruct (Rle_dec u (U p)) as [Hc1|Hc1].
    - exists p. split; [apply (locate_span_low _ _ _ _ _ _ H Hc1)|]. split; [lia|left; auto].
    - destruct (Rlt_dec u (U n)) as [Hc2|Hc2].
      + destruct (locate_span_mid _ _ _ _ _ u H ltac:(lra)) as (k & E & Hk & Hk2). exists k.
        split; [exact E|]. split; [lia|]. right; left. split; [lra|]. split; [lia|lra].
      + destruct (locate_span_high _ _ _ _ _ u H Hd Hm ltac:(lra)) as (k & E & Hk & Hk2). exists k.
        split; [exact E|]. split; [lia|]. right; right. repeat split; (lra || lia).
  Qed.

  Lemma loc_unique U n p u k k' : mono U 0 (n + p) -> (0 <= p < n)%Z -> loc U n p u k -> loc U n p u k' -> k = k'.
  Proof.
    intros Hm Hp H H'. destruct H as [[H1 ->]|[(H1 & H2 & H3)|(H1 & H2 & H3 & H4 & H5)]];
      destruct H' as [[H1' ->]|[(H1' & H2' & H3')|(H1' & H2' & H3' & H4' & H5')]]; try lra; [reflexivity| |].
    - apply (in_span_unique U (U n) 0 (n + p) k k' u Hm); try lia; left; lra.
    - apply (in_span_unique U (U n) 0 (n + p) k k' (U n) Hm); try lia; right; lra.
  Qed.

  Lemma tri_shift al al' (c c' : Z -> P) xs j (s : Z) :
    (forall r i x, al' r (i - s)%Z x = al r i x) -> (forall i, c' (i - s)%Z = c i) ->
    tri al' c' xs (j - s) = tri al c xs j.
  Proof.
    intros Ha Hc. revert j; induction xs as [|x xs IH]; intros j; [apply Hc|].
    cbn [tri]. rewrite Ha. replace (j - s - 1)%Z with ((j - 1) - s)%Z by lia. now rewrite !IH.
  Qed.

  Lemma bs_hodograph_correct c n p U (cp : Z -> P) : bsrep c n p U cp -> kval n p U ->
    exists h, bs_hodograph c = Ok h /\ (bs_periodic c = false -> bs_periodic h = false) /\
      (p = 0%Z -> bsrep h n 0 U (fun _ => p0) /\ bs_periodic h = false) /\
      ((0 < p)%Z -> bsrep h (n - 1) (p - 1) (fun i => U (i + 1)%Z) (fun i => dcoef U p cp (i + 1))).
  Proof.
    intros H Hk. pose proof (rep_p _ _ _ _ _ H) as Hp. pose proof (rep_pn _ _ _ _ _ H) as Hpn.
    unfold bs_hodograph. rewrite (rep_degree _ _ _ _ _ H), (rep_npts _ _ _ _ _ H).
    destruct (Z.eqb_spec p 0) as [E0|E0].
    - destruct (arr_alloc (p0 : P) n) as (l & El & Hl); [lia|]. rewrite El, bind_Ok.
      eexists. split; [reflexivity|]. split; [reflexivity|]. split; [|lia]. intros _. split; [|reflexivity].
      subst p. split; [exact Hl|exact (rep_knots _ _ _ _ _ H)|lia|lia].
    - rewrite (rep_nknots _ _ _ _ _ H).
      destruct (arr_block _ _ _ 1 (n + p + 1 - 2) (rep_knots _ _ _ _ _ H)) as (kn & Ekn & Hkn); [lia|lia|lia|].
      rewrite Ekn, bind_Ok.
      destruct (arr_alloc (p0 : P) (n - 1)) as (l & El & Hl); [lia|]. rewrite El, bind_Ok.
      match goal with |- context [for_up 0 (n - 1) ?B l] =>
        destruct (for_up_fill0 (n - 1) B l (fun _ => p0) (fun i => dcoef U p cp (i + 1)) Hl) as (o & Eo & Ho) end.
      { intros i s Hi _.
        rewrite (rep_get _ _ _ _ _ (i + p + 1) H), bind_Ok by lia.
        rewrite (rep_get _ _ _ _ _ (i + 1) H), bind_Ok by lia.
        unfold dcoef. replace (i + 1 + p)%Z with (i + p + 1)%Z by lia. replace (i + 1 - 1)%Z with i by lia.
        simpl ssub. simpl slt. cbn [s0 R_ops].
        destruct (Rltb_spec 0 (U (i + p + 1)%Z - U (i + 1)%Z)) as [Hlt|Hlt].
        - rewrite (arr_get _ _ _ (i + 1) (rep_pts _ _ _ _ _ H)), bind_Ok by lia.
          rewrite (arr_get _ _ _ i (rep_pts _ _ _ _ _ H)), bind_Ok by lia.
          unfold pdivs. simpl seq_. cbn [s0 s1 R_ops]. rewrite Reqb_false by lra. rewrite bind_Ok.
          f_equal. simpl sdiv. simpl sofZ. rewrite pl_mulA. f_equal. unfold Rdiv. ring.
        - f_equal. now rewrite pl_mul0. }
      rewrite Eo, bind_Ok.
      assert (Ec : exists b, (if bs_periodic c then
           bind (bs_lower c) (fun lo => bind (bs_upper c) (fun up => is_closed (bs_ops c lo up) 1 seps)) else Ok false) = Ok b).
      { destruct (bs_periodic c) eqn:Ep; [|eexists; reflexivity].
        rewrite (rep_lower _ _ _ _ _ H), bind_Ok, (rep_upper _ _ _ _ _ H), bind_Ok.
        assert (HE : forall t, (exists a, bs_evaluate c t = Ok a) /\ exists a, bs_evaluate_derivative c t = Ok a).
        { intros t. destruct (bs_unwrap_total c _ _ _ _ t H Hk) as (u & Eu & _).
          destruct (locate_span_total c _ _ _ _ u H Hk) as (k & Ek & Hk2).
          split; eexists; [apply (bs_evaluate_gen _ _ _ _ _ _ _ _ H Eu Ek Hk2)|apply (bs_evaluate_derivative_gen _ _ _ _ _ _ _ _ H Eu Ek Hk2)]. }
        destruct (HE (U p)) as ((a & Ea) & (da & Eda)). destruct (HE (U n)) as ((b & Eb) & (db & Edb)).
        exact (is_closed_Ok (bs_ops c (U p) (U n)) _ _ _ _ seps Ea Eb Eda Edb). }
      destruct Ec as (b & Ec). rewrite Ec, bind_Ok. eexists. split; [reflexivity|]. cbn [bs_pts bs_periodic].
      split; [intros ->; reflexivity|]. split; [lia|]. intros _.
      split; [exact Ho| |lia|lia]. cbn [bs_knots].
      replace (n - 1 + (p - 1) + 1)%Z with (n + p + 1 - 2)%Z by lia.
      eapply arr_ext; [exact Hkn|]. intros i Hi. cbv beta. f_equal. lia.
  Qed.

  Lemma bs_hodograph_eval (c : bspline R P) n p U cp t : bsrep c n p U cp -> kval n p U ->
    (bs_periodic c = false \/ U p <= t < U n) ->
    exists h, bs_hodograph c = Ok h /\ bs_evaluate h t = bs_evaluate_derivative c t.
  Proof.
    intros H Hk Ht. pose proof (rep_p _ _ _ _ _ H) as Hp. pose proof (rep_pn _ _ _ _ _ H) as Hpn.
    destruct (bs_hodograph_correct c n p U cp H Hk) as (h & Eh & Hper & Hh0 & Hh1).
    exists h. split; [exact Eh|].
    assert (Eu : bs_unwrap c t = Ok t).
    { destruct (bs_periodic c) eqn:Ep; [|now apply bs_unwrap_off].
      destruct Ht as [Ht|Ht]; [discriminate|]. unfold bs_unwrap. rewrite Ep, (rep_lower _ _ _ _ _ H), bind_Ok, (rep_upper _ _ _ _ _ H), bind_Ok.
      now apply unwrap_in. }
    destruct (locate_span_loc c n p U cp t H Hk) as (k & Ek & Hk2 & Hloc).
    rewrite (bs_evaluate_derivative_gen _ _ _ _ _ _ _ _ H Eu Ek Hk2).
    destruct (Z.eqb_spec p 0) as [E0|E0].
    - destruct (Hh0 E0) as (Hr' & Hpf).
      destruct Hk as [Hm Hd]. subst p.
      destruct (locate_span_loc h n 0 U _ t Hr' (Build_kval _ _ _ Hm Hd)) as (k' & Ek' & Hk2' & _).
      rewrite (bs_evaluate_gen _ _ _ _ _ _ _ _ Hr' (bs_unwrap_off h t Hpf) Ek' Hk2'). reflexivity.
    - assert (Hr' := Hh1 ltac:(lia)). destruct Hk as [Hm Hd].
      assert (Hk' : kval (n - 1) (p - 1) (fun i => U (i + 1)%Z)).
      { split.
        - unfold mono in *; intros; apply Hm; lia.
        - cbv beta. replace (p - 1 + 1)%Z with p by lia. replace (n - 1 + 1)%Z with n by lia. exact Hd. }
      assert (Eu' : bs_unwrap h t = Ok t).
      { destruct (bs_periodic h) eqn:Ep; [|now apply bs_unwrap_off].
        destruct Ht as [Ht|Ht]; [specialize (Hper Ht); congruence|].
        unfold bs_unwrap. rewrite Ep, (rep_lower _ _ _ _ _ Hr'), bind_Ok, (rep_upper _ _ _ _ _ Hr'), bind_Ok.
        replace (p - 1 + 1)%Z with p by lia. replace (n - 1 + 1)%Z with n by lia. now apply unwrap_in. }
      destruct (locate_span_loc h _ _ _ _ t Hr' Hk') as (k' & Ek' & Hk2' & Hloc').
      assert (k' = (k - 1)%Z).
      { enough (k' + 1 = k)%Z by lia. apply (loc_unique U n p t); [exact Hm|lia| |exact Hloc].
        unfold loc in *. replace (p - 1 + 1)%Z with p in Hloc' by lia. replace (n - 1 + 1)%Z with n in Hloc' by lia.
        destruct Hloc' as [[H1 H2]|[(H1 & H2 & H3)|(H1 & H2 & H3 & H4)]].
        - left. split; [exact H1|lia].
        - right; left. split; [exact H1|]. split; [lia|exact H3].
        - right; right. split; [exact H1|]. split; [exact H2|]. split; [lia|exact H4]. }
      subst k'.
      rewrite (bs_evaluate_gen _ _ _ _ _ _ _ _ Hr' Eu' Ek' Hk2'). f_equal. unfold evalspan.
      apply tri_shift.
      + intros r i x. unfold algd. replace (i - 1 + 1)%Z with i by lia.
        replace (i - 1 + Z.of_nat (Z.to_nat (p - 1)) + 1 - Z.of_nat r + 1)%Z with (i + Z.of_nat (Z.to_nat (p - 1)) + 1 - Z.of_nat r)%Z by lia.
        reflexivity.
      + intros i. f_equal. lia.
  Qed.
End Hodo.

Lemma bspline_hodograph d (c : bspline R (vec R d)) : valid_bspline (bs_pts c) (bs_knots c) ->
  exists h, bs_hodograph c = Ok h /\
    forall t, (bs_periodic c = false \/ lower_of (bs_pts c) (bs_knots c) <= t < upper_of (bs_pts c) (bs_knots c)) ->
      bs_evaluate h t = bs_evaluate_derivative c t.
Proof.
  intros Hv. destruct (valid_rep c Hv) as [Hr Hk].
  destruct (bs_hodograph_correct c _ _ _ _ Hr Hk) as (h & Eh & _). exists h. split; [exact Eh|].
  intros t Ht. destruct (bs_hodograph_eval c _ _ _ _ t Hr Hk) as (h' & Eh' & E).
  - unfold lower_of, upper_of in Ht. rewrite !knot_of_nat. exact Ht.
  - rewrite Eh in Eh'. inversion Eh'; subst. exact E.
Qed.
