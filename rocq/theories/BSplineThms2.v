(** B-spline theorems in the form of the properties: location, evaluation, local control, derivatives,
    end points, affine maps, convex hull, periodicity, hodograph. *)
From Coq Require Import Reals Lra Lia ZArith QArith List Permutation Bool.
From Verif Require Import Monad MonadFacts Scalar ScalarFacts Spec SpecFacts Polar ModelCurve CurveFacts ModelBezier
  BezierFacts BezierMath BezierThms BSplineMath ModelBSpline BSplineFacts BSplineThms.
Import ListNotations.
Local Open Scope R_scope.


Lemma knot_of_nat knots k : knot_of knots (Z.of_nat k) = nth k knots 0.
Proof. unfold knot_of. now rewrite Nat2Z.id. Qed.
Lemma knot_of_nat1 knots k : knot_of knots (Z.of_nat k + 1) = nth (k + 1) knots 0.
Proof. unfold knot_of. f_equal. lia. Qed.

Section Generic.
  Context {P : Type} {V : PointOps R P} {L : PointLaws P}.

  (** locate_span always succeeds and stays in range. *)
  Lemma locate_span_total c n p U (cp : Z -> P) t :
    bsrep c n p U cp -> kval n p U -> exists k, locate_span c t = Ok k /\ (p <= k < n)%Z.
  Proof.
    intros H [Hm Hd]. pose proof (rep_p _ _ _ _ _ H). pose proof (rep_pn _ _ _ _ _ H).
    destruct (Rle_dec t (U p)) as [Hc1|Hc1].
    - exists p. split; [apply (locate_span_low _ _ _ _ _ _ H Hc1)|lia].
    - destruct (Rlt_dec t (U n)) as [Hc2|Hc2].
      + destruct (locate_span_mid _ _ _ _ _ t H ltac:(lra)) as (k & E & Hk & _). eauto.
      + destruct (locate_span_high _ _ _ _ _ t H Hd Hm ltac:(lra)) as (k & E & Hk & _). eauto.
  Qed.

  Lemma bspline_locate (c : bspline R P) t : valid_bspline (bs_pts c) (bs_knots c) ->
    let p := bspline_degree (bs_pts c) (bs_knots c) in
    let n := length (bs_pts c) in
    let knot i := nth i (bs_knots c) 0 in
    exists k, locate_span c t = Ok (Z.of_nat k) /\ (p <= k < n)%nat /\
      (t < knot p -> k = p) /\
      (knot p < knot (p + 1)%nat \/ knot p < t -> knot p <= t ->
         knot k < knot (k + 1)%nat /\ (t <= knot n -> knot k <= t <= knot (k + 1)%nat) /\
         (t = knot (k + 1)%nat -> t = knot n) /\ (knot n <= t -> knot (k + 1)%nat = knot n)).
  Proof.
    intros Hv p n knot. destruct (valid_rep c Hv) as [Hr [Hm Hd]]. fold n p in Hr, Hm, Hd.
    set (U := knot_of (bs_knots c)) in *.
    assert (Hp := rep_pn _ _ _ _ _ Hr).
    destruct (Rle_dec t (knot p)) as [Hc1|Hc1].
    - exists p. split; [apply (locate_span_low _ _ _ _ _ _ Hr); unfold U; rewrite knot_of_nat; exact Hc1|].
      split; [lia|]. split; [reflexivity|]. intros Hs Hge.
      assert (t = knot p) by lra. subst t. destruct Hs as [Hs|Hs]; [|lra].
      split; [exact Hs|]. split; [lra|]. split; [lra|].
      intros Hn. exfalso. unfold U in Hd. rewrite !knot_of_nat in Hd. unfold knot in *. lra.
    - destruct (Rlt_dec t (knot n)) as [Hc2|Hc2].
      + destruct (locate_span_mid _ _ _ _ _ t Hr) as (k & E & Hk & Hkt).
        { unfold U; rewrite !knot_of_nat. unfold knot in *. lra. }
        exists (Z.to_nat k). rewrite Z2Nat.id by lia. split; [exact E|]. split; [lia|]. split; [lra|].
        intros _ _. unfold U in Hkt. rewrite <- (Z2Nat.id k) in Hkt by lia. rewrite knot_of_nat, knot_of_nat1 in Hkt.
        unfold knot in *. repeat split; intros; lra.
      + destruct (locate_span_high _ _ _ _ _ t Hr Hd Hm) as (k & E & Hk & Hkt).
        { unfold U; rewrite !knot_of_nat. unfold knot in *. lra. }
        exists (Z.to_nat k). rewrite Z2Nat.id by lia. split; [exact E|]. split; [lia|]. split; [lra|].
        intros _ _. unfold U in Hkt. rewrite <- (Z2Nat.id k) in Hkt by lia.
        rewrite !knot_of_nat, knot_of_nat1 in Hkt.
        unfold knot in *. repeat split; intros; lra.
  Qed.
End Generic.

(** ** Evaluation *)
Lemma bspline_eval {d} (c : bspline R (vec R d)) t :
  valid_bspline (bs_pts c) (bs_knots c) -> knots_apart (/ IZR (10 ^ 16)) (bs_knots c) ->
  bs_periodic c = false ->
  lower_of (bs_pts c) (bs_knots c) <= t <= upper_of (bs_pts c) (bs_knots c) ->
  (regular_start (bs_pts c) (bs_knots c) \/ lower_of (bs_pts c) (bs_knots c) < t) ->
  bs_evaluate c t = Ok (bspline_curve (bs_pts c) (bs_knots c) t).
Proof.
  intros Hv Ha Hp Ht Hs. destruct (valid_rep c Hv) as [Hr Hk].
  unfold lower_of, upper_of in *. rewrite <- !knot_of_nat in *.
  destruct (bs_eval_tri c _ _ _ _ t t Hr Hk (apart_rep c Hv Ha)) as (k & Hk1 & Hk2 & E).
  - destruct Hs as [Hs|Hs]; [left; now apply start_rep|right; exact Hs].
  - now apply bs_unwrap_off.
  - exact Ht.
  - rewrite E. f_equal. rewrite Nat2Z.id. apply tri_bspline_curve; assumption.
Qed.

(** ** Local control *)
Lemma bs_unwrap_total {P} {V : PointOps R P} (c : bspline R P) n p U cp t :
  bsrep c n p U cp -> kval n p U ->
  exists u, bs_unwrap c t = Ok u /\ (bs_periodic c = false -> u = t) /\
    (bs_periodic c = true -> U p <= u < U n /\ exists k : Z, u = t - IZR k * (U n - U p)).
Proof.
  intros H [Hm Hd]. unfold bs_unwrap. destruct (bs_periodic c) eqn:E.
  - rewrite (rep_lower _ _ _ _ _ H), bind_Ok, (rep_upper _ _ _ _ _ H), bind_Ok.
    destruct (unwrap_correct (U p) (U n) t Hd) as (u & k & Eu & H1 & H2).
    exists u. split; [exact Eu|]. split; [discriminate|]. intros _. split; [exact H2|]. exists k. exact H1.
  - exists t. split; [reflexivity|]. split; [reflexivity|discriminate].
Qed.

Lemma set_inv {A} (l l' : list A) i v : set l i v = Ok l' ->
  (0 <= i < zlen l)%Z /\ zlen l' = zlen l /\ forall n f, arr l n f -> arr l' n (fupd f i v).
Proof.
  intros H. assert (Hi : (0 <= i < zlen l)%Z).
  { unfold set in H. destruct (Z.leb_spec 0 i); [|discriminate]. destruct (Z.ltb_spec i (zlen l)); [|discriminate]. lia. }
  split; [exact Hi|].
  assert (HA : forall n f, arr l n f -> arr l' n (fupd f i v)).
  { intros n f Hf. destruct (arr_set l n f i v Hf) as (l2 & E2 & H2); [rewrite <- (arr_len _ _ _ Hf); exact Hi|].
    rewrite H in E2. inversion E2; subst. exact H2. }
  split; [|exact HA].
  exact (arr_len _ _ _ (HA _ _ (arr_nth l v))).
Qed.

Lemma bspline_local_control {d} (c c' : bspline R (vec R d)) i q t :
  valid_bspline (bs_pts c) (bs_knots c) -> bs_periodic c = false ->
  bs_set_control_point c (Z.of_nat i) q = Ok c' ->
  lower_of (bs_pts c) (bs_knots c) <= t <= upper_of (bs_pts c) (bs_knots c) ->
  ~ (nth i (bs_knots c) 0 <= t <= nth (i + bspline_degree (bs_pts c) (bs_knots c) + 1) (bs_knots c) 0) ->
  exists v, bs_evaluate c t = Ok v /\ bs_evaluate c' t = Ok v.
Proof.
  intros Hv Hp Hset Ht Hout. destruct (valid_rep c Hv) as [Hr Hk].
  unfold lower_of, upper_of in *. rewrite <- !knot_of_nat in Ht.
  set (n := Z.of_nat (length (bs_pts c))) in *. set (p := bspline_degree (bs_pts c) (bs_knots c)) in *.
  set (U := knot_of (bs_knots c)) in *.
  unfold bs_set_control_point in Hset. apply bind_inv in Hset. destruct Hset as (l' & El & E).
  inversion E; subst c'; clear E.
  destruct (set_inv _ _ _ _ El) as (Hi & HL & HA).
  assert (Hr' : bsrep {| bs_pts := l'; bs_knots := bs_knots c; bs_periodic := bs_periodic c |} n (Z.of_nat p) U
    (fupd (pts_at (bs_pts c)) (Z.of_nat i) q)).
  { destruct Hr as [R1 R2 R3 R4]. split; auto. }
  destruct (locate_span_total c n (Z.of_nat p) U _ t Hr Hk) as (k & Ek & Hk2).
  assert (Ek' : locate_span {| bs_pts := l'; bs_knots := bs_knots c; bs_periodic := bs_periodic c |} t = Ok k).
  { rewrite <- Ek. unfold locate_span, bs_degree. simpl. rewrite ?HL. reflexivity. }
  exists (evalspan U p (pts_at (bs_pts c)) t k).
  rewrite (bs_evaluate_gen c _ _ _ _ t t k Hr (bs_unwrap_off c t Hp) Ek Hk2).
  rewrite (bs_evaluate_gen _ _ _ _ _ t t k Hr' (bs_unwrap_off {| bs_pts := l'; bs_knots := bs_knots c; bs_periodic := bs_periodic c |} t Hp) Ek' Hk2).
  rewrite Nat2Z.id. split; [reflexivity|]. f_equal.
  unfold evalspan. apply tri_shift_ext. rewrite repeat_length. intros j Hj.
  unfold fupd. destruct (Z.eqb_spec j (Z.of_nat i)) as [->|]; [|reflexivity]. exfalso. apply Hout.
  assert (Hb : U k <= t <= U (k + 1)%Z).
  { destruct Hk as [Hm Hd].
    destruct (Rle_dec t (U (Z.of_nat p))) as [Hc1|Hc1].
    - rewrite (locate_span_low _ _ _ _ _ t Hr Hc1) in Ek. inversion Ek; subst k.
      assert (U (Z.of_nat p) <= U (Z.of_nat p + 1)%Z) by (apply Hm; lia). lra.
    - destruct (locate_span_regular c n (Z.of_nat p) U _ t Hr (Build_kval _ _ _ Hm Hd)) as (k2 & E2 & _ & Hs2); [right; lra|exact Ht|].
      rewrite E2 in Ek. inversion Ek; subst. apply in_span_bounds in Hs2. tauto. }
  destruct Hk as [Hm Hd].
  assert (U (Z.of_nat i) <= U k) by (apply Hm; lia).
  assert (U (k + 1)%Z <= U (Z.of_nat i + Z.of_nat p + 1)%Z) by (apply Hm; lia).
  unfold U in *. rewrite knot_of_nat in *.
  replace (Z.of_nat i + Z.of_nat p + 1)%Z with (Z.of_nat (i + p + 1)) in * by lia. rewrite knot_of_nat in *. lra.
Qed.

(** ** Derivatives *)
(** The parameters that share the span of [t]: [knots[k], knots[k+1]), or [knots[k], upper] for the
    last span. *)

Lemma bspline_derivs {d} (c : bspline R (vec R d)) t :
  valid_bspline (bs_pts c) (bs_knots c) -> knots_apart (/ IZR (10 ^ 16)) (bs_knots c) ->
  bs_periodic c = false ->
  lower_of (bs_pts c) (bs_knots c) <= t <= upper_of (bs_pts c) (bs_knots c) ->
  (nth (bspline_degree (bs_pts c) (bs_knots c)) (bs_knots c) 0
     < nth (bspline_degree (bs_pts c) (bs_knots c) + 1) (bs_knots c) 0
   \/ lower_of (bs_pts c) (bs_knots c) < t) ->
  exists (k : nat) (f f' f'' : R -> vec R d),
    (bspline_degree (bs_pts c) (bs_knots c) <= k < length (bs_pts c))%nat /\
    span_set (bs_knots c) (upper_of (bs_pts c) (bs_knots c)) k t /\
    nth k (bs_knots c) 0 < nth (k + 1) (bs_knots c) 0 /\
    (forall x, span_set (bs_knots c) (upper_of (bs_pts c) (bs_knots c)) k x ->
       (nth (bspline_degree (bs_pts c) (bs_knots c)) (bs_knots c) 0
          < nth (bspline_degree (bs_pts c) (bs_knots c) + 1) (bs_knots c) 0
        \/ lower_of (bs_pts c) (bs_knots c) < x) ->
       bs_evaluate c x = Ok (f x) /\ bs_evaluate_derivative c x = Ok (f' x) /\
       bs_evaluate_2nd_derivative c x = Ok (f'' x)) /\
    (forall x, vderiv f x (f' x)) /\ (forall x, vderiv f' x (f'' x)).
Proof.
  intros Hv Ha Hp Ht Hs. destruct (valid_rep c Hv) as [Hr Hk].
  pose proof (apart_rep c Hv Ha) as Hap.
  set (n := Z.of_nat (length (bs_pts c))) in *.
  remember (bspline_degree (bs_pts c) (bs_knots c)) as p eqn:Ep.
  set (U := knot_of (bs_knots c)) in *.
  assert (EL : lower_of (bs_pts c) (bs_knots c) = U (Z.of_nat p)) by (unfold lower_of, U; rewrite knot_of_nat; now subst p).
  assert (EU : upper_of (bs_pts c) (bs_knots c) = U n) by (unfold upper_of, U, n; now rewrite knot_of_nat).
  rewrite EL, EU in *.
  assert (Hreg : U (Z.of_nat p) < U (Z.of_nat p + 1)%Z \/ U (Z.of_nat p) < t).
  { unfold U in *. rewrite knot_of_nat, knot_of_nat1. rewrite knot_of_nat in Hs. exact Hs. }
  destruct (bs_derivs_tri c n (Z.of_nat p) U (pts_at (bs_pts c)) t t Hr Hk Hap Hreg (bs_unwrap_off c t Hp) Ht)
    as (k & Hk1 & Hsp & _).
  destruct (in_span_bounds _ _ _ _ Hsp) as [_ Hlt].
  destruct Hk as [Hm Hd].
  assert (ES : forall x, span_set (bs_knots c) (U n) (Z.to_nat k) x -> in_span U (U n) k x).
  { intros x Hx. unfold span_set in Hx. rewrite <- knot_of_nat, <- knot_of_nat1 in Hx. rewrite Z2Nat.id in Hx by lia.
    fold U in Hx. assert (U (k + 1)%Z <= U n) by (apply Hm; lia).
    destruct Hx as [Hx|[Hx1 Hx2]]; [left; lra|].
    destruct (Req_EM_T x (U n)) as [->|]; [right; lra|left; lra]. }
  exists (Z.to_nat k).
  set (cp := pts_at (bs_pts c)) in *.
  set (f := fun x => tri (alU U p) cp (repeat x p) k).
  set (f1 := fun x => if Z.eqb (Z.of_nat p) 0 then (p0 : vec R d) else
     tri (alU U (p - 1)) (dcoef U (Z.of_nat p) cp) (repeat x (p - 1)) k).
  set (f2 := fun x => if Z.leb (Z.of_nat p) 1 then (p0 : vec R d) else
     tri (alU U (p - 2)) (dcoef U (Z.of_nat p - 1) (dcoef U (Z.of_nat p) cp)) (repeat x (p - 2)) k).
  exists f, f1, f2. split; [unfold n in *; lia|]. split; [|split; [|split; [|split]]].
  - unfold span_set. rewrite <- knot_of_nat, <- knot_of_nat1. rewrite Z2Nat.id by lia. fold U.
    destruct Hsp as [[H1 H2]|[H1 H2]]; [left; lra|right].
    assert (U (k + 1)%Z <= U n) by (apply Hm; lia). lra.
  - rewrite <- knot_of_nat, <- knot_of_nat1. rewrite Z2Nat.id by lia. exact Hlt.
  - intros x Hx Hxs. apply ES in Hx. try rewrite EL in Hxs.
    assert (Hxd : U (Z.of_nat p) <= x <= U n).
    { assert (U (Z.of_nat p) <= U k) by (apply Hm; lia). assert (U (k + 1)%Z <= U n) by (apply Hm; lia).
      apply in_span_bounds in Hx. lra. }
    assert (Hxr : U (Z.of_nat p) < U (Z.of_nat p + 1)%Z \/ U (Z.of_nat p) < x).
    { unfold U in *. rewrite knot_of_nat, knot_of_nat1. rewrite knot_of_nat in Hxs. exact Hxs. }
    destruct (bs_derivs_tri c n (Z.of_nat p) U cp x x Hr (Build_kval _ _ _ Hm Hd) Hap Hxr (bs_unwrap_off c x Hp) Hxd)
      as (k2 & Hk2 & Hsp2 & E1 & E2 & E3).
    assert (k2 = k) by (apply (in_span_unique U (U n) 0 (n + Z.of_nat p) k2 k x Hm); auto; lia). subst k2.
    rewrite E1, E2, E3. rewrite Nat2Z.id.
    replace (Z.to_nat (Z.of_nat p - 1)) with (p - 1)%nat by lia.
    replace (Z.to_nat (Z.of_nat p - 2)) with (p - 2)%nat by lia. auto.
  - intros x. unfold f, f1. destruct p as [|p'].
    + cbn [Z.eqb Z.of_nat repeat tri]. apply vderiv_const.
    + destruct (Z.eqb_spec (Z.of_nat (S p')) 0); [lia|]. cbn [Nat.sub]. rewrite Nat.sub_0_r.
      apply (piece_vderiv U 0 (n + Z.of_nat (S p'))); auto; lia.
  - intros x. unfold f1, f2. destruct p as [|[|p']].
    + cbn. apply vderiv_const.
    + cbn [Z.eqb Z.of_nat repeat tri Nat.sub Z.leb]. apply vderiv_const.
    + destruct (Z.eqb_spec (Z.of_nat (S (S p'))) 0); [lia|]. destruct (Z.leb_spec (Z.of_nat (S (S p'))) 1); [lia|].
      cbn [Nat.sub]. rewrite Nat.sub_0_r.
      replace (Z.of_nat (S (S p')) - 1)%Z with (Z.of_nat (S p')) by lia.
      apply (piece_vderiv U 0 (n + Z.of_nat (S (S p')))); auto; lia.
Qed.
