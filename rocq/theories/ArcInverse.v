(** Proofs about the arc length measured from the start of the domain, the arc length on a patch and the two
    inverse_arc_length functions of arc_length.h. *)
From Coq Require Import Reals Lra Lia ZArith QArith List Bool Psatz.
From Verif Require Import Monad MonadFacts LoopFacts Scalar ScalarFacts Spec SpecFacts SpecGeom ModelCurve ModelPatchBase ModelQuadrature ModelLine
  CurveFacts CurveThms LineThms EdistFacts ArcLengthThms.
Import ListNotations.
Local Open Scope R_scope.

Lemma arc_to_level0 d (c : curve_ops R (vec R d)) v t tol : (forall u, c_d1 c u = Ok v) ->
  arc_length_to c t 0 tol = Ok ((t - c_lower c) * edist v p0).
Proof. intros Hv. unfold arc_length_to. now apply arc_const_level0. Qed.

(** * An empty range *)
Lemma extrapolate_zero i n vals : (1 <= i < n)%Z -> arr vals n (fun _ => 0) ->
  exists vals', romberg_extrapolate i 0 vals = Ok vals' /\ arr vals' n (fun _ => 0).
Proof.
  intros Hi Ha. destruct (extrapolate_const 0 0 0 i n vals Hi) as (vals' & E & H).
  - eapply arr_ext; [exact Ha|]. intros j Hj. cbn beta. unfold table. destruct (j =? 0)%Z, (j <? i)%Z; ring.
  - exists vals'. split.
    + rewrite <- E. f_equal. unfold table. ring.
    + eapply arr_ext; [exact H|]. intros j Hj. cbn beta. unfold table. destruct (j <? i + 1)%Z; ring.
Qed.
Lemma romberg_empty (speed : R -> res R) t s level tol : (0 <= level)%Z -> speed t = Ok s -> romberg speed t t level tol = Ok 0.
Proof.
  intros Hl Hs. unfold romberg. destruct (arr_alloc (A := R) s0 (level + 1) ltac:(lia)) as (v0 & Ev0 & Hv0).
  cbn [s0 R_ops] in *. rewrite Ev0, bind_Ok. rewrite !Hs, !bind_Ok. cbv zeta.
  match goal with |- context [set v0 0 ?v] => destruct (arr_set v0 _ _ 0%Z v Hv0 ltac:(lia)) as (v1 & Ev1 & Hv1); assert (Et : v = 0) end.
  { cbn [smul sadd ssub sofQ R_ops Qnum Qden]. field. }
  rewrite Ev1, bind_Ok. rewrite Et in Hv1.
  assert (Hv1' : arr v1 (level + 1) (fun _ => 0)).
  { eapply arr_ext; [exact Hv1|]. intros j Hj. unfold fupd. cbn beta. now destruct (j =? 0)%Z. }
  match goal with |- context [forb_up 1 (level + 1) ?b ?init] =>
    destruct (forb_up_inv (fun (_ : Z) '(h, vals) => h = 0 /\ arr vals (level + 1) (fun _ => 0)) (fun r => r = 0) 1 (level + 1) b init) as (st & E & Hst);
      [lia| | |rewrite E; clear E] end.
  - split; [cbn [ssub R_ops]; ring|exact Hv1'].
  - intros i [h vals] Hi (-> & Hv). cbv zeta. rewrite (arr_get _ _ _ _ Hv) by lia. rewrite bind_Ok. cbn beta.
    assert (Er : romberg_refine speed t (sdiv 0 (sofZ 2)) (2 ^ (i - 1)) (smul (sofQ (1 # 2)) 0) = Ok 0).
    { unfold romberg_refine. assert (1 <= 2 ^ (i - 1))%Z by (pose proof (Z.pow_pos_nonneg 2 (i - 1)); lia).
      match goal with |- for_up 1 ?m ?b ?init = _ => destruct (for_up_inv (fun (_ : Z) acc => acc = 0) 1 m b init) as (r & E & Hr); [lia| | |now rewrite E, Hr] end.
      - cbn [smul sofQ R_ops]. ring.
      - intros k acc Hk ->. replace (sadd t (smul (sofZ (2 * k - 1)) (sdiv 0 (sofZ 2)))) with t by (cbn [sadd smul sdiv sofZ R_ops]; field).
        rewrite Hs, bind_Ok. eexists. split; [reflexivity|]. cbn [sadd smul sdiv sofZ R_ops]. field. }
    rewrite Er, bind_Ok. destruct (arr_set vals _ _ 0%Z 0 Hv ltac:(lia)) as (v2 & Ev2 & Hv2). rewrite Ev2, bind_Ok.
    destruct (extrapolate_zero i (level + 1) v2 ltac:(lia)) as (v3 & Ev3 & Hv3).
    { eapply arr_ext; [exact Hv2|]. intros j Hj. unfold fupd. cbn beta. now destruct (j =? 0)%Z. }
    rewrite Ev3, bind_Ok. rewrite !(arr_get _ _ _ _ Hv3) by lia. rewrite !bind_Ok. destruct (_ && _)%bool; eexists; (split; [reflexivity|]); cbn beta iota.
    + reflexivity.
    + split; [cbn [sdiv sofZ R_ops]; field|exact Hv3].
  - rewrite bind_Ok. destruct st as [[h vals]|r]; [|now rewrite Hst]. destruct Hst as (_ & Hv). rewrite (arr_get _ _ _ _ Hv) by lia. reflexivity.
Qed.
Lemma arc_empty d (c : curve_ops R (vec R d)) t v level tol : (0 <= level)%Z -> c_d1 c t = Ok v -> arc_length c t t level tol = Ok 0.
Proof. intros Hl Hv. unfold arc_length. apply (romberg_empty _ t (pnorm v)); [exact Hl|]. now rewrite Hv. Qed.
Lemma arc_to_start d (c : curve_ops R (vec R d)) v level tol : (0 <= level)%Z -> c_d1 c (c_lower c) = Ok v -> arc_length_to c (c_lower c) level tol = Ok 0.
Proof. intros Hl Hv. unfold arc_length_to. now apply (arc_empty d c _ v). Qed.

(** * Constant speed at the default settings *)
Lemma arc_default d (c : curve_ops R (vec R d)) v a b : (forall t, c_d1 c t = Ok v) ->
  exists k, 23 / 45 <= k < 1 /\ arc_length c a b default_level default_tol = Ok (k * ((b - a) * edist v p0)).
Proof.
  intros Hv. destruct (arc_const d c v a b default_level default_tol Hv) as (i & Hi & Hc & E); [cbv; discriminate|].
  exists (table 1 i i). split.
  - apply diag_bound. unfold default_level in *. destruct Hc as [-> | [H _]]; [change (Z.to_nat 10) with 10%nat; lia|exact H].
  - rewrite E. apply f_equal. rewrite table_scale. ring.
Qed.
Definition combo d (a b : R) (x y : vec R d) : vec R d := padd (pmul a x) (pmul b y).
Lemma patch_arc_const d (s : patch_ops R (vec R d)) x y u0 v0 u1 v1 level tol : (forall u v, s_du s u v = Ok x) -> (forall u v, s_dv s u v = Ok y) -> (0 <= level)%Z ->
  exists i, (i <= Z.to_nat level)%nat /\ ((i = Z.to_nat level)%nat \/ ((2 <= i)%nat /\ 0 < tol)) /\
    patch_arc_length s u0 v0 u1 v1 level tol = Ok (table (edist (combo d (u1 - u0) (v1 - v0) x y) p0) i i).
Proof.
  intros Hx Hy Hl. unfold patch_arc_length.
  match goal with |- context [romberg ?f _ _ _ _] => destruct (romberg_const f (edist (combo d (u1 - u0) (v1 - v0) x y) p0) s0 s1) with (level := level) (tol := tol) as (i & Hi & Hc & E); [|exact Hl|] end.
  - intros t. rewrite Hx, Hy, !bind_Ok. now rewrite edist_0_norm.
  - exists i. split; [exact Hi|]. split; [exact Hc|]. rewrite E. apply f_equal. f_equal. cbn [s0 s1 R_ops]. ring.
Qed.
Lemma patch_arc_level0 d (s : patch_ops R (vec R d)) x y u0 v0 u1 v1 tol : (forall u v, s_du s u v = Ok x) -> (forall u v, s_dv s u v = Ok y) ->
  patch_arc_length s u0 v0 u1 v1 0 tol = Ok (edist (padd (pmul (u1 - u0) x) (pmul (v1 - v0) y)) p0).
Proof.
  intros Hx Hy. destruct (patch_arc_const d s x y u0 v0 u1 v1 0 tol Hx Hy ltac:(lia)) as (i & Hi & _ & E). cbn in Hi. assert (i = O) by lia. subst i. rewrite E. apply f_equal.
  unfold table, combo. cbn. field.
Qed.
Lemma patch_arc_short d (s : patch_ops R (vec R d)) x y u0 v0 u1 v1 level tol : (forall u v, s_du s u v = Ok x) -> (forall u v, s_dv s u v = Ok y) ->
  (padd (pmul (u1 - u0) x) (pmul (v1 - v0) y) : vec R d) <> p0 -> (1 <= level)%Z ->
  exists r, patch_arc_length s u0 v0 u1 v1 level tol = Ok r /\ r < edist (padd (pmul (u1 - u0) x) (pmul (v1 - v0) y)) p0.
Proof.
  intros Hx Hy Hn Hl. destruct (patch_arc_const d s x y u0 v0 u1 v1 level tol Hx Hy ltac:(lia)) as (i & Hi & Hc & E). eexists. split; [exact E|].
  apply table_lt; [now apply edist_pos_lt|]. lia.
Qed.
Lemma patch_arc_default d (s : patch_ops R (vec R d)) x y u0 v0 u1 v1 : (forall u v, s_du s u v = Ok x) -> (forall u v, s_dv s u v = Ok y) ->
  exists k, 23 / 45 <= k < 1 /\ patch_arc_length s u0 v0 u1 v1 default_level default_tol = Ok (k * edist (combo d (u1 - u0) (v1 - v0) x y) p0).
Proof.
  intros Hx Hy. destruct (patch_arc_const d s x y u0 v0 u1 v1 default_level default_tol Hx Hy) as (i & Hi & Hc & E); [cbv; discriminate|].
  exists (table 1 i i). split.
  - apply diag_bound. unfold default_level in *. destruct Hc as [-> | [H _]]; [change (Z.to_nat 10) with 10%nat; lia|exact H].
  - rewrite E. apply f_equal. rewrite table_scale. ring.
Qed.

(** * The iteration shared by the two functions *)
Section Newton.
  Variables (arc speed : R -> res R) (l tol : R).
  Let body (_ : Z) (t : R) : res (R + R) :=
    do a <- arc t; let err := ssub a l in if slt (sabs err) tol then Ok (inr t) else do s <- speed t; do q <- ddiv err s; Ok (inl (ssub t q)).
  Let out (x : R + R) : R := match x with inl t => t | inr t => t end.
  Lemma newton_stop n : forall lo t x, forb_nat n lo body t = Ok (inr x) -> exists a, arc x = Ok a /\ Rabs (a - l) < tol.
  Proof.
    induction n as [|n IH]; intros lo t x E; [discriminate|]. cbn [forb_nat] in E. apply bind_inv in E. destruct E as (y & Ey & E).
    unfold body in Ey. apply bind_inv in Ey. destruct Ey as (a & Ea & Ey). cbv zeta in Ey. rewrite sabs_R in Ey. cbn [slt ssub R_ops] in Ey.
    destruct (Rltb (Rabs (a - l)) tol) eqn:Et.
    - apply Ok_inj in Ey. subst y. apply Ok_inj in E. injection E as ->. exists a. split; [exact Ea|]. unfold Rltb in Et. now destruct (Rlt_dec _ _).
    - apply bind_inv in Ey. destruct Ey as (s & _ & Ey). apply bind_inv in Ey. destruct Ey as (q & _ & Ey). apply Ok_inj in Ey. subst y. now apply IH in E.
  Qed.
  Lemma newton_next n : forall lo t x y, forb_nat n lo body t = Ok (inl x) -> forb_nat (S n) lo body t = Ok y -> body 0 x = Ok y.
  Proof.
    induction n as [|n IH]; intros lo t x y E E'.
    - cbn [forb_nat] in E, E'. apply Ok_inj in E. injection E as ->. change (body 0 x) with (body lo x). destruct (body lo x) as [[z|z]| | |]; cbn in E'; exact E' || discriminate.
    - cbn [forb_nat] in E. change (forb_nat (S (S n)) lo body t) with (do x <- body lo t; match x with inl s' => forb_nat (S n) (lo + 1) body s' | inr b => Ok (inr b) end) in E'.
      apply bind_inv in E. destruct E as ([z|z] & Ez & E); [|discriminate]. rewrite Ez, bind_Ok in E'. now apply (IH (lo + 1)%Z z).
  Qed.
  Lemma newton_stable n lo t0 x y : forb_nat n lo body t0 = Ok x -> forb_nat (S n) lo body t0 = Ok y -> out x = out y ->
    exists a, arc (out x) = Ok a /\ (Rabs (a - l) < tol \/ a = l).
  Proof.
    intros Ex Ey Ho. destruct x as [x|x].
    - pose proof (newton_next n lo t0 x y Ex Ey) as Eb. unfold body in Eb. apply bind_inv in Eb. destruct Eb as (a & Ea & Eb). exists a. split; [exact Ea|].
      cbv zeta in Eb. rewrite sabs_R in Eb. cbn [slt ssub R_ops] in Eb. destruct (Rltb (Rabs (a - l)) tol) eqn:Et.
      + left. unfold Rltb in Et. now destruct (Rlt_dec _ _).
      + right. apply bind_inv in Eb. destruct Eb as (s & _ & Eb). apply bind_inv in Eb. destruct Eb as (q & Eq & Eb). apply Ok_inj in Eb. subst y. cbn [out] in Ho.
        unfold ddiv in Eq. cbn [seq_ s0 sdiv R_ops] in Eq. destruct (Reqb s 0) eqn:Es; [discriminate|]. apply Ok_inj in Eq.
        assert (Hs : s <> 0) by (intros ->; unfold Reqb in Es; destruct (Req_EM_T 0 0); congruence).
        assert (Hq : (a - l) / s = 0) by lra. unfold Rdiv in Hq. apply Rmult_integral in Hq. pose proof (Rinv_neq_0_compat s Hs). destruct Hq as [Hq|Hq]; [lra|contradiction].
    - destruct (newton_stop n lo t0 x Ex) as (a & Ea & Ha). exists a. split; [exact Ea|now left].
  Qed.
End Newton.
Lemma forb_up_0 {S B} n (b : Z -> S -> res (S + B)) s : (0 <= n)%Z -> forb_up 0 n b s = forb_nat (Z.to_nat n) 0 b s /\ forb_up 0 (n + 1) b s = forb_nat (Datatypes.S (Z.to_nat n)) 0 b s.
Proof. intros Hn. unfold forb_up. split; f_equal; lia. Qed.

Lemma forb_nat_ext {S B} (b b' : Z -> S -> res (S + B)) : (forall i s, b i s = b' i s) -> forall n lo s, forb_nat n lo b s = forb_nat n lo b' s.
Proof. intros H n. induction n as [|n IH]; intros lo s; [reflexivity|]. cbn [forb_nat]. rewrite H. destruct (b' lo s) as [[x|x]| | |]; [apply IH|reflexivity..]. Qed.

(** If one more iteration does not change the result then the length up to it is [l] up to the tolerance. *)
Lemma inverse_stable d (c : curve_ops R (vec R d)) l n t : (0 <= n)%Z -> inverse_arc_length c l n = Ok t -> inverse_arc_length c l (n + 1) = Ok t ->
  exists L a, arc_length_to c (c_upper c) default_level default_tol = Ok L /\ arc_length_to c t default_level default_tol = Ok a /\
    (Rabs (a - l) < L * default_tol \/ a = l).
Proof.
  intros Hn E E'. unfold inverse_arc_length in *. apply bind_inv in E. destruct E as (L & EL & E). rewrite EL, bind_Ok in E'. exists L.
  apply bind_inv in E. destruct E as (t0 & Et0 & E). rewrite Et0, bind_Ok in E'. cbv zeta in E, E'.
  match type of E with context [forb_up 0 n ?b ?s] => destruct (forb_up_0 n b s Hn) as [E1 E2] end. rewrite E1 in E. rewrite E2 in E'. clear E1 E2.
  apply bind_inv in E. destruct E as (x & Ex & E). apply bind_inv in E'. destruct E' as (y & Ey & E').
  destruct (newton_stable (fun t => arc_length_to c t default_level default_tol) (fun t => do d1 <- c_d1 c t; Ok (pnorm d1)) l (L * default_tol) (Z.to_nat n) 0 t0 x y) as (a & Ea & Ha).
  - rewrite <- Ex. apply forb_nat_ext. intros i u. destruct (arc_length_to c u _ _); [|reflexivity..]. cbn [bind]. cbv zeta. destruct (slt _ _); [reflexivity|]. destruct (c_d1 c u); reflexivity.
  - rewrite <- Ey. apply forb_nat_ext. intros i u. destruct (arc_length_to c u _ _); [|reflexivity..]. cbn [bind]. cbv zeta. destruct (slt _ _); [reflexivity|]. destruct (c_d1 c u); reflexivity.
  - destruct x, y; apply Ok_inj in E, E'; congruence.
  - exists a. split; [exact EL|]. split; [|exact Ha]. destruct x; apply Ok_inj in E; now subst t.
Qed.
Lemma patch_inverse_stable d (s : patch_ops R (vec R d)) u0 v0 u1 v1 l n p : (0 <= n)%Z -> (u1 <> u0 \/ v1 <> v0) ->
  patch_inverse_arc_length s u0 v0 u1 v1 l n = Ok p -> patch_inverse_arc_length s u0 v0 u1 v1 l (n + 1) = Ok p ->
  exists L a, patch_arc_length s u0 v0 u1 v1 default_level default_tol = Ok L /\ patch_arc_length s u0 v0 (fst p) (snd p) default_level default_tol = Ok a /\
    (Rabs (a - l) < L * default_tol \/ a = l).
Proof.
  intros Hn Hne E E'. unfold patch_inverse_arc_length in *. apply bind_inv in E. destruct E as (L & EL & E). rewrite EL, bind_Ok in E'. exists L.
  apply bind_inv in E. destruct E as (t0 & Et0 & E). rewrite Et0, bind_Ok in E'. cbv zeta in E, E'. cbn [fst snd] in E, E'.
  match type of E with context [forb_up 0 n ?b ?s] => destruct (forb_up_0 n b s Hn) as [E1 E2] end. rewrite E1 in E. rewrite E2 in E'. clear E1 E2.
  apply bind_inv in E. destruct E as (x & Ex & E). apply bind_inv in E'. destruct E' as (y & Ey & E').
  set (pu t := (u1 - u0) * t + u0). set (pv t := (v1 - v0) * t + v0).
  destruct (newton_stable (fun t => patch_arc_length s u0 v0 (pu t) (pv t) default_level default_tol)
    (fun t => do du <- s_du s (pu t) (pv t); do dv <- s_dv s (pu t) (pv t); Ok (pnorm (padd (pmul (u1 - u0) du) (pmul (v1 - v0) dv)))) l (L * default_tol) (Z.to_nat n) 0 t0 x y) as (a & Ea & Ha).
  - rewrite <- Ex. apply forb_nat_ext. reflexivity.
  - rewrite <- Ey. apply forb_nat_ext. reflexivity.
  - assert (H : forall a b : R, Ok ((u1 - u0) * a + u0, (v1 - v0) * a + v0) = Ok p -> Ok ((u1 - u0) * b + u0, (v1 - v0) * b + v0) = Ok p -> a = b).
    { intros a b Ha Hb. rewrite <- Hb in Ha. injection Ha as H1 H2. destruct Hne as [Hne|Hne].
      - apply Rmult_eq_reg_l with (u1 - u0); lra.
      - apply Rmult_eq_reg_l with (v1 - v0); lra. }
    destruct x, y; now apply H.
  - exists a. split; [exact EL|]. split; [|exact Ha]. destruct x; apply Ok_inj in E; now subst p.
Qed.

(** * What the iteration returns at constant speed *)
Lemma ddiv_R a b : b <> 0 -> ddiv a b = Ok (a / b).
Proof. intros H. unfold ddiv. cbn [seq_ s0 sdiv R_ops]. now rewrite Reqb_false. Qed.
Lemma inverse_long d (c : curve_ops R (vec R d)) v l n : (forall t, c_d1 c t = Ok v) -> v <> p0 -> c_lower c = 0 -> c_upper c = 1 -> 0 < l -> (0 <= n)%Z ->
  exists t, inverse_arc_length c l n = Ok t /\ l < (t - c_lower c) * edist v p0.
Proof.
  intros Hv Hv0 Hlo Hup Hl Hn. unfold inverse_arc_length, arc_length_to. rewrite Hlo, Hup. pose proof (edist_pos_lt d v Hv0) as Hs. set (s := edist v p0) in *.
  destruct (arc_default d c v 0 1 Hv) as (k & Hk & ->). fold s. rewrite bind_Ok. rewrite ddiv_R by nra. rewrite bind_Ok. cbv zeta.
  assert (H0 : l < l / (k * ((1 - 0) * s)) * s).
  { replace (l / (k * ((1 - 0) * s)) * s) with (l / k) by (field; lra). apply Rmult_lt_reg_r with k; [lra|]. replace (l / k * k) with l by (field; lra). nra. }
  match goal with |- context [forb_up 0 n ?b ?i] =>
    destruct (forb_up_inv (fun (_ : Z) t => l < t * s) (fun t => l < t * s) 0 n b i Hn H0) as (x & E & Hx); [|rewrite E] end.
  - intros i t _ Ht. destruct (arc_default d c v 0 t Hv) as (k' & Hk' & ->). fold s. rewrite bind_Ok. cbv zeta. destruct (slt _ _).
    + eexists. split; [reflexivity|]. exact Ht.
    + rewrite Hv, bind_Ok, edist_0_norm. fold s. rewrite ddiv_R by lra. rewrite bind_Ok. eexists. split; [reflexivity|]. cbn beta iota. cbn [ssub R_ops].
      replace ((t - (k' * ((t - 0) * s) - l) / s) * s) with (t * s * (1 - k') + l) by (field; lra). nra.
  - rewrite bind_Ok. destruct x as [t|t]; exists t; (split; [reflexivity|]); rewrite Rminus_0_r; exact Hx.
Qed.
Lemma inverse_offset d (c : curve_ops R (vec R d)) v n : (forall t, c_d1 c t = Ok v) -> v <> p0 -> 0 < c_lower c < c_upper c -> (0 <= n)%Z ->
  exists t, inverse_arc_length c 0 n = Ok t /\ t < c_lower c.
Proof.
  intros Hv Hv0 Hd Hn. unfold inverse_arc_length, arc_length_to. pose proof (edist_pos_lt d v Hv0) as Hs. set (s := edist v p0) in *. set (lo := c_lower c) in *. set (hi := c_upper c) in *.
  destruct (arc_default d c v lo hi Hv) as (k & Hk & ->). fold s. rewrite bind_Ok. assert (Hp : 0 < (hi - lo) * s) by nra. rewrite ddiv_R by nra. rewrite bind_Ok. cbv zeta.
  assert (H0 : 0 / (k * ((hi - lo) * s)) < lo) by (unfold Rdiv; rewrite Rmult_0_l; lra).
  match goal with |- context [forb_up 0 n ?b ?i] =>
    destruct (forb_up_inv (fun (_ : Z) t => t < lo) (fun t => t < lo) 0 n b i Hn H0) as (x & E & Hx); [|rewrite E] end.
  - intros i t _ Ht. destruct (arc_default d c v lo t Hv) as (k' & Hk' & ->). fold s. rewrite bind_Ok. cbv zeta. destruct (slt _ _).
    + eexists. split; [reflexivity|]. exact Ht.
    + rewrite Hv, bind_Ok, edist_0_norm. fold s. rewrite ddiv_R by lra. rewrite bind_Ok. eexists. split; [reflexivity|]. cbn beta iota. cbn [ssub R_ops].
      replace (t - (k' * ((t - lo) * s) - 0) / s) with (lo + (t - lo) * (1 - k')) by (field; lra). nra.
  - rewrite bind_Ok. destruct x as [t|t]; exists t; (split; [reflexivity|exact Hx]).
Qed.
(** The start of the domain is found when it is 0, on every curve of positive length. *)
Lemma default_tol_pos : 0 < (default_tol : R).
Proof. unfold default_tol. cbn [sofQ R_ops]. apply Rmult_lt_0_compat; [cbn; lra|]. apply Rinv_0_lt_compat. apply IZR_lt. reflexivity. Qed.
Lemma inverse_start d (c : curve_ops R (vec R d)) v L n : c_lower c = 0 -> c_d1 c 0 = Ok v -> arc_length_to c (c_upper c) default_level default_tol = Ok L -> 0 < L -> (0 <= n)%Z ->
  inverse_arc_length c 0 n = Ok 0.
Proof.
  intros Hlo Hv HL Hp Hn. unfold inverse_arc_length. rewrite HL, bind_Ok, ddiv_R by lra. rewrite bind_Ok. cbv zeta. replace (0 / L) with 0 by (unfold Rdiv; ring).
  unfold forb_up. replace (n - 0)%Z with n by lia. destruct (Z.to_nat n) as [|m]; [reflexivity|]. cbn [forb_nat]. pose proof (arc_to_start d c v default_level default_tol ltac:(cbv; discriminate)) as Ha. rewrite Hlo in Ha. rewrite (Ha Hv).
  rewrite !bind_Ok. cbv zeta. rewrite sabs_R. cbn [slt ssub R_ops smul]. pose proof default_tol_pos. rewrite Rltb_true; [reflexivity|]. rewrite Rminus_0_r, Rabs_R0. now apply Rmult_lt_0_compat.
Qed.
Lemma patch_inverse_long d (c : patch_ops R (vec R d)) x y u0 v0 u1 v1 l n : (forall u v, s_du c u v = Ok x) -> (forall u v, s_dv c u v = Ok y) ->
  (padd (pmul (u1 - u0) x) (pmul (v1 - v0) y) : vec R d) <> p0 -> 0 < l -> (0 <= n)%Z ->
  exists u v, patch_inverse_arc_length c u0 v0 u1 v1 l n = Ok (u, v) /\ l < edist (padd (pmul (u - u0) x) (pmul (v - v0) y)) p0.
Proof.
  intros Hx Hy Hv0 Hl Hn. unfold patch_inverse_arc_length. pose proof (edist_pos_lt d _ Hv0) as Hs. fold (combo d (u1 - u0) (v1 - v0) x y) in Hs.
  assert (Hsc : forall t, 0 <= t -> edist (combo d ((u1 - u0) * t + u0 - u0) ((v1 - v0) * t + v0 - v0) x y) p0 = t * edist (combo d (u1 - u0) (v1 - v0) x y) p0).
  { intros t Ht. rewrite <- (edist_scale t _ _ Ht). f_equal; apply vec_ext; intros i Hi; unfold combo; rewrite ?coord_add, ?coord_mul, ?coord_add, ?coord_mul, ?coord_0 by exact Hi; ring. }
  destruct (patch_arc_default d c x y u0 v0 u1 v1 Hx Hy) as (k & Hk & ->). set (s := edist (combo d (u1 - u0) (v1 - v0) x y) p0) in *. rewrite bind_Ok. rewrite ddiv_R by nra. rewrite bind_Ok. cbv zeta.
  assert (H0 : l < l / (k * s) * s).
  { replace (l / (k * s) * s) with (l / k) by (field; lra). apply Rmult_lt_reg_r with k; [lra|]. replace (l / k * k) with l by (field; lra). nra. }
  match goal with |- context [forb_up 0 n ?b ?i] =>
    destruct (forb_up_inv (fun (_ : Z) t => l < t * s) (fun t => l < t * s) 0 n b i Hn H0) as (z & E & Hz); [|rewrite E] end.
  - intros i t _ Ht. assert (0 < t) by (apply Rnot_le_lt; intros H; nra). cbn [fst snd]. cbn [smul ssub sadd R_ops].
    destruct (patch_arc_default d c x y u0 v0 ((u1 - u0) * t + u0) ((v1 - v0) * t + v0) Hx Hy) as (k' & Hk' & ->). rewrite Hsc by lra. fold s. rewrite bind_Ok. cbv zeta. match goal with |- context [if ?b then _ else _] => destruct b end.
    + eexists. split; [reflexivity|]. exact Ht.
    + rewrite Hx, Hy, !bind_Ok, edist_0_norm. match goal with |- context [edist ?w p0] => change (edist w p0) with s end. rewrite ddiv_R by lra. rewrite bind_Ok. eexists. split; [reflexivity|]. cbn beta iota.
      replace ((t - (k' * (t * s) - l) / s) * s) with (t * s * (1 - k') + l) by (field; lra). nra.
  - rewrite bind_Ok. destruct z as [t|t]; do 2 eexists; (split; [reflexivity|]); match goal with |- l < ?w => change (l < edist (combo d ((u1 - u0) * t + u0 - u0) ((v1 - v0) * t + v0 - v0) x y) p0) end;
      (rewrite Hsc; [exact Hz|]); apply Rlt_le, Rnot_le_lt; intros H; nra.
Qed.
Lemma edist_zero d : edist (p0 : vec R d) p0 = 0.
Proof.
  unfold edist. rewrite <- sqrt_0. f_equal. apply rsum_0. intros i Hi. ring.
Qed.
Lemma patch_arc_empty d (c : patch_ops R (vec R d)) x y u v level tol : (0 <= level)%Z -> s_du c u v = Ok x -> s_dv c u v = Ok y ->
  patch_arc_length c u v u v level tol = Ok 0.
Proof.
  intros Hl Hx Hy. unfold patch_arc_length.
  match goal with |- romberg ?f _ _ _ _ = _ => destruct (romberg_const f 0 s0 s1) with (level := level) (tol := tol) as (i & Hi & Hc & E); [|exact Hl|] end.
  - intros t. cbn [smul ssub sadd R_ops]. replace ((u - u) * t + u) with u by ring. replace ((v - v) * t + v) with v by ring. rewrite Hx, Hy, !bind_Ok.
    rewrite edist_0_norm. apply f_equal. replace (padd (pmul (u - u) x) (pmul (v - v) y)) with (p0 : vec R d); [apply edist_zero|].
    apply vec_ext. intros i Hi. rewrite coord_add, !coord_mul, coord_0 by exact Hi. ring.
  - rewrite E. apply f_equal. unfold table. ring.
Qed.
Lemma patch_inverse_start d (c : patch_ops R (vec R d)) x y L u0 v0 u1 v1 n : s_du c u0 v0 = Ok x -> s_dv c u0 v0 = Ok y ->
  patch_arc_length c u0 v0 u1 v1 default_level default_tol = Ok L -> 0 < L -> (0 <= n)%Z -> patch_inverse_arc_length c u0 v0 u1 v1 0 n = Ok (u0, v0).
Proof.
  intros Hx Hy HL Hp Hn. unfold patch_inverse_arc_length. rewrite HL, bind_Ok, ddiv_R by lra. rewrite bind_Ok. cbv zeta. replace (0 / L) with 0 by (unfold Rdiv; ring).
  assert (Hpos : forall a b, sadd (smul (ssub a b) 0) b = b) by (intros a b; cbn [sadd smul ssub R_ops]; ring).
  unfold forb_up. replace (n - 0)%Z with n by lia. destruct (Z.to_nat n) as [|m]; [cbn [forb_nat]; rewrite bind_Ok; now rewrite !Hpos|]. cbn [forb_nat fst snd]. rewrite !Hpos.
  rewrite (patch_arc_empty d c x y u0 v0 default_level default_tol ltac:(cbv; discriminate) Hx Hy). rewrite !bind_Ok. rewrite sabs_R. cbn [slt ssub R_ops smul].
  pose proof default_tol_pos. rewrite Rltb_true; [cbn; now rewrite !Rmult_0_r, !Rplus_0_l|]. rewrite Rminus_0_r, Rabs_R0. now apply Rmult_lt_0_compat.
Qed.
