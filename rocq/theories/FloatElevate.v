(** Degree elevation of Bezier curves in floating point arithmetic. *)
From Coq Require Import Reals Lra Lia ZArith QArith List Bool Permutation.
From Flocq Require Import Core IEEE754.BinarySingleNaN.
From Verif Require Import Monad MonadFacts Scalar ScalarFacts Spec SpecFacts ModelCurve ModelBezier BezierThms
  ModelBSpline BSplineFacts BSplineThms BSplineThms2 Transfer SpecFloat ModelFloat FloatFacts
  FloatThms FloatThms2 FloatCases FloatRuns FloatRational SpecPatch PatchHull FloatPatch2 FloatDeriv FloatInsert.
Import ListNotations.
Local Open Scope R_scope.

(** ** The end points are copied *)
Lemma for_up_partial {S} (I : S -> Prop) lo hi b s s' : (forall i s s', (lo <= i < hi)%Z -> I s -> b i s = Ok s' -> I s') ->
  I s -> for_up lo hi b s = Ok s' -> I s'.
Proof.
  unfold for_up. remember (Z.to_nat (hi - lo)) as n eqn:En. revert lo s En.
  induction n as [|n IH]; intros lo s En Hb H0 E; cbn [for_nat] in E; [now injection E as <-|].
  destruct (b lo s) as [s1| | |] eqn:Eb; try discriminate E. cbn [bind] in E.
  apply (IH (lo + 1)%Z s1); [lia| |apply (Hb lo s s1); [lia|exact H0|exact Eb]|exact E].
  intros i x x' Hi. apply Hb. lia.
Qed.
Lemma set_get {A} (l l' : list A) i v j : set l i v = Ok l' -> get l' j = if (j =? i)%Z then Ok v else get l j.
Proof.
  unfold set. destruct ((0 <=? i)%Z && (i <? zlen l)%Z) eqn:E; [|discriminate]. intros H. injection H as <-.
  apply andb_prop in E. destruct E as [E1 E2]. apply Z.leb_le in E1. apply Z.ltb_lt in E2. unfold zlen in E2.
  unfold get. destruct (Z.ltb_spec j 0) as [Hj|Hj]; [destruct (Z.eqb_spec j i); [lia|reflexivity]|].
  rewrite nth_error_upd_nat by lia.
  destruct (Z.eqb_spec j i) as [->|Hne]; [now rewrite Nat.eqb_refl|].
  destruct (Nat.eqb_spec (Z.to_nat j) (Z.to_nat i)); [lia|reflexivity].
Qed.
Lemma set_zlen {A} (l l' : list A) i v : set l i v = Ok l' -> zlen l' = zlen l.
Proof. unfold set. destruct (_ && _); [|discriminate]. intros H. injection H as <-. unfold zlen. now rewrite upd_nat_length. Qed.

Lemma elevate_ends {T P} (S : ScalarOps T) (O : PointOps T P) (c c1 : bezier P) : bz_elevate_degree c = Ok c1 ->
  get (bz_pts c1) 0 = get (bz_pts c) 0 /\
  get (bz_pts c1) (zlen (bz_pts c1) - 1) = get (bz_pts c) (zlen (bz_pts c) - 1) /\
  zlen (bz_pts c1) = (zlen (bz_pts c) + 1)%Z.
Proof.
  unfold bz_elevate_degree, bz_degree. set (n := zlen (bz_pts c)). assert (Hn : (0 <= n)%Z) by apply zlen_nonneg. cbv zeta. intros E.
  destruct (alloc p0 (n - 1 + 2)) as [o| | |] eqn:Eo; try discriminate E. cbn [bind] in E.
  assert (Lo : zlen o = (n + 1)%Z).
  { unfold alloc in Eo. destruct (0 <=? n - 1 + 2)%Z eqn:El; [|discriminate]. injection Eo as <-.
    unfold zlen. rewrite repeat_length. apply Z.leb_le in El. lia. }
  destruct (assert_ _) as [ok| | |]; try discriminate E. cbn [bind] in E.
  destruct (get (bz_pts c) 0) as [a| | |] eqn:Ea; try discriminate E. cbn [bind] in E.
  assert (Hn0 : (0 < n)%Z).
  { destruct (bz_pts c) eqn:Ec; [unfold get in Ea; discriminate|]. unfold n, zlen. simpl. lia. }
  destruct (set o 0%Z a) as [o1| | |] eqn:E1; try discriminate E. cbn [bind] in E.
  match type of E with bind ?x _ = _ => destruct x as [o2| | |] eqn:E2; try discriminate E end. cbn [bind] in E.
  pose (I := fun o : list P => zlen o = (n + 1)%Z /\ get o 0 = Ok a).
  assert (H2 : I o2).
  { eapply (for_up_partial I); [|split|exact E2].
    - intros i s s' Hi [I1 I2] Hb. cbv beta in Hb.
      destruct (ddiv _ _); try discriminate Hb. cbn [bind] in Hb.
      destruct (get (bz_pts c) i); try discriminate Hb. cbn [bind] in Hb.
      destruct (get (bz_pts c) (i - 1)%Z); try discriminate Hb. cbn [bind] in Hb.
      split; [rewrite (set_zlen _ _ _ _ Hb); exact I1|]. rewrite (set_get _ _ _ _ _ Hb).
      destruct (Z.eqb_spec 0 i); [lia|exact I2].
    - now rewrite (set_zlen _ _ _ _ E1).
    - rewrite (set_get _ _ _ _ _ E1). reflexivity. }
  destruct H2 as [I1 I2].
  destruct (get (bz_pts c) (n - 1)) as [b| | |] eqn:Eb; try discriminate E. cbn [bind] in E.
  destruct (set o2 (n - 1 + 1)%Z b) as [o3| | |] eqn:E3; try discriminate E. cbn [bind] in E. injection E as <-.
  cbn [bz_pts]. pose proof (set_zlen _ _ _ _ E3) as L3. rewrite I1 in L3. rewrite L3, !(set_get _ _ _ _ _ E3).
  destruct (Z.eqb_spec 0 (n - 1 + 1)); [lia|]. destruct (Z.eqb_spec (n + 1 - 1) (n - 1 + 1)); [|lia].
  split; [exact I2|]. split; reflexivity.
Qed.
Lemma elevate_iter_ends {T P} (S : ScalarOps T) (O : PointOps T P) k : forall c c1 : bezier P,
  repeat_res k bz_elevate_degree c = Ok c1 ->
  get (bz_pts c1) 0 = get (bz_pts c) 0 /\ get (bz_pts c1) (zlen (bz_pts c1) - 1) = get (bz_pts c) (zlen (bz_pts c) - 1).
Proof.
  induction k as [|k IH]; intros c c1 E; cbn [repeat_res] in E; [injection E as <-; now split|].
  destruct (bz_elevate_degree c) as [c2| | |] eqn:E2; try discriminate E. cbn [bind] in E.
  destruct (IH c2 c1 E) as [H1 H2]. destruct (elevate_ends S O c c2 E2) as (H3 & H4 & _). split; congruence.
Qed.

Section Float.
  Context (prec emax : Z) {Hprec : Prec_gt_0 prec} {Hmax : Prec_lt_emax prec emax}.
  Notation num := (binary_float prec emax).
  Notation u := (unit_roundoff prec).
  Notation eta := (underflow_error prec emax).
  Notation Omega := (bpow radix2 emax).
  Local Instance FOv : ScalarOps num := ieee_ops prec emax.
  Notation prel := (prel prec emax).
  Notation wrel := (wrel prec emax).

  Lemma elevate_weight i m : (0 <= i <= m)%Z -> (0 < m)%Z -> IZR m * u <= 1 ->
    res_rel wrel (ddiv (sofZ i : num) (sofZ m)) (ddiv (sofZ i : R) (sofZ m)).
  Proof.
    intros Hi Hm Hu. pose proof (u_pos prec) as Hup. pose proof (eta_pos prec emax) as Het.
    assert (Him : 0 <= IZR i <= IZR m) by (split; apply IZR_le; lia). assert (Hm0 : 0 < IZR m) by (apply IZR_lt; lia).
    destruct (int_spec prec emax i ltac:(lia) ltac:(nra)) as [Fi Ei].
    destruct (int_spec prec emax m ltac:(lia) Hu) as [Fm Em].
    assert (Hq : 0 <= IZR i / IZR m <= 1).
    { split.
      - apply Rmult_le_pos; [lra|apply Rlt_le, Rinv_0_lt_compat; lra].
      - apply (Rmult_le_reg_r (IZR m)); [lra|]. unfold Rdiv. rewrite Rmult_assoc, Rinv_l by lra. lra. }
    unfold ddiv.
    assert (En : seq_ (sofZ m : num) s0 = false).
    { cbn [seq_ sofZ s0 FOv ieee_ops]. rewrite Beqb_correct; [|exact Fm|reflexivity]. apply Req_bool_false. rewrite Em. simpl. lra. }
    assert (En' : seq_ (sofZ m : R) s0 = false).
    { cbn [seq_ sofZ s0 R_ops]. destruct (Reqb_spec (IZR m) 0); [lra|reflexivity]. }
    rewrite En, En'. cbn [res_rel sdiv sofZ FOv ieee_ops R_ops].
    pose proof (Bdiv_correct prec emax Hprec Hmax mode_NE (bofZ prec emax i) (bofZ prec emax m) ltac:(rewrite Em; lra)) as H.
    rewrite Ei, Em in H.
    pose proof (fl_le prec emax _ _ (proj1 Hq)) as H1. rewrite (fl_0 prec emax) in H1.
    pose proof (fl_le prec emax _ _ (proj2 Hq)) as H2. rewrite (fl_1 prec emax) in H2.
    rewrite Rlt_bool_true in H.
    2:{ rewrite Rabs_pos_eq by exact H1. eapply Rle_lt_trans; [exact H2|apply (Omega_1 prec emax)]. }
    destruct H as (E & F & _). unfold FloatInsert.wrel.
    split; [rewrite F; exact Fi|]. rewrite E. split; [lra|]. split; [exact Hq|].
    eapply Rle_trans; [apply (fl_err prec emax)|]. rewrite Rabs_pos_eq by lra. nra.
  Qed.

  (** As [prel_step], the terms in the other order. *)
  Lemma prel_step2 d M j (al : num) al' a a' b b' : 0 <= M -> growth u eta M (S j) < Omega ->
    wrel al al' -> prel d M j a a' -> prel d M j b b' ->
    prel d M (S j) (padd (pmul (ssub s1 al) a) (pmul al b)) (padd (pmul (ssub s1 al') a') (pmul al' b')).
  Proof.
    intros HM HO (Fa & Ha01 & Ha' & Hae) HA HB i Hi.
    destruct (HA i Hi) as [I1 J1]. destruct (HB i Hi) as [I2 J2].
    rewrite gcoord_add, !gcoord_mul by exact Hi. rewrite coord_add, !coord_mul by exact Hi.
    change (ssub s1 al') with (1 - al').
    set (x' := coord d i a') in *. set (y' := coord d i b') in *.
    pose proof (u_pos prec) as Hu. pose proof (eta_pos prec emax) as Het.
    split.
    2:{ eapply Rle_trans; [apply Rabs_triang|]. rewrite !Rabs_mult, (Rabs_pos_eq al'), (Rabs_pos_eq (1 - al')) by lra.
        replace M with ((1 - al') * M + al' * M) by ring.
        apply Rplus_le_compat; apply Rmult_le_compat_l; lra. }
    destruct (one_minus_spec prec emax al Fa Ha01) as (Fs & _ & _ & Es).
    pose proof (growth_S prec emax M j HM) as HG.
    pose proof (near_lerp prec emax (Bminus mode_NE (bofZ prec emax 1) al) al _ _ (1 - B2R al) (B2R al) _ _ _ _
      Fs Fa ltac:(lra) ltac:(lra) ltac:(lra) Es (finite_B2R_err0 prec emax al ltac:(lra)) I1 I2 ltac:(lra)) as HN.
    destruct HN as (N1 & N2 & N3). split; [exact N1|]. split; [eapply Rle_trans; [exact N2|exact HG]|].
    match goal with |- Rabs (?z - _) <= _ => replace (z - ((1 - al') * x' + al' * y')) with
      ((z - ((1 - B2R al) * x' + B2R al * y')) + (B2R al - al') * (y' - x')) by ring end.
    eapply Rle_trans; [apply Rabs_triang|]. rewrite (Rabs_mult (B2R al - al')).
    assert (Hxy : Rabs (y' - x') <= 2 * M).
    { apply Rabs_le_inv in J1. apply Rabs_le_inv in J2. apply Rabs_le. lra. }
    assert (Rabs (B2R al - al') * Rabs (y' - x') <= (5 * u + eta) * (2 * M)) by (apply Rmult_le_compat; auto using Rabs_pos).
    eapply Rle_trans; [apply Rplus_le_compat; [exact N3|eassumption]|].
    unfold round_err. rewrite S_INR. lra.
  Qed.

  Definition erel (d : nat) (M : R) (j : nat) (a : bezier (vec num d)) (b : bezier (vec R d)) : Prop :=
    Forall2 (prel d M j) (bz_pts a) (bz_pts b) /\ bz_periodic a = bz_periodic b.

  Lemma elevate_near d M j a b : 0 <= M -> growth u eta M (S j) < Omega -> INR (length (bz_pts b)) * u <= 1 ->
    bz_pts b <> [] -> erel d M j a b -> res_rel (erel d M (S j)) (bz_elevate_degree a) (bz_elevate_degree b).
  Proof.
    intros HM HO Hu Hne [HP HPer]. unfold bz_elevate_degree, bz_degree. rewrite (Forall2_zlen _ _ _ HP). cbv zeta.
    assert (HN : (0 < zlen (bz_pts b))%Z) by (destruct (bz_pts b); [congruence|unfold zlen; simpl; lia]).
    assert (HIZ : IZR (zlen (bz_pts b)) * u <= 1) by (unfold zlen; rewrite <- INR_IZR_INZ; exact Hu).
    set (n := zlen (bz_pts b)) in *. clearbody n.
    assert (HQ : Forall2 (prel d M (S j)) (bz_pts a) (bz_pts b)).
    { eapply Forall2_mono; [|exact HP]. intros x y. apply (prel_mono prec emax); [exact HM|lia]. }
    eapply bind_rel; [apply (alloc_rel (prel d M (S j))); apply (prel_zero prec emax); exact HM|]. intros o o' Ho.
    eapply bind_rel; [apply assert_rel|]. intros _ _ _.
    eapply bind_rel; [apply get_rel; exact HQ|]. intros x x' Hx.
    eapply bind_rel; [apply set_rel; [exact Ho|exact Hx]|]. intros o1 o1' Ho1.
    apply (bind_rel (Forall2 (prel d M (S j)))).
    { apply (for_up_rel_at (fun _ => Forall2 (prel d M (S j)))); [lia|exact Ho1|].
      intros i s s' Hi Hs. replace (n - 1 + 1)%Z with n by lia.
      eapply bind_rel; [apply elevate_weight; [lia|lia|exact HIZ]|]. intros al al' Hal.
      eapply bind_rel; [apply get_rel; exact HP|]. intros p p' Hp.
      eapply bind_rel; [apply get_rel; exact HP|]. intros q q' Hq.
      apply set_rel; [exact Hs|]. now apply prel_step2. }
    intros o2 o2' Ho2.
    eapply bind_rel; [apply get_rel; exact HQ|]. intros y y' Hy.
    eapply bind_rel; [apply set_rel; [exact Ho2|exact Hy]|]. intros o3 o3' Ho3.
    split; [exact Ho3|exact HPer].
  Qed.

  Lemma elevate_iter_near d M k : forall j a b, 0 <= M -> growth u eta M (j + k) < Omega ->
    INR (length (bz_pts b) + k) * u <= 1 -> bz_pts b <> [] -> erel d M j a b ->
    res_rel (erel d M (j + k)) (repeat_res k bz_elevate_degree a) (repeat_res k bz_elevate_degree b).
  Proof.
    pose proof (u_pos prec) as Hup.
    induction k as [|k IH]; intros j a b HM HO Hu Hne HE; cbn [repeat_res].
    - replace (j + 0)%nat with j by lia. exact HE.
    - destruct (bezier_elevate d b Hne) as (l & E & Hl & _).
      assert (HN : res_rel (erel d M (S j)) (bz_elevate_degree a) (bz_elevate_degree b)).
      { apply elevate_near; try assumption.
        - eapply Rle_lt_trans; [|exact HO]. apply (growth_mono prec emax); [exact HM|lia].
        - eapply Rle_trans; [|exact Hu]. apply Rmult_le_compat_r; [lra|]. apply le_INR. lia. }
      rewrite E in HN |- *. destruct (bz_elevate_degree a) as [a1| | |]; try contradiction. rewrite !bind_Ok.
      replace (j + S k)%nat with (S j + k)%nat in HO |- * by lia. apply IH; try assumption.
      + cbn [bz_pts]. rewrite Hl. replace (S (length (bz_pts b)) + k)%nat with (length (bz_pts b) + S k)%nat by lia. exact Hu.
      + cbn [bz_pts]. intros Z. rewrite Z in Hl. discriminate.
  Qed.

  Lemma elevate_error d (c : bezier (vec num d)) (k n : nat) (M : R) :
    length (bz_pts c) = S n -> 0 <= M <= bpow radix2 (emax - 1) -> 24 * INR (S n + k) * u <= 1 ->
    (forall a, In a (bz_pts c) -> vfinite d a /\ forall i, (i < d)%nat -> Rabs (coord d i (vreal d a)) <= M) ->
    exists l, repeat_res k bz_elevate_degree c = Ok {| bz_pts := l; bz_periodic := bz_periodic c |} /\
      length l = (S n + k)%nat /\ (forall a, In a l -> vfinite d a) /\
      nth_error l 0 = nth_error (bz_pts c) 0 /\ nth_error l (n + k) = nth_error (bz_pts c) n /\
      forall t, 0 <= t <= 1 -> forall i, (i < d)%nat ->
        Rabs (coord d i (bernstein_curve (map (vreal d) l) t) - coord d i (bernstein_curve (map (vreal d) (bz_pts c)) t))
        <= INR k * (14 * u * M + (3 + 2 * M) * eta).
  Proof.
    intros Hlen HM Hu HP. pose proof (u_pos prec) as Hup.
    set (rp := map (vreal d) (bz_pts c)). set (c' := {| bz_pts := rp; bz_periodic := bz_periodic c |}).
    assert (Hne : bz_pts c' <> []).
    { unfold c', rp. simpl. intros Z. apply map_eq_nil in Z. rewrite Z in Hlen. discriminate. }
    assert (Hnu : 0 <= INR (S n + k) * u) by (apply Rmult_le_pos; [apply pos_INR|lra]).
    assert (Hku : 24 * INR k * u <= 1).
    { assert (INR k <= INR (S n + k)) by (apply le_INR; lia). assert (INR k * u <= INR (S n + k) * u) by (apply Rmult_le_compat_r; lra). lra. }
    assert (HO : growth u eta M (0 + k) < Omega) by (exact (growth_finite prec emax M k (proj1 HM) Hku (proj2 HM))).
    assert (HE : erel d M 0 c c').
    { pose proof (crel_bsreal prec emax d {| bs_pts := bz_pts c; bs_knots := []; bs_periodic := bz_periodic c |} M HP) as H.
      destruct H as (H & _ & _); [intros x []|]. split; [exact H|reflexivity]. }
    assert (Hl' : length (bz_pts c') = S n) by (unfold c', rp; simpl; rewrite map_length; exact Hlen).
    assert (Hlu : INR (length (bz_pts c') + k) * u <= 1) by (rewrite Hl'; set (z := INR (S n + k)) in *; clearbody z; lra).
    pose proof (elevate_iter_near d M k 0 c c' (proj1 HM) HO Hlu Hne HE) as HN.
    destruct (bezier_elevate_iter d k c' Hne) as (l' & E & Ll' & Hev). rewrite E in HN.
    destruct (repeat_res k bz_elevate_degree c) as [[l per]| | |] eqn:Ef; try contradiction.
    destruct HN as [Bl Bp]. cbn [bz_pts bz_periodic] in Bl, Bp. change (bz_periodic c') with (bz_periodic c) in Bp. subst per.
    assert (Ll : length l = (S n + k)%nat) by (rewrite (Forall2_len _ _ _ Bl), Ll', Hl'; lia).
    exists l. split; [reflexivity|]. split; [exact Ll|]. split.
    { clear - Bl. induction Bl as [|x y a b H _ IH]; intros z Hz; [contradiction|]. destruct Hz as [<-|Hz]; [|now apply IH].
      apply (vfinite_coord prec emax). intros i Hi. destruct (H i Hi) as [[F _] _]. exact F. }
    destruct (elevate_iter_ends _ _ k _ _ Ef) as [G0 G1]. cbn [bz_pts] in G0, G1.
    assert (Hget : forall (q : list (vec num d)) m, (m < length q)%nat -> exists x, nth_error q m = Some x /\ get q (Z.of_nat m) = Ok x).
    { intros q m Hm. unfold get. destruct (Z.ltb_spec (Z.of_nat m) 0); [lia|]. rewrite Nat2Z.id.
      rewrite (nth_error_nth' q p0 Hm). eexists. split; reflexivity. }
    change 0%Z with (Z.of_nat 0) in G0.
    unfold zlen in G1. rewrite Ll, Hlen in G1.
    replace (Z.of_nat (S n + k) - 1)%Z with (Z.of_nat (n + k)) in G1 by lia. replace (Z.of_nat (S n) - 1)%Z with (Z.of_nat n) in G1 by lia.
    destruct (Hget l 0%nat ltac:(lia)) as (x1 & X1 & Y1). destruct (Hget (bz_pts c) 0%nat ltac:(lia)) as (x2 & X2 & Y2).
    destruct (Hget l (n + k)%nat ltac:(lia)) as (x3 & X3 & Y3). destruct (Hget (bz_pts c) n ltac:(lia)) as (x4 & X4 & Y4).
    split; [congruence|]. split; [congruence|].
    intros t Ht i Hi. change rp with (bz_pts c'). rewrite <- Hev.
    assert (HB : forall q : list (vec R d), length q = S (n + k) ->
      coord d i (bernstein_curve q t) = rsum (S (n + k)) (fun m => bezier_basis (S (n + k)) t m * coord d i (nth m q p0))).
    { intros q Hq. unfold bernstein_curve. rewrite coord_psum by exact Hi. rewrite Hq. apply rsum_ext. intros m Hm.
      rewrite coord_mul by exact Hi. reflexivity. }
    rewrite (HB (map (vreal d) l)) by (rewrite map_length; lia). rewrite (HB l') by lia.
    apply Rle_trans with (round_err prec emax M k).
    - apply mean_err; [apply bezier_simplex; exact Ht|]. intros m Hm.
      pose proof (Forall2_nth_rel _ _ _ p0 p0 Bl m ltac:(lia) i Hi) as [(_ & _ & N3) _].
      rewrite (nth_indep _ p0 (vreal d p0)) by (rewrite map_length; lia). rewrite map_nth.
      pose proof (vreal_coord prec emax d i (nth m l p0)) as EV. rewrite EV. exact N3.
    - pose proof (growth_bound prec emax M k (proj1 HM) Hku) as GB. unfold round_err. pose proof (pos_INR k). lra.
  Qed.
End Float.

Lemma elevate_double : forall (d : nat) (c : bezier (vec double d)) (k n : nat) (M : R),
  length (bz_pts c) = S n -> 0 <= M <= bpow radix2 1023 -> 24 * INR (S n + k) * unit_roundoff 53 <= 1 ->
  (forall a, In a (bz_pts c) -> vfinite d a /\ forall i, (i < d)%nat -> Rabs (coord d i (vreal d a)) <= M) ->
  exists l : list (vec double d),
    repeat_res k (@bz_elevate_degree double (vec double d) double_ops (@vec_ops double double_ops d)) c
      = Ok {| bz_pts := l; bz_periodic := bz_periodic c |} /\
    length l = (S n + k)%nat /\ (forall a, In a l -> vfinite d a) /\
    nth_error l 0 = nth_error (bz_pts c) 0 /\ nth_error l (n + k) = nth_error (bz_pts c) n /\
    forall t, 0 <= t <= 1 -> forall i, (i < d)%nat ->
      Rabs (coord d i (bernstein_curve (map (vreal d) l) t) - coord d i (bernstein_curve (map (vreal d) (bz_pts c)) t))
      <= INR k * (14 * unit_roundoff 53 * M + (3 + 2 * M) * underflow_error 53 1024).
Proof.
  intros d c k n M Hl HM Hu HP.
  exact (@elevate_error 53 1024 prec64 max64 d c k n M Hl HM Hu HP).
Qed.

Lemma elevate_float : forall (d : nat) (c : bezier (vec float32 d)) (k n : nat) (M : R),
  length (bz_pts c) = S n -> 0 <= M <= bpow radix2 127 -> 24 * INR (S n + k) * unit_roundoff 24 <= 1 ->
  (forall a, In a (bz_pts c) -> vfinite d a /\ forall i, (i < d)%nat -> Rabs (coord d i (vreal d a)) <= M) ->
  exists l : list (vec float32 d),
    repeat_res k (@bz_elevate_degree float32 (vec float32 d) float32_ops (@vec_ops float32 float32_ops d)) c
      = Ok {| bz_pts := l; bz_periodic := bz_periodic c |} /\
    length l = (S n + k)%nat /\ (forall a, In a l -> vfinite d a) /\
    nth_error l 0 = nth_error (bz_pts c) 0 /\ nth_error l (n + k) = nth_error (bz_pts c) n /\
    forall t, 0 <= t <= 1 -> forall i, (i < d)%nat ->
      Rabs (coord d i (bernstein_curve (map (vreal d) l) t) - coord d i (bernstein_curve (map (vreal d) (bz_pts c)) t))
      <= INR k * (14 * unit_roundoff 24 * M + (3 + 2 * M) * underflow_error 24 128).
Proof.
  intros d c k n M Hl HM Hu HP.
  exact (@elevate_error 24 128 prec32 max32 d c k n M Hl HM Hu HP).
Qed.

Lemma delevate_case : let c := mk_bezier [dpt 0 1; dpt 1 3; dpt 4 (-2); dpt (1 # 3) 0] in
  length (bz_pts c) = 4%nat /\ 0 <= 4 <= bpow radix2 1023 /\ 24 * INR (4 + 3) * unit_roundoff 53 <= 1 /\
  (forall a, In a (bz_pts c) -> vfinite 2 a /\ forall i, (i < 2)%nat -> Rabs (coord 2 i (vreal 2 a)) <= 4).
Proof.
  destruct cubic_case as (H1 & H2 & H3 & H4 & _). split; [exact H1|]. split; [exact H2|]. split; [|exact H4].
  unfold unit_roundoff. rewrite INR_IZR_INZ. change (Z.of_nat (4 + 3)) with 7%Z.
  change (bpow radix2 (- (53))) with (/ IZR (2 ^ 53)). change (IZR (2 ^ 53)) with 9007199254740992. lra.
Qed.
