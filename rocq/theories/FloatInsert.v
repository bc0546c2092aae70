(** Knot insertion in floating point arithmetic. *)
From Coq Require Import Reals Lra Lia ZArith QArith List Bool Permutation.
From Flocq Require Import Core IEEE754.BinarySingleNaN.
From Verif Require Import Monad MonadFacts Scalar ScalarFacts Spec SpecFacts ModelCurve ModelBezier BezierThms
  ModelBSpline BSplineFacts BSplineThms BSplineThms2 BSplineThms3 BSplineInsert3 Transfer SpecFloat ModelFloat FloatFacts FloatThms FloatThms2 FloatCases FloatRuns
  FloatRational SpecPatch BSplineMath BSplinePatchThms BSplinePatchThms2 PatchHull FloatPatch2.
Import ListNotations.
Local Open Scope R_scope.

(** A loop whose invariant relates two runs and depends on the counter. *)
Lemma for_up_rel_at {S S'} (RS : Z -> S -> S' -> Prop) lo hi b b' s s' : (lo <= hi)%Z -> RS lo s s' ->
  (forall i s s', (lo <= i < hi)%Z -> RS i s s' -> res_rel (RS (i + 1)%Z) (b i s) (b' i s')) ->
  res_rel (RS hi) (for_up lo hi b s) (for_up lo hi b' s').
Proof.
  intros Hle H0 Hb. unfold for_up. remember (Z.to_nat (hi - lo)) as n eqn:En. revert lo s s' Hle H0 Hb En.
  induction n as [|n IH]; intros lo s s' Hle H0 Hb En; cbn [for_nat].
  - replace hi with lo by lia. exact H0.
  - eapply bind_rel; [apply Hb; [lia|exact H0]|]. intros a a' Ha. apply IH; [lia|exact Ha| |lia].
    intros i x x' Hi. apply Hb. lia.
Qed.
Lemma Forall2_mono {A B} (P Q : A -> B -> Prop) l l' : (forall a b, P a b -> Q a b) -> Forall2 P l l' -> Forall2 Q l l'.
Proof. intros H. induction 1; constructor; auto. Qed.
Lemma Forall2_nth_rel {A B} (P : A -> B -> Prop) l l' da db : Forall2 P l l' -> forall m, (m < length l)%nat -> P (nth m l da) (nth m l' db).
Proof. induction 1; intros m Hm; [simpl in Hm; lia|]. destruct m; [assumption|]. simpl. apply IHForall2. simpl in Hm. lia. Qed.
Lemma Forall2_of_nth {A B} (P : A -> B -> Prop) l l' da db : length l = length l' ->
  (forall m, (m < length l)%nat -> P (nth m l da) (nth m l' db)) -> Forall2 P l l'.
Proof.
  revert l'. induction l as [|a l IH]; intros [|b l'] Hl H; try discriminate; constructor.
  - apply (H 0%nat). simpl. lia.
  - apply IH; [now injection Hl|]. intros m Hm. apply (H (S m)). simpl. lia.
Qed.

(** The basis functions are weights at every parameter of the domain. *)
Lemma knots_simplex_all {P} (pts : list P) knots t : valid_bspline pts knots ->
  lower_of pts knots <= t <= upper_of pts knots -> simplex (length pts) (bspline_basis (length pts) knots t).
Proof.
  intros V Ht. destruct (Rlt_le_dec (lower_of pts knots) t) as [Hlt|Hle].
  { apply knots_simplex; [exact V|now right|exact Ht]. }
  assert (E : t = lower_of pts knots) by lra. destruct V as [V1 V2 V3 V4].
  unfold lower_of, upper_of, bspline_degree in *. set (p := (length knots - length pts - 1)%nat) in *.
  set (n := length pts) in *.
  assert (Hm : mono (knot_of knots) 0 (Z.of_nat n + Z.of_nat p)).
  { intros i j Hi Hij Hj. apply V3. lia. }
  destruct (run_end (knot_of knots) (Z.of_nat n) (Z.of_nat p)) as (k & Hk & E1 & E2).
  - lia.
  - intros i j Hi Hij Hj. apply Hm; lia.
  - rewrite !knot_of_nat. exact V4.
  - rewrite knot_of_nat in E1.
    assert (Hsp : in_span (knot_of knots) (knot_of knots (Z.of_nat n)) k t) by (left; rewrite knot_of_nat; lra).
    assert (En : (length knots - n - 1)%nat = p) by reflexivity.
    split; unfold bspline_basis; rewrite En.
    + intros i Hi. apply (cox_nonneg _ 0 (Z.of_nat n + Z.of_nat p) Hm _ t k ltac:(lia) ltac:(lia) Hsp); lia.
    + exact (cox_partition_all _ p n _ t k Hm Hk Hsp).
Qed.

Section Float.
  Context (prec emax : Z) {Hprec : Prec_gt_0 prec} {Hmax : Prec_lt_emax prec emax}.
  Notation num := (binary_float prec emax).
  Notation u := (unit_roundoff prec).
  Notation eta := (underflow_error prec emax).
  Notation Omega := (bpow radix2 emax).
  Local Instance FOi : ScalarOps num := ieee_ops prec emax.
  Notation frel := (frel prec emax).

  (** ** The weight *)
  Definition wrel (a : num) (a' : R) : Prop :=
    is_finite a = true /\ 0 <= B2R a <= 1 /\ 0 <= a' <= 1 /\ Rabs (B2R a - a') <= 5 * u + eta.
  Lemma insert_weight (t v0 v1 : num) :
    is_finite t = true -> is_finite v0 = true -> is_finite v1 = true ->
    Rabs (B2R v0) <= bpow radix2 (emax - 2) -> Rabs (B2R v1) <= bpow radix2 (emax - 2) ->
    B2R v0 <= B2R t <= B2R v1 -> B2R v0 < B2R v1 ->
    res_rel wrel (if slt s0 (ssub v1 v0) then ddiv (ssub t v0) (ssub v1 v0) else Ok s0)
      (if slt s0 (ssub (B2R v1) (B2R v0)) then ddiv (ssub (B2R t) (B2R v0)) (ssub (B2R v1) (B2R v0)) else Ok s0).
  Proof.
    intros Ft F0 F1 B0 B1 Ht Hlt. pose proof (u_pos prec) as Hu. pose proof (u_le_half prec) as Hu2.
    assert (Hom : (1 + u) * (B2R v1 - B2R v0) < Omega).
    { apply Rabs_le_inv in B1. apply Rabs_le_inv in B0.
      assert (HOq : Omega = 4 * bpow radix2 (emax - 2)).
      { change 4 with (bpow radix2 2). rewrite <- bpow_plus. f_equal. lia. }
      pose proof (bpow_gt_0 radix2 (emax - 2)). rewrite HOq. nra. }
    destruct (ratio_spec prec emax t v0 v1 Ft F0 F1 Ht Hlt Hom) as (Fd & Hd & Fa & Ha01 & Hae & _).
    assert (Hdp : 0 < B2R (Bminus mode_NE v1 v0)) by nra.
    assert (Ec : slt (s0 : num) (ssub v1 v0) = true).
    { cbn [slt ssub s0 FOi ieee_ops]. rewrite Bltb_correct; [|reflexivity|exact Fd]. apply Rlt_bool_true. simpl. exact Hdp. }
    assert (En : seq_ (ssub v1 v0) (s0 : num) = false).
    { cbn [seq_ ssub s0 FOi ieee_ops]. rewrite Beqb_correct; [|exact Fd|reflexivity]. apply Req_bool_false. simpl. lra. }
    rewrite Ec. unfold ddiv. rewrite En.
    assert (Ec' : slt (s0 : R) (ssub (B2R v1) (B2R v0)) = true).
    { cbn [slt ssub s0 R_ops]. destruct (Rltb_spec 0 (B2R v1 - B2R v0)); [reflexivity|lra]. }
    assert (En' : seq_ (ssub (B2R v1) (B2R v0)) (s0 : R) = false).
    { cbn [seq_ ssub s0 R_ops]. destruct (Reqb_spec (B2R v1 - B2R v0) 0); [lra|reflexivity]. }
    rewrite Ec', En'. simpl. split; [exact Fa|]. split; [exact Ha01|]. split; [|exact Hae]. split.
    - apply Rmult_le_pos; [lra|apply Rlt_le, Rinv_0_lt_compat; lra].
    - apply (Rmult_le_reg_r (B2R v1 - B2R v0)); [lra|]. unfold Rdiv. rewrite Rmult_assoc, Rinv_l by lra. lra.
  Qed.

  (** ** Points after [j] rounds *)
  Definition round_err (M : R) (j : nat) : R := growth u eta M j - M + 2 * INR j * (5 * u + eta) * M.
  Definition prel (d : nat) (M : R) (j : nat) (a : vec num d) (a' : vec R d) : Prop :=
    forall i, (i < d)%nat -> near prec emax (growth u eta M j) (round_err M j) (coord d i a) (coord d i a') /\ Rabs (coord d i a') <= M.

  Lemma round_err_mono M j j' : 0 <= M -> (j <= j')%nat -> round_err M j <= round_err M j'.
  Proof.
    intros HM Hj. unfold round_err. pose proof (growth_mono prec emax M j j' HM Hj). pose proof (u_pos prec). pose proof (eta_pos prec emax).
    assert (INR j * ((5 * u + eta) * M) <= INR j' * ((5 * u + eta) * M)).
    { apply Rmult_le_compat_r; [apply Rmult_le_pos; lra|now apply le_INR]. }
    lra.
  Qed.
  Lemma prel_mono d M j j' a a' : 0 <= M -> (j <= j')%nat -> prel d M j a a' -> prel d M j' a a'.
  Proof.
    intros HM Hj H i Hi. destruct (H i Hi) as [N B]. split; [|exact B].
    eapply near_weaken; [apply growth_mono; eassumption|apply round_err_mono; eassumption|exact N].
  Qed.
  Lemma prel_zero d M j : 0 <= M -> prel d M j p0 p0.
  Proof.
    intros HM i Hi. assert (Hz : is_finite (coord d i (p0 : vec num d)) = true /\ B2R (coord d i (p0 : vec num d)) = 0).
    { clear - Hi. revert i Hi. induction d as [|d IH]; intros i Hi; [lia|]. destruct i; [split; reflexivity|]. apply (IH i). lia. }
    destruct Hz as [F E]. rewrite coord_0 by exact Hi. rewrite Rabs_R0. split; [|exact HM].
    pose proof (growth_mono prec emax M 0 j HM ltac:(lia)) as G. rewrite growth_0 in G.
    split; [exact F|]. rewrite E. rewrite Rminus_0_r, Rabs_R0. split; [lra|].
    pose proof (round_err_mono M 0 j HM ltac:(lia)) as G2. unfold round_err at 1 in G2. rewrite growth_0 in G2. simpl INR in G2. lra.
  Qed.
  Lemma prel_step d M j (al : num) al' a a' b b' : 0 <= M -> growth u eta M (S j) < Omega ->
    wrel al al' -> prel d M j a a' -> prel d M j b b' ->
    prel d M (S j) (padd (pmul al a) (pmul (ssub s1 al) b)) (padd (pmul al' a') (pmul (ssub s1 al') b')).
  Proof.
    intros HM HO (Fa & Ha01 & Ha' & Hae) HA HB i Hi.
    destruct (HA i Hi) as [I1 J1]. destruct (HB i Hi) as [I2 J2].
    rewrite gcoord_add, !gcoord_mul by exact Hi. rewrite coord_add, !coord_mul by exact Hi.
    change (ssub s1 al') with (1 - al').
    set (x' := coord d i a') in *. set (y' := coord d i b') in *.
    pose proof (u_pos prec) as Hu. pose proof (eta_pos prec emax) as Het.
    split.
    2:{ eapply Rle_trans; [apply Rabs_triang|]. rewrite !Rabs_mult, (Rabs_pos_eq al'), (Rabs_pos_eq (1 - al')) by lra.
        replace M with (al' * M + (1 - al') * M) by ring.
        apply Rplus_le_compat; apply Rmult_le_compat_l; lra. }
    destruct (one_minus_spec prec emax al Fa Ha01) as (Fs & _ & _ & Es).
    pose proof (growth_S prec emax M j HM) as HG.
    pose proof (near_lerp prec emax al (Bminus mode_NE (bofZ prec emax 1) al) _ _ (B2R al) (1 - B2R al) _ _ _ _
      Fa Fs ltac:(lra) ltac:(lra) ltac:(lra) (finite_B2R_err0 prec emax al ltac:(lra)) Es I1 I2 ltac:(lra)) as HN.
    destruct HN as (N1 & N2 & N3). split; [exact N1|]. split; [eapply Rle_trans; [exact N2|exact HG]|].
    match goal with |- Rabs (?z - _) <= _ => replace (z - (al' * x' + (1 - al') * y')) with
      ((z - (B2R al * x' + (1 - B2R al) * y')) + (B2R al - al') * (x' - y')) by ring end.
    eapply Rle_trans; [apply Rabs_triang|]. rewrite (Rabs_mult (B2R al - al')).
    assert (Hxy : Rabs (x' - y') <= 2 * M).
    { apply Rabs_le_inv in J1. apply Rabs_le_inv in J2. apply Rabs_le. lra. }
    assert (Rabs (B2R al - al') * Rabs (x' - y') <= (5 * u + eta) * (2 * M)) by (apply Rmult_le_compat; auto using Rabs_pos).
    eapply Rle_trans; [apply Rplus_le_compat; [exact N3|eassumption]|].
    unfold round_err. rewrite S_INR. lra.
  Qed.

  (** ** The rounds *)
  Definition lrel (d : nat) (M : R) (j : nat) (i : Z) (l : list (vec num d)) (l' : list (vec R d)) : Prop :=
    length l = length l' /\ forall m, (m < length l)%nat ->
      if (Z.of_nat m <? i)%Z then prel d M (S j) (nth m l p0) (nth m l' p0) else prel d M j (nth m l p0) (nth m l' p0).

  Lemma lrel_start d M j l l' : Forall2 (prel d M j) l l' -> lrel d M j 0 l l'.
  Proof.
    intros H. split; [now apply (Forall2_len _ _ _ H)|]. intros m Hm. destruct (Z.ltb_spec (Z.of_nat m) 0); [lia|].
    now apply Forall2_nth_rel.
  Qed.
  Lemma lrel_end d M j i l l' : 0 <= M -> lrel d M j i l l' -> Forall2 (prel d M (S j)) l l'.
  Proof.
    intros HM [Hl H]. apply (Forall2_of_nth _ l l' p0 p0 Hl). intros m Hm. specialize (H m Hm).
    destruct (_ <? _)%Z; [exact H|]. eapply prel_mono; [exact HM| |exact H]. lia.
  Qed.
  Lemma lrel_set d M j i l l' v v' : (0 <= i < zlen l)%Z -> lrel d M j i l l' -> prel d M (S j) v v' ->
    res_rel (lrel d M j (i + 1)) (set l i v) (set l' i v').
  Proof.
    intros Hi [Hl H] Hv. assert (E : zlen l' = zlen l) by (unfold zlen; lia). unfold set. rewrite E.
    destruct ((0 <=? i)%Z && (i <? zlen l)%Z) eqn:Eb; [|exact I].
    assert (HN : forall A (x : list A) n (w d0 : A) m, (n < length x)%nat -> nth m (upd_nat x n w) d0 = if Nat.eqb m n then w else nth m x d0).
    { clear. intros A x. induction x as [|y x IH]; intros n w d0 m Hn; [simpl in Hn; lia|]. destruct n, m; simpl; try reflexivity.
      apply IH. simpl in Hn. lia. }
    assert (HL : forall A (x : list A) n (w : A), length (upd_nat x n w) = length x).
    { clear. intros A x. induction x; intros [|n] w; simpl; auto. }
    simpl. split; [rewrite !HL; exact Hl|]. rewrite HL. intros m Hm. unfold zlen in *. rewrite !HN by lia.
    destruct (Nat.eqb_spec m (Z.to_nat i)) as [->|Hne].
    - destruct (Z.ltb_spec (Z.of_nat (Z.to_nat i)) (i + 1)); [exact Hv|lia].
    - specialize (H m Hm). destruct (Z.ltb_spec (Z.of_nat m) i); destruct (Z.ltb_spec (Z.of_nat m) (i + 1)); try lia; exact H.
  Qed.

  Lemma rounds_rel d (base : nat) (knots : list num) (t : num) p k s r M Rw Rw' ctrl ctrl' :
    0 <= M -> growth u eta M (base + Z.to_nat r) < Omega ->
    (0 <= s)%Z -> (1 <= r)%Z -> (r + s <= p)%Z -> (p <= k)%Z -> (k + p < zlen knots)%Z ->
    is_finite t = true -> (forall x, In x knots -> is_finite x = true /\ Rabs (B2R x) <= bpow radix2 (emax - 2)) ->
    (forall a b, (0 <= a <= k)%Z -> (k + 1 <= b < zlen knots)%Z ->
       B2R (nth (Z.to_nat a) knots s0) <= B2R t <= B2R (nth (Z.to_nat b) knots s0) /\
       B2R (nth (Z.to_nat a) knots s0) < B2R (nth (Z.to_nat b) knots s0)) ->
    zlen Rw = (p - s + 1)%Z -> Forall2 (prel d M base) Rw Rw' -> Forall2 (prel d M (base + Z.to_nat r)) ctrl ctrl' ->
    res_rel (prodrel (Forall2 (prel d M (base + Z.to_nat r))) (Forall2 (prel d M (base + Z.to_nat r))))
      (insert_rounds knots t p k s r Rw ctrl) (insert_rounds (map B2R knots) (B2R t) p k s r Rw' ctrl').
  Proof.
    intros HM HO Hs Hr Hrs Hpk Hkp Ft HK HS HL HR HC.
    unfold insert_rounds.
    pose (RS := fun (j : Z) (x : list (vec num d) * list (vec num d)) (x' : list (vec R d) * list (vec R d)) =>
      zlen (fst x) = (p - s + 1)%Z /\
      Forall2 (prel d M (base + Z.to_nat (j - 1))) (fst x) (fst x') /\ Forall2 (prel d M (base + Z.to_nat r)) (snd x) (snd x')).
    match goal with |- res_rel _ ?a ?b => assert (HH : res_rel (RS (r + 1)%Z) a b) end.
    2:{ match type of HH with res_rel _ ?a ?b => destruct a as [x| | |]; destruct b as [y| | |]; try exact HH end.
        destruct HH as (_ & H1 & H2). split; [|exact H2]. replace (r + 1 - 1)%Z with r in H1 by lia. exact H1. }
    apply (for_up_rel_at RS); [lia|split; [exact HL|split; [cbn [fst]; replace (base + Z.to_nat (1 - 1))%nat with base by lia; exact HR|exact HC]]|].
    intros j [X C] [X' C'] Hj (HX1 & HX & HCC). cbn [fst snd] in HX1, HX, HCC.
    set (j0 := (base + Z.to_nat (j - 1))%nat) in *.
    assert (HOj : growth u eta M (S j0) < Omega).
    { eapply Rle_lt_trans; [|exact HO]. apply growth_mono; [exact HM|unfold j0; lia]. }
    assert (Zm : zlen (map B2R knots) = zlen knots) by (unfold zlen; now rewrite map_length).
    apply (bind_rel (fun x x' => zlen x = (p - s + 1)%Z /\ Forall2 (prel d M (S j0)) x x')).
    - set (RI := fun (i : Z) (x : list (vec num d)) (x' : list (vec R d)) => zlen x = (p - s + 1)%Z /\ lrel d M j0 i x x').
      match goal with |- res_rel _ ?a ?b => assert (HH : res_rel (RI (p - j - s + 1)%Z) a b) end.
      2:{ match type of HH with res_rel _ ?a ?b => destruct a as [x| | |]; destruct b as [y| | |]; try exact HH end.
          destruct HH as [H1 H2]. split; [exact H1|]. eapply lrel_end; eassumption. }
      apply (for_up_rel_at RI); [lia|split; [exact HX1|now apply lrel_start]|].
      intros i x x' Hi [Hx1 Hx].
      rewrite (get_nth knots _ s0) by lia. rewrite (get_nth (map B2R knots) _ (B2R (s0 : num))) by (rewrite Zm; lia).
      rewrite !bind_Ok. rewrite (get_nth knots _ s0) by lia. rewrite (get_nth (map B2R knots) _ (B2R (s0 : num))) by (rewrite Zm; lia).
      rewrite !bind_Ok, !map_nth. cbv zeta.
      destruct (HS (k - p + j + i)%Z (i + k + 1)%Z ltac:(lia) ltac:(lia)) as [S1 S2].
      assert (K1 : In (nth (Z.to_nat (i + k + 1)) knots s0) knots) by (apply nth_In; unfold zlen in *; lia).
      assert (K0 : In (nth (Z.to_nat (k - p + j + i)) knots s0) knots) by (apply nth_In; unfold zlen in *; lia).
      apply HK in K1, K0. destruct K1 as [F1 B1], K0 as [F0 B0].
      eapply bind_rel; [apply insert_weight; assumption|]. intros al al' Hal.
      destruct Hx as [Hxl Hx]. assert (Zx : zlen x' = zlen x) by (unfold zlen; lia).
      rewrite (get_nth x _ p0) by lia. rewrite (get_nth x' _ p0) by lia. rewrite !bind_Ok.
      rewrite (get_nth x _ p0) by lia. rewrite (get_nth x' _ p0) by lia. rewrite !bind_Ok.
      assert (G1 := Hx (Z.to_nat (i + 1)) ltac:(unfold zlen in *; lia)). assert (G0 := Hx (Z.to_nat i) ltac:(unfold zlen in *; lia)).
      destruct (Z.ltb_spec (Z.of_nat (Z.to_nat (i + 1))) i) in G1; [lia|]. destruct (Z.ltb_spec (Z.of_nat (Z.to_nat i)) i) in G0; [lia|].
      match goal with |- res_rel _ (set _ _ ?v) (set _ _ ?v') =>
        assert (HV : prel d M (S j0) v v') by (apply prel_step; assumption);
        pose proof (lrel_set d M j0 i x x' v v' ltac:(lia) (conj Hxl Hx) HV) as HSet;
        assert (HLen : forall y, set x i v = Ok y -> zlen y = zlen x)
      end.
      { intros y Ey. unfold set in Ey. destruct (_ && _) in Ey; [|discriminate]. injection Ey as <-. unfold zlen. f_equal.
        match goal with |- length (upd_nat _ _ ?v) = _ => generalize v as w end.
        clear. generalize (Z.to_nat i) as m. induction x; intros [|m] w; simpl; auto. }
      match goal with |- res_rel _ ?a ?b => destruct a as [y| | |] eqn:Ey; destruct b as [y'| | |]; try exact HSet end.
      split; [rewrite (HLen y eq_refl); exact Hx1|exact HSet].
    - intros x x' [Hx1 Hx].
      assert (Hxr : Forall2 (prel d M (base + Z.to_nat r)) x x').
      { eapply Forall2_mono; [|exact Hx]. intros a b. apply prel_mono; [exact HM|unfold j0; lia]. }
      eapply bind_rel; [apply get_rel; exact Hxr|]. intros a a' Ha.
      eapply bind_rel; [apply set_rel; [exact HCC|exact Ha]|]. intros c c' Hc.
      eapply bind_rel; [apply get_rel; exact Hxr|]. intros b b' Hb.
      eapply bind_rel; [apply set_rel; [exact Hc|exact Hb]|]. intros e e' He.
      simpl. split; [exact Hx1|]. cbn [fst snd]. split; [|exact He].
      replace (base + Z.to_nat (j + 1 - 1))%nat with (S j0) by (unfold j0; lia). exact Hx.
  Qed.

  (** ** What compares only *)
  Lemma fmultiplicity {d} (c : bspline num (vec num d)) (c' : bspline R (vec R d)) k :
    Forall2 frel (bs_knots c) (bs_knots c') ->
    res_rel (fun a b => a = b /\ (0 <= a)%Z) (get_multiplicity c k) (get_multiplicity c' k).
  Proof.
    intros H. unfold get_multiplicity.
    rewrite <- (Forall2_zlen _ _ _ H). cbv zeta.
    set (N := fun a b : Z => a = b /\ (0 <= a)%Z).
    assert (HB : forall i s s', N s s' -> res_rel (sumrel N N)
      (do a <- get (bs_knots c) i; do b <- get (bs_knots c) k; if seq_ a b then Ok (inl (s + 1)%Z) else Ok (inr s))
      (do a <- get (bs_knots c') i; do b <- get (bs_knots c') k; if seq_ a b then Ok (inl (s' + 1)%Z) else Ok (inr s'))).
    { intros i s s' [<- Hs]. eapply bind_rel; [apply get_rel; exact H|]. intros a a' Ha.
      eapply bind_rel; [apply get_rel; exact H|]. intros b b' Hb. rewrite (frel_eq prec emax a b a' b' Ha Hb).
      destruct (seq_ a' b'); split; lia. }
    assert (N1 : N 1%Z 1%Z) by (split; lia).
    apply (bind_rel (sumrel N N)).
    - apply forb_up_rel; [|exact N1]. intros i s s' Hs. now apply HB.
    - intros [x|x] [y|y] E; simpl in E; try contradiction;
        (apply (bind_rel (sumrel N N)); [apply forb_up_rel; [|exact E]; intros i s s' Hs; now apply HB|]);
        intros [v|v] [w|w] E'; simpl in E'; try contradiction; exact E'.
  Qed.

  Lemma flocate {d} (c : bspline num (vec num d)) (c' : bspline R (vec R d)) (t : num) :
    Forall2 frel (bs_knots c) (bs_knots c') -> length (bs_pts c) = length (bs_pts c') -> is_finite t = true ->
    res_rel eq (locate_span c t) (locate_span c' (B2R t)).
  Proof.
    intros HK Hl Ft.
    assert (E : locate_span c' (B2R t) = locate_span (bsreal prec emax c) (B2R t)).
    { assert (EK : bs_knots (bsreal prec emax c) = bs_knots c').
      { cbn [bsreal bs_knots]. clear - HK. induction HK as [|x y l l' [_ H] _ IH]; [reflexivity|]. simpl. now rewrite IH, H. }
      assert (EP : zlen (bs_pts (bsreal prec emax c)) = zlen (bs_pts c')).
      { cbn [bsreal bs_pts]. unfold zlen. rewrite map_length. now rewrite Hl. }
      unfold locate_span, bs_degree. rewrite EK, EP. reflexivity. }
    rewrite E. apply (flocate_span prec emax); [|exact Ft].
    clear - HK. induction HK as [|x y l l' [F _] _ IH]; intros z Hz; [contradiction|]. destruct Hz as [<-|Hz]; [exact F|now apply IH].
  Qed.

  Definition eps_ok : Prop := is_finite (seps : num) = true /\ 0 <= B2R (seps : num) <= 1.
  Lemma fdomain (t a b : num) : eps_ok -> (2 <= emax)%Z -> is_finite t = true -> is_finite a = true -> is_finite b = true ->
    Rabs (B2R a) <= bpow radix2 (emax - 2) -> Rabs (B2R b) <= bpow radix2 (emax - 2) -> B2R a <= B2R t <= B2R b ->
    sle (ssub a seps) t && sle t (sadd b seps) = true.
  Proof.
    intros [Fe He] Hem Ft Fa Fb Ba Bb Ht. pose proof (u_pos prec) as Hu. pose proof (u_le_half prec) as Hu2.
    set (W := bpow radix2 (emax - 2)) in *.
    assert (HO : Omega = 4 * W).
    { unfold W. change 4 with (bpow radix2 2). rewrite <- bpow_plus. f_equal. lia. }
    assert (HW : 1 <= W) by (unfold W; change 1 with (bpow radix2 0); apply bpow_le; lia).
    apply Rabs_le_inv in Ba. apply Rabs_le_inv in Bb.
    assert (Hs : forall x, Rabs x <= 2 * W -> (1 + u) * Rabs x < Omega).
    { intros x Hx. pose proof (Rabs_pos x). assert (u * Rabs x <= / 2 * (2 * W)) by (apply Rmult_le_compat; lra). lra. }
    destruct (sub_spec prec emax a seps Fa Fe) as (F1 & E1 & _); [apply Hs, Rabs_le; lra|].
    destruct (add_spec prec emax b seps Fb Fe) as (F2 & E2 & _); [apply Hs, Rabs_le; lra|].
    apply andb_true_iff. cbn [sle ssub sadd FOi ieee_ops]. rewrite !Bleb_correct by assumption. split; apply Rle_bool_true.
    - rewrite E1. apply Rle_trans with (B2R a); [|lra]. rewrite <- (fl_id prec emax (B2R a) (fmt prec emax a)) at 2.
      apply (fl_le prec emax). lra.
    - rewrite E2. apply Rle_trans with (B2R b); [lra|]. rewrite <- (fl_id prec emax (B2R b) (fmt prec emax b)) at 1.
      apply (fl_le prec emax). lra.
  Qed.

  (** ** The whole function *)
  Definition krel (x : num) (r : R) : Prop := frel x r /\ Rabs (B2R x) <= bpow radix2 (emax - 2).
  Definition crel (d : nat) (M : R) (r : nat) (a : bspline num (vec num d)) (b : bspline R (vec R d)) : Prop :=
    Forall2 (prel d M r) (bs_pts a) (bs_pts b) /\ Forall2 krel (bs_knots a) (bs_knots b) /\ bs_periodic a = bs_periodic b.

  Lemma krel_frel l l' : Forall2 krel l l' -> Forall2 frel l l'.
  Proof. apply Forall2_mono. intros a b [H _]. exact H. Qed.

  Lemma insert_near d (base : nat) (c : bspline num (vec num d)) (c' : bspline R (vec R d)) (t : num) (r : nat) M :
    let p := bspline_degree (bs_pts c') (bs_knots c') in
    eps_ok -> (2 <= emax)%Z -> valid_bspline (bs_pts c') (bs_knots c') -> crel d M base c c' ->
    0 <= M -> growth u eta M (base + r) < Omega ->
    is_finite t = true -> lower_of (bs_pts c') (bs_knots c') <= B2R t <= upper_of (bs_pts c') (bs_knots c') ->
    (nth p (bs_knots c') 0 < nth (p + 1) (bs_knots c') 0 \/ lower_of (bs_pts c') (bs_knots c') < B2R t) -> (1 <= r)%nat ->
    res_rel (crel d M (base + r)) (bs_insert_knot c t (Z.of_nat r)) (bs_insert_knot c' (B2R t) (Z.of_nat r)).
  Proof.
    intros p He Hem Hv' (RP & RK & RPer) HM HO Ft Ht Hs Hr.
    destruct (bspline_locate c' (B2R t) Hv') as (k & Ek & Hk & _ & Hkt).
    assert (En' : length (bs_pts c') = length (bs_pts c)) by (symmetry; exact (Forall2_len _ _ _ RP)).
    assert (El' : length (bs_knots c') = length (bs_knots c)) by (symmetry; exact (Forall2_len _ _ _ RK)).
    fold p in Hk, Hkt. rewrite En' in Hk, Hkt.
    pose proof (vb_len _ _ Hv') as HL. pose proof (vb_sorted _ _ Hv') as Hsort.
    assert (HN : length (bs_knots c) = (length (bs_pts c) + p + 1)%nat).
    { unfold p, bspline_degree. rewrite El', En'. rewrite El', En' in HL. lia. }
    assert (HKn : Forall2 frel (bs_knots c) (bs_knots c')) by now apply krel_frel.
    assert (HK : forall x, In x (bs_knots c) -> is_finite x = true /\ Rabs (B2R x) <= bpow radix2 (emax - 2)).
    { clear - RK. induction RK as [|x y l l' [[F _] B] _ IH]; intros z Hz; [contradiction|]. destruct Hz as [<-|Hz]; [now split|now apply IH]. }
    unfold lower_of, upper_of in Ht, Hs. fold p in Ht, Hs. rewrite En' in Ht.
    assert (Hkk : nth k (bs_knots c') 0 < nth (k + 1) (bs_knots c') 0 /\ nth k (bs_knots c') 0 <= B2R t <= nth (k + 1) (bs_knots c') 0).
    { destruct (Hkt Hs (proj1 Ht)) as (A & B & _). split; [exact A|apply B, Ht]. }
    assert (Ekf : locate_span c t = Ok (Z.of_nat k)).
    { pose proof (flocate c c' t HKn (eq_sym En') Ft) as HR. rewrite Ek in HR.
      destruct (locate_span c t); simpl in HR; try contradiction. now subst. }
    assert (HPt : Forall2 (prel d M (base + r)) (bs_pts c) (bs_pts c')).
    { eapply Forall2_mono; [|exact RP]. intros a b. apply prel_mono; [exact HM|lia]. }
    assert (Hknots : map B2R (bs_knots c) = bs_knots c').
    { clear - HKn. induction HKn as [|x y l l' [_ H] _ IH]; [reflexivity|]. simpl. now rewrite IH, H. }
    assert (Hdeg : bs_degree c' = bs_degree c).
    { unfold bs_degree, zlen. now rewrite En', El'. }
    assert (HdegZ : bs_degree c = Z.of_nat p).
    { unfold bs_degree, zlen. lia. }
    assert (Znk : zlen (bs_knots c') = zlen (bs_knots c)) by (unfold zlen; lia).
    assert (Znp : zlen (bs_pts c') = zlen (bs_pts c)) by (unfold zlen; lia).
    assert (Znk2 : zlen (bs_knots c) = Z.of_nat (length (bs_pts c) + p + 1)) by (unfold zlen; lia).
    assert (Hnth : forall i, nth i (bs_knots c') 0 = B2R (nth i (bs_knots c) s0)).
    { intros i. rewrite <- Hknots. change 0 with (B2R (s0 : num)). apply map_nth. }
    assert (HD : bs_in_domain c t = Ok true).
    { unfold bs_in_domain. rewrite HdegZ. rewrite (get_nth _ _ s0) by lia. rewrite bind_Ok.
      rewrite (get_nth _ _ s0) by lia. rewrite bind_Ok. f_equal.
      assert (I1 : In (nth (Z.to_nat (Z.of_nat p)) (bs_knots c) s0) (bs_knots c)) by (apply nth_In; lia).
      assert (I2 : In (nth (Z.to_nat (zlen (bs_knots c) - Z.of_nat p - 1)) (bs_knots c) s0) (bs_knots c)) by (apply nth_In; lia).
      apply HK in I1, I2. destruct I1 as [F1 B1], I2 as [F2 B2]. apply fdomain; try assumption.
      rewrite <- !Hnth. rewrite Nat2Z.id. replace (Z.to_nat (zlen (bs_knots c) - Z.of_nat p - 1)) with (length (bs_pts c)) by lia.
      exact Ht. }
    assert (HD' : bs_in_domain c' (B2R t) = Ok true).
    { unfold bs_in_domain. rewrite Hdeg, HdegZ, Znk. rewrite (get_nth _ _ 0) by lia. rewrite bind_Ok.
      rewrite (get_nth _ _ 0) by lia. rewrite bind_Ok. f_equal.
      rewrite Nat2Z.id. replace (Z.to_nat (zlen (bs_knots c) - Z.of_nat p - 1)) with (length (bs_pts c)) by lia.
      pose proof seps_pos as Hsp. generalize dependent (seps : R). intros sp Hsp. cbn [sle ssub sadd R_ops].
      apply andb_true_iff. split.
      - destruct (Rleb_spec (nth p (bs_knots c') 0 - sp) (B2R t)) as [|Hc]; [reflexivity|]. lra.
      - destruct (Rleb_spec (B2R t) (nth (length (bs_pts c)) (bs_knots c') 0 + sp)) as [|Hc]; [reflexivity|]. lra. }
    unfold bs_insert_knot. rewrite HD, HD', !bind_Ok. unfold bs_validate. rewrite Hdeg, HdegZ.
    eapply bind_rel; [apply assert_rel|]. intros _ _ _.
    eapply bind_rel; [apply assert_rel|]. intros _ _ _.
    apply (bind_rel eq); [destruct (_ <? _)%Z; reflexivity|]. intros _ _ _. cbv zeta.
    rewrite Ekf, Ek, !bind_Ok, Znk, Znp.
    eapply bind_rel; [apply get_rel; exact RK|]. intros uk uk' Huk.
    assert (Htr : krel t (B2R t)).
    { split; [now split|].
      assert (I1 : In (nth p (bs_knots c) s0) (bs_knots c)) by (apply nth_In; lia).
      assert (I2 : In (nth (length (bs_pts c)) (bs_knots c) s0) (bs_knots c)) by (apply nth_In; lia).
      apply HK in I1, I2. destruct I1 as [_ B1], I2 as [_ B2]. rewrite <- Hnth in B1, B2.
      apply Rabs_le_inv in B1. apply Rabs_le_inv in B2. apply Rabs_le. lra. }
    apply (bind_rel (fun a b => a = b /\ (0 <= a)%Z)).
    { pose proof (frel_eq prec emax t uk (B2R t) uk' (proj1 Htr) (proj1 Huk)) as Eq. change (@FO2 prec emax Hprec Hmax) with FOi in Eq. rewrite Eq.
      destruct (seq_ (B2R t) uk'); [|split; lia]. now apply fmultiplicity. }
    intros s ? [<- Hs0].
    destruct (Z.leb_spec (Z.of_nat p) (Z.of_nat k)); [|exact I]. cbn [assert_]. rewrite !bind_Ok.
    destruct (Z.leb_spec (Z.of_nat r + s) (Z.of_nat p)) as [Hrs|]; [|exact I]. cbn [assert_]. rewrite !bind_Ok.
    eapply bind_rel; [apply (alloc_rel krel); repeat split; simpl; rewrite Rabs_R0; apply bpow_ge_0|]. intros kn kn' Hkn.
    eapply bind_rel; [apply block_rel; exact RK|]. intros x1 x1' Hx1.
    eapply bind_rel; [apply blit_rel; eassumption|]. intros kn1 kn1' Hkn1.
    eapply bind_rel; [apply (alloc_rel krel); exact Htr|]. intros x2 x2' Hx2.
    eapply bind_rel; [apply blit_rel; eassumption|]. intros kn2 kn2' Hkn2.
    eapply bind_rel; [apply block_rel; exact RK|]. intros x3 x3' Hx3.
    eapply bind_rel; [apply blit_rel; eassumption|]. intros kn3 kn3' Hkn3.
    eapply bind_rel; [apply get_rel; exact RK|]. intros x4 x4' Hx4.
    eapply bind_rel; [apply set_rel; eassumption|]. intros kn4 kn4' Hkn4.
    eapply bind_rel; [apply (alloc_rel (prel d M (base + r))); now apply prel_zero|]. intros cn cn' Hcn.
    eapply bind_rel; [apply assert_rel|]. intros _ _ _.
    apply (bind_rel (Forall2 (prel d M (base + r)))).
    { destruct (_ <? _)%Z; [|exact Hcn]. eapply bind_rel; [apply topRows_rel; apply HPt|]. intros. apply blit_rel; eassumption. }
    intros cn1 cn1' Hcn1.
    eapply bind_rel; [apply assert_rel|]. intros _ _ _.
    apply (bind_rel (Forall2 (prel d M (base + r)))).
    { destruct (_ <? _)%Z; [|exact Hcn1]. eapply bind_rel; [apply bottomRows_rel; apply HPt|]. intros.
      rewrite <- (Forall2_zlen _ _ _ Hcn1). apply blit_rel; eassumption. }
    intros cn2 cn2' Hcn2.
    apply (bind_rel (fun a b => zlen a = (Z.of_nat p - s + 1)%Z /\ Forall2 (prel d M base) a b)).
    { pose proof (block_rel (prel d M base) _ _ (Z.of_nat k - Z.of_nat p) (Z.of_nat p - s + 1) RP) as HBl.
      destruct (block (bs_pts c) (Z.of_nat k - Z.of_nat p) (Z.of_nat p - s + 1)) as [b| | |] eqn:Eb;
        destruct (block (bs_pts c') _ _) as [b'| | |]; try exact HBl.
      split; [|exact HBl]. unfold block in Eb. destruct (_ && _) eqn:Ebb in Eb; [|discriminate]. injection Eb as <-.
      apply andb_true_iff in Ebb. destruct Ebb as [Ebb E3]. apply Z.leb_le in E3. unfold zlen in *.
      rewrite firstn_length, skipn_length. lia. }
    intros Rw Rw' [HRl HRw].
    eapply bind_rel.
    { rewrite <- Hknots.
      apply (rounds_rel d base (bs_knots c) t (Z.of_nat p) (Z.of_nat k) s (Z.of_nat r) M Rw Rw' cn2 cn2'); rewrite ?Nat2Z.id; try assumption; try lia.
      intros a b Ha Hb. rewrite <- !Hnth.
      assert (nth (Z.to_nat a) (bs_knots c') 0 <= nth k (bs_knots c') 0) by (apply Hsort; lia).
      assert (nth (k + 1) (bs_knots c') 0 <= nth (Z.to_nat b) (bs_knots c') 0) by (apply Hsort; lia).
      lra. }
    rewrite Nat2Z.id. intros [Q1 C1] [Q2 C2] [HQ HC]. cbn [fst snd] in HQ, HC.
    apply (bind_rel (Forall2 (prel d M (base + r)))).
    { apply for_up_rel; [|exact HC]. intros i a a' Haa. eapply bind_rel; [apply get_rel; exact HQ|]. intros. now apply set_rel. }
    intros e e' Hee. split; [exact Hee|]. split; [exact Hkn4|exact RPer].
  Qed.

  Lemma crel_bsreal d (c : bspline num (vec num d)) M :
    (forall a, In a (bs_pts c) -> vfinite d a /\ forall i, (i < d)%nat -> Rabs (coord d i (vreal d a)) <= M) ->
    (forall x, In x (bs_knots c) -> is_finite x = true /\ Rabs (B2R x) <= bpow radix2 (emax - 2)) ->
    crel d M 0 c (bsreal prec emax c).
  Proof.
    intros HP HK. set (c' := bsreal prec emax c).
    split; [|split; [|reflexivity]].
      - change (bs_pts c') with (map (vreal d) (bs_pts c)). clear - HP. induction (bs_pts c) as [|x l IH]; [constructor|]. constructor.
        + intros i Hi. destruct (HP x (or_introl eq_refl)) as [F B]. specialize (B i Hi).
          pose proof (vreal_coord prec emax d i x) as EV. rewrite EV. rewrite EV in B.
          split; [|exact B]. split; [now apply (vfinite_coord prec emax)|]. unfold round_err. rewrite growth_0. split; [exact B|].
          simpl INR. rewrite Rminus_eq_0, Rabs_R0. lra.
        + apply IH. intros a Hin. apply HP. now right.
      - change (bs_knots c') with (map B2R (bs_knots c)). clear - HK. induction (bs_knots c) as [|x l IH]; [constructor|]. constructor.
        + destruct (HK x (or_introl eq_refl)) as [F B]. now repeat split.
        + apply IH. intros y Hy. apply HK. now right.
  Qed.

  Lemma insert_error d (c : bspline num (vec num d)) (t : num) (r : nat) (M : R) :
    let knots := map B2R (bs_knots c) in
    let rp := map (vreal d) (bs_pts c) in
    let p := bspline_degree rp knots in
    eps_ok -> (2 <= emax)%Z -> valid_bspline rp knots -> knots_apart (/ IZR (10 ^ 16)) knots ->
    (forall x, In x (bs_knots c) -> is_finite x = true /\ Rabs (B2R x) <= bpow radix2 (emax - 2)) ->
    0 <= M <= bpow radix2 (emax - 1) -> 24 * INR p * u <= 1 ->
    (forall a, In a (bs_pts c) -> vfinite d a /\ forall i, (i < d)%nat -> Rabs (coord d i (vreal d a)) <= M) ->
    is_finite t = true -> lower_of rp knots <= B2R t <= upper_of rp knots ->
    (forall x, In x knots -> x = B2R t \/ / IZR (10 ^ 16) < Rabs (x - B2R t)) ->
    regular_start rp knots -> (nth p knots 0 < nth (p + 1) knots 0 \/ lower_of rp knots < B2R t) ->
    (1 <= r)%nat -> (r + count_occ Req_EM_T knots (B2R t) <= p)%nat ->
    exists c1 : bspline num (vec num d),
      let knots1 := map B2R (bs_knots c1) in
      let rp1 := map (vreal d) (bs_pts c1) in
      bs_insert_knot c t (Z.of_nat r) = Ok c1 /\ bs_periodic c1 = bs_periodic c /\
      valid_bspline rp1 knots1 /\ bspline_degree rp1 knots1 = p /\
      (forall x, In x (bs_knots c1) -> is_finite x = true) /\ (forall a, In a (bs_pts c1) -> vfinite d a) /\
      Permutation knots1 (repeat (B2R t) r ++ knots) /\
      lower_of rp1 knots1 = lower_of rp knots /\ upper_of rp1 knots1 = upper_of rp knots /\
      forall x, lower_of rp knots <= x <= upper_of rp knots ->
        forall i, (i < d)%nat ->
          Rabs (coord d i (bspline_curve rp1 knots1 x) - coord d i (bspline_curve rp knots x))
          <= INR r * (14 * u * M + (3 + 2 * M) * eta).
  Proof.
    intros knots rp p He Hem Hv Ha HK HM Hu HP Ft Ht Hta Hrs Hs Hr Hrc.
    set (c' := bsreal prec emax c).
    destruct (bspline_insert_full d c' (B2R t) r Hv Ha Hrs Ht Hta Hs Hr Hrc)
      as (c1' & E1 & E2 & V1 & D1 & P1 & L1 & U1 & _ & A1 & S1 & N1 & _).
    change (bs_pts c') with rp in *. change (bs_knots c') with knots in *.
    assert (Hru : 24 * INR r * u <= 1).
    { pose proof (u_pos prec). assert (INR r <= INR p) by (apply le_INR; fold p in Hrc; lia).
      assert (INR r * u <= INR p * u) by (apply Rmult_le_compat_r; lra). lra. }
    assert (HO : growth u eta M r < Omega) by (exact (growth_finite prec emax M r (proj1 HM) Hru (proj2 HM))).
    pose proof (crel_bsreal d c M HP HK) as RC. fold c' in RC.
    pose proof (insert_near d 0 c c' t r M He Hem Hv RC (proj1 HM) HO Ft Ht Hs Hr) as HI'.
    rewrite E1 in HI'. destruct (bs_insert_knot c t (Z.of_nat r)) as [c1| | |] eqn:Ef; try contradiction.
    destruct HI' as (RP & RK & RPer). exists c1. intros knots1 rp1.
    assert (EK : knots1 = bs_knots c1').
    { unfold knots1. clear - RK. induction RK as [|x y l l' [[_ H] _] _ IH]; [reflexivity|]. simpl. now rewrite IH, H. }
    assert (EN : length rp1 = length (bs_pts c1')) by (unfold rp1; rewrite map_length; exact (Forall2_len _ _ _ RP)).
    assert (ED : bspline_degree rp1 knots1 = bspline_degree (bs_pts c1') (bs_knots c1')) by (unfold bspline_degree; now rewrite EN, EK).
    assert (EL : lower_of rp1 knots1 = lower_of (bs_pts c1') (bs_knots c1')) by (unfold lower_of; now rewrite ED, EK).
    assert (EU : upper_of rp1 knots1 = upper_of (bs_pts c1') (bs_knots c1')) by (unfold upper_of; now rewrite EN, EK).
    assert (V1r : valid_bspline rp1 knots1).
    { destruct V1 as [W1 W2 W3 W4]. split; rewrite ?ED, ?EN, ?EK; assumption. }
    split; [reflexivity|]. split; [rewrite RPer; exact E2|]. split; [exact V1r|]. split; [rewrite ED; exact D1|].
    split. { clear - RK. induction RK as [|x y l l' [[F _] _] _ IH]; intros z Hz; [contradiction|]. destruct Hz as [<-|Hz]; [exact F|now apply IH]. }
    split.
    { clear - RP. induction RP as [|x y l l' H _ IH]; intros z Hz; [contradiction|]. destruct Hz as [<-|Hz]; [|now apply IH].
      apply (vfinite_coord prec emax). intros i Hi. destruct (H i Hi) as [[F _] _]. exact F. }
    split; [rewrite EK; exact P1|]. split; [rewrite EL; exact L1|]. split; [rewrite EU; exact U1|].
    intros x Hx i Hi.
    assert (Ecur : bspline_curve rp knots x = bspline_curve (bs_pts c1') (bs_knots c1') x).
    { specialize (N1 x Hx).
      rewrite (bspline_eval (nonperiodic c1') x) in N1.
      - rewrite (bspline_eval (nonperiodic c') x) in N1.
        + injection N1 as N1. symmetry. exact N1.
        + exact Hv.
        + exact Ha.
        + reflexivity.
        + exact Hx.
        + left. exact Hrs.
      - exact V1.
      - exact A1.
      - reflexivity.
      - change (lower_of (bs_pts c1') (bs_knots c1') <= x <= upper_of (bs_pts c1') (bs_knots c1')). rewrite L1, U1. exact Hx.
      - left. exact S1. }
    rewrite Ecur, EK.
    set (n := length (bs_pts c1')) in *.
    assert (HC : forall l : list (vec R d), length l = n ->
      coord d i (bspline_curve l (bs_knots c1') x) = rsum n (fun k => bspline_basis n (bs_knots c1') x k * coord d i (nth k l p0))).
    { intros l Hl. unfold bspline_curve. rewrite coord_psum by exact Hi. rewrite Hl. apply rsum_ext. intros k Hk.
      rewrite coord_mul by exact Hi. unfold bspline_basis, bspline_degree. rewrite Hl. reflexivity. }
    rewrite (HC rp1 EN), (HC (bs_pts c1') eq_refl).
    apply Rle_trans with (round_err M r).
    - apply mean_err.
      + apply knots_simplex_all; [exact V1|rewrite L1, U1; exact Hx].
      + intros k Hk. unfold rp1.
        assert (Lc : length (bs_pts c1) = n) by (unfold rp1 in EN; rewrite map_length in EN; exact EN).
        pose proof (Forall2_nth_rel _ _ _ p0 p0 RP k ltac:(lia) i Hi) as [(_ & _ & N3) _].
        rewrite (nth_indep _ p0 (vreal d p0)) by (rewrite map_length; lia). rewrite map_nth.
        pose proof (vreal_coord prec emax d i (nth k (bs_pts c1) p0)) as EV. rewrite EV. exact N3.
    - pose proof (growth_bound prec emax M r (proj1 HM) Hru) as GB. unfold round_err. pose proof (pos_INR r).
      lra.
  Qed.
End Float.

Lemma eps_double : @eps_ok 53 1024 prec64 max64.
Proof.
  unfold eps_ok, seps. cbn [sofQ FOi ieee_ops].
  destruct (float_value (@bofQ 53 1024 prec64 max64 (1 # (2 ^ 52)%positive)) false 4503599627370496 (-104)) as [F E].
  { vm_compute. reflexivity. }
  rewrite E. split; [exact F|]. change (bpow radix2 (-104)) with (/ IZR (2 ^ 104)).
  change (IZR (2 ^ 104)) with 20282409603651670423947251286016. cbn [cond_Zopp]. lra.
Qed.
Lemma eps_float : @eps_ok 24 128 prec32 max32.
Proof.
  unfold eps_ok, seps. cbn [sofQ FOi ieee_ops].
  destruct (float_value (@bofQ 24 128 prec32 max32 (1 # (2 ^ 52)%positive)) false 8388608 (-75)) as [F E].
  { vm_compute. reflexivity. }
  rewrite E. split; [exact F|]. change (bpow radix2 (-75)) with (/ IZR (2 ^ 75)).
  change (IZR (2 ^ 75)) with 37778931862957161709568. cbn [cond_Zopp]. lra.
Qed.

Lemma insert_double : forall (d : nat) (c : bspline double (vec double d)) (t : double) (r : nat) (M : R),
  let knots := map B2R (bs_knots c) in
  let rp := map (vreal d) (bs_pts c) in
  let p := bspline_degree rp knots in
  valid_bspline rp knots -> knots_apart (/ IZR (10 ^ 16)) knots ->
  (forall x, In x (bs_knots c) -> is_finite x = true /\ Rabs (B2R x) <= bpow radix2 1022) ->
  0 <= M <= bpow radix2 1023 -> 24 * INR p * unit_roundoff 53 <= 1 ->
  (forall a, In a (bs_pts c) -> vfinite d a /\ forall i, (i < d)%nat -> Rabs (coord d i (vreal d a)) <= M) ->
  is_finite t = true -> lower_of rp knots <= B2R t <= upper_of rp knots ->
  (forall x, In x knots -> x = B2R t \/ / IZR (10 ^ 16) < Rabs (x - B2R t)) ->
  regular_start rp knots -> (nth p knots 0 < nth (p + 1) knots 0 \/ lower_of rp knots < B2R t) ->
  (1 <= r)%nat -> (r + count_occ Req_EM_T knots (B2R t) <= p)%nat ->
  exists c1 : bspline double (vec double d),
    let knots1 := map B2R (bs_knots c1) in
    let rp1 := map (vreal d) (bs_pts c1) in
    @bs_insert_knot double (vec double d) double_ops (@vec_ops double double_ops d) c t (Z.of_nat r) = Ok c1 /\
    bs_periodic c1 = bs_periodic c /\ valid_bspline rp1 knots1 /\ bspline_degree rp1 knots1 = p /\
    (forall x, In x (bs_knots c1) -> is_finite x = true) /\ (forall a, In a (bs_pts c1) -> vfinite d a) /\
    Permutation knots1 (repeat (B2R t) r ++ knots) /\
    lower_of rp1 knots1 = lower_of rp knots /\ upper_of rp1 knots1 = upper_of rp knots /\
    forall x, lower_of rp knots <= x <= upper_of rp knots ->
      forall i, (i < d)%nat ->
        Rabs (coord d i (bspline_curve rp1 knots1 x) - coord d i (bspline_curve rp knots x))
        <= INR r * (14 * unit_roundoff 53 * M + (3 + 2 * M) * underflow_error 53 1024).
Proof.
  intros d c t r M knots rp p Hv Ha HK HM Hu HP Ft Ht Hta Hrs Hs Hr Hrc.
  exact (@insert_error 53 1024 prec64 max64 d c t r M eps_double ltac:(lia) Hv Ha HK HM Hu HP Ft Ht Hta Hrs Hs Hr Hrc).
Qed.

Lemma insert_float : forall (d : nat) (c : bspline float32 (vec float32 d)) (t : float32) (r : nat) (M : R),
  let knots := map B2R (bs_knots c) in
  let rp := map (vreal d) (bs_pts c) in
  let p := bspline_degree rp knots in
  valid_bspline rp knots -> knots_apart (/ IZR (10 ^ 16)) knots ->
  (forall x, In x (bs_knots c) -> is_finite x = true /\ Rabs (B2R x) <= bpow radix2 126) ->
  0 <= M <= bpow radix2 127 -> 24 * INR p * unit_roundoff 24 <= 1 ->
  (forall a, In a (bs_pts c) -> vfinite d a /\ forall i, (i < d)%nat -> Rabs (coord d i (vreal d a)) <= M) ->
  is_finite t = true -> lower_of rp knots <= B2R t <= upper_of rp knots ->
  (forall x, In x knots -> x = B2R t \/ / IZR (10 ^ 16) < Rabs (x - B2R t)) ->
  regular_start rp knots -> (nth p knots 0 < nth (p + 1) knots 0 \/ lower_of rp knots < B2R t) ->
  (1 <= r)%nat -> (r + count_occ Req_EM_T knots (B2R t) <= p)%nat ->
  exists c1 : bspline float32 (vec float32 d),
    let knots1 := map B2R (bs_knots c1) in
    let rp1 := map (vreal d) (bs_pts c1) in
    @bs_insert_knot float32 (vec float32 d) float32_ops (@vec_ops float32 float32_ops d) c t (Z.of_nat r) = Ok c1 /\
    bs_periodic c1 = bs_periodic c /\ valid_bspline rp1 knots1 /\ bspline_degree rp1 knots1 = p /\
    (forall x, In x (bs_knots c1) -> is_finite x = true) /\ (forall a, In a (bs_pts c1) -> vfinite d a) /\
    Permutation knots1 (repeat (B2R t) r ++ knots) /\
    lower_of rp1 knots1 = lower_of rp knots /\ upper_of rp1 knots1 = upper_of rp knots /\
    forall x, lower_of rp knots <= x <= upper_of rp knots ->
      forall i, (i < d)%nat ->
        Rabs (coord d i (bspline_curve rp1 knots1 x) - coord d i (bspline_curve rp knots x))
        <= INR r * (14 * unit_roundoff 24 * M + (3 + 2 * M) * underflow_error 24 128).
Proof.
  intros d c t r M knots rp p Hv Ha HK HM Hu HP Ft Ht Hta Hrs Hs Hr Hrc.
  exact (@insert_error 24 128 prec32 max32 d c t r M eps_float ltac:(lia) Hv Ha HK HM Hu HP Ft Ht Hta Hrs Hs Hr Hrc).
Qed.

Lemma dinsert_case : let c := dspline in let t := dofQ (3 # 10) in let r := 2%nat in
  let knots := map B2R (bs_knots c) in
  let rp := map (vreal 2) (bs_pts c) in
  let p := bspline_degree rp knots in
  p = 2%nat /\ valid_bspline rp knots /\ knots_apart (/ IZR (10 ^ 16)) knots /\
  (forall x, In x (bs_knots c) -> is_finite x = true /\ Rabs (B2R x) <= bpow radix2 1022) /\
  0 <= 4 <= bpow radix2 1023 /\ 24 * INR p * unit_roundoff 53 <= 1 /\
  (forall a, In a (bs_pts c) -> vfinite 2 a /\ forall i, (i < 2)%nat -> Rabs (coord 2 i (vreal 2 a)) <= 4) /\
  is_finite t = true /\ lower_of rp knots <= B2R t <= upper_of rp knots /\
  (forall x, In x knots -> x = B2R t \/ / IZR (10 ^ 16) < Rabs (x - B2R t)) /\
  nth p knots 0 < nth (p + 1) knots 0 /\ (1 <= r)%nat /\ (r + count_occ Req_EM_T knots (B2R t) <= p)%nat.
Proof.
  cbv zeta. destruct spline_case as (Hp & V & A & _ & HK & HM & Hu & HP & Ft & Ht & Hs).
  assert (Hv : / 4 <= B2R (dofQ (3 # 10)) <= / 3).
  { dval (3 # 10)%Q false 5404319552844595%positive (-54)%Z. rewrite E. simpl IZR. lra. }
  assert (E : bspline_degree (map (vreal 2) (bs_pts dspline)) (map B2R (bs_knots dspline)) = 2%nat) by reflexivity.
  rewrite E. rewrite Hp in Hs, Hu.
  assert (Hx : forall x, In x (map B2R (bs_knots dspline)) -> / IZR (10 ^ 16) < Rabs (x - B2R (dofQ (3 # 10)))).
  { set (t := dofQ (3 # 10)) in *. clearbody t. rewrite dspline_knots. change (IZR (10 ^ 16)) with 10000000000000000.
    intros x Hx. simpl In in Hx. repeat destruct Hx as [<-|Hx]; try contradiction; unfold Rabs; destruct (Rcase_abs _); lra. }
  split; [reflexivity|]. split.
  { destruct V as [V1 V2 V3 V4]. split; rewrite ?E, ?map_length; rewrite ?Hp in *; assumption. }
  split.
  { intros i j Hij Hlt. eapply Rlt_trans; [|exact (A i j Hij Hlt)].
    change (IZR (10 ^ 16)) with 10000000000000000. change (IZR (10 ^ 15)) with 1000000000000000. lra. }
  split; [exact HK|]. split; [exact HM|]. split; [exact Hu|]. split; [exact HP|]. split; [exact Ft|]. split.
  { unfold lower_of, upper_of in *. rewrite E, map_length. rewrite Hp in Ht. exact Ht. }
  split; [intros x Hi; right; now apply Hx|]. split; [exact Hs|]. split; [lia|].
  rewrite (proj1 (count_occ_not_In Req_EM_T _ _)); [lia|].
  intros Hi. apply Hx in Hi. rewrite Rminus_eq_0, Rabs_R0 in Hi.
  change (IZR (10 ^ 16)) with 10000000000000000 in Hi. lra.
Qed.
