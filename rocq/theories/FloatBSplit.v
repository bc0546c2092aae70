(** Splitting of B-spline curves in floating point arithmetic. *)
From Coq Require Import Reals Lra Lia ZArith QArith List Bool Permutation.
From Flocq Require Import Core IEEE754.BinarySingleNaN.
From Verif Require Import Monad MonadFacts Scalar ScalarFacts Spec SpecFacts ModelCurve ModelBezier BezierThms
  ModelBSpline BSplineFacts BSplineMath BSplineThms BSplineThms2 BSplineThms3 BSplineInsert3 BSplineSplit BSplineConvert Transfer SpecFloat ModelFloat FloatFacts
  FloatThms FloatThms2 FloatCases FloatRuns FloatRational SpecPatch PatchHull FloatPatch2 FloatInsert FloatConvert.
Import ListNotations.
Local Open Scope R_scope.

Lemma rep_regular d (c : bspline R (vec R d)) n p U cp : bsrep c n p U cp -> kval n p U -> kapart n p U -> kstart p U ->
  knots_apart (/ IZR (10 ^ 16)) (bs_knots c) /\ regular_start (bs_pts c) (bs_knots c).
Proof.
  intros Hr Hk Ha Hst. destruct (rep_valid c _ _ _ _ Hr Hk) as (_ & Hdeg & _ & HU & _).
  pose proof (rep_nknots _ _ _ _ _ Hr) as HL. unfold zlen in HL.
  pose proof (rep_pn _ _ _ _ _ Hr) as Hpn. pose proof (rep_p _ _ _ _ _ Hr) as Hp. split.
  - intros i j Hij Hlt. rewrite <- !knot_of_nat in Hlt |- *. rewrite !HU in Hlt |- * by lia.
    rewrite <- btol_val. apply Ha; (lia || exact Hlt).
  - unfold regular_start. set (q := bspline_degree (bs_pts c) (bs_knots c)) in *.
    destruct Hst as [H|[H1 H2]].
    + left. rewrite <- !knot_of_nat. rewrite !HU by lia. replace (Z.of_nat (q + 1)) with (p + 1)%Z by lia. now rewrite Hdeg.
    + right. split; [lia|]. intros i Hi. rewrite <- !knot_of_nat. rewrite !HU by lia.
      replace (Z.of_nat (i + q)) with (Z.of_nat i + p)%Z by lia. apply H2. lia.
Qed.

(** The pieces as curves. *)
Lemma split_pieces d (c : bspline R (vec R d)) t :
  let p := bspline_degree (bs_pts c) (bs_knots c) in
  valid_bspline (bs_pts c) (bs_knots c) -> knots_apart (/ IZR (10 ^ 16)) (bs_knots c) ->
  regular_start (bs_pts c) (bs_knots c) -> (1 <= p)%nat ->
  lower_of (bs_pts c) (bs_knots c) < t < upper_of (bs_pts c) (bs_knots c) ->
  (forall u, In u (bs_knots c) -> u = t \/ / IZR (10 ^ 16) < Rabs (u - t)) ->
  exists c1 c2, split_bspline c t = Ok [c1; c2] /\
    valid_bspline (bs_pts c1) (bs_knots c1) /\ valid_bspline (bs_pts c2) (bs_knots c2) /\
    bspline_degree (bs_pts c1) (bs_knots c1) = p /\ bspline_degree (bs_pts c2) (bs_knots c2) = p /\
    lower_of (bs_pts c1) (bs_knots c1) = lower_of (bs_pts c) (bs_knots c) /\
    upper_of (bs_pts c1) (bs_knots c1) = t /\
    lower_of (bs_pts c2) (bs_knots c2) = t /\
    upper_of (bs_pts c2) (bs_knots c2) = upper_of (bs_pts c) (bs_knots c) /\
    (forall x, lower_of (bs_pts c) (bs_knots c) <= x <= t -> (x < t \/ (count_occ Req_EM_T (bs_knots c) t <= p)%nat) ->
       bspline_curve (bs_pts c1) (bs_knots c1) x = bspline_curve (bs_pts c) (bs_knots c) x) /\
    (forall x, t <= x <= upper_of (bs_pts c) (bs_knots c) ->
       bspline_curve (bs_pts c2) (bs_knots c2) x = bspline_curve (bs_pts c) (bs_knots c) x).
Proof.
  intros p Hv Ha Hs Hp Ht Hta.
  destruct (bspline_split_full d c t Hv Ha Hs Hp Ht Hta)
    as (c1 & c2 & E & P1 & P2 & V1 & V2 & D1 & D2 & L1 & U1 & L2 & U2 & G1 & G2 & G3 & _).
  assert (HR : knots_apart (/ IZR (10 ^ 16)) (bs_knots c1) /\ regular_start (bs_pts c1) (bs_knots c1) /\
               knots_apart (/ IZR (10 ^ 16)) (bs_knots c2) /\ regular_start (bs_pts c2) (bs_knots c2)).
  { destruct (valid_rep c Hv) as [Hr Hk].
    pose proof (rep_nknots _ _ _ _ _ Hr) as HL. unfold zlen in HL.
    destruct (split_rep c _ _ _ _ t Hr Hk (apart_rep c Hv Ha) (start_rep c Hs))
      as (e1 & e2 & n1 & n2 & W1 & W2 & q1 & q2 & E' & _ & _ & R1 & K1 & A1 & S1 & _ & _ & R2 & K2 & A2 & S2 & _).
    - rewrite !knot_of_nat. exact Ht.
    - intros i Hi. rewrite btol_val. apply Hta. unfold knot_of. apply nth_In. lia.
    - fold p. lia.
    - rewrite E in E'. injection E' as <- <-.
      destruct (rep_regular d c1 _ _ _ _ R1 K1 A1 S1), (rep_regular d c2 _ _ _ _ R2 K2 A2 S2). repeat split; assumption. }
  destruct HR as (A1 & S1 & A2 & S2).
  exists c1, c2. repeat (split; [assumption|]).
  assert (E0 : forall x, lower_of (bs_pts c) (bs_knots c) <= x <= upper_of (bs_pts c) (bs_knots c) ->
    bs_evaluate (mk_bspline (bs_pts c) (bs_knots c)) x = Ok (bspline_curve (bs_pts c) (bs_knots c) x)).
  { intros x Hx. apply (bspline_eval (mk_bspline (bs_pts c) (bs_knots c)) x Hv Ha eq_refl Hx). now left. }
  split.
  - intros x Hx Hor.
    assert (EE : bs_evaluate c1 x = bs_evaluate (mk_bspline (bs_pts c) (bs_knots c)) x).
    { destruct (Rlt_le_dec x t) as [Hlt|Hle]; [apply G1; lra|]. assert (x = t) by lra. subst x. apply G2. destruct Hor; [lra|assumption]. }
    rewrite E0 in EE by lra. rewrite (bspline_eval c1 x V1 A1 P1) in EE; [now injection EE|rewrite L1, U1; lra|now left].
  - intros x Hx. pose proof (G3 x Hx) as EE.
    rewrite E0 in EE by lra. rewrite (bspline_eval c2 x V2 A2 P2) in EE; [now injection EE|rewrite L2, U2; lra|now left].
Qed.

Section Float.
  Context (prec emax : Z) {Hprec : Prec_gt_0 prec} {Hmax : Prec_lt_emax prec emax}.
  Notation num := (binary_float prec emax).
  Notation u := (unit_roundoff prec).
  Notation eta := (underflow_error prec emax).
  Notation Omega := (bpow radix2 emax).
  Local Instance FOb : ScalarOps num := ieee_ops prec emax.
  Notation frel := (frel prec emax).
  Notation krel := (krel prec emax).
  Notation crel := (crel prec emax).
  Notation prel := (prel prec emax).

  Lemma krel_zero : krel s0 s0.
  Proof.
    repeat split. change (B2R (s0 : num)) with 0. rewrite Rabs_R0. apply bpow_ge_0.
  Qed.

  Lemma split_near d (c : bspline num (vec num d)) (c' : bspline R (vec R d)) (t : num) M :
    let p := bspline_degree (bs_pts c') (bs_knots c') in
    eps_ok prec emax -> (2 <= emax)%Z -> valid_bspline (bs_pts c') (bs_knots c') -> crel d M 0 c c' ->
    0 <= M -> growth u eta M p < Omega ->
    is_finite t = true -> lower_of (bs_pts c') (bs_knots c') < B2R t < upper_of (bs_pts c') (bs_knots c') ->
    res_rel (Forall2 (crel d M p)) (split_bspline c t) (split_bspline c' (B2R t)).
  Proof.
    intros p He Hem Hv RC HM HO Ft Ht. pose proof RC as (RP & RK & RPer).
    destruct (valid_rep c' Hv) as [Hr Hk].
    pose proof (rep_p _ _ _ _ _ Hr) as Hp. pose proof (rep_pn _ _ _ _ _ Hr) as Hpn.
    pose proof (rep_nknots _ _ _ _ _ Hr) as HL. unfold zlen in HL. fold p in Hr, Hp, Hpn, HL.
    pose proof (lower_knot c') as EL. pose proof (upper_knot c') as EU. fold p in EL.
    assert (Znk : zlen (bs_knots c) = zlen (bs_knots c')) by exact (Forall2_zlen _ _ _ RK).
    assert (Hdeg : bs_degree c = Z.of_nat p).
    { rewrite <- (rep_degree _ _ _ _ _ Hr). unfold bs_degree. now rewrite Znk, (Forall2_zlen _ _ _ RP). }
    unfold split_bspline, bs_in_domain, bs_lower, bs_upper. rewrite Hdeg, (rep_degree _ _ _ _ _ Hr), Znk. cbv zeta.
    assert (Eix : (zlen (bs_knots c') - Z.of_nat p - 1 = Z.of_nat (length (bs_pts c')))%Z) by (unfold zlen; lia).
    rewrite Eix.
    pose proof (get_rel krel _ _ (Z.of_nat p) RK) as G1.
    pose proof (get_rel krel _ _ (Z.of_nat (length (bs_pts c'))) RK) as G2.
    rewrite (rep_get _ _ _ _ _ (Z.of_nat p) Hr) in G1 |- * by lia.
    rewrite (rep_get _ _ _ _ _ (Z.of_nat (length (bs_pts c'))) Hr) in G2 |- * by lia.
    rewrite <- EL in G1 |- *. rewrite <- EU in G2 |- *.
    destruct (get (bs_knots c) (Z.of_nat p)) as [tmin| | |]; try contradiction.
    destruct (get (bs_knots c) (Z.of_nat (length (bs_pts c')))) as [tmax| | |]; try contradiction.
    rewrite !bind_Ok. destruct G1 as [[F1 E1] B1], G2 as [[F2 E2] B2].
    pose proof (fdomain prec emax t tmin tmax He Hem Ft F1 F2 B1 B2 ltac:(lra)) as HD. change (FOi prec emax) with FOb in HD.
    rewrite HD. rewrite <- E1, <- E2.
    assert (HDr : (sle (ssub (B2R tmin) seps) (B2R t) && sle (B2R t) (sadd (B2R tmax) seps))%bool = true).
    { pose proof (rep_in_domain c' _ _ _ _ (B2R t) Hr) as H. unfold bs_in_domain in H.
      rewrite (rep_degree _ _ _ _ _ Hr), Eix in H. rewrite (rep_get _ _ _ _ _ (Z.of_nat p) Hr) in H by lia.
      rewrite (rep_get _ _ _ _ _ (Z.of_nat (length (bs_pts c'))) Hr) in H by lia.
      rewrite <- EL, <- EU, !bind_Ok, <- E1, <- E2 in H. specialize (H ltac:(lra)). injection H as H. exact H. }
    rewrite HDr. cbn [negb].
    rewrite (frel_eq prec emax t tmin (B2R t) (B2R tmin)) by now split.
    rewrite (frel_eq prec emax t tmax (B2R t) (B2R tmax)) by now split.
    cbn [seq_ R_ops]. destruct (Reqb_spec (B2R t) (B2R tmin)); [lra|]. destruct (Reqb_spec (B2R t) (B2R tmax)); [lra|].
    eapply bind_rel; [apply (crel_locate prec emax d M 0); assumption|]. intros k ? <-.
    eapply bind_rel; [apply get_rel; exact RK|]. intros uk uk' Huk.
    apply (bind_rel (fun a b : Z => a = b /\ (0 <= a)%Z)).
    { rewrite (frel_eq prec emax t uk (B2R t) uk') by (first [exact (proj1 Huk)|now split]). cbn [seq_ R_ops].
      destruct (Reqb (B2R t) uk').
      - apply (fmultiplicity prec emax). now apply krel_frel.
      - simpl. split; [reflexivity|lia]. }
    intros s ? [<- Hs0].
    apply (bind_rel (crel d M p)).
    { destruct (Z.ltb_spec s (Z.of_nat p)) as [Hlt|Hge].
      - replace (Z.of_nat p - s)%Z with (Z.of_nat (p - Z.to_nat s)) by lia.
        pose proof (insert_near prec emax d 0 c c' t (p - Z.to_nat s) M He Hem Hv RC HM) as HI. cbv zeta in HI. fold p in HI.
        specialize (HI ltac:(eapply Rle_lt_trans; [|exact HO]; apply (growth_mono prec emax); [exact HM|lia])
          Ft ltac:(lra) ltac:(right; lra) ltac:(lia)).
        change (FOi prec emax) with FOb in HI.
        destruct (bs_insert_knot c t _), (bs_insert_knot c' (B2R t) _); try exact HI.
        simpl in HI |- *. eapply (crel_mono prec emax); [exact HM| |exact HI]. lia.
      - simpl. eapply (crel_mono prec emax); [exact HM| |exact RC]. lia. }
    intros cv cv' (CP & CK & _). rewrite (Forall2_zlen _ _ _ CP), (Forall2_zlen _ _ _ CK).
    eapply bind_rel.
    { apply (flocate prec emax); [now apply krel_frel|exact (Forall2_len _ _ _ CP)|exact Ft]. }
    intros k2 ? <-.
    eapply bind_rel; [apply topRows_rel; exact CP|]. intros q1 q1' Q1.
    eapply bind_rel; [apply bottomRows_rel; exact CP|]. intros q2 q2' Q2.
    eapply bind_rel; [apply (alloc_rel krel); exact krel_zero|]. intros a1 a1' A1.
    eapply bind_rel; [apply block_rel; exact CK|]. intros b1 b1' B1'.
    eapply bind_rel; [apply blit_rel; [exact A1|exact B1']|]. intros e1 e1' K1.
    eapply bind_rel; [apply get_rel; exact K1|]. intros x1 x1' X1.
    eapply bind_rel; [apply set_rel; [exact K1|exact X1]|]. intros f1 f1' M1.
    eapply bind_rel; [apply (alloc_rel krel); exact krel_zero|]. intros a2 a2' A2.
    eapply bind_rel; [apply block_rel; exact CK|]. intros b2 b2' B2'.
    eapply bind_rel; [apply blit_rel; [exact A2|exact B2']|]. intros e2 e2' K2.
    eapply bind_rel; [apply get_rel; exact K2|]. intros x2 x2' X2.
    eapply bind_rel; [apply set_rel; [exact K2|exact X2]|]. intros f2 f2' M2.
    constructor; [split; [exact Q1|split; [exact M1|reflexivity]]|].
    constructor; [split; [exact Q2|split; [exact M2|reflexivity]]|constructor].
  Qed.

  (** What nearby data say about the curves. *)
  Lemma crel_curve d M r (c1 : bspline num (vec num d)) (c1' : bspline R (vec R d)) :
    0 <= M <= bpow radix2 (emax - 1) -> 24 * INR r * u <= 1 ->
    crel d M r c1 c1' -> valid_bspline (bs_pts c1') (bs_knots c1') ->
    let knots1 := map B2R (bs_knots c1) in
    let rp1 := map (vreal d) (bs_pts c1) in
    knots1 = bs_knots c1' /\ length rp1 = length (bs_pts c1') /\
    (forall x, In x (bs_knots c1) -> is_finite x = true) /\ (forall a, In a (bs_pts c1) -> vfinite d a) /\
    forall x, lower_of (bs_pts c1') (bs_knots c1') <= x <= upper_of (bs_pts c1') (bs_knots c1') ->
      forall i, (i < d)%nat ->
        Rabs (coord d i (bspline_curve rp1 knots1 x) - coord d i (bspline_curve (bs_pts c1') (bs_knots c1') x))
        <= INR r * (14 * u * M + (3 + 2 * M) * eta).
  Proof.
    intros HM Hru (RP & RK & RPer) V1 knots1 rp1.
    assert (EK : knots1 = bs_knots c1').
    { unfold knots1. clear - RK. induction RK as [|x y l l' [[_ H] _] _ IH]; [reflexivity|]. simpl. now rewrite IH, H. }
    assert (EN : length rp1 = length (bs_pts c1')).
    { unfold rp1. rewrite map_length. exact (Forall2_len _ _ _ RP). }
    split; [exact EK|]. split; [exact EN|]. split.
    { clear - RK. induction RK as [|x y l l' [[F _] _] _ IH]; intros z Hz; [contradiction|]. destruct Hz as [<-|Hz]; [exact F|now apply IH]. }
    split.
    { clear - RP. induction RP as [|x y l l' H _ IH]; intros z Hz; [contradiction|]. destruct Hz as [<-|Hz]; [|now apply IH].
      apply (vfinite_coord prec emax). intros i Hi. destruct (H i Hi) as [[F _] _]. exact F. }
    intros x Hx i Hi. rewrite EK.
    set (n := length (bs_pts c1')) in *.
    assert (HC : forall l : list (vec R d), length l = n ->
      coord d i (bspline_curve l (bs_knots c1') x) = rsum n (fun k => bspline_basis n (bs_knots c1') x k * coord d i (nth k l p0))).
    { intros l Hl. unfold bspline_curve. rewrite coord_psum by exact Hi. rewrite Hl. apply rsum_ext. intros k Hk.
      rewrite coord_mul by exact Hi. unfold bspline_basis, bspline_degree. rewrite Hl. reflexivity. }
    rewrite (HC rp1 EN), (HC (bs_pts c1') eq_refl).
    apply Rle_trans with (round_err prec emax M r).
    - apply mean_err.
      + apply knots_simplex_all; [exact V1|exact Hx].
      + intros k Hk. unfold rp1.
        assert (Lc : length (bs_pts c1) = n) by (unfold rp1 in EN; rewrite map_length in EN; exact EN).
        pose proof (Forall2_nth_rel _ _ _ p0 p0 RP k ltac:(lia) i Hi) as [(_ & _ & N3) _].
        rewrite (nth_indep _ p0 (vreal d p0)) by (rewrite map_length; lia). rewrite map_nth.
        pose proof (vreal_coord prec emax d i (nth k (bs_pts c1) p0)) as EV. rewrite EV. exact N3.
    - pose proof (growth_bound prec emax M r (proj1 HM) Hru) as GB. unfold round_err. pose proof (pos_INR r).
      lra.
  Qed.

  Lemma split_error d (c : bspline num (vec num d)) (t : num) (M : R) :
    let knots := map B2R (bs_knots c) in
    let rp := map (vreal d) (bs_pts c) in
    let p := bspline_degree rp knots in
    eps_ok prec emax -> (2 <= emax)%Z -> valid_bspline rp knots -> knots_apart (/ IZR (10 ^ 16)) knots ->
    regular_start rp knots -> (1 <= p)%nat ->
    (forall x, In x (bs_knots c) -> is_finite x = true /\ Rabs (B2R x) <= bpow radix2 (emax - 2)) ->
    0 <= M <= bpow radix2 (emax - 1) -> 24 * INR p * u <= 1 ->
    (forall a, In a (bs_pts c) -> vfinite d a /\ forall i, (i < d)%nat -> Rabs (coord d i (vreal d a)) <= M) ->
    is_finite t = true -> lower_of rp knots < B2R t < upper_of rp knots ->
    (forall x, In x knots -> x = B2R t \/ / IZR (10 ^ 16) < Rabs (x - B2R t)) ->
    exists c1 c2 : bspline num (vec num d),
      let k1 := map B2R (bs_knots c1) in
      let r1 := map (vreal d) (bs_pts c1) in
      let k2 := map B2R (bs_knots c2) in
      let r2 := map (vreal d) (bs_pts c2) in
      split_bspline c t = Ok [c1; c2] /\
      valid_bspline r1 k1 /\ valid_bspline r2 k2 /\ bspline_degree r1 k1 = p /\ bspline_degree r2 k2 = p /\
      lower_of r1 k1 = lower_of rp knots /\ upper_of r1 k1 = B2R t /\
      lower_of r2 k2 = B2R t /\ upper_of r2 k2 = upper_of rp knots /\
      (forall a, In a (bs_pts c1) \/ In a (bs_pts c2) -> vfinite d a) /\
      (forall x, In x (bs_knots c1) \/ In x (bs_knots c2) -> is_finite x = true) /\
      (forall x, lower_of rp knots <= x <= B2R t -> (x < B2R t \/ (count_occ Req_EM_T knots (B2R t) <= p)%nat) ->
        forall i, (i < d)%nat ->
          Rabs (coord d i (bspline_curve r1 k1 x) - coord d i (bspline_curve rp knots x))
          <= INR p * (14 * u * M + (3 + 2 * M) * eta)) /\
      (forall x, B2R t <= x <= upper_of rp knots ->
        forall i, (i < d)%nat ->
          Rabs (coord d i (bspline_curve r2 k2 x) - coord d i (bspline_curve rp knots x))
          <= INR p * (14 * u * M + (3 + 2 * M) * eta)).
  Proof.
    intros knots rp p He Hem Hv Ha Hrs Hp HK HM Hu HP Ft Ht Hta.
    set (c' := bsreal prec emax c).
    destruct (split_pieces d c' (B2R t) Hv Ha Hrs Hp Ht Hta)
      as (c1' & c2' & E & V1 & V2 & D1 & D2 & L1 & U1 & L2 & U2 & C1 & C2).
    change (bs_pts c') with rp in *. change (bs_knots c') with knots in *. fold p in D1, D2, C1, C2.
    assert (HO : growth u eta M p < Omega) by (exact (growth_finite prec emax M p (proj1 HM) Hu (proj2 HM))).
    pose proof (crel_bsreal prec emax d c M HP HK) as RC. fold c' in RC.
    pose proof (split_near d c c' t M He Hem Hv RC (proj1 HM) HO Ft Ht) as HS. cbv zeta in HS.
    change (bs_pts c') with rp in HS. change (bs_knots c') with knots in HS. fold p in HS.
    rewrite E in HS. destruct (split_bspline c t) as [l| | |] eqn:Ef; try contradiction.
    simpl in HS. inversion HS as [|c1 ? l1 ? R1 HS1]; subst. inversion HS1 as [|c2 ? l2 ? R2 HS2]; subst. inversion HS2; subst.
    destruct (crel_curve d M p c1 c1' HM Hu R1 V1) as (K1 & N1 & F1 & W1 & H1).
    destruct (crel_curve d M p c2 c2' HM Hu R2 V2) as (K2 & N2 & F2 & W2 & H2).
    exists c1, c2. intros k1 r1 k2 r2. fold k1 r1 in K1, N1, H1. fold k2 r2 in K2, N2, H2.
    assert (Dg1 : bspline_degree r1 k1 = p) by (rewrite <- D1; unfold bspline_degree; now rewrite K1, N1).
    assert (Dg2 : bspline_degree r2 k2 = p) by (rewrite <- D2; unfold bspline_degree; now rewrite K2, N2).
    assert (Lo1 : lower_of r1 k1 = lower_of rp knots) by (rewrite <- L1; unfold lower_of; now rewrite Dg1, D1, K1).
    assert (Lo2 : lower_of r2 k2 = B2R t) by (rewrite <- L2; unfold lower_of; now rewrite Dg2, D2, K2).
    assert (Up1 : upper_of r1 k1 = B2R t) by (rewrite <- U1; unfold upper_of; now rewrite N1, K1).
    assert (Up2 : upper_of r2 k2 = upper_of rp knots) by (rewrite <- U2; unfold upper_of; now rewrite N2, K2).
    split; [reflexivity|].
    split. { destruct V1 as [X1 X2 X3 X4]. split; rewrite ?Dg1, ?K1, ?N1; rewrite ?D1 in *; assumption. }
    split. { destruct V2 as [X1 X2 X3 X4]. split; rewrite ?Dg2, ?K2, ?N2; rewrite ?D2 in *; assumption. }
    repeat (split; [assumption|]).
    split; [intros a [H|H]; [now apply W1|now apply W2]|]. split; [intros a [H|H]; [now apply F1|now apply F2]|]. split.
    - intros x Hx Hor i Hi. rewrite <- (C1 x Hx Hor). apply H1; [rewrite L1, U1; exact Hx|exact Hi].
    - intros x Hx i Hi. rewrite <- (C2 x Hx). apply H2; [rewrite L2, U2; exact Hx|exact Hi].
  Qed.
End Float.

Lemma split_double : forall (d : nat) (c : bspline double (vec double d)) (t : double) (M : R),
  let knots := map B2R (bs_knots c) in
  let rp := map (vreal d) (bs_pts c) in
  let p := bspline_degree rp knots in
  valid_bspline rp knots -> knots_apart (/ IZR (10 ^ 16)) knots -> regular_start rp knots -> (1 <= p)%nat ->
  (forall x, In x (bs_knots c) -> is_finite x = true /\ Rabs (B2R x) <= bpow radix2 1022) ->
  0 <= M <= bpow radix2 1023 -> 24 * INR p * unit_roundoff 53 <= 1 ->
  (forall a, In a (bs_pts c) -> vfinite d a /\ forall i, (i < d)%nat -> Rabs (coord d i (vreal d a)) <= M) ->
  is_finite t = true -> lower_of rp knots < B2R t < upper_of rp knots ->
  (forall x, In x knots -> x = B2R t \/ / IZR (10 ^ 16) < Rabs (x - B2R t)) ->
  exists c1 c2 : bspline double (vec double d),
    let k1 := map B2R (bs_knots c1) in
    let r1 := map (vreal d) (bs_pts c1) in
    let k2 := map B2R (bs_knots c2) in
    let r2 := map (vreal d) (bs_pts c2) in
    @split_bspline double (vec double d) double_ops (@vec_ops double double_ops d) c t = Ok [c1; c2] /\
    valid_bspline r1 k1 /\ valid_bspline r2 k2 /\ bspline_degree r1 k1 = p /\ bspline_degree r2 k2 = p /\
    lower_of r1 k1 = lower_of rp knots /\ upper_of r1 k1 = B2R t /\
    lower_of r2 k2 = B2R t /\ upper_of r2 k2 = upper_of rp knots /\
    (forall a, In a (bs_pts c1) \/ In a (bs_pts c2) -> vfinite d a) /\
    (forall x, In x (bs_knots c1) \/ In x (bs_knots c2) -> is_finite x = true) /\
    (forall x, lower_of rp knots <= x <= B2R t -> (x < B2R t \/ (count_occ Req_EM_T knots (B2R t) <= p)%nat) ->
      forall i, (i < d)%nat ->
        Rabs (coord d i (bspline_curve r1 k1 x) - coord d i (bspline_curve rp knots x))
        <= INR p * (14 * unit_roundoff 53 * M + (3 + 2 * M) * underflow_error 53 1024)) /\
    (forall x, B2R t <= x <= upper_of rp knots ->
      forall i, (i < d)%nat ->
        Rabs (coord d i (bspline_curve r2 k2 x) - coord d i (bspline_curve rp knots x))
        <= INR p * (14 * unit_roundoff 53 * M + (3 + 2 * M) * underflow_error 53 1024)).
Proof.
  intros d c t M knots rp p Hv Ha Hrs Hp HK HM Hu HP Ft Ht Hta.
  exact (@split_error 53 1024 prec64 max64 d c t M eps_double ltac:(lia) Hv Ha Hrs Hp HK HM Hu HP Ft Ht Hta).
Qed.

Lemma split_float : forall (d : nat) (c : bspline float32 (vec float32 d)) (t : float32) (M : R),
  let knots := map B2R (bs_knots c) in
  let rp := map (vreal d) (bs_pts c) in
  let p := bspline_degree rp knots in
  valid_bspline rp knots -> knots_apart (/ IZR (10 ^ 16)) knots -> regular_start rp knots -> (1 <= p)%nat ->
  (forall x, In x (bs_knots c) -> is_finite x = true /\ Rabs (B2R x) <= bpow radix2 126) ->
  0 <= M <= bpow radix2 127 -> 24 * INR p * unit_roundoff 24 <= 1 ->
  (forall a, In a (bs_pts c) -> vfinite d a /\ forall i, (i < d)%nat -> Rabs (coord d i (vreal d a)) <= M) ->
  is_finite t = true -> lower_of rp knots < B2R t < upper_of rp knots ->
  (forall x, In x knots -> x = B2R t \/ / IZR (10 ^ 16) < Rabs (x - B2R t)) ->
  exists c1 c2 : bspline float32 (vec float32 d),
    let k1 := map B2R (bs_knots c1) in
    let r1 := map (vreal d) (bs_pts c1) in
    let k2 := map B2R (bs_knots c2) in
    let r2 := map (vreal d) (bs_pts c2) in
    @split_bspline float32 (vec float32 d) float32_ops (@vec_ops float32 float32_ops d) c t = Ok [c1; c2] /\
    valid_bspline r1 k1 /\ valid_bspline r2 k2 /\ bspline_degree r1 k1 = p /\ bspline_degree r2 k2 = p /\
    lower_of r1 k1 = lower_of rp knots /\ upper_of r1 k1 = B2R t /\
    lower_of r2 k2 = B2R t /\ upper_of r2 k2 = upper_of rp knots /\
    (forall a, In a (bs_pts c1) \/ In a (bs_pts c2) -> vfinite d a) /\
    (forall x, In x (bs_knots c1) \/ In x (bs_knots c2) -> is_finite x = true) /\
    (forall x, lower_of rp knots <= x <= B2R t -> (x < B2R t \/ (count_occ Req_EM_T knots (B2R t) <= p)%nat) ->
      forall i, (i < d)%nat ->
        Rabs (coord d i (bspline_curve r1 k1 x) - coord d i (bspline_curve rp knots x))
        <= INR p * (14 * unit_roundoff 24 * M + (3 + 2 * M) * underflow_error 24 128)) /\
    (forall x, B2R t <= x <= upper_of rp knots ->
      forall i, (i < d)%nat ->
        Rabs (coord d i (bspline_curve r2 k2 x) - coord d i (bspline_curve rp knots x))
        <= INR p * (14 * unit_roundoff 24 * M + (3 + 2 * M) * underflow_error 24 128)).
Proof.
  intros d c t M knots rp p Hv Ha Hrs Hp HK HM Hu HP Ft Ht Hta.
  exact (@split_error 24 128 prec32 max32 d c t M eps_float ltac:(lia) Hv Ha Hrs Hp HK HM Hu HP Ft Ht Hta).
Qed.

Lemma dsplit_case : let c := dspline in let t := dofQ (3 # 10) in
  let knots := map B2R (bs_knots c) in
  let rp := map (vreal 2) (bs_pts c) in
  let p := bspline_degree rp knots in
  p = 2%nat /\ valid_bspline rp knots /\ knots_apart (/ IZR (10 ^ 16)) knots /\ regular_start rp knots /\ (1 <= p)%nat /\
  (forall x, In x (bs_knots c) -> is_finite x = true /\ Rabs (B2R x) <= bpow radix2 1022) /\
  0 <= 4 <= bpow radix2 1023 /\ 24 * INR p * unit_roundoff 53 <= 1 /\
  (forall a, In a (bs_pts c) -> vfinite 2 a /\ forall i, (i < 2)%nat -> Rabs (coord 2 i (vreal 2 a)) <= 4) /\
  is_finite t = true /\ lower_of rp knots < B2R t < upper_of rp knots /\
  (forall x, In x knots -> x = B2R t \/ / IZR (10 ^ 16) < Rabs (x - B2R t)) /\
  (count_occ Req_EM_T knots (B2R t) <= p)%nat.
Proof.
  cbv zeta. destruct dinsert_case as (Hp & V & A & HK & HM & Hu & HP & Ft & Ht & Hta & Hs & _ & Hc).
  set (t := dofQ (3 # 10)) in *. clearbody t.
  split; [exact Hp|]. split; [exact V|]. split; [exact A|]. split; [left; exact Hs|]. split; [rewrite Hp; lia|].
  split; [exact HK|]. split; [exact HM|]. split; [exact Hu|]. split; [exact HP|]. split; [exact Ft|].
  split.
  - assert (Hn : forall m, (m < length (map B2R (bs_knots dspline)))%nat -> nth m (map B2R (bs_knots dspline)) 0 <> B2R t).
    { intros m Hm He. assert (HI : In (B2R t) (map B2R (bs_knots dspline))) by (rewrite <- He; now apply nth_In).
      apply (count_occ_In Req_EM_T) in HI. lia. }
    destruct V as [V1 V2 V3 V4].
    assert (Hb : forall a b t : R, a <= t <= b -> a <> t -> b <> t -> a < t < b) by (intros; lra).
    apply Hb; [exact Ht|apply Hn|apply Hn]; rewrite Hp in * || idtac; lia.
  - split; [exact Hta|lia].
Qed.
