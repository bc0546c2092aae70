(** Conversion of B-spline curves to Bezier segments in floating point arithmetic. *)
From Coq Require Import Reals Lra Lia ZArith QArith List Bool Permutation.
From Flocq Require Import Core IEEE754.BinarySingleNaN.
From Verif Require Import Monad MonadFacts Scalar ScalarFacts Spec SpecFacts ModelCurve ModelBezier BezierThms
  ModelBSpline BSplineFacts BSplineThms BSplineThms2 BSplineThms3 BSplineInsert3 BSplineConvert Transfer SpecFloat ModelFloat FloatFacts
  FloatThms FloatThms2 FloatCases FloatRuns FloatRational SpecPatch PatchHull FloatPatch2 FloatInsert.
Import ListNotations.
Local Open Scope R_scope.

Lemma forb_up_rel_at {S S' B B'} (RS : Z -> S -> S' -> Prop) (RB : B -> B' -> Prop) lo hi b b' s s' : (lo <= hi)%Z -> RS lo s s' ->
  (forall i s s', (lo <= i < hi)%Z -> RS i s s' -> res_rel (sumrel (RS (i + 1)%Z) RB) (b i s) (b' i s')) ->
  res_rel (sumrel (RS hi) RB) (forb_up lo hi b s) (forb_up lo hi b' s').
Proof.
  intros Hle H0 Hb. unfold forb_up. remember (Z.to_nat (hi - lo)) as n eqn:En. revert lo s s' Hle H0 Hb En.
  induction n as [|n IH]; intros lo s s' Hle H0 Hb En; cbn [forb_nat].
  - replace hi with lo by lia. exact H0.
  - eapply bind_rel; [apply Hb; [lia|exact H0]|]. intros [a|a] [a'|a'] Ha; simpl in Ha; try contradiction; [|exact Ha].
    apply IH; [lia|exact Ha| |lia]. intros i x x' Hi. apply Hb. lia.
Qed.

Section Float.
  Context (prec emax : Z) {Hprec : Prec_gt_0 prec} {Hmax : Prec_lt_emax prec emax}.
  Notation num := (binary_float prec emax).
  Notation u := (unit_roundoff prec).
  Notation eta := (underflow_error prec emax).
  Notation Omega := (bpow radix2 emax).
  Local Instance FOc : ScalarOps num := ieee_ops prec emax.
  Notation frel := (frel prec emax).
  Notation krel := (krel prec emax).
  Notation crel := (crel prec emax).
  Notation prel := (prel prec emax).
  Notation cnt := (count_occ Req_EM_T).

  Lemma crel_mono d M j j' a b : 0 <= M -> (j <= j')%nat -> crel d M j a b -> crel d M j' a b.
  Proof.
    intros HM Hj (H1 & H2 & H3). split; [|split; assumption]. eapply Forall2_mono; [|exact H1]. intros x y.
    apply (prel_mono prec emax); assumption.
  Qed.

  (** One insertion of the loop. *)
  Lemma sat_step_near d (c' : bspline R (vec R d)) M base cv cv' (t : num) :
    let p := bspline_degree (bs_pts c') (bs_knots c') in
    eps_ok prec emax -> (2 <= emax)%Z -> 0 <= M -> growth u eta M (base + p) < Omega ->
    valid_bspline (bs_pts c') (bs_knots c') -> knots_apart (/ IZR (10 ^ 16)) (bs_knots c') ->
    sat_rel c' cv' -> crel d M base cv cv' -> is_finite t = true -> In (B2R t) (bs_knots c') ->
    lower_of (bs_pts c') (bs_knots c') <= B2R t <= upper_of (bs_pts c') (bs_knots c') ->
    (nth p (bs_knots cv') 0 < nth (p + 1) (bs_knots cv') 0 \/ lower_of (bs_pts c') (bs_knots c') < B2R t) ->
    let s := Z.of_nat (cnt (bs_knots cv') (B2R t)) in
    res_rel (fun a b => sat_rel c' b /\ crel d M (base + p) a b /\ (forall v, v <> B2R t -> cnt (bs_knots b) v = cnt (bs_knots cv') v))
      (if (s <? Z.of_nat p)%Z then bs_insert_knot cv t (Z.of_nat p - s) else Ok cv)
      (if (s <? Z.of_nat p)%Z then bs_insert_knot cv' (B2R t) (Z.of_nat p - s) else Ok cv').
  Proof.
    intros p He Hem HM HO Hv Ha Sc RC Ft Hin Ht Hs s.
    destruct (sat_step c' Hv Ha cv' (B2R t) Sc Hin Ht Hs) as (cv2 & E & S2 & _ & _ & N2). fold p s in E.
    destruct (Z.ltb_spec s (Z.of_nat p)) as [Hlt|Hge].
    - assert (Er : (Z.of_nat p - s)%Z = Z.of_nat (p - cnt (bs_knots cv') (B2R t))) by (unfold s in *; lia).
      set (r := (p - cnt (bs_knots cv') (B2R t))%nat) in *. rewrite Er in E |- *.
      pose proof (insert_near prec emax d base cv cv' t r M He Hem (sr_valid _ _ Sc) RC HM) as HI. cbv zeta in HI.
      rewrite (sr_deg _ _ Sc), (sr_lower _ _ Sc), (sr_upper _ _ Sc) in HI. fold p in HI.
      specialize (HI ltac:(eapply Rle_lt_trans; [|exact HO]; apply (growth_mono prec emax); [exact HM|unfold r; lia])
        Ft Ht Hs ltac:(unfold r, s in *; lia)).
      rewrite E in HI |- *.
      change (@bs_insert_knot num (vec num d) FOc _ cv t (Z.of_nat r)) with
        (@bs_insert_knot num (vec num d) (FOi prec emax) (@vec_ops num (FOi prec emax) d) cv t (Z.of_nat r)).
      destruct (bs_insert_knot cv t (Z.of_nat r)) as [a| | |]; try contradiction.
      split; [exact S2|]. split; [|exact N2]. eapply crel_mono; [exact HM| |exact HI]. unfold r. lia.
    - injection E as <-. split; [exact S2|]. split; [|reflexivity]. eapply crel_mono; [exact HM| |exact RC]. lia.
  Qed.

  Lemma crel_locate d M j cv cv' (t : num) : crel d M j cv cv' -> is_finite t = true ->
    res_rel eq (locate_span cv t) (locate_span cv' (B2R t)).
  Proof.
    intros (H1 & H2 & _) Ft. apply (flocate prec emax); [now apply krel_frel|exact (Forall2_len _ _ _ H1)|exact Ft].
  Qed.
  Lemma crel_mult d M j cv cv' k : crel d M j cv cv' -> res_rel eq (get_multiplicity cv k) (get_multiplicity cv' k).
  Proof.
    intros (H1 & H2 & _). pose proof (fmultiplicity prec emax cv cv' k (krel_frel prec emax _ _ H2)) as H.
    change (FOi prec emax) with FOc in H.
    destruct (get_multiplicity cv k), (get_multiplicity cv' k); try exact H. destruct H as [-> _]. reflexivity.
  Qed.
  (** A value that the exact run is known to give. *)
  Lemma bind_known {A B B'} (RB : B -> B' -> Prop) (x x' : res A) v (f : A -> res B) (f' : A -> res B') :
    res_rel eq x x' -> x' = Ok v -> res_rel RB (f v) (f' v) -> res_rel RB (bind x f) (bind x' f').
  Proof. intros H -> HF. destruct x; simpl in H; try contradiction. subst. exact HF. Qed.

  Lemma saturate_near d (c : bspline num (vec num d)) (c' : bspline R (vec R d)) M :
    let p := bspline_degree (bs_pts c') (bs_knots c') in
    let L := (p * (length (bs_knots c') + 2))%nat in
    eps_ok prec emax -> (2 <= emax)%Z -> 0 <= M -> growth u eta M L < Omega ->
    valid_bspline (bs_pts c') (bs_knots c') -> knots_apart (/ IZR (10 ^ 16)) (bs_knots c') ->
    nth p (bs_knots c') 0 < nth (p + 1) (bs_knots c') 0 -> crel d M 0 c c' ->
    res_rel (crel d M L) (bs_saturate c) (bs_saturate c').
  Proof.
    intros p L He Hem HM HO Hv Ha Hs RC.
    destruct (valid_rep c' Hv) as [Hr Hk]. pose proof Hk as [Hm Hd].
    pose proof (rep_p _ _ _ _ _ Hr) as Hp. pose proof (rep_pn _ _ _ _ _ Hr) as Hpn.
    pose proof (rep_nknots _ _ _ _ _ Hr) as HL. unfold zlen in HL.
    pose proof (lower_knot c') as EL. pose proof (upper_knot c') as EU. fold p in EL, Hp, Hpn, Hr, HL, Hm, Hd.
    set (lo := lower_of (bs_pts c') (bs_knots c')) in *. set (up := upper_of (bs_pts c') (bs_knots c')) in *.
    assert (Hlu : lo < up) by (rewrite EL, EU; exact Hd).
    pose proof RC as (RP & RK & RPer).
    assert (Znk : zlen (bs_knots c') = zlen (bs_knots c)) by (symmetry; exact (Forall2_zlen _ _ _ RK)).
    assert (Znp : zlen (bs_pts c') = zlen (bs_pts c)) by (symmetry; exact (Forall2_zlen _ _ _ RP)).
    assert (Hdeg : bs_degree c = Z.of_nat p).
    { rewrite <- (rep_degree _ _ _ _ _ Hr). unfold bs_degree. now rewrite Znk, Znp. }
    assert (HOle : forall m, (m <= L)%nat -> growth u eta M m < Omega).
    { intros m Hm0. eapply Rle_lt_trans; [|exact HO]. apply (growth_mono prec emax); [exact HM|exact Hm0]. }
    unfold bs_saturate. rewrite Hdeg, (rep_degree _ _ _ _ _ Hr). cbv zeta.
    pose proof (get_rel krel _ _ (Z.of_nat p) RK) as G1.
    unfold bs_lower. rewrite Hdeg, (rep_degree _ _ _ _ _ Hr).
    rewrite (rep_get _ _ _ _ _ (Z.of_nat p) Hr) in G1 |- * by lia. rewrite <- EL in G1 |- *.
    destruct (get (bs_knots c) (Z.of_nat p)) as [tmin| | |]; try contradiction. rewrite !bind_Ok. destruct G1 as [[F1 E1] B1].
    pose proof (get_rel krel _ _ (zlen (bs_knots c') - Z.of_nat p - 1)%Z RK) as G2.
    unfold bs_upper. rewrite Hdeg, (rep_degree _ _ _ _ _ Hr). rewrite <- Znk.
    assert (Eix : (zlen (bs_knots c') - Z.of_nat p - 1 = Z.of_nat (length (bs_pts c')))%Z) by (unfold zlen; lia).
    rewrite Eix in *. rewrite (rep_get _ _ _ _ _ (Z.of_nat (length (bs_pts c'))) Hr) in G2 |- * by lia. rewrite <- EU in G2 |- *.
    destruct (get (bs_knots c) (Z.of_nat (length (bs_pts c')))) as [tmax| | |]; try contradiction. rewrite !bind_Ok. destruct G2 as [[F2 E2] B2].
    rewrite <- E1, <- E2.
    eapply bind_known; [apply (crel_locate d M 0); assumption|rewrite E1; apply (locate_span_low c' _ _ _ _ _ Hr); rewrite <- EL; lra|].
    destruct (locate_span_high c' _ _ _ _ up Hr Hd Hm ltac:(lra)) as (ke & Eke0 & Hke & _ & Eke).
    eapply bind_known; [apply (crel_locate d M 0); assumption|rewrite E2; exact Eke0|].
    destruct (mult_count c' (Z.of_nat p) Hv ltac:(lia)) as (a1 & b1 & Em1 & _).
    eapply bind_known; [apply (crel_mult d M 0); assumption|exact Em1|]. rewrite <- EL, <- E1.
    destruct (mult_count c' (ke + 1) Hv ltac:(lia)) as (a2 & b2 & Em2 & _).
    eapply bind_known; [apply (crel_mult d M 0); assumption|exact Em2|]. rewrite Eke, <- EU, <- E2.
    assert (Ilo : In lo (bs_knots c')) by (apply nth_In; fold p; lia).
    assert (Iup : In up (bs_knots c')) by (apply nth_In; lia).
    assert (Srefl : sat_rel c' c') by (apply sat_refl; assumption).
    eapply bind_rel.
    { apply (sat_step_near d c' M 0 c c' tmin He Hem HM); try assumption; try (rewrite E1; assumption).
      - apply HOle. unfold L. fold p. nia.
      - rewrite E1. fold lo up. lra.
      - left. exact Hs. }
    intros c1 c1' (S1 & R1 & N1). fold p in R1.
    assert (E2n : cnt (bs_knots c') (B2R tmax) = cnt (bs_knots c1') (B2R tmax)).
    { symmetry. apply N1. rewrite E1, E2. lra. }
    rewrite E2n.
    eapply bind_rel.
    { apply (sat_step_near d c' M (0 + p) c1 c1' tmax He Hem HM); try assumption; try (rewrite E2; assumption).
      - apply HOle. unfold L. fold p. nia.
      - rewrite E2. fold lo up. lra.
      - right. rewrite E2. fold lo. lra. }
    intros c2 c2' (S2 & R2 & _). fold p in R2.
    apply (bind_rel (sumrel (crel d M L) (crel d M L))).
    2:{ intros [x|x] [y|y] Hxy; simpl in Hxy; try contradiction; exact Hxy. }
    pose (RS := fun (i : Z) cv cv' => sat_rel c' cv' /\ crel d M (p * (Z.to_nat i + 2)) cv cv').
    match goal with |- res_rel _ ?a ?b => assert (HH : res_rel (sumrel (RS (zlen (bs_knots c'))) (crel d M L)) a b) end.
    2:{ match type of HH with res_rel _ ?a ?b => destruct a as [[x|x]| | |]; destruct b as [[y|y]| | |]; try exact HH end.
        destruct HH as [_ H]. simpl. unfold L. replace (length (bs_knots c')) with (Z.to_nat (zlen (bs_knots c'))) by (unfold zlen; lia). exact H. }
    apply (forb_up_rel_at RS); [apply zlen_nonneg| |].
    { split; [exact S2|]. eapply crel_mono; [exact HM| |exact R2]. simpl. lia. }
    intros i cv cv' Hi [Sc Rc]. unfold zlen in Hi.
    pose proof (get_rel krel _ _ i RK) as G. rewrite (rep_get _ _ _ _ _ i Hr) in G |- * by lia.
    destruct (get (bs_knots c) i) as [ui| | |]; try contradiction. rewrite !bind_Ok. destruct G as [[Fi Ei] Bi].
    rewrite <- Ei.
    assert (Hui : frel ui (B2R ui)) by now split.
    assert (HiL : (p * (Z.to_nat i + 2) + p <= L)%nat) by (unfold L; nia).
    rewrite (frel_le prec emax ui tmin (B2R ui) (B2R tmin) Hui (conj F1 eq_refl)).
    cbn [sle R_ops]. destruct (Rleb_spec (B2R ui) (B2R tmin)) as [Hle|Hgt].
    { split; [exact Sc|]. eapply crel_mono; [exact HM| |exact Rc]. nia. }
    rewrite (frel_le prec emax tmax ui (B2R tmax) (B2R ui) (conj F2 eq_refl) Hui).
    cbn [sle R_ops]. destruct (Rleb_spec (B2R tmax) (B2R ui)) as [Hle|Hlt].
    { simpl. eapply crel_mono; [exact HM| |exact Rc]. lia. }
    assert (Hin : In (B2R ui) (bs_knots c')) by (rewrite Ei; apply nth_In; lia).
    destruct (valid_rep cv' (sr_valid _ _ Sc)) as [Hrc Hkc].
    pose proof (lower_knot cv') as ELc. pose proof (upper_knot cv') as EUc.
    rewrite (sr_lower _ _ Sc) in ELc. rewrite (sr_upper _ _ Sc) in EUc. rewrite (sr_deg _ _ Sc) in *. fold lo in ELc. fold up in EUc. fold p in ELc, Hrc, Hkc.
    pose proof (rep_nknots _ _ _ _ _ Hrc) as HLc. unfold zlen in HLc. pose proof (rep_pn _ _ _ _ _ Hrc) as Hpnc.
    destruct (locate_span_mid cv' _ _ _ _ (B2R ui) Hrc ltac:(rewrite <- ELc, <- EUc; lra)) as (k & Ekk & Hkb & Hks).
    eapply bind_known; [eapply crel_locate; eassumption|exact Ekk|].
    assert (Ek : knot_of (bs_knots cv') k = B2R ui).
    { pose proof Hin as Hin2. apply (sr_in _ _ Sc) in Hin2. apply (In_nth _ _ 0) in Hin2. destruct Hin2 as (j & Hjl & Ej). rewrite <- knot_of_nat in Ej.
      destruct (Z_le_gt_dec (Z.of_nat j) k).
      - assert (knot_of (bs_knots cv') (Z.of_nat j) <= knot_of (bs_knots cv') k) by (apply (kv_mono _ _ _ Hkc); lia). lra.
      - assert (knot_of (bs_knots cv') (k + 1) <= knot_of (bs_knots cv') (Z.of_nat j)) by (apply (kv_mono _ _ _ Hkc); lia). lra. }
    destruct (mult_count cv' k (sr_valid _ _ Sc) ltac:(lia)) as (a & b & Em & _).
    eapply bind_known; [eapply crel_mult; eassumption|exact Em|]. rewrite Ek.
    pose proof (sat_step_near d c' M (p * (Z.to_nat i + 2)) cv cv' ui He Hem HM (HOle _ HiL) Hv Ha Sc Rc Fi Hin) as HS.
    cbv zeta in HS. fold p lo up in HS. specialize (HS ltac:(lra) ltac:(right; lra)).
    assert (Hfin : forall x y, sat_rel c' y /\ crel d M (p * (Z.to_nat i + 2) + p) x y /\
        (forall v, v <> B2R ui -> cnt (bs_knots y) v = cnt (bs_knots cv') v) -> RS (i + 1)%Z x y).
    { intros x y (Y1 & Y2 & _). split; [exact Y1|]. eapply crel_mono; [exact HM| |exact Y2]. nia. }
    destruct (Z.of_nat (cnt (bs_knots cv') (B2R ui)) <? Z.of_nat p)%Z.
    - eapply bind_rel; [exact HS|]. intros x y Hxy. simpl. now apply Hfin.
    - simpl in HS |- *. now apply Hfin.
  Qed.

  Definition brel (d : nat) (M : R) (j : nat) (a : bezier (vec num d)) (b : bezier (vec R d)) : Prop :=
    bz_periodic a = false /\ bz_periodic b = false /\ Forall2 (prel d M j) (bz_pts a) (bz_pts b).

  Lemma segments_near d M j cv cv' p (tmin tmax : num) : crel d M j cv cv' -> krel tmin (B2R tmin) -> is_finite tmax = true ->
    res_rel (prodrel (Forall2 (brel d M j)) (Forall2 krel)) (bs_segments cv p tmin tmax) (bs_segments cv' p (B2R tmin) (B2R tmax)).
  Proof.
    intros (RP & RK & _) Hmin F2. unfold bs_segments. rewrite <- (Forall2_zlen _ _ _ RK). cbv zeta.
    set (RS := fun (x : list (bezier (vec num d)) * list num * num) (y : list (bezier (vec R d)) * list R * R) =>
      Forall2 (brel d M j) (fst (fst x)) (fst (fst y)) /\ Forall2 krel (snd (fst x)) (snd (fst y)) /\ krel (snd x) (snd y)).
    apply (bind_rel (sumrel RS RS)).
    - apply forb_up_rel.
      2:{ split; [constructor|]. split; [constructor; [exact Hmin|constructor]|exact Hmin]. }
      intros i [[sg bd] cu] [[sg' bd'] cu'] (H1 & H2 & H3). cbn [fst snd] in H1, H2, H3.
      eapply bind_rel; [apply get_rel; exact RK|]. intros x x' Hx.
      rewrite (frel_le prec emax x cu x' cu' (proj1 Hx) (proj1 H3)). destruct (sle x' cu'); [split; [|split]; assumption|].
      rewrite (frel_lt prec emax tmax x (B2R tmax) x' (conj F2 eq_refl) (proj1 Hx)). destruct (slt (B2R tmax) x'); [split; [|split]; assumption|].
      eapply bind_rel; [apply block_rel; exact RP|]. intros l l' Hl. simpl. unfold RS. cbn [fst snd].
      split; [apply Forall2_app; [exact H1|constructor; [repeat split; exact Hl|constructor]]|].
      split; [apply Forall2_app; [exact H2|constructor; [exact Hx|constructor]]|exact Hx].
    - intros [[[sg bd] cu]|[[sg bd] cu]] [[[sg' bd'] cu']|[[sg' bd'] cu']] H; simpl in H; try contradiction;
        destruct H as (H1 & H2 & _); split; assumption.
  Qed.

  Lemma convert_near d (c : bspline num (vec num d)) (c' : bspline R (vec R d)) M :
    let p := bspline_degree (bs_pts c') (bs_knots c') in
    let L := (p * (length (bs_knots c') + 2))%nat in
    eps_ok prec emax -> (2 <= emax)%Z -> 0 <= M -> growth u eta M L < Omega ->
    valid_bspline (bs_pts c') (bs_knots c') -> knots_apart (/ IZR (10 ^ 16)) (bs_knots c') ->
    nth p (bs_knots c') 0 < nth (p + 1) (bs_knots c') 0 -> crel d M 0 c c' ->
    res_rel (prodrel (Forall2 (brel d M L)) (Forall2 krel)) (bs_convert_to_Bezier c) (bs_convert_to_Bezier c').
  Proof.
    intros p L He Hem HM HO Hv Ha Hs RC. pose proof (saturate_near d c c' M He Hem HM HO Hv Ha Hs RC) as HSat. fold p L in HSat.
    destruct RC as (RP & RK & _). unfold bs_convert_to_Bezier.
    assert (Hdeg : bs_degree c = bs_degree c').
    { unfold bs_degree. now rewrite (Forall2_zlen _ _ _ RP), (Forall2_zlen _ _ _ RK). }
    unfold bs_lower, bs_upper. rewrite Hdeg, (Forall2_zlen _ _ _ RK). cbv zeta.
    eapply bind_rel; [apply get_rel; exact RK|]. intros t0 t0' H0.
    eapply bind_rel; [apply get_rel; exact RK|]. intros t1 t1' H1.
    eapply bind_rel; [exact HSat|]. intros cv cv' Hc.
    destruct H0 as [[F0 E0] B0], H1 as [[F1 E1] B1]. subst t0' t1'. apply segments_near; [exact Hc| |exact F1]. now repeat split.
  Qed.

  Lemma convert_error d (c : bspline num (vec num d)) (M : R) :
    let knots := map B2R (bs_knots c) in
    let rp := map (vreal d) (bs_pts c) in
    let p := bspline_degree rp knots in
    let L := (p * (length knots + 2))%nat in
    eps_ok prec emax -> (2 <= emax)%Z -> valid_bspline rp knots -> knots_apart (/ IZR (10 ^ 16)) knots ->
    (forall x, In x (bs_knots c) -> is_finite x = true /\ Rabs (B2R x) <= bpow radix2 (emax - 2)) ->
    0 <= M <= bpow radix2 (emax - 1) -> 24 * INR L * u <= 1 ->
    (forall a, In a (bs_pts c) -> vfinite d a /\ forall i, (i < d)%nat -> Rabs (coord d i (vreal d a)) <= M) ->
    nth p knots 0 < nth (p + 1) knots 0 ->
    exists (segs : list (bezier (vec num d))) (bounds : list num),
      let rb := map B2R bounds in
      bs_convert_to_Bezier c = Ok (segs, bounds) /\ length bounds = S (length segs) /\
      (forall x, In x bounds -> is_finite x = true) /\
      nth 0 rb 0 = lower_of rp knots /\ nth (length segs) rb 0 = upper_of rp knots /\
      (forall x, In x rb <-> (In x knots /\ lower_of rp knots <= x <= upper_of rp knots)) /\
      (forall j, (j < length segs)%nat -> nth j rb 0 < nth (j + 1) rb 0) /\
      forall j, (j < length segs)%nat -> exists l, nth_error segs j = Some (mk_bezier l) /\
        length l = S p /\ (forall a, In a l -> vfinite d a) /\
        forall x, (nth j rb 0 <= x < nth (j + 1) rb 0 \/
                   (x = nth (j + 1) rb 0 /\ (S j = length segs \/ (count_occ Req_EM_T knots x <= p)%nat))) ->
          forall i, (i < d)%nat ->
            Rabs (coord d i (bernstein_curve (map (vreal d) l) ((x - nth j rb 0) / (nth (j + 1) rb 0 - nth j rb 0)))
                  - coord d i (bspline_curve rp knots x))
            <= INR L * (14 * u * M + (3 + 2 * M) * eta).
  Proof.
    intros knots rp p L He Hem Hv Ha HK HM Hu HP Hs.
    set (c' := bsreal prec emax c).
    assert (HO : growth u eta M L < Omega) by (exact (growth_finite prec emax M L (proj1 HM) Hu (proj2 HM))).
    pose proof (crel_bsreal prec emax d c M HP HK) as RC. fold c' in RC.
    pose proof (convert_near d c c' M He Hem (proj1 HM) HO Hv Ha Hs RC) as HC. cbv zeta in HC.
    destruct (bspline_convert_full d c' Hv Ha Hs) as (segs' & bounds' & E & H1 & H2 & H3 & H4 & H5 & H6).
    change (bs_pts c') with rp in *. change (bs_knots c') with knots in *. fold p in HC, H6. fold L in HC.
    rewrite E in HC. destruct (bs_convert_to_Bezier c) as [[segs bounds]| | |] eqn:Ef; try contradiction.
    destruct HC as [RSg RB]. cbn [fst snd] in RSg, RB. exists segs, bounds. intros rb.
    assert (Erb : rb = bounds').
    { unfold rb. clear - RB. induction RB as [|x y l l' [[_ H] _] _ IH]; [reflexivity|]. simpl. now rewrite IH, H. }
    assert (Lsg : length segs = length segs') by exact (Forall2_len _ _ _ RSg).
    rewrite Erb, Lsg. split; [reflexivity|]. split; [rewrite (Forall2_len _ _ _ RB); exact H1|]. split.
    { clear - RB. induction RB as [|x y l l' [[F _] _] _ IH]; intros z Hz; [contradiction|]. destruct Hz as [<-|Hz]; [exact F|now apply IH]. }
    split; [exact H2|]. split; [exact H3|]. split; [exact H4|]. split; [exact H5|].
    intros j Hj. destruct (H6 j Hj) as (l' & El' & _ & Ll' & Hev).
    assert (Hnth : exists b, nth_error segs j = Some b /\ brel d M L b (mk_bezier l')).
    { clear - RSg El'. revert j El'. induction RSg as [|x y a b Hxy _ IH]; intros [|j] El'; try discriminate.
      - injection El' as <-. exists x. now split.
      - apply IH. exact El'. }
    destruct Hnth as (b & Eb & Bp & _ & Bl). destruct b as [l per]. cbn [bz_pts bz_periodic mk_bezier] in Bp, Bl. subst per.
    assert (Ll : length l = S p) by (rewrite (Forall2_len _ _ _ Bl); exact Ll').
    exists l. split; [exact Eb|]. split; [exact Ll|]. split.
    { clear - Bl. induction Bl as [|x y a b H _ IH]; intros z Hz; [contradiction|]. destruct Hz as [<-|Hz]; [|now apply IH].
      apply (vfinite_coord prec emax). intros i Hi. destruct (H i Hi) as [[F _] _]. exact F. }
    intros x Hx i Hi. specialize (Hev x Hx). specialize (H5 j Hj).
    assert (Ib : forall m, (m <= length segs')%nat -> lower_of rp knots <= nth m bounds' 0 <= upper_of rp knots).
    { intros m Hm. apply H4. apply nth_In. lia. }
    pose proof (Ib j ltac:(lia)) as Ij. pose proof (Ib (j + 1)%nat ltac:(lia)) as Ij1.
    set (a := nth j bounds' 0) in *. set (b := nth (j + 1) bounds' 0) in *.
    assert (Hab : a <= x <= b) by (destruct Hx as [?|[-> _]]; lra).
    rewrite (bspline_eval (mk_bspline rp knots) x Hv Ha eq_refl) in Hev.
    2:{ change (lower_of rp knots <= x <= upper_of rp knots). lra. }
    2:{ left. left. exact Hs. }
    rewrite bezier_bernstein in Hev by (intros Z; rewrite Z in Ll'; discriminate).
    injection Hev as Hev. cbn [bs_pts bs_knots mk_bspline] in Hev. rewrite <- Hev.
    set (s := (x - a) / (b - a)).
    assert (Hs01 : 0 <= s <= 1).
    { unfold s. split.
      - apply Rmult_le_pos; [lra|apply Rlt_le, Rinv_0_lt_compat; lra].
      - apply (Rmult_le_reg_r (b - a)); [lra|]. unfold Rdiv. rewrite Rmult_assoc, Rinv_l by lra. lra. }
    assert (HB : forall q : list (vec R d), length q = S p ->
      coord d i (bernstein_curve q s) = rsum (S p) (fun k => bezier_basis (S p) s k * coord d i (nth k q p0))).
    { intros q Hq. unfold bernstein_curve. rewrite coord_psum by exact Hi. rewrite Hq. apply rsum_ext. intros k Hk.
      rewrite coord_mul by exact Hi. reflexivity. }
    rewrite (HB (map (vreal d) l)) by (rewrite map_length; exact Ll). rewrite (HB l' Ll').
    apply Rle_trans with (round_err prec emax M L).
    - apply mean_err; [apply bezier_simplex; exact Hs01|]. intros k Hk.
      pose proof (Forall2_nth_rel _ _ _ p0 p0 Bl k ltac:(lia) i Hi) as [(_ & _ & N3) _].
      rewrite (nth_indep _ p0 (vreal d p0)) by (rewrite map_length; lia). rewrite map_nth.
      pose proof (vreal_coord prec emax d i (nth k l p0)) as EV. rewrite EV. exact N3.
    - pose proof (growth_bound prec emax M L (proj1 HM) Hu) as GB. unfold round_err. pose proof (pos_INR L). lra.
  Qed.
End Float.

Lemma convert_double : forall (d : nat) (c : bspline double (vec double d)) (M : R),
  let knots := map B2R (bs_knots c) in
  let rp := map (vreal d) (bs_pts c) in
  let p := bspline_degree rp knots in
  let L := (p * (length knots + 2))%nat in
  valid_bspline rp knots -> knots_apart (/ IZR (10 ^ 16)) knots ->
  (forall x, In x (bs_knots c) -> is_finite x = true /\ Rabs (B2R x) <= bpow radix2 1022) ->
  0 <= M <= bpow radix2 1023 -> 24 * INR L * unit_roundoff 53 <= 1 ->
  (forall a, In a (bs_pts c) -> vfinite d a /\ forall i, (i < d)%nat -> Rabs (coord d i (vreal d a)) <= M) ->
  nth p knots 0 < nth (p + 1) knots 0 ->
  exists (segs : list (bezier (vec double d))) (bounds : list double),
    let rb := map B2R bounds in
    @bs_convert_to_Bezier double (vec double d) double_ops (@vec_ops double double_ops d) c = Ok (segs, bounds) /\
    length bounds = S (length segs) /\ (forall x, In x bounds -> is_finite x = true) /\
    nth 0 rb 0 = lower_of rp knots /\ nth (length segs) rb 0 = upper_of rp knots /\
    (forall x, In x rb <-> (In x knots /\ lower_of rp knots <= x <= upper_of rp knots)) /\
    (forall j, (j < length segs)%nat -> nth j rb 0 < nth (j + 1) rb 0) /\
    forall j, (j < length segs)%nat -> exists l, nth_error segs j = Some (mk_bezier l) /\
      length l = S p /\ (forall a, In a l -> vfinite d a) /\
      forall x, (nth j rb 0 <= x < nth (j + 1) rb 0 \/
                 (x = nth (j + 1) rb 0 /\ (S j = length segs \/ (count_occ Req_EM_T knots x <= p)%nat))) ->
        forall i, (i < d)%nat ->
          Rabs (coord d i (bernstein_curve (map (vreal d) l) ((x - nth j rb 0) / (nth (j + 1) rb 0 - nth j rb 0)))
                - coord d i (bspline_curve rp knots x))
          <= INR L * (14 * unit_roundoff 53 * M + (3 + 2 * M) * underflow_error 53 1024).
Proof.
  intros d c M knots rp p L Hv Ha HK HM Hu HP Hs.
  exact (@convert_error 53 1024 prec64 max64 d c M eps_double ltac:(lia) Hv Ha HK HM Hu HP Hs).
Qed.

Lemma convert_float : forall (d : nat) (c : bspline float32 (vec float32 d)) (M : R),
  let knots := map B2R (bs_knots c) in
  let rp := map (vreal d) (bs_pts c) in
  let p := bspline_degree rp knots in
  let L := (p * (length knots + 2))%nat in
  valid_bspline rp knots -> knots_apart (/ IZR (10 ^ 16)) knots ->
  (forall x, In x (bs_knots c) -> is_finite x = true /\ Rabs (B2R x) <= bpow radix2 126) ->
  0 <= M <= bpow radix2 127 -> 24 * INR L * unit_roundoff 24 <= 1 ->
  (forall a, In a (bs_pts c) -> vfinite d a /\ forall i, (i < d)%nat -> Rabs (coord d i (vreal d a)) <= M) ->
  nth p knots 0 < nth (p + 1) knots 0 ->
  exists (segs : list (bezier (vec float32 d))) (bounds : list float32),
    let rb := map B2R bounds in
    @bs_convert_to_Bezier float32 (vec float32 d) float32_ops (@vec_ops float32 float32_ops d) c = Ok (segs, bounds) /\
    length bounds = S (length segs) /\ (forall x, In x bounds -> is_finite x = true) /\
    nth 0 rb 0 = lower_of rp knots /\ nth (length segs) rb 0 = upper_of rp knots /\
    (forall x, In x rb <-> (In x knots /\ lower_of rp knots <= x <= upper_of rp knots)) /\
    (forall j, (j < length segs)%nat -> nth j rb 0 < nth (j + 1) rb 0) /\
    forall j, (j < length segs)%nat -> exists l, nth_error segs j = Some (mk_bezier l) /\
      length l = S p /\ (forall a, In a l -> vfinite d a) /\
      forall x, (nth j rb 0 <= x < nth (j + 1) rb 0 \/
                 (x = nth (j + 1) rb 0 /\ (S j = length segs \/ (count_occ Req_EM_T knots x <= p)%nat))) ->
        forall i, (i < d)%nat ->
          Rabs (coord d i (bernstein_curve (map (vreal d) l) ((x - nth j rb 0) / (nth (j + 1) rb 0 - nth j rb 0)))
                - coord d i (bspline_curve rp knots x))
          <= INR L * (14 * unit_roundoff 24 * M + (3 + 2 * M) * underflow_error 24 128).
Proof.
  intros d c M knots rp p L Hv Ha HK HM Hu HP Hs.
  exact (@convert_error 24 128 prec32 max32 d c M eps_float ltac:(lia) Hv Ha HK HM Hu HP Hs).
Qed.

Lemma dconvert_case : let c := dspline in
  let knots := map B2R (bs_knots c) in
  let rp := map (vreal 2) (bs_pts c) in
  let p := bspline_degree rp knots in
  let L := (p * (length knots + 2))%nat in
  p = 2%nat /\ L = 18%nat /\ valid_bspline rp knots /\ knots_apart (/ IZR (10 ^ 16)) knots /\
  (forall x, In x (bs_knots c) -> is_finite x = true /\ Rabs (B2R x) <= bpow radix2 1022) /\
  0 <= 4 <= bpow radix2 1023 /\ 24 * INR L * unit_roundoff 53 <= 1 /\
  (forall a, In a (bs_pts c) -> vfinite 2 a /\ forall i, (i < 2)%nat -> Rabs (coord 2 i (vreal 2 a)) <= 4) /\
  nth p knots 0 < nth (p + 1) knots 0.
Proof.
  cbv zeta. destruct dinsert_case as (Hp & V & A & HK & HM & _ & HP & _ & _ & _ & Hs & _). rewrite Hp in *.
  split; [reflexivity|]. split; [reflexivity|]. split; [exact V|]. split; [exact A|]. split; [exact HK|]. split; [exact HM|].
  split; [|split; [exact HP|exact Hs]].
  change (2 * (length (map B2R (bs_knots dspline)) + 2))%nat with 18%nat.
  unfold unit_roundoff. change (bpow radix2 (- (53))) with (/ IZR (2 ^ 53)). rewrite INR_IZR_INZ.
  change (Z.of_nat 18) with 18%Z. change (IZR (2 ^ 53)) with 9007199254740992. lra.
Qed.
