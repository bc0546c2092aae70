(** Subcurves of Bezier curves in floating point arithmetic. *)
From Coq Require Import Reals Lra Lia ZArith QArith List Bool Permutation.
From Flocq Require Import Core IEEE754.BinarySingleNaN.
From Verif Require Import Monad MonadFacts Scalar ScalarFacts Spec SpecFacts ModelCurve ModelBezier BezierThms
  ModelBSpline BSplineFacts BSplineThms BSplineThms2 Transfer SpecFloat ModelFloat FloatFacts
  FloatThms FloatThms2 FloatCases FloatRuns FloatRational SpecPatch PatchHull FloatPatch2 FloatDeriv FloatInsert SpecSub.
Import ListNotations.
Local Open Scope R_scope.

Lemma for_down_rel_at {S S'} (RS : Z -> S -> S' -> Prop) hi lo b b' s s' : (lo <= hi + 1)%Z -> RS hi s s' ->
  (forall i s s', (lo <= i <= hi)%Z -> RS i s s' -> res_rel (RS (i - 1)%Z) (b i s) (b' i s')) ->
  res_rel (RS (lo - 1)%Z) (for_down hi lo b s) (for_down hi lo b' s').
Proof.
  intros Hle H0 Hb. unfold for_down. remember (Z.to_nat (hi - lo + 1)) as n eqn:En. revert hi s s' Hle H0 Hb En.
  induction n as [|n IH]; intros hi s s' Hle H0 Hb En; cbn [ford_nat].
  - replace (lo - 1)%Z with hi by lia. exact H0.
  - eapply bind_rel; [apply Hb; [lia|exact H0]|]. intros a a' Ha. apply IH; [lia|exact Ha| |lia].
    intros i x x' Hi. apply Hb. lia.
Qed.

Lemma res_rel_weak {A B} (R1 R2 : A -> B -> Prop) x y : (forall a b, R1 a b -> R2 a b) -> res_rel R1 x y -> res_rel R2 x y.
Proof. intros H. destruct x, y; simpl; auto. Qed.

(** The exact run. *)
Lemma subcurves_exact d (l : list (R * R)) : forall cv : bezier (vec R d), bz_pts cv <> [] -> l <> [] ->
  (forall a b, In (a, b) l -> 0 <= a <= b /\ b <= 1) ->
  exists q, subcurves l cv = Ok (mk_bezier q) /\ length q = length (bz_pts cv) /\
    forall s, bernstein_curve q s = bernstein_curve (bz_pts cv) (nested l s).
Proof.
  induction l as [|[a b] l IH]; intros cv Hne Hl H; [congruence|]. cbn [subcurves nested].
  destruct (H a b (or_introl eq_refl)) as [H1 H2].
  destruct (bezier_subcurve d cv a b Hne H1 H2) as (q & E & Lq & Hq). rewrite E, bind_Ok.
  destruct l as [|ab l]; [exists q; split; [reflexivity|]; split; [exact Lq|exact Hq]|].
  destruct (IH (mk_bezier q)) as (q2 & E2 & L2 & Hq2).
  - intros Z. cbn [bz_pts mk_bezier] in Z. subst q. apply Hne. destruct (bz_pts cv); [reflexivity|discriminate].
  - discriminate.
  - intros x y Hi. apply H. now right.
  - exists q2. split; [exact E2|]. cbn [bz_pts mk_bezier] in L2, Hq2. split; [congruence|]. intros s. now rewrite Hq2, Hq.
Qed.

Section Float.
  Context (prec emax : Z) {Hprec : Prec_gt_0 prec} {Hmax : Prec_lt_emax prec emax}.
  Notation num := (binary_float prec emax).
  Notation u := (unit_roundoff prec).
  Notation eta := (underflow_error prec emax).
  Notation Omega := (bpow radix2 emax).
  Local Instance FOu : ScalarOps num := ieee_ops prec emax.

  (** A parameter of the unit interval. *)
  Definition trel (t : num) (r : R) : Prop := is_finite t = true /\ B2R t = r /\ 0 <= r <= 1.
  Definition qrel (d : nat) (M : R) (j : nat) (a : vec num d) (a' : vec R d) : Prop :=
    forall i, (i < d)%nat -> near prec emax (growth u eta M j) (growth u eta M j - M) (coord d i a) (coord d i a').

  Lemma qrel_mono d M j j' a a' : 0 <= M -> (j <= j')%nat -> qrel d M j a a' -> qrel d M j' a a'.
  Proof.
    intros HM Hj H i Hi. pose proof (growth_mono prec emax M j j' HM Hj).
    eapply near_weaken; [| |apply H; exact Hi]; lra.
  Qed.
  Lemma qrel_zero d M j : 0 <= M -> qrel d M j p0 p0.
  Proof.
    intros HM i Hi. destruct (prel_zero prec emax d M 0 HM i Hi) as [[F [_ _]] _]. split; [exact F|].
    assert (Hz : B2R (coord d i (p0 : vec num d)) = 0).
    { clear - Hi. revert i Hi. induction d as [|d IH]; intros i Hi; [lia|]. destruct i; [reflexivity|]. apply (IH i). lia. }
    pose proof (growth_mono prec emax M 0 j HM ltac:(lia)) as G. rewrite growth_0 in G.
    rewrite Hz. split; [rewrite Rabs_R0; lra|]. rewrite coord_0 by exact Hi. rewrite Rminus_0_r, Rabs_R0. lra.
  Qed.
  Lemma qrel_step d M j (t : num) t' a a' b b' : 0 <= M -> growth u eta M (S j) < Omega ->
    trel t t' -> qrel d M j a a' -> qrel d M j b b' ->
    qrel d M (S j) (padd (pmul t a) (pmul (ssub s1 t) b)) (padd (pmul t' a') (pmul (ssub s1 t') b')).
  Proof.
    intros HM HO (Ft & <- & Ht) HA HB i Hi. pose proof (HA i Hi) as I1. pose proof (HB i Hi) as I2.
    rewrite gcoord_add, !gcoord_mul by exact Hi. rewrite coord_add, !coord_mul by exact Hi.
    destruct (one_minus_spec prec emax t Ft Ht) as (Fs & _ & _ & Es).
    pose proof (growth_S prec emax M j HM) as HG.
    eapply near_weaken; [exact HG| |apply near_lerp with (A := growth u eta M j) (E := growth u eta M j - M); try assumption].
    - lra.
    - lra.
    - cbn [s1 ssub R_ops]. lra.
    - cbn [s1 ssub R_ops]. lra.
    - apply finite_B2R_err0. lra.
    - lra.
  Qed.

  Definition drel (d : nat) (M : R) (r : nat) (j : Z) (l : list (vec num d)) (l' : list (vec R d)) : Prop :=
    length l = length l' /\ forall m, (m < length l)%nat ->
      if (j <? Z.of_nat m)%Z then qrel d M (S r) (nth m l p0) (nth m l' p0) else qrel d M r (nth m l p0) (nth m l' p0).

  Lemma blossom_near d M base n bv bv' l l' : 0 <= M -> growth u eta M (base + n) < Omega ->
    Forall2 trel bv bv' -> Forall2 (qrel d M base) l l' -> length l = S n ->
    res_rel (Forall2 (qrel d M (base + n))) (bz_blossom bv (Z.of_nat n) l) (bz_blossom bv' (Z.of_nat n) l').
  Proof.
    intros HM HO HB HL Hn. unfold bz_blossom.
    pose (RS := fun (i : Z) (x : list (vec num d)) (x' : list (vec R d)) => length x = S n /\ Forall2 (qrel d M (base + Z.to_nat (i - 1))) x x').
    assert (HH : res_rel (RS (Z.of_nat n + 1)%Z) (bz_blossom bv (Z.of_nat n) l) (bz_blossom bv' (Z.of_nat n) l')).
    2:{ refine (res_rel_weak _ _ _ _ _ HH). intros x x' [_ H].
        replace (Z.to_nat (Z.of_nat n + 1 - 1)) with n in H by lia. exact H. }
    unfold bz_blossom. apply (for_up_rel_at RS); [lia| |].
    { split; [exact Hn|]. replace (base + Z.to_nat (1 - 1))%nat with base by lia. exact HL. }
    intros r x x' Hr [Lx Hx]. set (k := Z.to_nat (r - 1)) in *.
    assert (HOk : growth u eta M (S (base + k)) < Omega).
    { eapply Rle_lt_trans; [|exact HO]. apply (growth_mono prec emax); [exact HM|unfold k; lia]. }
    pose (RI := fun (j : Z) (y : list (vec num d)) (y' : list (vec R d)) => length y = S n /\ drel d M (base + k) j y y').
    assert (HI : res_rel (RI (r - 1)%Z)
      (for_down (Z.of_nat n) r (fun j c => do t <- get bv (r - 1)%Z; do a <- get c j; do b <- get c (j - 1)%Z;
         set c j (padd (pmul t a) (pmul (ssub s1 t) b))) x)
      (for_down (Z.of_nat n) r (fun j c => do t <- get bv' (r - 1)%Z; do a <- get c j; do b <- get c (j - 1)%Z;
         set c j (padd (pmul t a) (pmul (ssub s1 t) b))) x')).
    { apply (for_down_rel_at RI); [lia| |].
      { split; [exact Lx|]. split; [exact (Forall2_len _ _ _ Hx)|]. intros m Hm. destruct (Z.ltb_spec (Z.of_nat n) (Z.of_nat m)); [lia|].
        now apply Forall2_nth_rel. }
      intros j y y' Hj (Ly & Ly' & Hy).
      eapply bind_rel; [apply get_rel; exact HB|]. intros t t' Ht.
      assert (Hget : forall (Q : Type) (q : list Q) dq i, (0 <= i < Z.of_nat (length q))%Z -> get q i = Ok (nth (Z.to_nat i) q dq)).
      { intros Q q dq i Hi. unfold get. destruct (Z.ltb_spec i 0); [lia|]. now rewrite (nth_error_nth' q dq) by lia. }
      rewrite (Hget _ y p0 j), (Hget _ y' p0 j), (Hget _ y p0 (j - 1)%Z), (Hget _ y' p0 (j - 1)%Z) by lia. rewrite !bind_Ok.
      rewrite !set_Ok by (unfold zlen; lia). cbn [res_rel]. split; [rewrite upd_nat_length; exact Ly|].
      split; [rewrite !upd_nat_length; exact Ly'|]. intros m Hm. rewrite upd_nat_length in Hm.
      assert (Hnth : forall (Q : Type) (q : list Q) dq i v, (i < length q)%nat -> (m < length q)%nat ->
        nth m (upd_nat q i v) dq = if Nat.eqb m i then v else nth m q dq).
      { intros Q q dq i v Hi Hm'. apply nth_error_nth. rewrite nth_error_upd_nat by exact Hi.
        destruct (Nat.eqb m i); [reflexivity|]. now rewrite (nth_error_nth' q dq). }
      rewrite (Hnth _ y p0), (Hnth _ y' p0) by lia.
      destruct (Nat.eqb_spec m (Z.to_nat j)) as [->|Hne].
      - destruct (Z.ltb_spec (j - 1) (Z.of_nat (Z.to_nat j))); [|lia].
        pose proof (Hy (Z.to_nat j) ltac:(lia)) as Y1. destruct (Z.ltb_spec j (Z.of_nat (Z.to_nat j))); [lia|].
        pose proof (Hy (Z.to_nat (j - 1)) ltac:(lia)) as Y2. destruct (Z.ltb_spec j (Z.of_nat (Z.to_nat (j - 1)))); [lia|].
        now apply qrel_step.
      - specialize (Hy m Hm). destruct (Z.ltb_spec j (Z.of_nat m)), (Z.ltb_spec (j - 1) (Z.of_nat m)); try lia; exact Hy. }
    refine (res_rel_weak _ _ _ _ _ HI). clear HI. intros y y' (Ly & Ly' & Hy). split; [exact Ly|]. apply (Forall2_of_nth _ _ _ p0 p0 Ly'). intros m Hm. specialize (Hy m Hm).
    replace (base + Z.to_nat (r + 1 - 1))%nat with (S (base + k)) by (unfold k; lia).
    destruct (Z.ltb_spec (r - 1) (Z.of_nat m)); [exact Hy|]. eapply qrel_mono; [exact HM| |exact Hy]. lia.
  Qed.

  Definition srel (d : nat) (M : R) (j : nat) (a : bezier (vec num d)) (b : bezier (vec R d)) : Prop :=
    Forall2 (qrel d M j) (bz_pts a) (bz_pts b) /\ bz_periodic a = bz_periodic b.

  Lemma subcurve_near d M base n a b (t0 t1 : num) : 0 <= M -> growth u eta M (base + n) < Omega ->
    length (bz_pts a) = S n -> srel d M base a b -> is_finite t0 = true -> is_finite t1 = true ->
    0 <= B2R t0 <= B2R t1 -> B2R t1 <= 1 ->
    res_rel (srel d M (base + n)) (bz_subcurve a t0 t1) (bz_subcurve b (B2R t0) (B2R t1)).
  Proof.
    intros HM HO Hn [HP HPer] F0 F1 H0 H1. destruct (one_spec prec emax) as [Fo Eo].
    assert (R0 : frel prec emax t0 (B2R t0)) by now split. assert (R1 : frel prec emax t1 (B2R t1)) by now split.
    assert (Rz : frel prec emax s0 s0) by now split. assert (Ro : frel prec emax s1 s1) by now split.
    unfold bz_subcurve. rewrite (frel_lt prec emax _ _ _ _ R1 R0), (frel_lt prec emax _ _ _ _ R0 Rz), (frel_lt prec emax _ _ _ _ Ro R0),
      (frel_lt prec emax _ _ _ _ R1 Rz), (frel_lt prec emax _ _ _ _ Ro R1).
    destruct (slt (B2R t1) (B2R t0)); [reflexivity|].
    destruct (_ || _ || _ || _)%bool; [reflexivity|].
    unfold bz_degree. rewrite (Forall2_zlen _ _ _ HP).
    assert (Ez : (zlen (bz_pts b) - 1)%Z = Z.of_nat n) by (rewrite <- (Forall2_zlen _ _ _ HP); unfold zlen; lia).
    rewrite Ez. cbv zeta.
    eapply bind_rel; [apply (alloc_rel (qrel d M (base + n))); apply qrel_zero; exact HM|]. intros o o' Ho.
    apply (bind_rel (Forall2 (qrel d M (base + n)))).
    2:{ intros q q' Hq. split; [exact Hq|reflexivity]. }
    apply for_up_rel; [|exact Ho]. intros i s s' Hs.
    eapply bind_rel; [apply (alloc_rel trel); repeat split; [exact F1|lra|lra]|]. intros bv bv' Hbv.
    apply (bind_rel (Forall2 trel)).
    { apply for_up_rel; [|exact Hbv]. intros j x x' Hx. apply set_rel; [exact Hx|]. repeat split; [exact F0|lra|lra]. }
    intros bv1 bv1' Hbv1.
    eapply bind_rel; [apply blossom_near; [exact HM|exact HO|exact Hbv1|exact HP|exact Hn]|]. intros q q' Hq.
    eapply bind_rel; [apply get_rel; exact Hq|]. intros x x' Hx. apply set_rel; assumption.
  Qed.

  Lemma subcurves_near d M n (l : list (num * num)) : forall base a b, 0 <= M -> growth u eta M (base + length l * n) < Omega ->
    length (bz_pts a) = S n -> srel d M base a b ->
    (forall t0 t1, In (t0, t1) l -> is_finite t0 = true /\ is_finite t1 = true /\ 0 <= B2R t0 <= B2R t1 /\ B2R t1 <= 1) ->
    res_rel (srel d M (base + length l * n)) (subcurves l a) (subcurves (map (fun x => (B2R (fst x), B2R (snd x))) l) b).
  Proof.
    induction l as [|[t0 t1] l IH]; intros base a b HM HO Hn HS Hl; cbn [subcurves map length fst snd].
    - replace (base + 0 * n)%nat with base by lia. exact HS.
    - destruct (Hl t0 t1 (or_introl eq_refl)) as (F0 & F1 & H0 & H1).
      pose proof (subcurve_near d M base n a b t0 t1 HM) as HN.
      specialize (HN ltac:(eapply Rle_lt_trans; [|exact HO]; apply (growth_mono prec emax); [exact HM|simpl; lia]) Hn HS F0 F1 H0 H1).
      assert (Hne : bz_pts b <> []).
      { intros Z. destruct HS as [HS _]. pose proof (Forall2_len _ _ _ HS) as L. rewrite Z, Hn in L. discriminate. }
      destruct (bezier_subcurve d b (B2R t0) (B2R t1) Hne H0 H1) as (q & E & Lq & _). rewrite E in HN |- *.
      destruct (bz_subcurve a t0 t1) as [a1| | |]; try contradiction. rewrite !bind_Ok. cbn [res_rel] in HN.
      cbn [length] in HO. replace (base + S (length l) * n)%nat with (base + n + length l * n)%nat in HO |- * by (simpl; lia).
      apply IH; try assumption.
      + rewrite (Forall2_len _ _ _ (proj1 HN)). cbn [bz_pts mk_bezier]. rewrite Lq, <- (Forall2_len _ _ _ (proj1 HS)). exact Hn.
      + intros x y Hi. apply Hl. now right.
  Qed.

  Lemma subcurves_error d (c : bezier (vec num d)) (l : list (num * num)) (n : nat) (M : R) :
    length (bz_pts c) = S n -> l <> [] -> 0 <= M <= bpow radix2 (emax - 1) -> 24 * INR (length l * n) * u <= 1 ->
    (forall a, In a (bz_pts c) -> vfinite d a /\ forall i, (i < d)%nat -> Rabs (coord d i (vreal d a)) <= M) ->
    (forall t0 t1, In (t0, t1) l -> is_finite t0 = true /\ is_finite t1 = true /\ 0 <= B2R t0 <= B2R t1 /\ B2R t1 <= 1) ->
    exists q, subcurves l c = Ok (mk_bezier q) /\ length q = S n /\ (forall a, In a q -> vfinite d a) /\
      forall s, 0 <= s <= 1 -> forall i, (i < d)%nat ->
        Rabs (coord d i (bernstein_curve (map (vreal d) q) s)
              - coord d i (bernstein_curve (map (vreal d) (bz_pts c)) (nested (map (fun x => (B2R (fst x), B2R (snd x))) l) s)))
        <= INR (length l * n) * (4 * u * M + 3 * eta).
  Proof.
    intros Hlen Hl HM Hu HP Ht. set (rl := map (fun x => (B2R (fst x), B2R (snd x))) l). set (L := (length l * n)%nat) in *.
    set (rp := map (vreal d) (bz_pts c)). set (c' := {| bz_pts := rp; bz_periodic := bz_periodic c |}).
    assert (Hl' : length (bz_pts c') = S n) by (unfold c', rp; simpl; rewrite map_length; exact Hlen).
    assert (Hne : bz_pts c' <> []) by (intros Z; rewrite Z in Hl'; discriminate).
    assert (HO : growth u eta M (0 + L) < Omega) by (exact (growth_finite prec emax M L (proj1 HM) Hu (proj2 HM))).
    assert (HE : srel d M 0 c c').
    { split; [|reflexivity]. unfold c', rp. cbn [bz_pts]. clear - HP. induction (bz_pts c) as [|x q IH]; [constructor|]. constructor.
      - intros i Hi. destruct (HP x (or_introl eq_refl)) as [F B]. specialize (B i Hi). rewrite (vreal_coord prec emax) in B |- *.
        rewrite growth_0. split; [now apply (vfinite_coord prec emax d)|]. split; [exact B|].
        rewrite Rminus_diag_eq, Rabs_R0 by reflexivity. lra.
      - apply IH. intros a Ha. apply HP. now right. }
    pose proof (subcurves_near d M n l 0 c c' (proj1 HM) HO Hlen HE Ht) as HN. fold rl L in HN.
    destruct (subcurves_exact d rl c' Hne) as (q' & E & Lq & Hev).
    { unfold rl. destruct l; [congruence|discriminate]. }
    { intros a b Hab. unfold rl in Hab. apply in_map_iff in Hab. destruct Hab as ([x y] & Exy & Hin). cbn [fst snd] in Exy.
      injection Exy as <- <-. destruct (Ht x y Hin) as (_ & _ & A & B). now split. }
    rewrite E in HN. destruct (subcurves l c) as [[q per]| | |]; try contradiction.
    destruct HN as [Bl Bp]. cbn [bz_pts bz_periodic mk_bezier] in Bl, Bp. subst per.
    assert (Lq2 : length q = S n) by (rewrite (Forall2_len _ _ _ Bl), Lq; exact Hl').
    exists q. split; [reflexivity|]. split; [exact Lq2|]. split.
    { clear - Bl. induction Bl as [|x y a b H _ IH]; intros z Hz; [contradiction|]. destruct Hz as [<-|Hz]; [|now apply IH].
      apply (vfinite_coord prec emax). intros i Hi. destruct (H i Hi) as [F _]. exact F. }
    intros s Hs i Hi. change rp with (bz_pts c'). rewrite <- Hev.
    assert (HB : forall p : list (vec R d), length p = S n ->
      coord d i (bernstein_curve p s) = rsum (S n) (fun m => bezier_basis (S n) s m * coord d i (nth m p p0))).
    { intros p Hp. unfold bernstein_curve. rewrite coord_psum by exact Hi. rewrite Hp. apply rsum_ext. intros m Hm.
      rewrite coord_mul by exact Hi. reflexivity. }
    rewrite (HB (map (vreal d) q)) by (rewrite map_length; lia). rewrite (HB q') by lia.
    apply Rle_trans with (growth u eta M L - M).
    - apply mean_err; [apply bezier_simplex; exact Hs|]. intros m Hm.
      pose proof (Forall2_nth_rel _ _ _ p0 p0 Bl m ltac:(lia) i Hi) as (_ & _ & N3).
      rewrite (nth_indep _ p0 (vreal d p0)) by (rewrite map_length; lia). rewrite map_nth.
      pose proof (vreal_coord prec emax d i (nth m q p0)) as EV. rewrite EV. exact N3.
    - pose proof (growth_bound prec emax M L (proj1 HM) Hu) as GB. lra.
  Qed.
End Float.

Lemma subcurves_double : forall (d : nat) (c : bezier (vec double d)) (l : list (double * double)) (n : nat) (M : R),
  let intervals := map (fun x => (B2R (fst x), B2R (snd x))) l in
  length (bz_pts c) = S n -> l <> [] -> 0 <= M <= bpow radix2 1023 -> 24 * INR (length l * n) * unit_roundoff 53 <= 1 ->
  (forall a, In a (bz_pts c) -> vfinite d a /\ forall i, (i < d)%nat -> Rabs (coord d i (vreal d a)) <= M) ->
  (forall t0 t1 : double, In (t0, t1) l -> is_finite t0 = true /\ is_finite t1 = true /\ 0 <= B2R t0 <= B2R t1 /\ B2R t1 <= 1) ->
  exists q : list (vec double d),
    @subcurves double (vec double d) double_ops (@vec_ops double double_ops d) l c = Ok (mk_bezier q) /\
    length q = S n /\ (forall a, In a q -> vfinite d a) /\
    forall s, 0 <= s <= 1 -> forall i, (i < d)%nat ->
      Rabs (coord d i (bernstein_curve (map (vreal d) q) s)
            - coord d i (bernstein_curve (map (vreal d) (bz_pts c)) (nested intervals s)))
      <= INR (length l * n) * (4 * unit_roundoff 53 * M + 3 * underflow_error 53 1024).
Proof.
  intros d c l n M intervals Hl Hne HM Hu HP Ht.
  exact (@subcurves_error 53 1024 prec64 max64 d c l n M Hl Hne HM Hu HP Ht).
Qed.

Lemma subcurves_float : forall (d : nat) (c : bezier (vec float32 d)) (l : list (float32 * float32)) (n : nat) (M : R),
  let intervals := map (fun x => (B2R (fst x), B2R (snd x))) l in
  length (bz_pts c) = S n -> l <> [] -> 0 <= M <= bpow radix2 127 -> 24 * INR (length l * n) * unit_roundoff 24 <= 1 ->
  (forall a, In a (bz_pts c) -> vfinite d a /\ forall i, (i < d)%nat -> Rabs (coord d i (vreal d a)) <= M) ->
  (forall t0 t1 : float32, In (t0, t1) l -> is_finite t0 = true /\ is_finite t1 = true /\ 0 <= B2R t0 <= B2R t1 /\ B2R t1 <= 1) ->
  exists q : list (vec float32 d),
    @subcurves float32 (vec float32 d) float32_ops (@vec_ops float32 float32_ops d) l c = Ok (mk_bezier q) /\
    length q = S n /\ (forall a, In a q -> vfinite d a) /\
    forall s, 0 <= s <= 1 -> forall i, (i < d)%nat ->
      Rabs (coord d i (bernstein_curve (map (vreal d) q) s)
            - coord d i (bernstein_curve (map (vreal d) (bz_pts c)) (nested intervals s)))
      <= INR (length l * n) * (4 * unit_roundoff 24 * M + 3 * underflow_error 24 128).
Proof.
  intros d c l n M intervals Hl Hne HM Hu HP Ht.
  exact (@subcurves_error 24 128 prec32 max32 d c l n M Hl Hne HM Hu HP Ht).
Qed.

Lemma dsub_case : let c := mk_bezier [dpt 0 1; dpt 1 3; dpt 4 (-2); dpt (1 # 3) 0] in
  let l := [(dofQ (1 # 10), dofQ (3 # 4)); (dofQ 0, dofQ (1 # 10))] in
  length (bz_pts c) = 4%nat /\ l <> [] /\ 0 <= 4 <= bpow radix2 1023 /\ 24 * INR (length l * 3) * unit_roundoff 53 <= 1 /\
  (forall a, In a (bz_pts c) -> vfinite 2 a /\ forall i, (i < 2)%nat -> Rabs (coord 2 i (vreal 2 a)) <= 4) /\
  (forall t0 t1 : double, In (t0, t1) l -> is_finite t0 = true /\ is_finite t1 = true /\ 0 <= B2R t0 <= B2R t1 /\ B2R t1 <= 1).
Proof.
  destruct cubic_case as (H1 & H2 & H3 & H4 & _). split; [exact H1|]. split; [discriminate|]. split; [exact H2|]. split.
  { unfold unit_roundoff. rewrite INR_IZR_INZ. change (Z.of_nat (length _ * 3)) with 6%Z.
    change (bpow radix2 (- (53))) with (/ IZR (2 ^ 53)). change (IZR (2 ^ 53)) with 9007199254740992. lra. }
  split; [exact H4|].
  dval (1 # 10)%Q false 7205759403792794%positive (-56)%Z. rename F into Fa, E into Ea.
  dval (3 # 4)%Q false 6755399441055744%positive (-53)%Z. rename F into Fb, E into Eb.
  set (a := dofQ (1 # 10)) in *. set (b := dofQ (3 # 4)) in *.
  intros t0 t1 [H|[H|[]]]; injection H as <- <-.
  - rewrite Ea, Eb. repeat split; try assumption; simpl IZR; lra.
  - rewrite Ea. change (B2R (dofQ 0)) with 0. repeat split; try assumption; try reflexivity; simpl IZR; lra.
Qed.
