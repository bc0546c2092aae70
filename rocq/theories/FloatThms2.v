(** Rounding errors of B-spline evaluation. *)
From Coq Require Import Reals Lra Lia ZArith QArith List Bool.
From Flocq Require Import Core IEEE754.BinarySingleNaN.
From Verif Require Import Monad MonadFacts Scalar ScalarFacts Spec SpecFacts ModelCurve ModelBezier BezierThms
  ModelBSpline BSplineFacts BSplineThms BSplineThms2 Transfer SpecFloat ModelFloat FloatFacts FloatThms.
Import ListNotations.
Local Open Scope R_scope.

(** * B-spline evaluation is the triangle, in any arithmetic *)
Section Gen.
  Context {T P : Type} {SO : ScalarOps T} {V : PointOps T P}.
  Local Open Scope Z_scope.

  Definition btolT : T := sofQ (1 # (10 ^ 16)%positive)%Q.
  (** The ratio of BSpline.h:499-502. *)
  Definition galpha (U : Z -> T) (t : T) (p k r j : Z) : T :=
    let diff := ssub (U (j + k + 1 - r)) (U (j + k - p)) in
    if slt btolT diff then sdiv (ssub t (U (j + k - p))) diff else s0.
  Definition gstep (U : Z -> T) (t : T) (p k : Z) (r j : Z) (a b : P) : P :=
    padd (pmul (ssub s1 (galpha U t p k r j)) a) (pmul (galpha U t p k r j) b).

  Lemma gspan_points (c : bspline T P) n p k cp : arr (bs_pts c) n cp -> 0 <= p -> p <= k < n ->
    exists l, span_points c p k = Ok l /\ arr l (p + 1) (fun i => cp (k - p + i)).
  Proof.
    intros H Hp Hk. unfold span_points.
    destruct (arr_alloc (p0 : P) (p + 1)) as (l & E & Hl); [lia|]. rewrite E, bind_Ok.
    match goal with |- context [for_up 0 (p + 1) ?B l] =>
      destruct (for_up_inv (fun i0 s => arr s (p + 1) (fun i => if i <? i0 then cp (k - p + i) else p0)) 0 (p + 1) B l)
        as (s' & Es & Hs') end.
    - lia.
    - eapply arr_ext; [exact Hl|]. intros i Hi. destruct (Z.ltb_spec i 0); [lia|reflexivity].
    - intros i s Hi Hs. rewrite (arr_len _ _ _ H).
      destruct (Z.leb_spec 0 (k - p + i)); [|lia]. cbn [assert_]. rewrite bind_Ok.
      destruct (Z.ltb_spec (k - p + i) n); [|lia]. cbn [assert_]. rewrite bind_Ok.
      rewrite (arr_get _ _ _ _ H) by lia. rewrite bind_Ok.
      destruct (arr_set s _ _ i (cp (k - p + i)) Hs) as (s3 & E3 & HS3); [lia|].
      exists s3. split; [exact E3|]. eapply arr_ext; [exact HS3|]. intros j Hj. cbv beta. unfold fupd.
      destruct (Z.eqb_spec j i) as [->|Hne].
      + destruct (Z.ltb_spec i (i + 1)); [reflexivity|lia].
      + destruct (Z.ltb_spec j i); destruct (Z.ltb_spec j (i + 1)); try lia; reflexivity.
    - exists s'. split; [exact Es|]. eapply arr_ext; [exact Hs'|]. intros i Hi. cbv beta.
      destruct (Z.ltb_spec i (p + 1)); [reflexivity|lia].
  Qed.

  Lemma bs_evaluate_gtri (c : bspline T P) n p k U cp t :
    arr (bs_pts c) n cp -> arr (bs_knots c) (n + p + 1) U -> 0 <= p < n -> bs_periodic c = false ->
    (forall x : T, slt btolT x = true -> seq_ x s0 = false) ->
    locate_span c t = Ok k -> p <= k < n ->
    bs_evaluate c t = Ok (gtri (gstep U t p k) (fun i => cp (k - p + i)) (Z.to_nat p) p).
  Proof.
    intros Hc HU Hp Hper Hd Hl Hk. unfold bs_evaluate, bs_validate, bs_unwrap.
    assert (Hdeg : bs_degree c = p).
    { unfold bs_degree. rewrite (arr_len _ _ _ HU), (arr_len _ _ _ Hc). lia. }
    rewrite Hdeg, Hper. destruct (Z.ltb_spec p 0); [lia|]. rewrite !bind_Ok. cbv zeta. rewrite Hl, bind_Ok.
    destruct (Z.leb_spec 0 p); [|lia]. cbn [assert_]. rewrite bind_Ok.
    rewrite (arr_len _ _ _ HU), (arr_len _ _ _ Hc), Z.eqb_refl. cbn [assert_]. rewrite bind_Ok.
    destruct (gspan_points c n p k cp Hc ltac:(lia) Hk) as (l & El & Hl'). rewrite El, bind_Ok.
    unfold bs_deBoor. rewrite Hdeg. destruct (Z.ltb_spec 0 p) as [Hpos|Hpos].
    - destruct (arr_alloc t p) as (bv & Eb & Hb); [lia|]. rewrite Eb, bind_Ok. unfold bs_blossom.
      rewrite (arr_len _ _ _ Hl'), Z.leb_refl. cbn [assert_]. rewrite bind_Ok.
      match goal with |- context [for_up 1 (p + 1) ?O l] => set (outer := O) end.
      destruct (gtri_loops (gstep U t p k) outer
        (fun r j pts =>
           do u1 <- get (bs_knots c) (j + k + 1 - r);
           do u0 <- get (bs_knots c) (j + k - p);
           do alpha <- (if slt (sofQ (1 # (10 ^ 16)%positive)) (ssub u1 u0) then ddiv (ssub t u0) (ssub u1 u0) else Ok s0);
           do a <- get pts (j - 1);
           do b <- get pts j;
           set pts j (padd (pmul (ssub s1 alpha) a) (pmul alpha b))) l (p + 1) _ p Hl') as (l' & E & H').
      + lia.
      + intros r s Hr. unfold outer. rewrite (arr_get _ _ _ (r - 1) Hb) by lia. rewrite bind_Ok. reflexivity.
      + intros r j s g Hr Hj Hs. rewrite (arr_get _ _ _ (j + k + 1 - r) HU) by lia. rewrite bind_Ok.
        rewrite (arr_get _ _ _ (j + k - p) HU) by lia. rewrite bind_Ok.
        assert (EA : (if slt (sofQ (1 # (10 ^ 16)%positive)) (ssub (U (j + k + 1 - r)) (U (j + k - p)))
          then ddiv (ssub t (U (j + k - p))) (ssub (U (j + k + 1 - r)) (U (j + k - p))) else Ok s0) = Ok (galpha U t p k r j)).
        { unfold galpha, btolT. cbv zeta.
          destruct (slt _ (ssub (U (j + k + 1 - r)) (U (j + k - p)))) eqn:E; [|reflexivity].
          unfold ddiv. rewrite (Hd _ E). reflexivity. }
        rewrite EA, bind_Ok. rewrite (arr_get _ _ _ (j - 1) Hs) by lia. rewrite bind_Ok.
        rewrite (arr_get _ _ _ j Hs) by lia. now rewrite bind_Ok.
      + rewrite E, bind_Ok. rewrite (arr_get _ _ _ p H') by lia. cbv beta. now rewrite Z.leb_refl, Z.min_id.
    - rewrite bind_Ok. rewrite (arr_get _ _ _ _ Hl') by lia. replace (Z.to_nat p) with O by lia. reflexivity.
  Qed.
End Gen.

Section Float.
  Context (prec emax : Z) {Hprec : Prec_gt_0 prec} {Hmax : Prec_lt_emax prec emax}.
  Notation num := (binary_float prec emax).
  Notation u := (unit_roundoff prec).
  Notation eta := (underflow_error prec emax).
  Notation Omega := (bpow radix2 emax).
  Local Instance FO2 : ScalarOps num := ieee_ops prec emax.

  (** The real curve of a floating point curve. *)
  Definition bsreal {d} (c : bspline num (vec num d)) : bspline R (vec R d) :=
    {| bs_pts := map (vreal d) (bs_pts c); bs_knots := map B2R (bs_knots c); bs_periodic := bs_periodic c |}.

  (** ** Location compares only *)
  Definition frel (x : num) (r : R) : Prop := is_finite x = true /\ B2R x = r.
  Lemma frel_le a b a' b' : frel a a' -> frel b b' -> sle a b = sle a' b'.
  Proof.
    intros [F1 <-] [F2 <-]. cbn [sle FO2 ieee_ops R_ops]. rewrite Bleb_correct by assumption.
    unfold Rleb. destruct (Rle_bool_spec (B2R a) (B2R b)); destruct (Rle_dec (B2R a) (B2R b)); try reflexivity; lra.
  Qed.
  Lemma frel_lt a b a' b' : frel a a' -> frel b b' -> slt a b = slt a' b'.
  Proof.
    intros [F1 <-] [F2 <-]. cbn [slt FO2 ieee_ops R_ops]. rewrite Bltb_correct by assumption.
    unfold Rltb. destruct (Rlt_bool_spec (B2R a) (B2R b)); destruct (Rlt_dec (B2R a) (B2R b)); try reflexivity; lra.
  Qed.
  Lemma frel_eq a b a' b' : frel a a' -> frel b b' -> seq_ a b = seq_ a' b'.
  Proof.
    intros [F1 <-] [F2 <-]. cbn [seq_ FO2 ieee_ops R_ops]. rewrite Beqb_correct by assumption.
    unfold Reqb. destruct (Req_bool_spec (B2R a) (B2R b)); destruct (Req_EM_T (B2R a) (B2R b)); try reflexivity; lra.
  Qed.

  Lemma fbypass_after l l' i : Forall2 frel l l' -> res_rel eq (bypass_after l i) (bypass_after l' i).
  Proof.
    intros H. unfold bypass_after. rewrite (Forall2_len _ _ _ H). apply while_rel; [| |reflexivity].
    - intros s ? <-. rewrite (Forall2_zlen _ _ _ H). destruct (s + 1 <? zlen l')%Z; [|reflexivity].
      eapply bind_rel; [apply get_rel; exact H|]. intros a a' Ha.
      eapply bind_rel; [apply get_rel; exact H|]. intros b b' Hb. simpl. now apply frel_eq.
    - intros s ? <-. reflexivity.
  Qed.
  Lemma fbypass_before l l' i : Forall2 frel l l' -> res_rel eq (bypass_before l i) (bypass_before l' i).
  Proof.
    intros H. unfold bypass_before. rewrite (Forall2_len _ _ _ H). apply while_rel; [| |reflexivity].
    - intros s ? <-. destruct (0 <=? s - 1)%Z; [|reflexivity].
      eapply bind_rel; [apply get_rel; exact H|]. intros a a' Ha.
      eapply bind_rel; [apply get_rel; exact H|]. intros b b' Hb. simpl. now apply frel_eq.
    - intros s ? <-. reflexivity.
  Qed.
  Lemma fspan_search l l' t t' lo hi : Forall2 frel l l' -> frel t t' ->
    res_rel eq (span_search l t lo hi) (span_search l' t' lo hi).
  Proof.
    intros H Ht. unfold span_search. rewrite (Forall2_len _ _ _ H). apply (bind_rel eq).
    - apply while_rel; [| |reflexivity].
      + intros [[a b] m] ? <-. eapply bind_rel; [apply get_rel; exact H|]. intros x x' Hx.
        rewrite (frel_lt t x t' x' Ht Hx). destruct (slt t' x'); [reflexivity|].
        eapply bind_rel; [apply get_rel; exact H|]. intros y y' Hy. simpl. now apply frel_le.
      + intros [[a b] m] ? <-. eapply bind_rel; [apply get_rel; exact H|]. intros x x' Hx.
        rewrite (frel_lt t x t' x' Ht Hx). destruct (slt t' x'); reflexivity.
    - intros [[a b] m] ? <-. reflexivity.
  Qed.
  Lemma flocate_span {d} (c : bspline num (vec num d)) t :
    (forall x, In x (bs_knots c) -> is_finite x = true) -> is_finite t = true ->
    res_rel eq (locate_span c t) (locate_span (bsreal c) (B2R t)).
  Proof.
    intros Hk Ft. unfold locate_span.
    assert (H : Forall2 frel (bs_knots c) (bs_knots (bsreal c))).
    { cbn [bsreal bs_knots]. induction (bs_knots c) as [|x l IH]; [constructor|]. constructor.
      - split; [apply Hk; now left|reflexivity].
      - apply IH. intros y Hy. apply Hk. now right. }
    assert (Ht : frel t (B2R t)) by now split.
    assert (E2 : zlen (bs_pts (bsreal c)) = zlen (bs_pts c)) by (cbn [bsreal bs_pts]; unfold zlen; now rewrite map_length).
    assert (E1 : bs_degree (bsreal c) = bs_degree c).
    { unfold bs_degree. now rewrite E2, <- (Forall2_zlen _ _ _ H). }
    rewrite E1, E2, <- (Forall2_zlen _ _ _ H). cbv zeta.
    eapply bind_rel; [apply assert_rel|]. intros _ _ _.
    eapply bind_rel; [apply get_rel; exact H|]. intros a a' Ha.
    rewrite (frel_le t a _ a' Ht Ha). destruct (sle (B2R t) a'); [reflexivity|].
    eapply bind_rel; [apply get_rel; exact H|]. intros b b' Hb.
    rewrite (frel_le b t b' _ Hb Ht). destruct (sle b' (B2R t)).
    - eapply bind_rel; [apply fbypass_before; exact H|]. intros i ? <-. reflexivity.
    - eapply bind_rel; [apply fspan_search; [exact H|exact Ht]|]. intros i ? <-. now apply fbypass_after.
  Qed.

  (** ** The ratio *)
  Lemma ratio_spec (t v0 v1 : num) :
    is_finite t = true -> is_finite v0 = true -> is_finite v1 = true ->
    B2R v0 <= B2R t <= B2R v1 -> B2R v0 < B2R v1 -> (1 + u) * (B2R v1 - B2R v0) < Omega ->
    let diff := Bminus mode_NE v1 v0 in
    let al := Bdiv mode_NE (Bminus mode_NE t v0) diff in
    is_finite diff = true /\ (1 - u) * (B2R v1 - B2R v0) <= B2R diff /\
    is_finite al = true /\ 0 <= B2R al <= 1 /\
    Rabs (B2R al - (B2R t - B2R v0) / (B2R v1 - B2R v0)) <= 5 * u + eta /\
    (B2R t = B2R v0 -> B2R al = 0) /\ (B2R t = B2R v1 -> B2R al = 1).
  Proof.
    intros Ft F0 F1 Ht H01 HO. cbv zeta. pose proof (u_pos prec) as Hu. pose proof (u_le_half prec) as Hu2.
    set (N := B2R t - B2R v0) in *. set (D := B2R v1 - B2R v0) in *.
    assert (HN : 0 <= N <= D) by (unfold N, D; lra). assert (HD : 0 < D) by (unfold D; lra).
    destruct (sub_spec prec emax v1 v0 F1 F0) as (Fd & Ed & Hd).
    { fold D. rewrite Rabs_pos_eq by lra. exact HO. }
    destruct (sub_spec prec emax t v0 Ft F0) as (Fn & En & Hn).
    { fold N. rewrite Rabs_pos_eq by lra. nra. }
    fold D in Ed, Hd. fold N in En, Hn. rewrite (Rabs_pos_eq D) in Hd by lra. rewrite (Rabs_pos_eq N) in Hn by lra.
    set (dd := Bminus mode_NE v1 v0) in *. set (nn := Bminus mode_NE t v0) in *.
    apply Rabs_le_inv in Hd. apply Rabs_le_inv in Hn.
    assert (Hd1 : (1 - u) * D <= B2R dd) by lra.
    assert (Hdp : 0 < B2R dd) by nra.
    assert (Hn0 : 0 <= B2R nn <= B2R dd).
    { rewrite En, Ed. split; [|apply (fl_le prec emax); lra]. rewrite <- (fl_0 prec emax). apply (fl_le prec emax). lra. }
    assert (Hq : 0 <= B2R nn / B2R dd <= 1).
    { split; [apply Rmult_le_pos; [lra|apply Rlt_le, Rinv_0_lt_compat; lra]|].
      apply (Rmult_le_reg_r (B2R dd)); [lra|]. unfold Rdiv. rewrite Rmult_assoc, Rinv_l by lra. lra. }
    pose proof (Bdiv_correct prec emax Hprec Hmax mode_NE nn dd ltac:(lra)) as HB.
    assert (Hr : 0 <= round radix2 (SpecFloat.fexp prec emax) (round_mode mode_NE) (B2R nn / B2R dd) <= 1).
    { split.
      - rewrite <- (fl_0 prec emax) at 1. apply (fl_le prec emax). lra.
      - rewrite <- (fl_1 prec emax). apply (fl_le prec emax). lra. }
    rewrite Rlt_bool_true in HB.
    2:{ rewrite Rabs_pos_eq by lra. pose proof (Omega_1 prec emax). lra. }
    destruct HB as (Eq & Fq & _). rewrite Fn in Fq.
    split; [exact Fd|]. split; [exact Hd1|]. split; [exact Fq|]. rewrite Eq. split; [exact Hr|].
    split.
    2:{ split.
        - intros E0. assert (N = 0) by (unfold N; lra). rewrite En. replace N with 0 by lra. rewrite (fl_0 prec emax).
          unfold Rdiv. rewrite Rmult_0_l. apply (fl_0 prec emax).
        - intros E1. rewrite En. replace N with D by (unfold N, D; lra). rewrite <- Ed.
          unfold Rdiv. rewrite Rinv_r by lra. apply (fl_1 prec emax). }
    pose proof (fl_err prec emax (B2R nn / B2R dd)) as He. rewrite (Rabs_pos_eq (B2R nn / B2R dd)) in He by lra.
    set (q := B2R nn / B2R dd) in *.
    replace (round radix2 (SpecFloat.fexp prec emax) (round_mode mode_NE) q - N / D) with
      ((round radix2 (SpecFloat.fexp prec emax) (round_mode mode_NE) q - q) + (q - N / D)) by ring.
    eapply Rle_trans; [apply Rabs_triang|].
    assert (Rabs (q - N / D) <= 4 * u); [|nra].
    assert (E : q - N / D = ((B2R nn - N) * D - N * (B2R dd - D)) * (/ B2R dd * / D)) by (unfold q; field; lra).
    rewrite E, Rabs_mult. rewrite (Rabs_pos_eq (/ B2R dd * / D)).
    2:{ apply Rmult_le_pos; apply Rlt_le, Rinv_0_lt_compat; lra. }
    assert (HX : Rabs ((B2R nn - N) * D - N * (B2R dd - D)) <= 2 * u * (D * D)).
    { apply Rabs_le. split; nra. }
    assert (HD2 : D <= 2 * B2R dd) by nra.
    assert (Hi : 0 < / B2R dd * / D) by (apply Rmult_lt_0_compat; apply Rinv_0_lt_compat; lra).
    apply Rle_trans with (2 * u * (D * D) * (/ B2R dd * / D)); [apply Rmult_le_compat_r; lra|].
    replace (2 * u * (D * D) * (/ B2R dd * / D)) with (2 * u * (D * / B2R dd)) by (field; lra).
    assert (D * / B2R dd <= 2).
    { apply (Rmult_le_reg_r (B2R dd)); [lra|]. rewrite Rmult_assoc, Rinv_l by lra. lra. }
    nra.
  Qed.

  (** ** Evaluation *)
  Definition tol_ok : Prop :=
    is_finite (btolT : num) = true /\ 0 < B2R (btolT : num) <= 2 / IZR (10 ^ 16).

  Lemma fdiff_nonzero : tol_ok -> forall x : num, slt btolT x = true -> seq_ x s0 = false.
  Proof.
    intros [F Hb] x Hx. destruct x as [s|s| |s m e He].
    - exfalso. cbn [slt FO2 ieee_ops] in Hx. rewrite Bltb_correct in Hx by (exact F || reflexivity).
      destruct (Rlt_bool_spec (B2R (btolT : num)) (B2R (B754_zero s : num))) as [H|H]; [|discriminate].
      simpl in H. unfold btolT in Hb. simpl in Hb. lra.
    - destruct s; reflexivity.
    - reflexivity.
    - destruct s; reflexivity.
  Qed.

  Lemma bspline_near_i d (c : bspline num (vec num d)) (t : num) (Mf : nat -> R) :
    let p := bspline_degree (bs_pts c) (map B2R (bs_knots c)) in
    let knots := map B2R (bs_knots c) in
    tol_ok ->
    valid_bspline (bs_pts c) knots -> knots_apart (/ IZR (10 ^ 15)) knots -> bs_periodic c = false ->
    (forall x, In x (bs_knots c) -> is_finite x = true /\ Rabs (B2R x) <= bpow radix2 (emax - 2)) ->
    (forall a i, In a (bs_pts c) -> (i < d)%nat -> is_finite (coord d i a) = true /\ Rabs (B2R (coord d i a)) <= Mf i) ->
    is_finite t = true -> lower_of (bs_pts c) knots <= B2R t <= upper_of (bs_pts c) knots ->
    (nth p knots 0 < nth (p + 1) knots 0 \/ lower_of (bs_pts c) knots < B2R t) ->
    (forall i, (i < d)%nat -> growth u eta (Mf i) p < Omega) ->
    exists q, bs_evaluate c t = Ok q /\
      forall i, (i < d)%nat ->
        near prec emax (growth u eta (Mf i) p) (growth u eta (Mf i) p - Mf i + 2 * INR p * (5 * u + eta) * Mf i) (coord d i q)
          (coord d i (bspline_curve (map (vreal d) (bs_pts c)) knots (B2R t))).
  Proof.
    intros p knots Htol Hv Ha Hper HK HP Ft Ht Hs HO.
    pose (c' := bsreal c).
    assert (Hlen : length (bs_pts c') = length (bs_pts c)) by (unfold c'; cbn; apply map_length).
    assert (Hp' : bspline_degree (bs_pts c') (bs_knots c') = p).
    { unfold bspline_degree. rewrite Hlen. reflexivity. }
    assert (Hv' : valid_bspline (bs_pts c') (bs_knots c')).
    { destruct Hv as [V1 V2 V3 V4]. constructor.
      - rewrite Hlen. exact V1.
      - rewrite Hp', Hlen. exact V2.
      - exact V3.
      - rewrite Hp', Hlen. exact V4. }
    assert (Hlow : lower_of (bs_pts c') (bs_knots c') = lower_of (bs_pts c) knots) by (unfold lower_of; now rewrite Hp').
    assert (Hupp : upper_of (bs_pts c') (bs_knots c') = upper_of (bs_pts c) knots) by (unfold upper_of; now rewrite Hlen).
    assert (Hpn : (p < length (bs_pts c))%nat) by (apply (vb_pts _ _ Hv)).
    assert (HkN : length (bs_knots c) = (length (bs_pts c) + p + 1)%nat).
    { pose proof (vb_len _ _ Hv) as V1. unfold p, bspline_degree. unfold knots in V1. rewrite map_length in *. lia. }
    (* location *)
    destruct (bspline_locate c' (B2R t) Hv') as (k & Ek & Hk & _ & Hk3).
    rewrite Hp' in *. rewrite Hlen in *.
    change (bs_knots c') with knots in *.
    destruct Hk3 as (Hk1 & Hk2 & _).
    { destruct Hs as [Hs|Hs]; [left; exact Hs|right; rewrite <- Hlow in Hs; unfold lower_of in Hs; rewrite Hp' in Hs; exact Hs]. }
    { rewrite <- Hlow in Ht. unfold lower_of in Ht. rewrite Hp' in Ht. apply Ht. }
    specialize (Hk2 ltac:(unfold upper_of in Ht; apply Ht)).
    assert (El : locate_span c t = Ok (Z.of_nat k)).
    { pose proof (flocate_span c t (fun x Hx => proj1 (HK x Hx)) Ft) as HR. fold c' in HR. rewrite Ek in HR.
      destruct (locate_span c t); simpl in HR; try contradiction. now subst. }
    (* both runs are triangles *)
    set (n := Z.of_nat (length (bs_pts c))).
    assert (Hpts : arr (bs_pts c) n (fun i => nth (Z.to_nat i) (bs_pts c) p0)) by apply arr_nth.
    assert (Hkn : arr (bs_knots c) (n + Z.of_nat p + 1) (fun i => nth (Z.to_nat i) (bs_knots c) s0)).
    { replace (n + Z.of_nat p + 1)%Z with (zlen (bs_knots c)) by (unfold zlen, n; lia). apply arr_nth. }
    assert (Hpts' : arr (bs_pts c') n (fun i => nth (Z.to_nat i) (bs_pts c') p0)).
    { replace n with (zlen (bs_pts c')) by (unfold zlen, n; lia). apply arr_nth. }
    assert (Hkn' : arr (bs_knots c') (n + Z.of_nat p + 1) (fun i => nth (Z.to_nat i) (bs_knots c') s0)).
    { replace (n + Z.of_nat p + 1)%Z with (zlen (bs_knots c')).
      - apply arr_nth.
      - unfold c', zlen, n. cbn [bsreal bs_knots]. rewrite map_length. lia. }
    rewrite (bs_evaluate_gtri c n (Z.of_nat p) (Z.of_nat k) _ _ t Hpts Hkn ltac:(unfold n; lia) Hper
               (fdiff_nonzero Htol) El ltac:(unfold n; lia)).
    eexists. split; [reflexivity|]. intros i Hi. specialize (HO i Hi). set (M := Mf i) in *. rewrite Nat2Z.id.
    assert (HR : bs_evaluate c' (B2R t) = Ok (bspline_curve (bs_pts c') (bs_knots c') (B2R t))).
    { apply bspline_eval.
      - exact Hv'.
      - intros i0 j0 Hij Hlt. pose proof (Ha i0 j0 Hij Hlt). eapply Rlt_trans; [|eassumption].
        apply Rinv_lt_contravar; [apply Rmult_lt_0_compat; apply IZR_lt; reflexivity|apply IZR_lt; reflexivity].
      - exact Hper.
      - change (bs_knots c') with knots. rewrite Hlow, Hupp. exact Ht.
      - destruct Hs as [Hs|Hs].
        + left. left. change (bs_knots c') with knots. rewrite Hp'. exact Hs.
        + right. change (bs_knots c') with knots. rewrite Hlow. exact Hs. }
    assert (HdR : forall x : R, slt btolT x = true -> seq_ x s0 = false).
    { intros x Hx. unfold btolT in Hx. pose proof btol_pos as Hb. unfold btol in Hb.
      generalize dependent (sofQ (1 # (10 ^ 16)%positive) : R). intros tol Hx Hb. cbn [slt seq_ s0 R_ops] in *.
      destruct (Rltb_spec tol x); [|discriminate]. destruct (Reqb_spec x 0); [lra|reflexivity]. }
    rewrite (bs_evaluate_gtri c' n (Z.of_nat p) (Z.of_nat k) _ _ (B2R t) Hpts' Hkn' ltac:(unfold n; lia) Hper
               HdR Ek ltac:(unfold n; lia)) in HR.
    rewrite Nat2Z.id in HR.
    match type of HR with Ok ?a = Ok ?b => assert (HR' : a = b) by congruence end. clear HR.
    change (map (vreal d) (bs_pts c)) with (bs_pts c'). change knots with (bs_knots c'). rewrite <- HR'. clear HR'.
    assert (HM : 0 <= M).
    { destruct (bs_pts c) as [|a0 l0] eqn:Ep; [simpl in Hpn; lia|].
      destruct (HP a0 i (or_introl eq_refl) Hi) as [_ H]. fold M in H.
      pose proof (Rabs_pos (B2R (coord d i a0))). lra. }
    pose proof (u_pos prec) as Hu. pose proof (u_le_half prec) as Hu2. pose proof (eta_pos prec emax) as Het.
    set (U := fun i : Z => nth (Z.to_nat i) (bs_knots c) s0).
    set (U' := fun i : Z => nth (Z.to_nat i) (bs_knots c') s0).
    assert (HU : forall m, (0 <= m < n + Z.of_nat p + 1)%Z -> is_finite (U m) = true /\ U' m = B2R (U m) /\ Rabs (B2R (U m)) <= bpow radix2 (emax - 2)).
    { intros m Hm. assert (HI : In (U m) (bs_knots c)) by (apply nth_In; unfold n in Hm; lia).
      destruct (HK _ HI) as [H1 H2]. split; [exact H1|]. split; [|exact H2].
      unfold U', U, c'. cbn [bsreal bs_knots]. change (@s0 R R_ops) with (B2R (@s0 num FO2)). apply map_nth. }
    assert (Hsort : forall a b, (0 <= a <= b)%Z -> (b < n + Z.of_nat p + 1)%Z -> U' a <= U' b).
    { intros a b Hab Hb. apply (vb_sorted _ _ Hv'). change (bs_knots c') with knots. unfold knots.
      rewrite map_length. unfold n in Hb. lia. }
    (* the weights *)
    assert (Hal : forall r j, (1 <= r <= j)%Z -> (j <= Z.of_nat p)%Z ->
      let a := galpha U t (Z.of_nat p) (Z.of_nat k) r j in
      let a' := galpha U' (B2R t) (Z.of_nat p) (Z.of_nat k) r j in
      is_finite a = true /\ 0 <= B2R a <= 1 /\ 0 <= a' <= 1 /\ Rabs (B2R a - a') <= 5 * u + eta).
    { intros r j Hr Hj. cbv zeta. unfold galpha.
      set (i1 := (j + Z.of_nat k + 1 - r)%Z). set (i0 := (j + Z.of_nat k - Z.of_nat p)%Z).
      assert (Hi1 : (0 <= i1 < n + Z.of_nat p + 1)%Z) by (unfold i1, n; lia).
      assert (Hi0 : (0 <= i0 < n + Z.of_nat p + 1)%Z) by (unfold i0, n; lia).
      destruct (HU i1 Hi1) as (F1 & E1 & B1). destruct (HU i0 Hi0) as (F0 & E0 & B0).
      assert (Hle0 : U' i0 <= nth k knots 0).
      { replace (nth k knots 0) with (U' (Z.of_nat k)) by (unfold U'; now rewrite Nat2Z.id).
        apply Hsort; unfold i0, n; lia. }
      assert (Hle1 : nth (k + 1) knots 0 <= U' i1).
      { replace (nth (k + 1) knots 0) with (U' (Z.of_nat (k + 1))) by (unfold U'; now rewrite Nat2Z.id).
        apply Hsort; unfold i1, n; lia. }
      assert (Hlt : U' i0 < U' i1) by lra.
      assert (Hap : / IZR (10 ^ 15) < U' i1 - U' i0).
      { apply Ha; [|exact Hlt]. unfold knots. rewrite map_length. unfold i0, i1, n in *. lia. }
      assert (Hom : (1 + u) * (B2R (U i1) - B2R (U i0)) < Omega).
      { apply Rabs_le_inv in B1. apply Rabs_le_inv in B0.
        assert (HOq : Omega = 4 * bpow radix2 (emax - 2)).
        { change 4 with (bpow radix2 2). rewrite <- bpow_plus. f_equal. lia. }
        pose proof (bpow_gt_0 radix2 (emax - 2)). rewrite HOq.
        assert (B2R (U i1) - B2R (U i0) <= 2 * bpow radix2 (emax - 2)) by lra.
        rewrite E1, E0 in Hlt. nra. }
      rewrite E1, E0 in Hlt, Hap.
      destruct (ratio_spec t (U i0) (U i1) Ft F0 F1 ltac:(lra) Hlt Hom) as (Fd & Hd & Fa & Ha01 & Hae & _).
      destruct Htol as [Ftol [Htol1 Htol2]].
      assert (Ec : slt (btolT : num) (ssub (U i1) (U i0)) = true).
      { cbn [slt ssub FO2 ieee_ops]. rewrite Bltb_correct by assumption. apply Rlt_bool_true.
        eapply Rle_lt_trans; [exact Htol2|]. eapply Rlt_le_trans; [|exact Hd].
        apply Rlt_le_trans with (/ 2 * / IZR (10 ^ 15)).
        - replace (IZR (10 ^ 15)) with (IZR (10 ^ 16) / 10) by (simpl; lra). simpl. lra.
        - apply Rmult_le_compat; lra. }
      rewrite Ec.
      assert (Ec' : slt (btolT : R) (ssub (U' i1) (U' i0)) = true).
      { rewrite E1, E0. fold btol. change (btolT : R) with btol. pose proof btol_val as Hbv. generalize dependent btol.
        intros tol Hbv. cbn [slt ssub R_ops].
        destruct (Rltb_spec tol (B2R (U i1) - B2R (U i0))) as [_|Hge]; [reflexivity|]. exfalso. rewrite Hbv in Hge.
        assert (/ IZR (10 ^ 16) < / IZR (10 ^ 15)).
        { apply Rinv_lt_contravar; [apply Rmult_lt_0_compat; apply IZR_lt; reflexivity|apply IZR_lt; reflexivity]. }
        lra. }
      rewrite Ec'. split; [exact Fa|]. split; [exact Ha01|]. rewrite E1, E0.
      cbn [sdiv ssub R_ops]. split; [|exact Hae].
      assert (0 < B2R (U i1) - B2R (U i0)) by lra. split.
      - apply Rmult_le_pos; [lra|apply Rlt_le, Rinv_0_lt_compat; lra].
      - apply (Rmult_le_reg_r (B2R (U i1) - B2R (U i0))); [lra|]. unfold Rdiv. rewrite Rmult_assoc, Rinv_l by lra. lra. }
    (* induction over the rounds *)
    set (f := gstep U t (Z.of_nat p) (Z.of_nat k)). set (f' := gstep U' (B2R t) (Z.of_nat p) (Z.of_nat k)).
    set (g := fun i : Z => nth (Z.to_nat (Z.of_nat k - Z.of_nat p + i)) (bs_pts c) p0).
    set (g' := fun i : Z => nth (Z.to_nat (Z.of_nat k - Z.of_nat p + i)) (bs_pts c') p0).
    enough (HH : forall r j, (r <= p)%nat -> (Z.of_nat r <= j <= Z.of_nat p)%Z ->
      near prec emax (growth u eta M r) (growth u eta M r - M + 2 * INR r * (5 * u + eta) * M)
        (coord d i (gtri f g r j)) (coord d i (gtri f' g' r j)) /\ Rabs (coord d i (gtri f' g' r j)) <= M).
    { apply (HH p (Z.of_nat p)); lia. }
    induction r as [|r IH]; intros j Hr Hj.
    - cbn [gtri]. rewrite growth_0. unfold g, g'. change (bs_pts c') with (map (vreal d) (bs_pts c)).
      set (m := Z.to_nat (Z.of_nat k - Z.of_nat p + j)). assert (Hm : (m < length (bs_pts c))%nat) by (unfold m; lia).
      rewrite (nth_indep (map (vreal d) (bs_pts c)) p0 (vreal d p0)) by (rewrite map_length; exact Hm).
      rewrite map_nth, (vreal_coord prec emax).
      destruct (HP (nth m (bs_pts c) p0) i) as [F A]; [apply nth_In; exact Hm|exact Hi|].
      split; [|exact A]. split; [exact F|]. split; [exact A|]. rewrite Rminus_diag_eq, Rabs_R0 by reflexivity. simpl. lra.
    - cbn [gtri].
      destruct (IH (j - 1)%Z ltac:(lia) ltac:(lia)) as [I1 J1]. destruct (IH j ltac:(lia) ltac:(lia)) as [I2 J2]. clear IH.
      set (X := gtri f g r (j - 1)) in *. set (Y := gtri f g r j) in *.
      set (X' := gtri f' g' r (j - 1)) in *. set (Y' := gtri f' g' r j) in *.
      unfold f, f', gstep.
      destruct (Hal (Z.of_nat (S r)) j ltac:(lia) ltac:(lia)) as (Fa & Ha01 & Ha' & Hae).
      set (al := galpha U t (Z.of_nat p) (Z.of_nat k) (Z.of_nat (S r)) j) in *.
      set (al' := galpha U' (B2R t) (Z.of_nat p) (Z.of_nat k) (Z.of_nat (S r)) j) in *.
      rewrite gcoord_add, !gcoord_mul by exact Hi. rewrite coord_add, !coord_mul by exact Hi.
      change (ssub s1 al') with (1 - al').
      set (x' := coord d i X') in *. set (y' := coord d i Y') in *.
      split.
      2:{ eapply Rle_trans; [apply Rabs_triang|]. rewrite !Rabs_mult, (Rabs_pos_eq al'), (Rabs_pos_eq (1 - al')) by lra.
          replace M with ((1 - al') * M + al' * M) by ring.
          apply Rplus_le_compat; apply Rmult_le_compat_l; lra. }
      destruct (one_minus_spec prec emax al Fa Ha01) as (Fs & _ & _ & Es).
      pose proof (growth_S prec emax M r HM) as HG.
      pose proof (growth_mono prec emax M (S r) p HM ltac:(lia)) as HG2.
      pose proof (near_lerp prec emax (Bminus mode_NE (bofZ prec emax 1) al) al _ _ (1 - B2R al) (B2R al) _ _ _ _
        Fs Fa ltac:(lra) ltac:(lra) ltac:(lra) Es (finite_B2R_err0 prec emax al ltac:(lra)) I1 I2 ltac:(lra)) as HN.
      destruct HN as (N1 & N2 & N3). split; [exact N1|]. split; [eapply Rle_trans; [exact N2|exact HG]|].
      match goal with |- Rabs (?z - _) <= _ => replace (z - ((1 - al') * x' + al' * y')) with
        ((z - ((1 - B2R al) * x' + B2R al * y')) + (B2R al - al') * (y' - x')) by ring end.
      eapply Rle_trans; [apply Rabs_triang|]. rewrite (Rabs_mult (B2R al - al')).
      assert (Hxy : Rabs (y' - x') <= 2 * M).
      { apply Rabs_le_inv in J1. apply Rabs_le_inv in J2. apply Rabs_le. lra. }
      assert (Rabs (B2R al - al') * Rabs (y' - x') <= (5 * u + eta) * (2 * M)) by (apply Rmult_le_compat; auto using Rabs_pos).
      rewrite S_INR.
      eapply Rle_trans; [apply Rplus_le_compat; [exact N3|eassumption]|].
      lra.
  Qed.

  Lemma bspline_near d (c : bspline num (vec num d)) (t : num) M :
    let p := bspline_degree (bs_pts c) (map B2R (bs_knots c)) in
    let knots := map B2R (bs_knots c) in
    tol_ok ->
    valid_bspline (bs_pts c) knots -> knots_apart (/ IZR (10 ^ 15)) knots -> bs_periodic c = false ->
    (forall x, In x (bs_knots c) -> is_finite x = true /\ Rabs (B2R x) <= bpow radix2 (emax - 2)) ->
    (forall a i, In a (bs_pts c) -> (i < d)%nat -> is_finite (coord d i a) = true /\ Rabs (B2R (coord d i a)) <= M) ->
    is_finite t = true -> lower_of (bs_pts c) knots <= B2R t <= upper_of (bs_pts c) knots ->
    (nth p knots 0 < nth (p + 1) knots 0 \/ lower_of (bs_pts c) knots < B2R t) ->
    growth u eta M p < Omega ->
    exists q, bs_evaluate c t = Ok q /\
      forall i, (i < d)%nat ->
        near prec emax (growth u eta M p) (growth u eta M p - M + 2 * INR p * (5 * u + eta) * M) (coord d i q)
          (coord d i (bspline_curve (map (vreal d) (bs_pts c)) knots (B2R t))).
  Proof.
    intros p knots Htol Hv Ha Hper HK HP Ft Ht Hs HO.
    exact (bspline_near_i d c t (fun _ => M) Htol Hv Ha Hper HK HP Ft Ht Hs (fun _ _ => HO)).
  Qed.
End Float.
