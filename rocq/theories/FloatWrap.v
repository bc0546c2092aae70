(** Periodic parameters in IEEE arithmetic. *)
From Coq Require Import Reals Lra Lia ZArith QArith List Bool.
From Flocq Require Import Core IEEE754.BinarySingleNaN.
From Verif Require Import Monad MonadFacts Scalar ScalarFacts Spec SpecFacts ModelCurve ModelBezier BezierThms
  ModelBSpline BSplineFacts BSplineThms BSplineThms2 SpecFloat ModelFloat ModelFloatWrap FloatFacts FloatThms FloatThms2 FloatThms3
  FloatCases FloatRuns FloatDeriv FloatTotal.
Import ListNotations.
Local Open Scope R_scope.

Section Float.
  Context (prec emax : Z) {Hprec : Prec_gt_0 prec} {Hmax : Prec_lt_emax prec emax}.
  Notation num := (binary_float prec emax).
  Notation u := (unit_roundoff prec).
  Notation eta := (underflow_error prec emax).
  Notation Omega := (bpow radix2 emax).
  Notation fexp := (SpecFloat.fexp prec emax).
  Local Instance FO7 : ScalarOps num := ieee_ops prec emax.

  (** A smaller multiple of the unit of a number is a number. *)
  Lemma fmt_smaller (m : positive) (e r : Z) (s : bool) : SpecFloat.bounded prec emax m e = true ->
    (0 <= r <= Zpos m)%Z -> generic_format radix2 fexp (F2R (Float radix2 (cond_Zopp s r) e)).
  Proof.
    intros Hb Hr. apply generic_format_F2R. intros Hne.
    pose proof (canonical_bounded prec emax false m e Hb) as Hc. unfold canonical in Hc. simpl Fexp in Hc.
    rewrite Hc at 2. unfold cexp. apply monotone_exp; [typeclasses eauto|].
    apply mag_le_abs.
    - intros H0. apply eq_0_F2R in H0. contradiction.
    - rewrite <- !F2R_Zabs. apply F2R_le. rewrite abs_cond_Zopp. simpl. lia.
  Qed.

  Lemma norm_exact (z e : Z) (s : bool) :
    generic_format radix2 fexp (F2R (Float radix2 z e)) -> Rabs (F2R (Float radix2 z e)) < Omega ->
    is_finite (binary_normalize prec emax Hprec Hmax mode_NE z e s) = true /\
    B2R (binary_normalize prec emax Hprec Hmax mode_NE z e s) = F2R (Float radix2 z e).
  Proof.
    intros Hf Hb. pose proof (binary_normalize_correct prec emax Hprec Hmax mode_NE z e s) as H. cbv zeta in H.
    rewrite (fl_id prec emax _ Hf) in H. rewrite Rlt_bool_true in H by exact Hb. tauto.
  Qed.

  Lemma F2R_shift (z e e' : Z) : (e' <= e)%Z -> F2R (Float radix2 z e) = F2R (Float radix2 (z * 2 ^ (e - e')) e').
  Proof.
    intros H. unfold F2R. simpl Fnum. simpl Fexp. rewrite mult_IZR, Rmult_assoc. f_equal.
    change 2%Z with (radix_val radix2). rewrite IZR_Zpower by lia. rewrite <- bpow_plus. f_equal. lia.
  Qed.

  (** std::fmod is exact. *)
  Lemma bfmod_spec (x y : num) : is_finite x = true -> is_finite y = true -> 0 < B2R y ->
    is_finite (bfmod prec emax x y) = true /\ Rabs (B2R (bfmod prec emax x y)) < B2R y /\
    (exists k : Z, B2R x = IZR k * B2R y + B2R (bfmod prec emax x y)) /\
    (0 <= B2R x -> 0 <= B2R (bfmod prec emax x y)) /\ (B2R x <= 0 -> B2R (bfmod prec emax x y) <= 0).
  Proof.
    intros Fx Fy Hy.
    destruct y as [sy|sy| |sy my ey By]; try discriminate; [simpl in Hy; lra|].
    assert (sy = false).
    { destruct sy; [|reflexivity]. exfalso. simpl in Hy. unfold F2R in Hy. simpl in Hy.
      pose proof (bpow_gt_0 radix2 ey). assert (IZR (Zneg my) <= 0) by (apply IZR_le; lia). nra. }
    subst sy.
    destruct x as [sx|sx| |sx mx ex Bx]; try discriminate.
    - cbn [bfmod]. split; [reflexivity|]. simpl B2R at 1 3 4 5 6 7. rewrite Rabs_R0. split; [exact Hy|].
      split; [exists 0%Z; simpl; lra|]. split; simpl; lra.
    - cbn [bfmod]. set (e := Z.min ex ey).
      set (X := (Zpos mx * 2 ^ (ex - e))%Z). set (Y := (Zpos my * 2 ^ (ey - e))%Z). set (r := (X mod Y)%Z).
      assert (HY : (0 < Y)%Z) by (unfold Y; apply Z.mul_pos_pos; [lia|apply Z.pow_pos_nonneg; lia]).
      assert (HX : (0 < X)%Z) by (unfold X; apply Z.mul_pos_pos; [lia|apply Z.pow_pos_nonneg; lia]).
      assert (Hr : (0 <= r < Y)%Z) by (apply Z.mod_pos_bound; exact HY).
      assert (HrX : (r <= X)%Z) by (apply Z.mod_le; lia).
      assert (EY : B2R (B754_finite false my ey By) = F2R (Float radix2 Y e)).
      { simpl B2R. unfold Y. rewrite <- F2R_shift by (unfold e; lia). reflexivity. }
      assert (EX : B2R (B754_finite sx mx ex Bx) = F2R (Float radix2 (cond_Zopp sx X) e)).
      { simpl B2R. rewrite (F2R_shift _ ex e) by (unfold e; lia). f_equal. f_equal. unfold X. destruct sx; unfold cond_Zopp; [apply Z.mul_opp_l|reflexivity]. }
      assert (Hfmt : generic_format radix2 fexp (F2R (Float radix2 (cond_Zopp sx r) e))).
      { destruct (Z.min_spec ex ey) as [[Hl E]|[Hl E]]; fold e in E.
        - assert (EX0 : X = Zpos mx) by (unfold X; rewrite E, Z.sub_diag; apply Z.mul_1_r).
          rewrite E. apply (fmt_smaller mx); [exact Bx|lia].
        - assert (EY0 : Y = Zpos my) by (unfold Y; rewrite E, Z.sub_diag; apply Z.mul_1_r).
          rewrite E. apply (fmt_smaller my); [exact By|lia]. }
      assert (HrY : Rabs (F2R (Float radix2 (cond_Zopp sx r) e)) < F2R (Float radix2 Y e)).
      { rewrite <- F2R_Zabs, abs_cond_Zopp, Z.abs_eq by lia. apply F2R_lt. simpl. lia. }
      assert (HO : Rabs (F2R (Float radix2 (cond_Zopp sx r) e)) < Omega).
      { eapply Rlt_trans; [exact HrY|]. rewrite <- EY. eapply Rle_lt_trans; [apply Rle_abs|apply abs_B2R_lt_emax]. }
      destruct (norm_exact _ e sx Hfmt HO) as [Fz Ez].
      fold X Y r. rewrite Ez, EY, EX. split; [exact Fz|]. split; [exact HrY|]. split.
      + exists (cond_Zopp sx (X / Y)). unfold F2R. simpl Fnum. simpl Fexp.
        assert (HZ : cond_Zopp sx X = (cond_Zopp sx (X / Y) * Y + cond_Zopp sx r)%Z).
        { pose proof (Z.div_mod X Y ltac:(lia)). fold r in H. destruct sx; simpl; lia. }
        rewrite HZ, plus_IZR, mult_IZR. ring.
      + assert (Hb : 0 < bpow radix2 e) by apply bpow_gt_0. unfold F2R. simpl Fnum. simpl Fexp.
        assert (H1 : 0 < IZR X) by (apply IZR_lt; lia). assert (H2 : 0 <= IZR r) by (apply IZR_le; lia).
        destruct sx; simpl cond_Zopp; rewrite ?opp_IZR; split; intros H; nra.
  Qed.

  (** ** Domains that begin at 0 *)
  Lemma sub_zero (t z : num) : is_finite t = true -> is_num prec emax z 0 -> is_num prec emax (Bminus mode_NE t z) (B2R t).
  Proof.
    intros Ft [Fz Ez]. pose proof (Bminus_correct prec emax Hprec Hmax mode_NE t z Ft Fz) as H.
    rewrite Ez, Rminus_0_r, (fl_id prec emax _ (fmt prec emax t)) in H.
    rewrite Rlt_bool_true in H by apply abs_B2R_lt_emax. destruct H as (E & F & _). split; [exact F|exact E].
  Qed.

  Lemma unwrap_zero (a b t : num) : is_num prec emax a 0 -> is_finite b = true -> 0 < B2R b -> is_finite t = true ->
    exists s, f_unwrap prec emax true a b t = Ok s /\ is_finite s = true /\ 0 <= B2R s <= B2R b /\
      exists k : Z, let r := B2R t - IZR k * B2R b in 0 <= r < B2R b /\ Rabs (B2R s - r) <= u * r /\ (0 <= B2R t -> B2R s = r).
  Proof.
    intros Ha Fb Hb Ft. destruct Ha as [Fa Ea]. unfold f_unwrap. cbn [assert_]. rewrite bind_Ok. cbv zeta.
    cbn [ssub sadd slt sle FOw ieee_ops].
    destruct (sub_zero b a Fb (conj Fa Ea)) as [Fp Ep]. destruct (sub_zero t a Ft (conj Fa Ea)) as [Fd Ed].
    set (per := Bminus mode_NE b a) in *. set (td := Bminus mode_NE t a) in *.
    destruct (bfmod_spec td per Fd Fp ltac:(lra)) as (Ff & Hf1 & (k & Hk) & Hf2 & Hf3).
    set (f := bfmod prec emax td per) in *. rewrite Ep, Ed in *.
    destruct (add_zero prec emax f a (B2R f)) as [Fg Eg]; [split; [exact Ff|reflexivity]|split; assumption|].
    set (g := Bplus mode_NE f a) in *. pose proof (u_pos prec) as Hu. apply Rabs_def2 in Hf1.
    rewrite (Bltb_correct _ _ g a Fg Fa), Eg, Ea.
    destruct (Rlt_bool_spec (B2R f) 0) as [Hneg|Hpos].
    - (* shifted by one period *)
      pose proof (Bplus_correct prec emax Hprec Hmax mode_NE g per Fg Fp) as H. rewrite Eg, Ep in H.
      assert (HO : B2R b < Omega) by (eapply Rle_lt_trans; [apply Rle_abs|apply abs_B2R_lt_emax]).
      assert (H1 : 0 <= round radix2 fexp (round_mode mode_NE) (B2R f + B2R b)).
      { rewrite <- (fl_0 prec emax). apply (fl_le prec emax). lra. }
      assert (H2 : round radix2 fexp (round_mode mode_NE) (B2R f + B2R b) <= B2R b).
      { rewrite <- (fl_id prec emax _ (fmt prec emax b)) at 2. apply (fl_le prec emax). lra. }
      rewrite Rlt_bool_true in H by (rewrite Rabs_pos_eq; lra). destruct H as (E & F & _).
      rewrite (Bleb_correct _ _ a _ Fa F), (Bleb_correct _ _ _ b F Fb), E, Ea.
      rewrite !Rle_bool_true by assumption. cbn [andb assert_]. rewrite bind_Ok.
      eexists. split; [reflexivity|]. split; [exact F|]. rewrite E. split; [lra|].
      exists (k - 1)%Z. cbv zeta. rewrite minus_IZR. replace (B2R t - (IZR k - 1) * B2R b) with (B2R f + B2R b) by lra.
      split; [lra|]. split.
      + eapply Rle_trans; [apply (fl_plus_err prec emax); apply (fmt prec emax)|]. rewrite (Rabs_pos_eq (B2R f + B2R b)) by lra. lra.
      + intros Ht. specialize (Hf2 Ht). lra.
    - rewrite (Bleb_correct _ _ a _ Fa Fg), (Bleb_correct _ _ _ b Fg Fb), Eg, Ea.
      rewrite !Rle_bool_true by lra. cbn [andb assert_]. rewrite bind_Ok.
      eexists. split; [reflexivity|]. split; [exact Fg|]. rewrite Eg. split; [lra|].
      exists k. cbv zeta. replace (B2R t - IZR k * B2R b) with (B2R f) by lra.
      split; [lra|]. split; [|reflexivity]. rewrite Rminus_diag_eq, Rabs_R0 by reflexivity. nra.
  Qed.

  (** ** All domains *)
  Lemma unwrap_any (a b t : num) : is_finite a = true -> is_finite b = true -> is_finite t = true -> B2R a < B2R b ->
    Rabs (B2R a) <= bpow radix2 (emax - 4) -> Rabs (B2R b) <= bpow radix2 (emax - 4) -> Rabs (B2R t) <= bpow radix2 (emax - 4) ->
    match f_unwrap prec emax true a b t with
    | Ok s => is_finite s = true /\ B2R a <= B2R s <= B2R b /\
        exists k : Z, Rabs (B2R s - (B2R t - IZR k * (B2R b - B2R a))) <=
          u * (4 * Rabs (B2R t - B2R a) + 10 * (B2R b - B2R a) + 3 * Rabs (B2R a))
    | Undef => B2R t < B2R a
    | _ => False
    end.
  Proof.
    intros Fa Fb Ft Hab Ba Bb Bt. unfold f_unwrap. cbn [assert_]. rewrite bind_Ok. cbv zeta.
    cbn [ssub sadd slt sle FOw ieee_ops].
    pose proof (u_pos prec) as Hu. pose proof (u_le_half prec) as Hu2.
    set (B := bpow radix2 (emax - 4)) in *.
    assert (HO : Omega = 16 * B) by (unfold B; change 16 with (bpow radix2 4); rewrite <- bpow_plus; f_equal; lia).
    assert (HB : 0 < B) by apply bpow_gt_0.
    pose proof (Rabs_pos (B2R a)) as Ha0. set (A := Rabs (B2R a)) in *.
    assert (HA : - A <= B2R a <= A) by (apply Rabs_le_inv; unfold A; lra).
    apply Rabs_le_inv in Bb. apply Rabs_le_inv in Bt.
    set (D := B2R b - B2R a) in *. assert (HD : 0 < D <= 2 * B) by (unfold D; lra).
    set (dl := Rabs (B2R t - B2R a)). assert (Hdl : - dl <= B2R t - B2R a <= dl) by (apply Rabs_le_inv; unfold dl; lra).
    assert (Hdl0 : 0 <= dl) by apply Rabs_pos.
    assert (HdlB : dl <= 2 * B) by (unfold dl; apply Rabs_le; lra).
    destruct (sub_spec prec emax b a Fb Fa) as (Fp & Ep & Hp).
    { fold D. rewrite (Rabs_pos_eq D) by lra. nra. }
    destruct (sub_spec prec emax t a Ft Fa) as (Fd & Ed & Hd).
    { fold dl. nra. }
    fold D in Ep, Hp. rewrite (Rabs_pos_eq D) in Hp by lra. fold dl in Hd.
    set (per := Bminus mode_NE b a) in *. set (td := Bminus mode_NE t a) in *.
    apply Rabs_le_inv in Hp. apply Rabs_le_inv in Hd.
    set (P := B2R per) in *. set (X := B2R td) in *.
    assert (HuD : u * D <= / 2 * D) by (apply Rmult_le_compat_r; lra).
    assert (Hudl : u * dl <= / 2 * dl) by (apply Rmult_le_compat_r; lra).
    assert (HP : / 2 * D <= P <= 3 / 2 * D) by lra.
    destruct (bfmod_spec td per Fd Fp ltac:(fold P; lra)) as (Ff & Hf1 & (k & Hk) & Hf2 & Hf3).
    set (f := bfmod prec emax td per) in *. fold P in Hf1, Hk. fold X in Hk, Hf2, Hf3.
    set (m := B2R f) in *. apply Rabs_def2 in Hf1.
    (* the shift *)
    assert (HkP : Rabs (IZR k) * D <= 3 * (dl + D)).
    { assert (E : Rabs (IZR k) * P <= 3 / 2 * dl + 3 / 2 * D).
      { replace (Rabs (IZR k) * P) with (Rabs (IZR k * P)) by (rewrite Rabs_mult, (Rabs_pos_eq P) by lra; reflexivity).
        replace (IZR k * P) with (X - m) by lra. apply Rabs_le. lra. }
      pose proof (Rabs_pos (IZR k)). nra. }
    assert (Hma : Rabs (m + B2R a) <= 3 / 2 * D + A) by (apply Rabs_le; lra).
    destruct (add_spec prec emax f a Ff Fa) as (Fg & Eg & Hg).
    { fold m. assert (u * Rabs (m + B2R a) <= / 2 * (3 / 2 * D + A)) by (apply Rmult_le_compat; [lra|apply Rabs_pos|lra|exact Hma]).
      unfold A in *. lra. }
    fold m in Eg, Hg. set (g := Bplus mode_NE f a) in *.
    assert (Hg' : Rabs (B2R g - (m + B2R a)) <= u * (3 / 2 * D + A)).
    { eapply Rle_trans; [exact Hg|]. apply Rmult_le_compat_l; lra. }
    assert (HuA : u * A <= / 2 * A) by (apply Rmult_le_compat_r; lra).
    assert (HkE : forall j, Rabs (IZR j) * D <= 3 * (dl + D) + D -> Rabs (IZR j * (P - D)) <= u * (3 * (dl + D) + D)).
    { intros j Hj. rewrite Rabs_mult. apply Rle_trans with (Rabs (IZR j) * (u * D)).
      - apply Rmult_le_compat_l; [apply Rabs_pos|]. apply Rabs_le. lra.
      - replace (Rabs (IZR j) * (u * D)) with (u * (Rabs (IZR j) * D)) by ring. apply Rmult_le_compat_l; lra. }
    rewrite (Bltb_correct _ _ g a Fg Fa).
    destruct (Rlt_bool_spec (B2R g) (B2R a)) as [Hneg|Hpos].
    - (* shifted by one period *)
      assert (HgP : Rabs (B2R g + P) <= 4 * D + 3 / 2 * A).
      { apply Rabs_le_inv in Hg'. apply Rabs_le. lra. }
      destruct (add_spec prec emax g per Fg Fp) as (Fs & Es & Hs).
      { fold P. assert (u * Rabs (B2R g + P) <= / 2 * (4 * D + 3 / 2 * A)) by (apply Rmult_le_compat; [lra|apply Rabs_pos|lra|exact HgP]).
        unfold A in *. lra. }
      fold P in Es, Hs. set (s := Bplus mode_NE g per) in *.
      rewrite (Bleb_correct _ _ a s Fa Fs), (Bleb_correct _ _ s b Fs Fb).
      assert (Hta : B2R t < B2R a).
      { destruct (Rlt_or_le (B2R t) (B2R a)) as [H|H]; [exact H|]. exfalso.
        assert (HX : 0 <= X) by (rewrite Ed, <- (fl_0 prec emax); apply (fl_le prec emax); lra).
        specialize (Hf2 HX). fold m in Hf2.
        assert (B2R a <= B2R g); [|lra]. rewrite Eg, <- (fl_id prec emax _ (fmt prec emax a)) at 1. apply (fl_le prec emax). lra. }
      destruct (Rle_bool_spec (B2R a) (B2R s)) as [H1|H1]; [|exact Hta].
      destruct (Rle_bool_spec (B2R s) (B2R b)) as [H2|H2]; [|exact Hta].
      cbn [andb assert_]. rewrite bind_Ok. split; [exact Fs|]. split; [split; assumption|]. exists (k - 1)%Z.
      assert (Hs' : Rabs (B2R s - (B2R g + P)) <= u * (4 * D + 3 / 2 * A)).
      { eapply Rle_trans; [exact Hs|]. apply Rmult_le_compat_l; lra. }
      assert (Hk1 : Rabs (IZR (k - 1)) * D <= 3 * (dl + D) + D).
      { rewrite minus_IZR. assert (Rabs (IZR k - 1) <= Rabs (IZR k) + 1).
        { eapply Rle_trans; [apply Rabs_triang|]. rewrite Rabs_Ropp, Rabs_R1. lra. }
        nra. }
      specialize (HkE _ Hk1). rewrite minus_IZR in *.
      replace (B2R s - (B2R t - (IZR k - 1) * D)) with
        ((B2R s - (B2R g + P)) + (B2R g - (m + B2R a)) + (X - (B2R t - B2R a)) - (IZR k - 1) * (P - D)) by lra.
      apply Rabs_le_inv in HkE. apply Rabs_le_inv in Hs'. apply Rabs_le_inv in Hg'.
      apply Rabs_le. assert (0 <= u * D) by nra. assert (0 <= u * A) by nra. assert (0 <= u * dl) by nra. lra.
    - assert (Hle : B2R g <= B2R b \/ B2R t < B2R a).
      { destruct (Rlt_or_le (B2R t) (B2R a)) as [H|H]; [now right|]. left.
        assert (HmD : m <= D).
        { destruct (Rle_or_lt m D) as [Hm|Hm]; [exact Hm|]. exfalso.
          assert (P <= m); [|lra]. rewrite Ep. unfold m. rewrite <- (fl_id prec emax _ (fmt prec emax f)).
          apply (fl_le prec emax). fold m. lra. }
        rewrite Eg, <- (fl_id prec emax _ (fmt prec emax b)). apply (fl_le prec emax). unfold D in HmD. lra. }
      rewrite (Bleb_correct _ _ a g Fa Fg), (Bleb_correct _ _ g b Fg Fb). rewrite Rle_bool_true by exact Hpos.
      destruct (Rle_bool_spec (B2R g) (B2R b)) as [H2|H2]; [|destruct Hle; [lra|assumption]].
      cbn [andb assert_]. rewrite bind_Ok. split; [exact Fg|]. split; [split; assumption|]. exists k.
      specialize (HkE k ltac:(lra)).
      replace (B2R g - (B2R t - IZR k * D)) with ((B2R g - (m + B2R a)) + (X - (B2R t - B2R a)) - IZR k * (P - D)) by lra.
      apply Rabs_le_inv in HkE. apply Rabs_le_inv in Hg'.
      apply Rabs_le. assert (0 <= u * D) by nra. assert (0 <= u * A) by nra. assert (0 <= u * dl) by nra. lra.
  Qed.
End Float.

(** ** The standard formats *)
Lemma unwrap_double : forall (a b t : double),
  is_finite a = true -> B2R a = 0 -> is_finite b = true -> 0 < B2R b -> is_finite t = true ->
  exists s, @f_unwrap 53 1024 prec64 max64 true a b t = Ok s /\ is_finite s = true /\ 0 <= B2R s <= B2R b /\
    exists k : Z, let r := B2R t - IZR k * B2R b in
      0 <= r < B2R b /\ Rabs (B2R s - r) <= unit_roundoff 53 * r /\ (0 <= B2R t -> B2R s = r).
Proof. intros a b t Fa Ea. apply (@unwrap_zero 53 1024 prec64 max64). split; assumption. Qed.

Lemma periodic_bezier_double : forall (d : nat) (pts : list (vec double d)) (t : double) (n : nat) (M : R),
  length pts = S n -> 0 <= M <= bpow radix2 1023 -> 24 * INR n * unit_roundoff 53 <= 1 ->
  (forall p, In p pts -> vfinite d p /\ forall i, (i < d)%nat -> Rabs (coord d i (vreal d p)) <= M) ->
  is_finite t = true ->
  exists (q : vec double d) (s : R) (k : Z),
    @f_bz_evaluate 53 1024 prec64 max64 d {| bz_pts := pts; bz_periodic := true |} t = Ok q /\ vfinite d q /\
    0 <= B2R t - IZR k < 1 /\ 0 <= s <= 1 /\ Rabs (s - (B2R t - IZR k)) <= unit_roundoff 53 /\ (0 <= B2R t -> s = B2R t - IZR k) /\
    forall i, (i < d)%nat ->
      Rabs (coord d i (vreal d q) - coord d i (bernstein_curve (map (vreal d) pts) s))
      <= INR n * (4 * unit_roundoff 53 * M + 3 * underflow_error 53 1024).
Proof.
  intros d pts t n M Hn HM Hu Hp Ft.
  destruct (@one_spec 53 1024 prec64 max64) as [F1 E1].
  destruct (unwrap_double (@bofZ 53 1024 prec64 max64 0) (@bofZ 53 1024 prec64 max64 1) t) as (s & Es & Fs & Hs & k & Hr & Hsr & Hx);
    [reflexivity|reflexivity|exact F1|rewrite E1; lra|exact Ft|].
  rewrite E1 in *. rewrite Rmult_1_r in *.
  destruct (bezier_error_double d pts s n M Hn HM Hu Hp Fs Hs) as (q & Eq & Fq & Hq).
  exists q, (B2R s), k. split.
  { unfold f_bz_evaluate. cbn [bz_periodic bz_pts].
    change (@f_unwrap 53 1024 prec64 max64 true bz_lower bz_upper t) with
      (@f_unwrap 53 1024 prec64 max64 true (@bofZ 53 1024 prec64 max64 0) (@bofZ 53 1024 prec64 max64 1) t).
    rewrite Es, bind_Ok. exact Eq. }
  split; [exact Fq|]. split; [exact Hr|]. split; [exact Hs|]. split; [|split; [exact Hx|exact Hq]].
  eapply Rle_trans; [exact Hsr|]. pose proof (u_pos 53). nra.
Qed.

Lemma get_map_nth (l : list double) (i : nat) : (i < length l)%nat ->
  exists a, get l (Z.of_nat i) = Ok a /\ In a l /\ B2R a = nth i (map B2R l) 0.
Proof.
  intros Hi. destruct (nth_error l i) as [a|] eqn:E; [|apply nth_error_None in E; lia].
  exists a. split.
  { unfold get. destruct (Z.ltb_spec (Z.of_nat i) 0) as [H|H]; [lia|]. now rewrite Nat2Z.id, E. }
  split; [exact (nth_error_In _ _ E)|].
  symmetry. apply nth_error_nth. now apply map_nth_error.
Qed.

Lemma periodic_bspline_double : forall (d : nat) (c : bspline double (vec double d)) (t : double) (M : R),
  let knots := map B2R (bs_knots c) in
  let p := bspline_degree (bs_pts c) knots in
  let b := upper_of (bs_pts c) knots in
  valid_bspline (bs_pts c) knots -> knots_apart (/ IZR (10 ^ 15)) knots -> bs_periodic c = true ->
  (forall x, In x (bs_knots c) -> is_finite x = true /\ Rabs (B2R x) <= bpow radix2 1022) ->
  0 <= M <= bpow radix2 1023 -> 24 * INR p * unit_roundoff 53 <= 1 ->
  (forall a, In a (bs_pts c) -> vfinite d a /\ forall i, (i < d)%nat -> Rabs (coord d i (vreal d a)) <= M) ->
  lower_of (bs_pts c) knots = 0 -> nth p knots 0 < nth (p + 1) knots 0 -> is_finite t = true ->
  exists (q : vec double d) (s : R) (k : Z),
    @f_bs_evaluate 53 1024 prec64 max64 d c t = Ok q /\ vfinite d q /\
    0 <= B2R t - IZR k * b < b /\ 0 <= s <= b /\ Rabs (s - (B2R t - IZR k * b)) <= unit_roundoff 53 * b /\
    (0 <= B2R t -> s = B2R t - IZR k * b) /\
    forall i, (i < d)%nat ->
      Rabs (coord d i (vreal d q) - coord d i (bspline_curve (map (vreal d) (bs_pts c)) knots s))
      <= INR p * (14 * unit_roundoff 53 * M + (3 + 2 * M) * underflow_error 53 1024).
Proof.
  intros d c t M knots p b HV HA HP HK HM Hu Hp HL Hspan Ft.
  pose proof (vb_len _ _ HV) as Hlen. pose proof (vb_pts _ _ HV) as Hpts. pose proof (vb_domain _ _ HV) as Hdom.
  assert (Hlk : length knots = length (bs_knots c)) by (unfold knots; apply map_length).
  destruct (get_map_nth (bs_knots c) p) as (x0 & G0 & I0 & E0).
  { unfold p, bspline_degree. lia. }
  destruct (get_map_nth (bs_knots c) (length (bs_pts c))) as (x1 & G1 & I1 & E1); [lia|].
  assert (Ez : B2R x0 = 0) by (rewrite E0; exact HL).
  assert (Eb : B2R x1 = b) by exact E1.
  assert (Hb : 0 < b) by (unfold lower_of in HL; fold p in Hdom, HL; unfold b, upper_of; lra).
  destruct (unwrap_double x0 x1 t) as (s & Es & Fs & Hs & k & Hr & Hsr & Hx);
    [now apply HK|exact Ez|now apply HK|lra|exact Ft|].
  rewrite Eb in *.
  pose (c' := mk_bspline (bs_pts c) (bs_knots c)).
  destruct (bspline_error_double d c' s M HV HA eq_refl HK HM Hu Hp Fs) as (q & Eq & Fq & Hq).
  { change (lower_of (bs_pts c) knots <= B2R s <= b). rewrite HL. exact Hs. }
  { left. exact Hspan. }
  exists q, (B2R s), k. split.
  { assert (D : bs_degree c = Z.of_nat p).
    { unfold bs_degree, zlen, p, bspline_degree. lia. }
    assert (GL : bs_lower c = Ok x0) by (unfold bs_lower; rewrite D; exact G0).
    assert (GU : bs_upper c = Ok x1).
    { unfold bs_upper. rewrite D.
      replace (zlen (bs_knots c) - Z.of_nat p - 1)%Z with (Z.of_nat (length (bs_pts c)))
        by (unfold zlen, p, bspline_degree; lia). exact G1. }
    transitivity (bind (if bs_periodic c then
        bind (bs_lower c) (fun a => bind (bs_upper c) (fun b => @f_unwrap 53 1024 prec64 max64 (bs_periodic c) a b t)) else Ok t)
      (fun t => @bs_evaluate double (vec double d) double_ops (@vec_ops double double_ops d) c' t)); [reflexivity|].
    rewrite HP, GL, bind_Ok, GU, bind_Ok, Es, bind_Ok. exact Eq. }
  split; [exact Fq|]. split; [exact Hr|]. split; [exact Hs|]. split; [|split; [exact Hx|exact Hq]].
  eapply Rle_trans; [exact Hsr|]. pose proof (u_pos 53). apply Rmult_le_compat_l; lra.
Qed.

Lemma fmod_double : forall x y : double, is_finite x = true -> is_finite y = true -> 0 < B2R y ->
  let r := @bfmod 53 1024 prec64 max64 x y in
  is_finite r = true /\ Rabs (B2R r) < B2R y /\ (exists k : Z, B2R x = IZR k * B2R y + B2R r) /\
  (0 <= B2R x -> 0 <= B2R r) /\ (B2R x <= 0 -> B2R r <= 0).
Proof. exact (@bfmod_spec 53 1024 prec64 max64). Qed.

(** [dspline], periodic, and a parameter far outside. *)
Definition pspline : bspline double (vec double 2) :=
  {| bs_pts := bs_pts dspline; bs_knots := bs_knots dspline; bs_periodic := true |}.
Definition far_param : double := dofQ (- (73 # 10)).
Lemma far_value : is_finite far_param = true /\ -8 <= B2R far_param <= -7.
Proof.
  unfold far_param. dval (- (73 # 10))%Q true 8219069319951155%positive (-50)%Z.
  split; [exact F|]. rewrite E. simpl IZR. lra.
Qed.
Lemma pspline_case :
  let knots := map B2R (bs_knots pspline) in
  let p := bspline_degree (bs_pts pspline) knots in
  valid_bspline (bs_pts pspline) knots /\ knots_apart (/ IZR (10 ^ 15)) knots /\ bs_periodic pspline = true /\
  (forall x, In x (bs_knots pspline) -> is_finite x = true /\ Rabs (B2R x) <= bpow radix2 1022) /\
  0 <= 4 <= bpow radix2 1023 /\ 24 * INR p * unit_roundoff 53 <= 1 /\
  (forall a, In a (bs_pts pspline) -> vfinite 2 a /\ forall i, (i < 2)%nat -> Rabs (coord 2 i (vreal 2 a)) <= 4) /\
  lower_of (bs_pts pspline) knots = 0 /\ nth p knots 0 < nth (p + 1) knots 0.
Proof.
  cbv zeta. destruct spline_case as (_ & H1 & H2 & _ & H3 & H4 & H5 & H6 & _ & _ & H7).
  split; [exact H1|]. split; [exact H2|]. split; [reflexivity|]. split; [exact H3|]. split; [exact H4|].
  split; [exact H5|]. split; [exact H6|]. split; [|exact H7].
  change (bs_knots pspline) with (bs_knots dspline). rewrite dspline_knots. reflexivity.
Qed.

(** Knots from -1 to 3.4, periodic. *)
Definition wrap_spline : bspline double (vec double 2) :=
  {| bs_pts := [dpt 0 1; dpt 1 3; dpt 4 (-2); dpt 0 1];
     bs_knots := map dofQ [-(1); -(1); -(1); 1; 34 # 10; 34 # 10; 34 # 10]%Q; bs_periodic := true |}.
Definition wrap_param : double := dofQ (- (4503599627370497 # 4503599627370496)).

Lemma wrap_refuted : exists (c : bspline double (vec double 2)) (t : double),
  valid_bspline (bs_pts c) (map B2R (bs_knots c)) /\ (forall x, In x (bs_knots c) -> is_finite x = true) /\
  bs_periodic c = true /\ is_finite t = true /\
  lower_of (bs_pts c) (map B2R (bs_knots c)) - unit_roundoff 51 <= B2R t < lower_of (bs_pts c) (map B2R (bs_knots c)) /\
  @f_bs_evaluate 53 1024 prec64 max64 2 c t = Undef.
Proof.
  exists wrap_spline, wrap_param.
  dval (-(1))%Q true 4503599627370496%positive (-52)%Z.
  dval (1)%Q false 4503599627370496%positive (-52)%Z.
  dval (34 # 10)%Q false 7656119366529843%positive (-51)%Z.
  destruct (float_value wrap_param true 4503599627370497 (-52)) as [Fw Ew]; [vm_compute; reflexivity|].
  change (bpow radix2 (-52)) with (/ IZR (2 ^ 52)) in Ew. cbn [cond_Zopp] in Ew.
  assert (EK : map B2R (bs_knots wrap_spline) = [-1; -1; -1; 1; 7656119366529843 / IZR (2 ^ 51); 7656119366529843 / IZR (2 ^ 51); 7656119366529843 / IZR (2 ^ 51)]).
  { unfold wrap_spline. cbn [bs_knots map]. rewrite E, E0, E1. simpl IZR. repeat f_equal; lra. }
  rewrite EK. set (K := [_; _; _; _; _; _; _] : list R).
  assert (HL : lower_of (bs_pts wrap_spline) K = -1) by reflexivity.
  assert (Hs : forall i j, (i <= j < 7)%nat -> nth i K 0 <= nth j K 0).
  { intros i j Hij. unfold K. simpl IZR. do 7 (destruct i as [|i]; [do 7 (destruct j as [|j]; [try lia; simpl nth; lra|]); lia|]). lia. }
  split.
  { constructor.
    - cbn. lia.
    - cbn. lia.
    - intros i j Hij. apply Hs. exact Hij.
    - change (-1 < 7656119366529843 / IZR (2 ^ 51)). simpl IZR. lra. }
  split.
  { intros x Hx. unfold wrap_spline in Hx. cbn [bs_knots map In] in Hx.
    destruct Hx as [<-|[<-|[<-|[<-|[<-|[<-|[<-|[]]]]]]]]; assumption. }
  split; [reflexivity|]. split; [exact Fw|]. split; [|vm_compute; reflexivity].
  rewrite HL, Ew. change (unit_roundoff 51) with (/ IZR (2 ^ 51)). simpl IZR. lra.
Qed.

(** ** Every domain, in double precision *)
Lemma unwrap_any_double : forall (a b t : double),
  is_finite a = true -> is_finite b = true -> is_finite t = true -> B2R a < B2R b ->
  Rabs (B2R a) <= bpow radix2 1020 -> Rabs (B2R b) <= bpow radix2 1020 -> Rabs (B2R t) <= bpow radix2 1020 ->
  match @f_unwrap 53 1024 prec64 max64 true a b t with
  | Ok s => is_finite s = true /\ B2R a <= B2R s <= B2R b /\
      exists k : Z, Rabs (B2R s - (B2R t - IZR k * (B2R b - B2R a))) <=
        unit_roundoff 53 * (4 * Rabs (B2R t - B2R a) + 10 * (B2R b - B2R a) + 3 * Rabs (B2R a))
  | Undef => B2R t < B2R a
  | _ => False
  end.
Proof. exact (@unwrap_any 53 1024 prec64 max64). Qed.

Lemma periodic_bspline_above : forall (d : nat) (c : bspline double (vec double d)) (t : double) (M : R),
  let knots := map B2R (bs_knots c) in
  let p := bspline_degree (bs_pts c) knots in
  let a := lower_of (bs_pts c) knots in
  let b := upper_of (bs_pts c) knots in
  valid_bspline (bs_pts c) knots -> knots_apart (/ IZR (10 ^ 15)) knots -> bs_periodic c = true ->
  (forall x, In x (bs_knots c) -> is_finite x = true /\ Rabs (B2R x) <= bpow radix2 1020) ->
  0 <= M <= bpow radix2 1023 -> 24 * INR p * unit_roundoff 53 <= 1 ->
  (forall x, In x (bs_pts c) -> vfinite d x /\ forall i, (i < d)%nat -> Rabs (coord d i (vreal d x)) <= M) ->
  nth p knots 0 < nth (p + 1) knots 0 -> is_finite t = true -> a <= B2R t <= bpow radix2 1020 ->
  exists (q : vec double d) (s : R) (k : Z),
    @f_bs_evaluate 53 1024 prec64 max64 d c t = Ok q /\ vfinite d q /\ a <= s <= b /\
    Rabs (s - (B2R t - IZR k * (b - a))) <= unit_roundoff 53 * (4 * (B2R t - a) + 10 * (b - a) + 3 * Rabs a) /\
    forall i, (i < d)%nat ->
      Rabs (coord d i (vreal d q) - coord d i (bspline_curve (map (vreal d) (bs_pts c)) knots s))
      <= INR p * (14 * unit_roundoff 53 * M + (3 + 2 * M) * underflow_error 53 1024).
Proof.
  intros d c t M knots p a b HV HA HP HK HM Hu Hp Hspan Ft Ht.
  pose proof (vb_len _ _ HV) as Hlen. pose proof (vb_pts _ _ HV) as Hpts. pose proof (vb_domain _ _ HV) as Hdom.
  assert (Hlk : length knots = length (bs_knots c)) by (unfold knots; apply map_length).
  destruct (get_map_nth (bs_knots c) p) as (x0 & G0 & I0 & E0).
  { unfold p, bspline_degree. lia. }
  destruct (get_map_nth (bs_knots c) (length (bs_pts c))) as (x1 & G1 & I1 & E1); [lia|].
  change (B2R x0 = a) in E0. change (B2R x1 = b) in E1. change (a < b) in Hdom.
  destruct (HK _ I0) as [F0 B0]. destruct (HK _ I1) as [F1 B1].
  assert (HK' : forall x, In x (bs_knots c) -> is_finite x = true /\ Rabs (B2R x) <= bpow radix2 1022).
  { intros x Hx. destruct (HK _ Hx) as [F B]. split; [exact F|]. eapply Rle_trans; [exact B|]. apply bpow_le. lia. }
  pose proof (unwrap_any_double x0 x1 t F0 F1 Ft) as W. rewrite E0, E1 in *.
  specialize (W Hdom B0 B1).
  assert (Bt : Rabs (B2R t) <= bpow radix2 1020).
  { apply Rabs_le. apply Rabs_le_inv in B0. lra. }
  specialize (W Bt). destruct (@f_unwrap 53 1024 prec64 max64 true x0 x1 t) as [s| | |] eqn:Es; try tauto; [|lra].
  destruct W as (Fs & Hs & k & Hk). rewrite (Rabs_pos_eq (B2R t - a)) in Hk by lra.
  pose (c' := mk_bspline (bs_pts c) (bs_knots c)).
  destruct (bspline_error_double d c' s M HV HA eq_refl HK' HM Hu Hp Fs) as (q & Eq & Fq & Hq).
  { exact Hs. }
  { left. exact Hspan. }
  exists q, (B2R s), k. split.
  { assert (D : bs_degree c = Z.of_nat p).
    { unfold bs_degree, zlen, p, bspline_degree. lia. }
    assert (GL : bs_lower c = Ok x0) by (unfold bs_lower; rewrite D; exact G0).
    assert (GU : bs_upper c = Ok x1).
    { unfold bs_upper. rewrite D.
      replace (zlen (bs_knots c) - Z.of_nat p - 1)%Z with (Z.of_nat (length (bs_pts c)))
        by (unfold zlen, p, bspline_degree; lia). exact G1. }
    transitivity (bind (if bs_periodic c then
        bind (bs_lower c) (fun a => bind (bs_upper c) (fun b => @f_unwrap 53 1024 prec64 max64 (bs_periodic c) a b t)) else Ok t)
      (fun t => @bs_evaluate double (vec double d) double_ops (@vec_ops double double_ops d) c' t)); [reflexivity|].
    rewrite HP, GL, bind_Ok, GU, bind_Ok, Es, bind_Ok. exact Eq. }
  split; [exact Fq|]. split; [exact Hs|]. split; [exact Hk|exact Hq].
Qed.

Definition above_param : double := dofQ (73 # 10).
Lemma above_case :
  let c := wrap_spline in let t := above_param in
  let knots := map B2R (bs_knots c) in
  let p := bspline_degree (bs_pts c) knots in
  let a := lower_of (bs_pts c) knots in
  valid_bspline (bs_pts c) knots /\ knots_apart (/ IZR (10 ^ 15)) knots /\ bs_periodic c = true /\
  (forall x, In x (bs_knots c) -> is_finite x = true /\ Rabs (B2R x) <= bpow radix2 1020) /\
  0 <= 4 <= bpow radix2 1023 /\ 24 * INR p * unit_roundoff 53 <= 1 /\
  (forall x, In x (bs_pts c) -> vfinite 2 x /\ forall i, (i < 2)%nat -> Rabs (coord 2 i (vreal 2 x)) <= 4) /\
  nth p knots 0 < nth (p + 1) knots 0 /\ is_finite t = true /\ a <= B2R t <= bpow radix2 1020 /\
  a = -1 /\ upper_of (bs_pts c) knots < B2R t.
Proof.
  cbv zeta.
  dval (-(1))%Q true 4503599627370496%positive (-52)%Z.
  dval (1)%Q false 4503599627370496%positive (-52)%Z.
  dval (34 # 10)%Q false 7656119366529843%positive (-51)%Z.
  destruct (float_value above_param false 8219069319951155 (-50)) as [Fw Ew]; [vm_compute; reflexivity|].
  change (bpow radix2 (-50)) with (/ IZR (2 ^ 50)) in Ew. cbn [cond_Zopp] in Ew.
  set (t := above_param) in *. clearbody t.
  assert (EK : map B2R (bs_knots wrap_spline) = [-1; -1; -1; 1; 7656119366529843 / IZR (2 ^ 51); 7656119366529843 / IZR (2 ^ 51); 7656119366529843 / IZR (2 ^ 51)]).
  { unfold wrap_spline. cbn [bs_knots map]. rewrite E, E0, E1. simpl IZR. repeat f_equal; lra. }
  assert (Hin : forall x, In x (bs_knots wrap_spline) -> is_finite x = true).
  { intros x Hx. unfold wrap_spline in Hx. cbn [bs_knots map In] in Hx.
    destruct Hx as [<-|[<-|[<-|[<-|[<-|[<-|[<-|[]]]]]]]]; assumption. }
  assert (Hin' : forall x, In x (bs_knots wrap_spline) -> Rabs (B2R x) <= 4).
  { intros x Hx. apply (in_map B2R) in Hx. rewrite EK in Hx. cbn [In] in Hx. simpl IZR in Hx.
    apply Rabs_le. destruct Hx as [<-|[<-|[<-|[<-|[<-|[<-|[<-|[]]]]]]]]; lra. }
  rewrite EK. set (K := [_; _; _; _; _; _; _] : list R).
  assert (Hs : forall i j, (i <= j < 7)%nat -> nth i K 0 <= nth j K 0).
  { intros i j Hij. unfold K. simpl IZR. do 7 (destruct i as [|i]; [do 7 (destruct j as [|j]; [try lia; simpl nth; lra|]); lia|]). lia. }
  split.
  { constructor.
    - cbn. lia.
    - cbn. lia.
    - intros i j Hij. apply Hs. exact Hij.
    - change (-1 < 7656119366529843 / IZR (2 ^ 51)). simpl IZR. lra. }
  split.
  { intros i j Hij. unfold K in *. cbn [length] in Hij. simpl IZR.
    do 7 (destruct i as [|i]; [do 7 (destruct j as [|j]; [simpl nth; lra|]); lia|]). lia. }
  split; [reflexivity|].
  split; [intros x Hx; split; [now apply Hin|]; eapply Rle_trans; [now apply Hin'|]; apply big_bound; lia|].
  split; [split; [lra|apply big_bound; lia]|]. rewrite u53. split; [cbn; lra|].
  split; [intros x Hx; apply pts_small; cbn [bs_pts wrap_spline In] in *; intuition|].
  split; [change (-1 < 1); lra|]. split; [exact Fw|].
  change (lower_of (bs_pts wrap_spline) K) with (-1). change (upper_of (bs_pts wrap_spline) K) with (7656119366529843 / IZR (2 ^ 51)).
  split; [|split; [reflexivity|rewrite Ew; simpl IZR; lra]].
  split; [rewrite Ew; simpl IZR; lra|]. apply Rle_trans with (bpow radix2 3); [rewrite Ew; change (bpow radix2 3) with 8; simpl IZR; lra|apply bpow_le; lia].
Qed.
