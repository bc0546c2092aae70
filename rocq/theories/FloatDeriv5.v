(** Rounding errors of the derivatives computed by the Bezier classes for the degrees 0 to 3. *)
From Coq Require Import Reals Lra Lia ZArith QArith List Bool.
From Flocq Require Import Core IEEE754.BinarySingleNaN.
From Verif Require Import Monad MonadFacts Scalar ScalarFacts Spec SpecFacts ModelCurve ModelBezier BezierThms
  ModelPatchBase ModelPatch SpecFloat ModelFloat FloatFacts FloatThms FloatThms2 FloatThms3 FloatCases FloatRuns FloatDeriv FloatTotal FloatPatch5.
Import ListNotations.
Local Open Scope R_scope.

Section Gen.
  Context {T P : Type} {SO : ScalarOps T} {V : PointOps T P}.
  Variable Hcomm : forall a b : P, padd a b = padd b a.

  (** The classes for the degrees 2 and 3 scale the difference of two points on curves of one degree less. *)
  Lemma bz2_difference (a b c : P) t q0 q1 :
    bz_evaluate (mk_bezier [a; b]) t = Ok q0 -> bz_evaluate (mk_bezier [b; c]) t = Ok q1 ->
    bz2_evaluate_derivative (mk_bezier [a; b; c]) t = Ok (pmul (sofZ 2) (psub q1 q0)).
  Proof.
    intros E0 E1. rewrite <- (bz1_generic Hcomm) in E0, E1 by reflexivity.
    injection E0 as <-. injection E1 as <-. reflexivity.
  Qed.
  Lemma bz3_difference (a b c e : P) t q0 q1 :
    bz_evaluate (mk_bezier [a; b; c]) t = Ok q0 -> bz_evaluate (mk_bezier [b; c; e]) t = Ok q1 ->
    bz3_evaluate_derivative (mk_bezier [a; b; c; e]) t = Ok (pmul (sofZ 3) (psub q1 q0)).
  Proof.
    intros E0 E1. rewrite <- (bz2_generic Hcomm) in E0, E1 by reflexivity.
    injection E0 as <-. injection E1 as <-. reflexivity.
  Qed.
End Gen.

Lemma padd_comm_R d (a b : vec R d) : padd a b = padd b a.
Proof.
  induction d as [|d IH]; [reflexivity|]. destruct a as [x a], b as [y b]. 
  change ((x + y, padd a b) = (y + x, padd b a)). f_equal; [ring|apply IH].
Qed.

Section Float.
  Context (prec emax : Z) {Hprec : Prec_gt_0 prec} {Hmax : Prec_lt_emax prec emax}.
  Notation num := (binary_float prec emax).
  Notation u := (unit_roundoff prec).
  Notation eta := (underflow_error prec emax).
  Notation Omega := (bpow radix2 emax).
  Local Instance FOs : ScalarOps num := ieee_ops prec emax.

  Lemma scaled_difference d (l0 l1 : list (vec num d)) (t : num) k M :
    length l0 = S k -> length l1 = S k -> 0 <= M -> 5 * INR (S k) * (M + 1) <= bpow radix2 (emax - 1) ->
    24 * INR (S k) * u <= 1 ->
    (forall p i, In p (l0 ++ l1) -> (i < d)%nat -> is_finite (coord d i p) = true /\ Rabs (B2R (coord d i p)) <= M) ->
    is_finite t = true -> 0 <= B2R t <= 1 ->
    exists a b, bz_evaluate (mk_bezier l0) t = Ok a /\ bz_evaluate (mk_bezier l1) t = Ok b /\
      forall i, (i < d)%nat ->
        is_finite (coord d i (pmul (sofZ (Z.of_nat (S k))) (psub b a))) = true /\
        Rabs (B2R (coord d i (pmul (sofZ (Z.of_nat (S k))) (psub b a))) -
              INR (S k) * (coord d i (bernstein_curve (map (vreal d) l1) (B2R t)) - coord d i (bernstein_curve (map (vreal d) l0) (B2R t))))
        <= INR (S k) * (9 * INR (S k) * u * M + 6 * INR (S k) * eta).
  Proof.
    intros H0 H1 HM HMO Hu Hp Ft Ht.
    pose proof (u_pos prec) as Hu0. pose proof (eta_pos prec emax) as He.
    pose proof (prec_gt_0 prec). pose proof (prec_lt_emax prec emax).
    assert (Heu : eta <= u) by (unfold underflow_error, unit_roundoff; apply bpow_le; lia).
    pose proof (pos_INR k) as Hk0. assert (HS : INR (S k) = INR k + 1) by apply S_INR. rewrite HS in *.
    assert (Huk : 24 * INR k * u <= 1) by nra.
    assert (HMb : M <= bpow radix2 (emax - 1)) by nra.
    pose proof (growth_finite prec emax M k HM Huk HMb) as GF. pose proof (growth_bound prec emax M k HM Huk) as GB.
    destruct (bezier_near prec emax d l0 t k M H0) as (a & Ea & Na); try assumption.
    { intros p i Hi. apply Hp. apply in_or_app. now left. }
    destruct (bezier_near prec emax d l1 t k M H1) as (b & Eb & Nb); try assumption.
    { intros p i Hi. apply Hp. apply in_or_app. now right. }
    exists a, b. split; [exact Ea|]. split; [exact Eb|]. intros i Hi.
    assert (Na' : near prec emax (growth u eta M k) (growth u eta M k - M) (coord d i a) (coord d i (bernstein_curve (map (vreal d) l0) (B2R t))))
      by exact (Na i Hi).
    assert (Nb' : near prec emax (growth u eta M k) (growth u eta M k - M) (coord d i b) (coord d i (bernstein_curve (map (vreal d) l1) (B2R t))))
      by exact (Nb i Hi).
    clear Na Nb. destruct Na' as (Fa & Ba & Da). destruct Nb' as (Fb & Bb & Db).
    set (G := growth u eta M k) in *.
    set (ra := coord d i (bernstein_curve (map (vreal d) l0) (B2R t))) in *.
    set (rb := coord d i (bernstein_curve (map (vreal d) l1) (B2R t))) in *.
    rewrite gcoord_mul, gcoord_sub by exact Hi.
    assert (EZ : IZR (Z.of_nat (S k)) = INR k + 1) by (rewrite <- INR_IZR_INZ; exact HS).
    set (N := INR k + 1) in *.
    assert (HkuM : INR k * u * M <= / 24 * M) by (apply Rmult_le_compat_r; lra).
    assert (Hke : INR k * eta <= INR k * u) by (apply Rmult_le_compat_l; lra).
    assert (HG1 : G <= 7 / 6 * M + 3 * (INR k * eta)) by lra.
    assert (HN : 1 <= N) by (unfold N; lra).
    destruct (coef_near prec emax (Z.of_nat (S k)) (coord d i b) (coord d i a) G ltac:(lia)) as (Fq & _ & Dq); try assumption.
    { rewrite EZ. exact Hu. }
    { rewrite EZ. apply Rle_trans with (5 * N * (M + 1)); [|exact HMO].
      replace (5 * N * (M + 1)) with (N * (5 * (M + 1))) by ring. replace (4 * N * G) with (N * (4 * G)) by ring.
      apply Rmult_le_compat_l; lra. }
    rewrite EZ in Dq.
    split; [exact Fq|]. cbn [sofZ smul ssub FOs ieee_ops].
    set (q := B2R (Bmult mode_NE _ _)) in *.
    set (D := B2R (coord d i b) - B2R (coord d i a)) in *.
    assert (HD : Rabs (N * D - N * (rb - ra)) <= N * (2 * (G - M))).
    { rewrite <- Rmult_minus_distr_l, Rabs_mult, (Rabs_pos_eq N) by lra. apply Rmult_le_compat_l; [lra|].
      unfold D. apply Rabs_le_inv in Da. apply Rabs_le_inv in Db. apply Rabs_le. lra. }
    match goal with |- Rabs (?x - _) <= _ => change x with q end.
    replace (q - N * (rb - ra)) with ((q - N * D) + (N * D - N * (rb - ra))) by ring.
    eapply Rle_trans; [apply Rabs_triang|].
    assert (HuG : u * G <= 7 / 6 * (u * M) + / 8 * eta).
    { apply Rle_trans with (u * (7 / 6 * M + 3 * (INR k * eta))); [apply Rmult_le_compat_l; lra|].
      assert (INR k * u * eta <= / 24 * eta) by (apply Rmult_le_compat_r; lra). lra. }
    assert (X1 : 42 / 10 * N * u * G <= N * (49 / 10 * (u * M) + 42 / 80 * eta)).
    { replace (42 / 10 * N * u * G) with (N * (42 / 10 * (u * G))) by ring. apply Rmult_le_compat_l; lra. }
    assert (X2 : N * (2 * (G - M)) <= N * (8 * (INR k * (u * M)) + 6 * (INR k * eta))) by (apply Rmult_le_compat_l; lra).
    assert (HuM : 0 <= u * M) by (apply Rmult_le_pos; lra).
    assert (X3 : N * eta >= eta) by nra.
    assert (Y1 : 0 <= INR k * (u * M)) by (apply Rmult_le_pos; lra).
    assert (Y2 : N * (49 / 10 * (u * M) + 42 / 80 * eta) + N * (8 * (INR k * (u * M)) + 6 * (INR k * eta)) + N * eta
      <= N * (9 * N * u * M + 6 * N * eta)).
    { rewrite <- !Rmult_plus_distr_l. apply Rmult_le_compat_l; [lra|].
      replace (9 * N * u * M + 6 * N * eta) with (9 * (INR k * (u * M)) + 9 * (u * M) + 6 * (INR k * eta) + 6 * eta) by (unfold N; ring). lra. }
    lra.
  Qed.

  Lemma static_derivative_error d (pts : list (vec num d)) (t : num) n M :
    (n <= 3)%nat -> length pts = S n -> 0 <= M -> 5 * INR n * (M + 1) <= bpow radix2 (emax - 1) -> 24 * INR n * u <= 1 ->
    (forall p, In p pts -> vfinite d p /\ forall i, (i < d)%nat -> Rabs (coord d i (vreal d p)) <= M) ->
    is_finite t = true -> 0 <= B2R t <= 1 ->
    exists (q : vec num d) (f' : R -> vec R d), bzt_evaluate_derivative (Z.of_nat n) (mk_bezier pts) t = Ok q /\ vfinite d q /\
      (forall s, vderiv (bernstein_curve (map (vreal d) pts)) s (f' s)) /\
      forall i, (i < d)%nat -> Rabs (coord d i (vreal d q) - coord d i (f' (B2R t)))
        <= INR n * (9 * INR n * u * M + 6 * INR n * eta).
  Proof.
    intros Hn3 Hn HM HMO Hu Hp Ft Ht.
    pose proof (u_pos prec) as Hu0. pose proof (eta_pos prec emax) as He.
    assert (Hc : forall p i, In p pts -> (i < d)%nat -> is_finite (coord d i p) = true /\ Rabs (B2R (coord d i p)) <= M).
    { intros p i Hi Hd. destruct (Hp p Hi) as [A B]. split; [now apply (vfinite_coord prec emax d)|].
      specialize (B i Hd). rewrite (vreal_coord prec emax) in B. exact B. }
    assert (Hne : map (vreal d) pts <> []) by (destruct pts; discriminate).
    destruct n as [|[|[|[|n]]]]; try lia.
    - (* a point *)
      destruct (derivative_error prec emax d pts t 0 M Hn HM) as (q & f' & Eq & Fq & HV & D); try assumption.
      { simpl INR. rewrite Rmult_0_r, Rmult_0_l. apply bpow_ge_0. }
      exists q, f'. split; [|split; [exact Fq|split; [exact HV|]]].
      + destruct pts as [|a [|b pts]]; try discriminate. exact Eq.
      + intros i Hi. specialize (D i Hi). simpl INR in *. rewrite Rmult_0_l in D |- *. exact D.
    - (* a segment *)
      destruct (bernstein_derivative d (map (vreal d) pts) Hne) as (f' & HV & Ef).
      destruct pts as [|a [|b [|c pts]]]; try discriminate.
      exists (psub b a), f'. split; [reflexivity|].
      assert (Ef1 : f' (B2R t) = psub (vreal d b) (vreal d a)).
      { pose proof (Ef (B2R t)) as E. destruct (bezier_deg1 d (map (vreal d) [a; b]) (B2R t) eq_refl) as (_ & E2 & _).
        rewrite <- E2 in E. injection E as E. symmetry. exact E. }
      assert (HX : forall i, (i < d)%nat -> is_finite (coord d i (psub b a)) = true /\
        Rabs (B2R (coord d i (psub b a)) - (B2R (coord d i b) - B2R (coord d i a))) <= u * (2 * M)).
      { intros i Hi. destruct (Hc a i (or_introl eq_refl) Hi) as [Fa Ba]. destruct (Hc b i (or_intror (or_introl eq_refl)) Hi) as [Fb Bb].
        rewrite gcoord_sub by exact Hi.
        assert (HD : Rabs (B2R (coord d i b) - B2R (coord d i a)) <= 2 * M).
        { apply Rabs_le_inv in Ba. apply Rabs_le_inv in Bb. apply Rabs_le. lra. }
        simpl INR in HMO, Hu.
        assert (HO : Omega = 2 * bpow radix2 (emax - 1)).
        { change 2 with (bpow radix2 1). rewrite <- bpow_plus. f_equal. lia. }
        destruct (sub_spec prec emax (coord d i b) (coord d i a) Fb Fa) as (Fd & _ & Ed).
        { pose proof (Rabs_pos (B2R (coord d i b) - B2R (coord d i a))).
          assert (u * Rabs (B2R (coord d i b) - B2R (coord d i a)) <= / 24 * (2 * M)) by (apply Rmult_le_compat; lra). lra. }
        split; [exact Fd|]. eapply Rle_trans; [exact Ed|]. apply Rmult_le_compat_l; lra. }
      split; [apply (vfinite_coord prec emax d); intros i Hi; apply (HX i Hi)|]. split; [exact HV|].
      intros i Hi. rewrite Ef1, coord_sub by exact Hi. rewrite !(vreal_coord prec emax).
      eapply Rle_trans; [apply (HX i Hi)|]. simpl INR. assert (0 <= u * M) by (apply Rmult_le_pos; lra). lra.
    - (* degree 2 *)
      destruct (bernstein_derivative d (map (vreal d) pts) Hne) as (f' & HV & Ef).
      destruct pts as [|a [|b [|c [|e pts]]]]; try discriminate.
      destruct (scaled_difference d [a; b] [b; c] t 1 M eq_refl eq_refl HM HMO Hu) as (q0 & q1 & E0 & E1 & HX); try assumption.
      { intros p i Hi. apply Hc. simpl in Hi |- *. tauto. }
      exists (pmul (sofZ 2) (psub q1 q0)), f'.
      split; [exact (bz2_difference (@padd_comm_num prec emax _ _ d) a b c t q0 q1 E0 E1)|].
      split; [apply (vfinite_coord prec emax d); intros i Hi; apply (HX i Hi)|]. split; [exact HV|].
      assert (Ef1 : f' (B2R t) = pmul 2 (psub (bernstein_curve (map (vreal d) [b; c]) (B2R t)) (bernstein_curve (map (vreal d) [a; b]) (B2R t)))).
      { pose proof (Ef (B2R t)) as E. destruct (bezier_deg2 d (map (vreal d) [a; b; c]) (B2R t) eq_refl) as (_ & E2 & _).
        rewrite <- E2 in E. simpl map in E.
        rewrite (bz2_difference (padd_comm_R d) _ _ _ (B2R t) _ _
          (bezier_bernstein d (map (vreal d) [a; b]) (B2R t) ltac:(discriminate)) (bezier_bernstein d (map (vreal d) [b; c]) (B2R t) ltac:(discriminate))) in E.
        injection E as E. symmetry. exact E. }
      intros i Hi. rewrite Ef1, coord_mul, coord_sub by exact Hi. rewrite (vreal_coord prec emax).
      destruct (HX i Hi) as [_ D]. replace (INR 2) with 2 in D |- * by (simpl; ring). exact D.
    - (* degree 3 *)
      destruct (bernstein_derivative d (map (vreal d) pts) Hne) as (f' & HV & Ef).
      destruct pts as [|a [|b [|c [|e [|g pts]]]]]; try discriminate.
      destruct (scaled_difference d [a; b; c] [b; c; e] t 2 M eq_refl eq_refl HM HMO Hu) as (q0 & q1 & E0 & E1 & HX); try assumption.
      { intros p i Hi. apply Hc. simpl in Hi |- *. tauto. }
      exists (pmul (sofZ 3) (psub q1 q0)), f'.
      split; [exact (bz3_difference (@padd_comm_num prec emax _ _ d) a b c e t q0 q1 E0 E1)|].
      split; [apply (vfinite_coord prec emax d); intros i Hi; apply (HX i Hi)|]. split; [exact HV|].
      assert (Ef1 : f' (B2R t) = pmul 3 (psub (bernstein_curve (map (vreal d) [b; c; e]) (B2R t)) (bernstein_curve (map (vreal d) [a; b; c]) (B2R t)))).
      { pose proof (Ef (B2R t)) as E. destruct (bezier_deg3 d (map (vreal d) [a; b; c; e]) (B2R t) eq_refl) as (_ & E2 & _).
        rewrite <- E2 in E. simpl map in E.
        rewrite (bz3_difference (padd_comm_R d) _ _ _ _ (B2R t) _ _
          (bezier_bernstein d (map (vreal d) [a; b; c]) (B2R t) ltac:(discriminate)) (bezier_bernstein d (map (vreal d) [b; c; e]) (B2R t) ltac:(discriminate))) in E.
        injection E as E. symmetry. exact E. }
      intros i Hi. rewrite Ef1, coord_mul, coord_sub by exact Hi. rewrite (vreal_coord prec emax).
      destruct (HX i Hi) as [_ D]. replace (INR 3) with 3 in D |- * by (simpl; ring). exact D.
  Qed.
End Float.
