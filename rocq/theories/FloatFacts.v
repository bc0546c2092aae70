(** Rounding errors of the elementary steps, and the triangle loops in an arithmetic without laws. *)
From Coq Require Import Reals Lra Lia ZArith List Bool.
From Flocq Require Import Core IEEE754.BinarySingleNaN Relative Plus_error.
From Verif Require Import Monad MonadFacts Scalar ScalarFacts Spec SpecFloat ModelFloat.
Import ListNotations.
Local Open Scope R_scope.

(** * Triangle loops *)
Section Tri.
  Context {P : Type}.
  Local Open Scope Z_scope.

  (** Value of row [j] after [r] rounds of [row j := f r j (row (j - 1)) (row j)]. *)
  Fixpoint gtri (f : Z -> Z -> P -> P -> P) (c : Z -> P) (r : nat) (j : Z) : P :=
    match r with
    | O => c j
    | S r' => f (Z.of_nat r) j (gtri f c r' (j - 1)) (gtri f c r' j)
    end.

  Lemma gtri_loops (f : Z -> Z -> P -> P -> P) (outer : Z -> list P -> res (list P))
      (body : Z -> Z -> list P -> res (list P)) pts n c p :
    arr pts n c -> 0 <= p < n ->
    (forall r s, 1 <= r <= p -> outer r s = for_down p r (body r) s) ->
    (forall r j s g, 1 <= r <= j -> j <= p -> arr s n g -> body r j s = set s j (f r j (g (j - 1)) (g j))) ->
    exists pts', for_up 1 (p + 1) outer pts = Ok pts' /\
      arr pts' n (fun j => if j <=? p then gtri f c (Z.to_nat (Z.min p j)) j else c j).
  Proof.
    intros Hc Hp Ho Hb.
    destruct (for_up_inv (fun r s => arr s n (fun j => if j <=? p then gtri f c (Z.to_nat (Z.min (r - 1) j)) j else c j))
      1 (p + 1) outer pts) as (s' & E & H').
    - lia.
    - eapply arr_ext; [exact Hc|]. intros i Hi. cbv beta.
      replace (Z.to_nat (Z.min (1 - 1) i)) with O by lia. simpl. destruct (i <=? p); reflexivity.
    - intros r s Hr Hs. rewrite Ho by lia.
      destruct (for_down_inv (fun j s => arr s n (fun i =>
          if i <=? p then
            if j <? i then gtri f c (Z.to_nat r) i else gtri f c (Z.to_nat (Z.min (r - 1) i)) i
          else c i)) p r (body r) s) as (s2 & E2 & H2).
      + lia.
      + eapply arr_ext; [exact Hs|]. intros i Hi. cbv beta.
        destruct (Z.leb_spec i p); [|reflexivity]. destruct (Z.ltb_spec p i); [lia|reflexivity].
      + intros j s0 Hj Hs0. rewrite (Hb r j s0 _ ltac:(lia) ltac:(lia) Hs0).
        destruct (Z.leb_spec j p); [|lia]. destruct (Z.leb_spec (j - 1) p); [|lia].
        destruct (Z.ltb_spec j j); [lia|]. destruct (Z.ltb_spec j (j - 1)); [lia|].
        replace (Z.min (r - 1) j) with (r - 1) by lia. replace (Z.min (r - 1) (j - 1)) with (r - 1) by lia.
        match goal with |- exists s', set _ _ ?v = _ /\ _ =>
          destruct (arr_set s0 n _ j v Hs0) as (s3 & E3 & H3); [lia|] end.
        exists s3. split; [exact E3|]. eapply arr_ext; [exact H3|]. intros i Hi. cbv beta. unfold fupd.
        destruct (Z.eqb_spec i j) as [->|Hne].
        * destruct (Z.leb_spec j p); [|lia]. destruct (Z.ltb_spec (j - 1) j); [|lia].
          replace (Z.to_nat r) with (S (Z.to_nat (r - 1))) by lia. cbn [gtri].
          replace (Z.of_nat (S (Z.to_nat (r - 1)))) with r by lia. reflexivity.
        * destruct (Z.leb_spec i p); [|reflexivity].
          destruct (Z.ltb_spec j i); destruct (Z.ltb_spec (j - 1) i); try lia; reflexivity.
      + exists s2. split; [exact E2|]. eapply arr_ext; [exact H2|]. intros i Hi. cbv beta.
        destruct (Z.leb_spec i p); [|reflexivity].
        destruct (Z.ltb_spec (r - 1) i); do 2 f_equal; lia.
    - exists s'. split; [exact E|]. replace (p + 1 - 1) with p in H' by lia. exact H'.
  Qed.
End Tri.

(** * Elementary operations *)
Section Ops.
  Context (prec emax : Z) {Hprec : Prec_gt_0 prec} {Hmax : Prec_lt_emax prec emax}.
  Notation num := (binary_float prec emax).
  Notation u := (unit_roundoff prec).
  Notation eta := (underflow_error prec emax).
  Notation Omega := (bpow radix2 emax).
  Notation fexp := (SpecFloat.fexp prec emax).
  Notation fl := (round radix2 fexp (round_mode mode_NE)).

  Lemma u_pos : 0 < u. Proof. apply bpow_gt_0. Qed.
  Lemma eta_pos : 0 < eta. Proof. apply bpow_gt_0. Qed.
  Lemma u_le_half : u <= / 2.
  Proof.
    unfold unit_roundoff. pose proof (prec_gt_0 prec). change (/ 2) with (bpow radix2 (-1)). apply bpow_le. lia.
  Qed.
  Lemma u_ro_eq : u_ro radix2 prec = u.
  Proof.
    unfold u_ro, unit_roundoff. change (/ 2) with (bpow radix2 (-1)). rewrite <- bpow_plus. f_equal. lia.
  Qed.
  Lemma eta_eq : / 2 * bpow radix2 (SpecFloat.emin prec emax) = eta.
  Proof.
    unfold underflow_error. change (/ 2) with (bpow radix2 (-1)). rewrite <- bpow_plus. f_equal.
    unfold SpecFloat.emin. lia.
  Qed.
  Lemma u_div : u_ro radix2 prec / (1 + u_ro radix2 prec) <= u.
  Proof.
    rewrite u_ro_eq. pose proof u_pos. assert (0 < / (1 + u)) by (apply Rinv_0_lt_compat; lra).
    assert (/ (1 + u) * (1 + u) = 1) by (field; lra). unfold Rdiv. nra.
  Qed.

  Lemma fl_err x : Rabs (fl x - x) <= u * Rabs x + eta.
  Proof.
    destruct (relative_error_N_FLT'_ex radix2 (SpecFloat.emin prec emax) prec (prec_gt_0 prec) (fun z => negb (Z.even z)) x)
      as (eps & et & He & Ht & _ & E).
    change (FLT_exp (SpecFloat.emin prec emax) prec) with fexp in E.
    change (round_mode mode_NE) with ZnearestE. rewrite E. rewrite eta_eq in Ht. pose proof u_div.
    replace (x * (1 + eps) + et - x) with (eps * x + et) by ring.
    eapply Rle_trans; [apply Rabs_triang|]. rewrite Rabs_mult.
    pose proof (Rabs_pos x). apply Rplus_le_compat; [|lra]. apply Rmult_le_compat_r; lra.
  Qed.
  Lemma fl_plus_err x y : generic_format radix2 fexp x -> generic_format radix2 fexp y ->
    Rabs (fl (x + y) - (x + y)) <= u * Rabs (x + y).
  Proof.
    intros Hx Hy.
    destruct (FLT_plus_error_N_ex radix2 (SpecFloat.emin prec emax) prec (fun z => negb (Z.even z)) x y Hx Hy) as (eps & He & E).
    change (FLT_exp (SpecFloat.emin prec emax) prec) with fexp in E.
    change (round_mode mode_NE) with ZnearestE. rewrite E. pose proof u_div.
    replace ((x + y) * (1 + eps) - (x + y)) with (eps * (x + y)) by ring. rewrite Rabs_mult.
    pose proof (Rabs_pos (x + y)). apply Rmult_le_compat_r; lra.
  Qed.

  Instance vexp : Valid_exp fexp.
  Proof. change fexp with (FLT_exp (SpecFloat.emin prec emax) prec). typeclasses eauto. Qed.

  Lemma fl_le x y : x <= y -> fl x <= fl y.
  Proof. intros H. apply round_le; [typeclasses eauto|typeclasses eauto|exact H]. Qed.
  Lemma fl_id x : generic_format radix2 fexp x -> fl x = x.
  Proof. intros H. apply round_generic; [typeclasses eauto|exact H]. Qed.
  Lemma fl_0 : fl 0 = 0.
  Proof. apply round_0. typeclasses eauto. Qed.
  Lemma fmt (x : num) : generic_format radix2 fexp (B2R x).
  Proof. apply generic_format_B2R. Qed.
  Lemma fmt_1 : generic_format radix2 fexp 1.
  Proof.
    change 1 with (bpow radix2 0). apply generic_format_bpow. unfold SpecFloat.fexp, SpecFloat.emin.
    pose proof (prec_gt_0 prec). pose proof (prec_lt_emax prec emax). lia.
  Qed.
  Lemma fl_1 : fl 1 = 1. Proof. apply fl_id, fmt_1. Qed.
  Lemma Omega_1 : 1 < Omega.
  Proof.
    change 1 with (bpow radix2 0). apply bpow_lt.
    pose proof (prec_gt_0 prec). pose proof (prec_lt_emax prec emax). lia.
  Qed.

  Lemma one_spec : is_finite (@bofZ prec emax _ _ 1) = true /\ B2R (@bofZ prec emax _ _ 1) = 1.
  Proof.
    unfold bofZ. pose proof (binary_normalize_correct prec emax Hprec Hmax mode_NE 1 0 false) as H.
    cbv zeta in H. replace (F2R (Float radix2 1 0)) with 1 in H by (unfold F2R; simpl; lra).
    rewrite fl_1 in H. rewrite Rlt_bool_true in H; [tauto|]. rewrite Rabs_R1. apply Omega_1.
  Qed.

  Lemma add_spec (x y : num) : is_finite x = true -> is_finite y = true ->
    (1 + u) * Rabs (B2R x + B2R y) < Omega ->
    is_finite (Bplus mode_NE x y) = true /\ B2R (Bplus mode_NE x y) = fl (B2R x + B2R y) /\
    Rabs (B2R (Bplus mode_NE x y) - (B2R x + B2R y)) <= u * Rabs (B2R x + B2R y).
  Proof.
    intros Fx Fy HO. pose proof (Bplus_correct prec emax Hprec Hmax mode_NE x y Fx Fy) as H.
    pose proof (fl_plus_err _ _ (fmt x) (fmt y)) as He.
    rewrite Rlt_bool_true in H.
    - destruct H as (E & F & _). split; [exact F|]. split; [exact E|]. rewrite E. exact He.
    - eapply Rle_lt_trans; [|exact HO].
      replace (fl (B2R x + B2R y)) with ((fl (B2R x + B2R y) - (B2R x + B2R y)) + (B2R x + B2R y)) by ring.
      eapply Rle_trans; [apply Rabs_triang|]. lra.
  Qed.
  Lemma sub_spec (x y : num) : is_finite x = true -> is_finite y = true ->
    (1 + u) * Rabs (B2R x - B2R y) < Omega ->
    is_finite (Bminus mode_NE x y) = true /\ B2R (Bminus mode_NE x y) = fl (B2R x - B2R y) /\
    Rabs (B2R (Bminus mode_NE x y) - (B2R x - B2R y)) <= u * Rabs (B2R x - B2R y).
  Proof.
    intros Fx Fy HO. pose proof (Bminus_correct prec emax Hprec Hmax mode_NE x y Fx Fy) as H.
    assert (He : Rabs (fl (B2R x - B2R y) - (B2R x - B2R y)) <= u * Rabs (B2R x - B2R y)).
    { unfold Rminus at 2 4. apply fl_plus_err; [apply fmt|]. apply generic_format_opp, fmt. }
    rewrite Rlt_bool_true in H.
    - destruct H as (E & F & _). split; [exact F|]. split; [exact E|]. rewrite E. exact He.
    - eapply Rle_lt_trans; [|exact HO].
      replace (fl (B2R x - B2R y)) with ((fl (B2R x - B2R y) - (B2R x - B2R y)) + (B2R x - B2R y)) by ring.
      eapply Rle_trans; [apply Rabs_triang|]. lra.
  Qed.
  Lemma mul_spec (x y : num) : is_finite x = true -> is_finite y = true ->
    (1 + u) * Rabs (B2R x * B2R y) + eta < Omega ->
    is_finite (Bmult mode_NE x y) = true /\ B2R (Bmult mode_NE x y) = fl (B2R x * B2R y) /\
    Rabs (B2R (Bmult mode_NE x y) - (B2R x * B2R y)) <= u * Rabs (B2R x * B2R y) + eta.
  Proof.
    intros Fx Fy HO. pose proof (Bmult_correct prec emax Hprec Hmax mode_NE x y) as H.
    pose proof (fl_err (B2R x * B2R y)) as He.
    rewrite Rlt_bool_true in H.
    - destruct H as (E & F & _). rewrite Fx, Fy in F. split; [exact F|]. split; [exact E|]. rewrite E. exact He.
    - eapply Rle_lt_trans; [|exact HO].
      replace (fl (B2R x * B2R y)) with ((fl (B2R x * B2R y) - (B2R x * B2R y)) + (B2R x * B2R y)) by ring.
      eapply Rle_trans; [apply Rabs_triang|]. lra.
  Qed.

  (** [1 - t] for [t] in the unit interval. *)
  Lemma one_minus_spec (t : num) : is_finite t = true -> 0 <= B2R t <= 1 ->
    let s := Bminus mode_NE (@bofZ prec emax _ _ 1) t in
    is_finite s = true /\ B2R s = fl (1 - B2R t) /\ 0 <= B2R s <= 1 /\
    Rabs (B2R s - (1 - B2R t)) <= u * (1 - B2R t).
  Proof.
    intros Ft Ht. cbv zeta. destruct one_spec as [F1 E1].
    destruct (sub_spec _ t F1 Ft) as (F & E & He).
    - rewrite E1, Rabs_pos_eq by lra. pose proof u_le_half. pose proof u_pos.
      assert (2 <= Omega).
      { change 2 with (bpow radix2 1). apply bpow_le. pose proof (prec_gt_0 prec). pose proof (prec_lt_emax prec emax). lia. }
      nra.
    - rewrite E1 in E, He. split; [exact F|]. split; [exact E|]. rewrite (Rabs_pos_eq (1 - B2R t)) in He by lra.
      split; [|exact He]. rewrite E. split.
      + rewrite <- fl_0. apply fl_le. lra.
      + rewrite <- fl_1 at 2. apply fl_le. lra.
  Qed.

  (** A rounded product with a weight that is known up to a relative error [u]. *)
  Lemma weighted_spec (w x : num) a A : is_finite w = true -> is_finite x = true ->
    0 <= a <= 1 -> Rabs (B2R w - a) <= u * a -> Rabs (B2R x) <= A ->
    (1 + u) ^ 2 * A + eta < Omega ->
    is_finite (Bmult mode_NE w x) = true /\
    Rabs (B2R (Bmult mode_NE w x) - a * B2R x) <= ((1 + u) ^ 2 - 1) * (a * A) + eta.
  Proof.
    intros Fw Fx Ha Hw Hx HO. pose proof u_pos as Hu. pose proof eta_pos as Het.
    assert (HA : 0 <= A) by (pose proof (Rabs_pos (B2R x)); lra).
    assert (Hwa : Rabs (B2R w) <= (1 + u) * a).
    { replace (B2R w) with ((B2R w - a) + a) by ring. eapply Rle_trans; [apply Rabs_triang|].
      rewrite (Rabs_pos_eq a) by lra. lra. }
    assert (Hp : Rabs (B2R w * B2R x) <= (1 + u) * (a * A)).
    { rewrite Rabs_mult. rewrite <- Rmult_assoc. apply Rmult_le_compat; auto using Rabs_pos. }
    assert (HaA : 0 <= a * A <= A) by (split; [apply Rmult_le_pos; lra|nra]).
    destruct (mul_spec w x Fw Fx) as (F & _ & He).
    { eapply Rle_lt_trans; [|exact HO]. apply Rplus_le_compat_r.
      replace ((1 + u) ^ 2 * A) with ((1 + u) * ((1 + u) * A)) by ring. apply Rmult_le_compat_l; [lra|].
      eapply Rle_trans; [exact Hp|]. apply Rmult_le_compat_l; lra. }
    split; [exact F|].
    replace (B2R (Bmult mode_NE w x) - a * B2R x) with
      ((B2R (Bmult mode_NE w x) - B2R w * B2R x) + (B2R w - a) * B2R x) by ring.
    eapply Rle_trans; [apply Rabs_triang|].
    assert (Rabs ((B2R w - a) * B2R x) <= u * (a * A)).
    { rewrite Rabs_mult, <- Rmult_assoc. apply Rmult_le_compat; auto using Rabs_pos. }
    assert (u * Rabs (B2R w * B2R x) <= u * ((1 + u) * (a * A))) by (apply Rmult_le_compat_l; lra).
    replace (((1 + u) ^ 2 - 1) * (a * A) + eta) with (u * ((1 + u) * (a * A)) + eta + u * (a * A)) by ring. lra.
  Qed.

  (** One rounded affine combination. *)
  Definition grow1 (A : R) : R := (1 + u) ^ 3 * A + 2 * (1 + u) * eta.

  Lemma lerp_spec (w0 w1 x y : num) a0 a1 A :
    is_finite w0 = true -> is_finite w1 = true -> is_finite x = true -> is_finite y = true ->
    0 <= a0 -> 0 <= a1 -> a0 + a1 = 1 ->
    Rabs (B2R w0 - a0) <= u * a0 -> Rabs (B2R w1 - a1) <= u * a1 ->
    Rabs (B2R x) <= A -> Rabs (B2R y) <= A -> grow1 A < Omega ->
    let z := Bplus mode_NE (Bmult mode_NE w0 x) (Bmult mode_NE w1 y) in
    is_finite z = true /\ Rabs (B2R z) <= grow1 A /\
    Rabs (B2R z - (a0 * B2R x + a1 * B2R y)) <= grow1 A - A.
  Proof.
    intros F0 F1 Fx Fy H0 H1 H01 Hw0 Hw1 Hx Hy HO. cbv zeta. unfold grow1 in *.
    pose proof u_pos as Hu. pose proof eta_pos as Het.
    assert (HA : 0 <= A) by (pose proof (Rabs_pos (B2R x)); lra).
    assert (HO2 : (1 + u) ^ 2 * A + 2 * eta < Omega).
    { eapply Rle_lt_trans; [|exact HO]. assert (0 <= u * ((1 + u) ^ 2 * A + 2 * eta)).
      { apply Rmult_le_pos; [lra|]. assert (0 <= (1 + u) ^ 2) by (apply pow_le; lra). nra. }
      nra. }
    destruct (weighted_spec w0 x a0 A F0 Fx ltac:(lra) Hw0 Hx ltac:(lra)) as [Fp Hp].
    destruct (weighted_spec w1 y a1 A F1 Fy ltac:(lra) Hw1 Hy ltac:(lra)) as [Fq Hq].
    set (p := Bmult mode_NE w0 x) in *. set (q := Bmult mode_NE w1 y) in *.
    set (v := a0 * B2R x + a1 * B2R y).
    assert (Hv : Rabs v <= A).
    { unfold v. eapply Rle_trans; [apply Rabs_triang|]. rewrite !Rabs_mult, (Rabs_pos_eq a0), (Rabs_pos_eq a1) by lra.
      replace A with (a0 * A + a1 * A) by (rewrite <- Rmult_plus_distr_r, H01; ring).
      apply Rplus_le_compat; apply Rmult_le_compat_l; lra. }
    assert (Hs : Rabs (B2R p + B2R q - v) <= ((1 + u) ^ 2 - 1) * A + 2 * eta).
    { unfold v. replace (B2R p + B2R q - (a0 * B2R x + a1 * B2R y)) with
        ((B2R p - a0 * B2R x) + (B2R q - a1 * B2R y)) by ring.
      eapply Rle_trans; [apply Rabs_triang|].
      replace (((1 + u) ^ 2 - 1) * A) with (((1 + u) ^ 2 - 1) * (a0 * A) + ((1 + u) ^ 2 - 1) * (a1 * A)).
      2:{ rewrite <- Rmult_plus_distr_l, <- Rmult_plus_distr_r, H01. ring. }
      lra. }
    assert (Hpq : Rabs (B2R p + B2R q) <= (1 + u) ^ 2 * A + 2 * eta).
    { replace (B2R p + B2R q) with ((B2R p + B2R q - v) + v) by ring.
      eapply Rle_trans; [apply Rabs_triang|]. lra. }
    assert (Hu1 : (1 + u) * Rabs (B2R p + B2R q) <= (1 + u) ^ 3 * A + 2 * (1 + u) * eta).
    { replace ((1 + u) ^ 3 * A + 2 * (1 + u) * eta) with ((1 + u) * ((1 + u) ^ 2 * A + 2 * eta)) by ring.
      apply Rmult_le_compat_l; lra. }
    destruct (add_spec p q Fp Fq ltac:(lra)) as (F & _ & He).
    set (z := Bplus mode_NE p q) in *.
    split; [exact F|]. split.
    - replace (B2R z) with ((B2R z - (B2R p + B2R q)) + (B2R p + B2R q)) by ring.
      eapply Rle_trans; [apply Rabs_triang|]. lra.
    - replace (B2R z - v) with ((B2R z - (B2R p + B2R q)) + (B2R p + B2R q - v)) by ring.
      eapply Rle_trans; [apply Rabs_triang|].
      assert (u * Rabs (B2R p + B2R q) <= u * ((1 + u) ^ 2 * A + 2 * eta)) by (apply Rmult_le_compat_l; lra).
      replace ((1 + u) ^ 3 * A + 2 * (1 + u) * eta - A) with
        (u * ((1 + u) ^ 2 * A + 2 * eta) + (((1 + u) ^ 2 - 1) * A + 2 * eta)) by ring. lra.
  Qed.

  Lemma growth_0 M : growth u eta M 0 = M.
  Proof. unfold growth. simpl. ring. Qed.
  Lemma growth_S M k : 0 <= M -> grow1 (growth u eta M k) <= growth u eta M (S k).
  Proof.
    intros HM. unfold grow1, growth. pose proof u_pos. pose proof eta_pos.
    replace (3 * S k)%nat with (3 + 3 * k)%nat by lia. rewrite pow_add, S_INR.
    set (X := (1 + u) ^ (3 * k)). assert (HX : 1 <= X) by (apply pow_R1_Rle; lra).
    replace ((1 + u) ^ 3 * X * (M + 2 * (INR k + 1) * eta)) with
      ((1 + u) ^ 3 * (X * (M + 2 * INR k * eta)) + 2 * (1 + u) * eta * ((1 + u) ^ 2 * X)) by ring.
    apply Rplus_le_compat_l. rewrite <- (Rmult_1_r (2 * (1 + u) * eta)) at 1.
    apply Rmult_le_compat_l; [nra|]. assert (1 <= (1 + u) ^ 2) by (apply pow_R1_Rle; lra). nra.
  Qed.
  Lemma growth_grow1 M k : 0 <= M -> growth u eta M k <= grow1 (growth u eta M k).
  Proof.
    intros HM. unfold grow1. pose proof u_pos. pose proof eta_pos.
    assert (0 <= growth u eta M k).
    { unfold growth. apply Rmult_le_pos; [apply pow_le; lra|]. pose proof (pos_INR k). nra. }
    assert (1 <= (1 + u) ^ 3) by (apply pow_R1_Rle; lra). nra.
  Qed.
  Lemma growth_mono M k m : 0 <= M -> (k <= m)%nat -> growth u eta M k <= growth u eta M m.
  Proof.
    intros HM. induction 1; [lra|]. eapply Rle_trans; [eassumption|].
    eapply Rle_trans; [apply growth_grow1; exact HM|apply growth_S; exact HM].
  Qed.
End Ops.
