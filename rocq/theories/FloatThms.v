(** Rounding errors of curve evaluation. *)
From Coq Require Import Reals Lra Lia ZArith List Bool.
From Flocq Require Import Core IEEE754.BinarySingleNaN.
From Verif Require Import Monad MonadFacts Scalar ScalarFacts Spec SpecFacts ModelCurve ModelBezier BezierThms
  SpecFloat ModelFloat FloatFacts.
Import ListNotations.
Local Open Scope R_scope.

(** * Coordinates, in any arithmetic *)
Section Coord.
  Context {T : Type} {SO : ScalarOps T}.
  Lemma gcoord_vmap2 d i f (a b : vec T d) : (i < d)%nat -> coord d i (vmap2 d f a b) = f (coord d i a) (coord d i b).
  Proof. revert i a b; induction d as [|d IH]; intros i a b Hi; [lia|]. destruct i; simpl; [reflexivity|]. apply IH. lia. Qed.
  Lemma gcoord_vmap d i f (a : vec T d) : (i < d)%nat -> coord d i (vmap d f a) = f (coord d i a).
  Proof. revert i a; induction d as [|d IH]; intros i a Hi; [lia|]. destruct i; simpl; [reflexivity|]. apply IH. lia. Qed.
  Lemma gcoord_add d i (a b : vec T d) : (i < d)%nat -> coord d i (padd a b) = sadd (coord d i a) (coord d i b).
  Proof. apply gcoord_vmap2. Qed.
  Lemma gcoord_sub d i (a b : vec T d) : (i < d)%nat -> coord d i (psub a b) = ssub (coord d i a) (coord d i b).
  Proof. apply gcoord_vmap2. Qed.
  Lemma gcoord_mul d i x (a : vec T d) : (i < d)%nat -> coord d i (pmul x a) = smul x (coord d i a).
  Proof. apply gcoord_vmap. Qed.
End Coord.

(** * Bezier evaluation is the triangle, in any arithmetic *)
Lemma bz_evaluate_gtri {T P} {SO : ScalarOps T} {V : PointOps T P} (pts : list P) (t : T) n :
  length pts = S n ->
  bz_evaluate (mk_bezier pts) t =
    Ok (gtri (fun _ _ a b => padd (pmul t b) (pmul (ssub s1 t) a)) (fun i => nth (Z.to_nat i) pts p0) n (Z.of_nat n)).
Proof.
  intros Hn. unfold bz_evaluate, bz_unwrap. cbn [bz_periodic mk_bezier]. rewrite bind_Ok.
  unfold bz_degree. cbn [bz_pts mk_bezier].
  assert (Hz : zlen pts = (Z.of_nat n + 1)%Z) by (unfold zlen; lia). rewrite Hz.
  replace (Z.of_nat n + 1 - 1)%Z with (Z.of_nat n) by lia.
  assert (Ha : arr pts (Z.of_nat n + 1) (fun i => nth (Z.to_nat i) pts p0)).
  { rewrite <- Hz. apply arr_nth. }
  unfold bz_deBoor. destruct (Z.ltb_spec 0 (Z.of_nat n)) as [Hl|Hl].
  - destruct (arr_alloc t (Z.of_nat n)) as (bv & Eb & Hb); [lia|]. rewrite Eb, bind_Ok. unfold bz_blossom. cbn [psub scal_point_ops].
    destruct (gtri_loops (fun _ _ a b => padd (pmul t b) (pmul (ssub s1 t) a))
      (fun rec_step c => for_down (Z.of_nat n) rec_step (fun j c =>
        do t <- get bv (rec_step - 1)%Z; do a <- get c j; do b <- get c (j - 1)%Z;
        set c j (padd (pmul t a) (pmul (ssub s1 t) b))) c)
      (fun rec_step j c => do t <- get bv (rec_step - 1)%Z; do a <- get c j; do b <- get c (j - 1)%Z;
        set c j (padd (pmul t a) (pmul (ssub s1 t) b))) pts _ _ (Z.of_nat n) Ha) as (p' & E & H').
    + lia.
    + reflexivity.
    + intros r j s g Hr Hj Hs. rewrite (arr_get _ _ _ (r - 1)%Z Hb) by lia. rewrite bind_Ok.
      rewrite (arr_get _ _ _ j Hs) by lia. rewrite bind_Ok.
      rewrite (arr_get _ _ _ (j - 1)%Z Hs) by lia. now rewrite bind_Ok.
    + rewrite E, bind_Ok. rewrite (arr_get _ _ _ (Z.of_nat n) H') by lia. cbv beta.
      rewrite Z.leb_refl, Z.min_id, Nat2Z.id. reflexivity.
  - rewrite bind_Ok. assert (n = O) by lia. subst n. rewrite (arr_get _ _ _ _ Ha) by lia. reflexivity.
Qed.

Section Float.
  Context (prec emax : Z) {Hprec : Prec_gt_0 prec} {Hmax : Prec_lt_emax prec emax}.
  Notation num := (binary_float prec emax).
  Notation u := (unit_roundoff prec).
  Notation eta := (underflow_error prec emax).
  Notation Omega := (bpow radix2 emax).
  Local Instance FO : ScalarOps num := ieee_ops prec emax.

  Lemma vreal_coord d i (v : vec num d) : coord d i (vreal d v) = B2R (coord d i v).
  Proof. revert i; induction d as [|d IH]; intros i; [reflexivity|]. destruct i; simpl; [reflexivity|apply IH]. Qed.
  Lemma vfinite_coord d (v : vec num d) : vfinite d v <-> forall i, (i < d)%nat -> is_finite (coord d i v) = true.
  Proof.
    induction d as [|d IH]; [split; [intros; lia|intros; exact I]|].
    split.
    - intros [H1 H2] i Hi. destruct i; [exact H1|]. simpl. apply (IH (snd v)); [exact H2|lia].
    - intros H. split; [apply (H 0%nat); lia|]. apply IH. intros i Hi. apply (H (S i)). lia.
  Qed.

  (** [x] is a finite number of size at most [A] that misses [r] by at most [E]. *)
  Definition near (A E : R) (x : num) (r : R) : Prop :=
    is_finite x = true /\ Rabs (B2R x) <= A /\ Rabs (B2R x - r) <= E.

  Lemma near_lerp (w0 w1 x y : num) a0 a1 A E rx ry :
    is_finite w0 = true -> is_finite w1 = true ->
    0 <= a0 -> 0 <= a1 -> a0 + a1 = 1 ->
    Rabs (B2R w0 - a0) <= u * a0 -> Rabs (B2R w1 - a1) <= u * a1 ->
    near A E x rx -> near A E y ry -> grow1 prec emax A < Omega ->
    near (grow1 prec emax A) (grow1 prec emax A - A + E)
      (Bplus mode_NE (Bmult mode_NE w0 x) (Bmult mode_NE w1 y)) (a0 * rx + a1 * ry).
  Proof.
    intros F0 F1 H0 H1 H01 Hw0 Hw1 (Fx & Ax & Ex) (Fy & Ay & Ey) HO.
    destruct (lerp_spec prec emax w0 w1 x y a0 a1 A F0 F1 Fx Fy H0 H1 H01 Hw0 Hw1 Ax Ay HO) as (Fz & Az & Ez).
    split; [exact Fz|]. split; [exact Az|].
    set (z := Bplus _ _ _) in *.
    replace (B2R z - (a0 * rx + a1 * ry)) with
      ((B2R z - (a0 * B2R x + a1 * B2R y)) + (a0 * (B2R x - rx) + a1 * (B2R y - ry))) by ring.
    eapply Rle_trans; [apply Rabs_triang|]. apply Rplus_le_compat; [exact Ez|].
    eapply Rle_trans; [apply Rabs_triang|]. rewrite !Rabs_mult, (Rabs_pos_eq a0), (Rabs_pos_eq a1) by lra.
    replace E with (a0 * E + a1 * E) by (rewrite <- Rmult_plus_distr_r, H01; ring).
    apply Rplus_le_compat; apply Rmult_le_compat_l; lra.
  Qed.
  Lemma near_weaken A E A' E' x r : A <= A' -> E <= E' -> near A E x r -> near A' E' x r.
  Proof. intros HA HE (H1 & H2 & H3). split; [exact H1|]. split; lra. Qed.

  Lemma finite_B2R_err0 (w : num) : 0 <= B2R w -> Rabs (B2R w - B2R w) <= u * B2R w.
  Proof. intros H. rewrite Rminus_diag_eq by reflexivity. rewrite Rabs_R0. pose proof (u_pos prec). nra. Qed.

  (** ** Bezier curves *)
  Lemma bezier_near_i d (pts : list (vec num d)) (t : num) n (Mf : nat -> R) :
    length pts = S n ->
    (forall p i, In p pts -> (i < d)%nat -> is_finite (coord d i p) = true /\ Rabs (B2R (coord d i p)) <= Mf i) ->
    is_finite t = true -> 0 <= B2R t <= 1 -> (forall i, (i < d)%nat -> growth u eta (Mf i) n < Omega) ->
    exists q, bz_evaluate (mk_bezier pts) t = Ok q /\
      forall i, (i < d)%nat ->
        near (growth u eta (Mf i) n) (growth u eta (Mf i) n - Mf i) (coord d i q)
          (coord d i (bernstein_curve (map (vreal d) pts) (B2R t))).
  Proof.
    intros Hn Hpts Ft Ht HO. rewrite (bz_evaluate_gtri pts t n Hn). eexists. split; [reflexivity|].
    intros i Hi. specialize (HO i Hi). set (M := Mf i) in *.
    assert (HM : 0 <= M).
    { destruct pts as [|p pts]; [discriminate|]. destruct (Hpts p i (or_introl eq_refl) Hi) as [_ H]. fold M in H.
      pose proof (Rabs_pos (B2R (coord d i p))). lra. }
    assert (Hn' : length (map (vreal d) pts) = S n) by (now rewrite map_length).
    pose proof (bezier_bernstein d (map (vreal d) pts) (B2R t)) as HR.
    rewrite (bz_evaluate_gtri _ (B2R t) n Hn') in HR.
    assert (Hne : map (vreal d) pts <> []) by (intros E; rewrite E in Hn'; discriminate).
    specialize (HR Hne). assert (HR' := HR). clear HR.
    match type of HR' with Ok ?a = Ok ?b => assert (HR : a = b) by congruence end. clear HR'.
    rewrite <- HR. clear HR.
    enough (HH : forall r j, (r <= n)%nat -> (Z.of_nat r <= j <= Z.of_nat n)%Z ->
      near (growth u eta M r) (growth u eta M r - M)
        (coord d i (gtri (fun _ _ a b => padd (pmul t b) (pmul (ssub s1 t) a)) (fun i => nth (Z.to_nat i) pts p0) r j))
        (coord d i (gtri (fun _ _ a b => padd (pmul (B2R t) b) (pmul (ssub s1 (B2R t)) a))
           (fun i => nth (Z.to_nat i) (map (vreal d) pts) p0) r j))).
    { apply HH; lia. }
    induction r as [|r IH]; intros j Hr Hj.
    - cbn [gtri]. rewrite growth_0.
      rewrite (nth_indep (map (vreal d) pts) p0 (vreal d p0)) by (rewrite map_length; lia).
      rewrite map_nth, vreal_coord.
      destruct (Hpts (nth (Z.to_nat j) pts p0) i) as [F A]; [apply nth_In; lia|exact Hi|]. fold M in A.
      split; [exact F|]. split; [exact A|]. rewrite Rminus_diag_eq, Rabs_R0 by reflexivity. lra.
    - cbn [gtri].
      assert (I1 := IH (j - 1)%Z ltac:(lia) ltac:(lia)). assert (I2 := IH j ltac:(lia) ltac:(lia)). clear IH.
      set (X := gtri _ _ r (j - 1)) in *. set (Y := gtri _ _ r j) in *.
      match type of I1 with near _ _ _ (coord _ _ ?x) => set (X' := x) in * end.
      match type of I2 with near _ _ _ (coord _ _ ?y) => set (Y' := y) in * end.
      rewrite gcoord_add, !gcoord_mul by exact Hi. rewrite coord_add, !coord_mul by exact Hi.
      destruct (one_minus_spec prec emax t Ft Ht) as (Fs & _ & _ & Es).
      pose proof (growth_S prec emax M r HM) as HG.
      pose proof (growth_mono prec emax M (S r) n HM ltac:(lia)) as HG2.
      eapply near_weaken; [exact HG| |apply near_lerp with (A := growth u eta M r) (E := growth u eta M r - M); try assumption].
      + cbn [s1 ssub R_ops]. lra.
      + lra.
      + cbn [s1 ssub R_ops]. lra.
      + cbn [s1 ssub R_ops]. lra.
      + apply finite_B2R_err0. lra.
      + lra.
  Qed.

  Lemma bezier_near d (pts : list (vec num d)) (t : num) n M :
    length pts = S n ->
    (forall p i, In p pts -> (i < d)%nat -> is_finite (coord d i p) = true /\ Rabs (B2R (coord d i p)) <= M) ->
    is_finite t = true -> 0 <= B2R t <= 1 -> growth u eta M n < Omega ->
    exists q, bz_evaluate (mk_bezier pts) t = Ok q /\
      forall i, (i < d)%nat ->
        near (growth u eta M n) (growth u eta M n - M) (coord d i q)
          (coord d i (bernstein_curve (map (vreal d) pts) (B2R t))).
  Proof. intros Hn Hp Ft Ht HO. exact (bezier_near_i d pts t n (fun _ => M) Hn Hp Ft Ht (fun _ _ => HO)). Qed.
End Float.
