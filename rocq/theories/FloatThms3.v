(** What floating point arithmetic leaves exact: the ends of curves and the point where a curve is split. *)
From Coq Require Import Reals Lra Lia ZArith QArith List Bool.
From Flocq Require Import Core IEEE754.BinarySingleNaN.
From Verif Require Import Monad MonadFacts Scalar ScalarFacts Spec SpecFacts ModelCurve ModelBezier
  ModelBSpline BSplineFacts BSplineThms BSplineThms2 SpecFloat ModelFloat FloatFacts FloatThms FloatThms2.
Import ListNotations.
Local Open Scope R_scope.

(** * Splitting, in any arithmetic *)
Section Split.
  Context {T P : Type} {SO : ScalarOps T} {V : PointOps T P}.
  Local Open Scope Z_scope.
  Definition sstep (t : T) : Z -> Z -> P -> P -> P := fun _ _ a b => padd (pmul (ssub s1 t) a) (pmul t b).
  Definition estep (t : T) : Z -> Z -> P -> P -> P := fun _ _ a b => padd (pmul t b) (pmul (ssub s1 t) a).

  Lemma gsplit_loop d t pts n c :
    arr pts n c -> 0 <= d < n ->
    exists c1 c2, bz_split_loop d t pts = Ok (c1, c2) /\
      arr c1 (d + 1) (fun i => gtri (sstep t) c (Z.to_nat i) i) /\
      arr c2 (d + 1) (fun i => gtri (sstep t) c (Z.to_nat (d - i)) d).
  Proof.
    intros Hc Hd. unfold bz_split_loop.
    destruct (arr_alloc (p0 : P) (d + 1)) as (a1 & E1 & H1); [lia|].
    rewrite E1, !bind_Ok.
    pose (Inv := fun (i : Z) (st : list P * list P * list P) =>
      let '(pts, c1, c2) := st in
      (exists f, arr pts n f /\ forall j, 0 <= j <= d - i -> f j = gtri (sstep t) c (Z.to_nat i) (j + i)) /\
      (exists f1, arr c1 (d + 1) f1 /\ forall j, 0 <= j < i -> f1 j = gtri (sstep t) c (Z.to_nat j) j) /\
      (exists f2, arr c2 (d + 1) f2 /\ forall j, d - i < j <= d -> f2 j = gtri (sstep t) c (Z.to_nat (d - j)) d)).
    match goal with |- context [for_up 0 (d + 1) ?B ?S0] =>
      destruct (for_up_inv Inv 0 (d + 1) B S0) as ([[pts' c1] c2] & E & H') end.
    - lia.
    - split; [|split].
      + exists c. split; [exact Hc|]. intros j Hj. simpl. f_equal. lia.
      + eexists. split; [exact H1|]. intros j Hj. lia.
      + eexists. split; [exact H1|]. intros j Hj. lia.
    - intros i [[s c1] c2] Hi ((f & Hf & Ff) & (f1 & Hf1 & Ff1) & (f2 & Hf2 & Ff2)).
      rewrite (arr_get _ _ _ 0 Hf) by lia. rewrite bind_Ok.
      destruct (arr_set c1 (d + 1) f1 i (f 0) Hf1) as (c1' & Ec1 & Hc1'); [lia|]. rewrite Ec1, bind_Ok.
      rewrite (arr_get _ _ _ (d - i) Hf) by lia. rewrite bind_Ok.
      destruct (arr_set c2 (d + 1) f2 (d - i) (f (d - i)) Hf2) as (c2' & Ec2 & Hc2'); [lia|]. rewrite Ec2, bind_Ok.
      match goal with |- context [for_up 0 (d - i) ?B s] =>
        destruct (for_up_inv (fun j0 s => arr s n (fun j => if j <? j0 then
             padd (pmul (ssub s1 t) (f j)) (pmul t (f (j + 1))) else f j)) 0 (d - i) B s) as (s' & Es & Hs') end.
      + lia.
      + eapply arr_ext; [exact Hf|]. intros j Hj. destruct (Z.ltb_spec j 0); [lia|reflexivity].
      + intros j s0 Hj Hs0.
        rewrite (arr_get _ _ _ j Hs0) by lia. rewrite bind_Ok.
        rewrite (arr_get _ _ _ (j + 1) Hs0) by lia. rewrite bind_Ok.
        destruct (Z.ltb_spec (j + 1) j); [lia|]. destruct (Z.ltb_spec j j); [lia|].
        match goal with |- exists s', set _ _ ?v = _ /\ _ =>
          destruct (arr_set s0 n _ j v Hs0) as (s3 & E3 & H3); [lia|] end.
        exists s3. split; [exact E3|]. eapply arr_ext; [exact H3|]. intros m Hm. cbv beta. unfold fupd.
        destruct (Z.eqb_spec m j) as [->|Hne].
        * destruct (Z.ltb_spec j (j + 1)); [reflexivity|lia].
        * destruct (Z.ltb_spec m j); destruct (Z.ltb_spec m (j + 1)); try lia; reflexivity.
      + rewrite Es, bind_Ok. eexists. split; [reflexivity|]. split; [|split].
        * eexists. split; [exact Hs'|]. intros j Hj. cbv beta. destruct (Z.ltb_spec j (d - i)); [|lia].
          replace (Z.to_nat (i + 1)) with (S (Z.to_nat i)) by lia. cbn [gtri]. unfold sstep at 1.
          rewrite !Ff by lia.
          replace (j + (i + 1) - 1) with (j + i) by lia. replace (j + (i + 1)) with (j + 1 + i) by lia. reflexivity.
        * eexists. split; [exact Hc1'|]. intros j Hj. unfold fupd. destruct (Z.eqb_spec j i) as [->|Hne].
          -- rewrite Ff by lia. f_equal.
          -- apply Ff1. lia.
        * eexists. split; [exact Hc2'|]. intros j Hj. unfold fupd. destruct (Z.eqb_spec j (d - i)) as [->|Hne].
          -- rewrite Ff by lia. f_equal; [f_equal|]; lia.
          -- apply Ff2. lia.
    - rewrite E, bind_Ok. destruct H' as (_ & (f1 & Hf1 & Ff1) & (f2 & Hf2 & Ff2)).
      exists c1, c2. split; [reflexivity|]. split.
      + eapply arr_ext; [exact Hf1|]. intros i Hi. apply Ff1. lia.
      + eapply arr_ext; [exact Hf2|]. intros i Hi. apply Ff2. lia.
  Qed.

  Lemma gtri_ext (f g : Z -> Z -> P -> P -> P) c : (forall r j a b, f r j a b = g r j a b) ->
    forall r j, gtri f c r j = gtri g c r j.
  Proof. intros H. induction r as [|r IH]; intros j; cbn [gtri]; [reflexivity|]. now rewrite H, !IH. Qed.

  (** The pieces meet in the evaluated point as soon as the addition of points commutes. *)
  Lemma gsplit_junction (pts : list P) t n : length pts = S n ->
    (forall a b : P, padd a b = padd b a) ->
    is_split_point_valid s0 s1 t = true ->
    exists l r q, bz_split (mk_bezier pts) t = Ok [mk_bezier l; mk_bezier r] /\
      bz_evaluate (mk_bezier pts) t = Ok q /\
      length l = S n /\ length r = S n /\
      nth 0 l p0 = nth 0 pts p0 /\ nth n l p0 = q /\ nth 0 r p0 = q /\ nth n r p0 = nth n pts p0.
  Proof.
    intros Hn Hcomm Ht. unfold bz_split, bz_lower, bz_upper. rewrite Ht. cbn [negb].
    unfold bz_degree. cbn [bz_pts mk_bezier]. replace (zlen pts - 1) with (Z.of_nat n) by (unfold zlen; lia).
    assert (Ha : arr pts (Z.of_nat n + 1) (fun i => nth (Z.to_nat i) pts p0)).
    { replace (Z.of_nat n + 1) with (zlen pts) by (unfold zlen; lia). apply arr_nth. }
    destruct (gsplit_loop (Z.of_nat n) t pts _ _ Ha) as (l & r & E & Hl & Hr); [lia|].
    rewrite E, bind_Ok.
    assert (HE : forall f g (m : Z) (l : list P), arr l (Z.of_nat n + 1) f -> 0 <= m <= Z.of_nat n -> f m = g -> nth (Z.to_nat m) l p0 = g).
    { intros f g m l0 Hl0 Hm Eg. rewrite <- Eg. pose proof (arr_get _ _ _ m Hl0 ltac:(lia)) as Hg.
      rewrite (get_nth l0 m p0) in Hg by (rewrite (arr_len _ _ _ Hl0); lia). congruence. }
    exists l, r. eexists. split; [reflexivity|]. split; [apply (bz_evaluate_gtri pts t n Hn)|].
    assert (Hq : forall m j, gtri (estep t) (fun i => nth (Z.to_nat i) pts p0) m j = gtri (sstep t) (fun i => nth (Z.to_nat i) pts p0) m j).
    { intros m j. apply gtri_ext. intros r0 j0 a b. apply Hcomm. }
    split; [pose proof (arr_len _ _ _ Hl) as HL; unfold zlen in HL; lia|].
    split; [pose proof (arr_len _ _ _ Hr) as HL; unfold zlen in HL; lia|].
    split; [apply (HE _ _ 0 l Hl); [lia|reflexivity]|].
    split; [rewrite <- (Nat2Z.id n) at 1; apply (HE _ _ (Z.of_nat n) l Hl); [lia|]; rewrite Nat2Z.id; symmetry; apply Hq|].
    split; [apply (HE _ _ 0 r Hr); [lia|]; rewrite Z.sub_0_r, Nat2Z.id; symmetry; apply Hq|].
    rewrite <- (Nat2Z.id n) at 1. apply (HE _ _ (Z.of_nat n) r Hr); [lia|]. rewrite Z.sub_diag. cbn [gtri Z.to_nat].
    now rewrite Nat2Z.id.
  Qed.
End Split.

Section Float.
  Context (prec emax : Z) {Hprec : Prec_gt_0 prec} {Hmax : Prec_lt_emax prec emax}.
  Notation num := (binary_float prec emax).
  Notation u := (unit_roundoff prec).
  Notation eta := (underflow_error prec emax).
  Notation Omega := (bpow radix2 emax).
  Local Instance FO4 : ScalarOps num := ieee_ops prec emax.

  Lemma Bplus_comm_NE (x y : num) : Bplus mode_NE x y = Bplus mode_NE y x.
  Proof.
    destruct x as [sx|sx| |sx mx ex Hx], y as [sy|sy| |sy my ey Hy]; try reflexivity;
      try (destruct sx, sy; reflexivity).
    unfold Bplus. cbv zeta. rewrite (Z.min_comm ey ex). f_equal. unfold Fplus_naive. apply Z.add_comm.
  Qed.
  Lemma padd_comm_num d (a b : vec num d) : padd a b = padd b a.
  Proof.
    cbn [padd vec_ops]. induction d as [|d IH]; [destruct a, b; reflexivity|].
    cbn [vmap2]. f_equal; [apply Bplus_comm_NE|apply IH].
  Qed.

  (** [x] is the finite number [r]. *)
  Definition is_num (x : num) (r : R) : Prop := is_finite x = true /\ B2R x = r.

  Lemma one_mul (w x : num) r : is_num w 1 -> is_num x r -> is_num (Bmult mode_NE w x) r.
  Proof.
    intros [Fw Ew] [Fx Ex]. pose proof (Bmult_correct prec emax Hprec Hmax mode_NE w x) as H.
    rewrite Ew, Rmult_1_l, (fl_id prec emax _ (fmt prec emax x)) in H.
    rewrite Rlt_bool_true in H by apply abs_B2R_lt_emax. destruct H as (E & F & _).
    rewrite Fw, Fx in F. split; [exact F|congruence].
  Qed.
  Lemma zero_mul (w x : num) r : is_num w 0 -> is_num x r -> is_num (Bmult mode_NE w x) 0.
  Proof.
    intros [Fw Ew] [Fx Ex]. pose proof (Bmult_correct prec emax Hprec Hmax mode_NE w x) as H.
    rewrite Ew, Rmult_0_l, (fl_0 prec emax) in H.
    rewrite Rlt_bool_true in H by (rewrite Rabs_R0; apply bpow_gt_0). destruct H as (E & F & _).
    rewrite Fw, Fx in F. split; [exact F|exact E].
  Qed.
  Lemma zero_add (x y : num) r : is_num x 0 -> is_num y r -> is_num (Bplus mode_NE x y) r.
  Proof.
    intros [Fx Ex] [Fy Ey]. pose proof (Bplus_correct prec emax Hprec Hmax mode_NE x y Fx Fy) as H.
    rewrite Ex, Rplus_0_l, (fl_id prec emax _ (fmt prec emax y)) in H.
    rewrite Rlt_bool_true in H by apply abs_B2R_lt_emax. destruct H as (E & F & _). split; [exact F|congruence].
  Qed.
  Lemma add_zero (x y : num) r : is_num x r -> is_num y 0 -> is_num (Bplus mode_NE x y) r.
  Proof. intros H1 H2. rewrite Bplus_comm_NE. now apply zero_add. Qed.
  Lemma one_minus_zero (t : num) : is_num t 0 -> is_num (Bminus mode_NE (bofZ prec emax 1) t) 1.
  Proof.
    intros [Ft Et]. destruct (one_minus_spec prec emax t Ft ltac:(lra)) as (F & E & _). split; [exact F|].
    rewrite E, Et, Rminus_0_r. apply (fl_1 prec emax).
  Qed.
  Lemma one_minus_one (t : num) : is_num t 1 -> is_num (Bminus mode_NE (bofZ prec emax 1) t) 0.
  Proof.
    intros [Ft Et]. destruct (one_minus_spec prec emax t Ft ltac:(lra)) as (F & E & _). split; [exact F|].
    rewrite E, Et. replace (1 - 1) with 0 by ring. apply (fl_0 prec emax).
  Qed.

  Lemma vec_same d (a b : vec num d) : vfinite d b ->
    (forall i, (i < d)%nat -> is_num (coord d i a) (B2R (coord d i b))) -> vfinite d a /\ vreal d a = vreal d b.
  Proof.
    intros Fb H. split.
    - apply (vfinite_coord prec emax d a). intros i Hi. apply (H i Hi).
    - apply (@vec_ext d). intros i Hi. rewrite !(vreal_coord prec emax). apply (H i Hi).
  Qed.

  (** ** Bezier curves begin and end in their control points *)
  Lemma bezier_start_exact d (pts : list (vec num d)) (t : num) n : length pts = S n ->
    (forall p, In p pts -> vfinite d p) -> is_finite t = true -> B2R t = 0 ->
    exists q, bz_evaluate (mk_bezier pts) t = Ok q /\ vfinite d q /\ vreal d q = vreal d (nth 0 pts p0).
  Proof.
    intros Hn Hf Ft Et. rewrite (bz_evaluate_gtri pts t n Hn). eexists. split; [reflexivity|].
    assert (Hf0 : forall m, (m <= n)%nat -> vfinite d (nth m pts p0)) by (intros m Hm; apply Hf, nth_In; lia).
    apply vec_same; [apply Hf0; lia|]. intros i Hi.
    enough (HH : forall r j, (r <= n)%nat -> (Z.of_nat r <= j <= Z.of_nat n)%Z ->
      is_num (coord d i (gtri (fun _ _ a b => padd (pmul t b) (pmul (ssub s1 t) a)) (fun i => nth (Z.to_nat i) pts p0) r j))
        (B2R (coord d i (nth (Z.to_nat (j - Z.of_nat r)) pts p0)))).
    { specialize (HH n (Z.of_nat n) ltac:(lia) ltac:(lia)). rewrite Z.sub_diag in HH. exact HH. }
    induction r as [|r IH]; intros j Hr Hj.
    - cbn [gtri]. rewrite Z.sub_0_r. split; [|reflexivity]. apply (vfinite_coord prec emax d); [|exact Hi].
      apply Hf0. lia.
    - cbn [gtri]. rewrite gcoord_add, !gcoord_mul by exact Hi. apply zero_add.
      + eapply zero_mul; [now split|apply (IH j); lia].
      + apply one_mul; [apply one_minus_zero; now split|].
        replace (j - Z.of_nat (S r))%Z with (j - 1 - Z.of_nat r)%Z by lia. apply IH; lia.
  Qed.
  Lemma bezier_end_exact d (pts : list (vec num d)) (t : num) n : length pts = S n ->
    (forall p, In p pts -> vfinite d p) -> is_finite t = true -> B2R t = 1 ->
    exists q, bz_evaluate (mk_bezier pts) t = Ok q /\ vfinite d q /\ vreal d q = vreal d (nth n pts p0).
  Proof.
    intros Hn Hf Ft Et. rewrite (bz_evaluate_gtri pts t n Hn). eexists. split; [reflexivity|].
    assert (Hf0 : forall m, (m <= n)%nat -> vfinite d (nth m pts p0)) by (intros m Hm; apply Hf, nth_In; lia).
    apply vec_same; [apply Hf0; lia|]. intros i Hi.
    enough (HH : forall r j, (r <= n)%nat -> (Z.of_nat r <= j <= Z.of_nat n)%Z ->
      is_num (coord d i (gtri (fun _ _ a b => padd (pmul t b) (pmul (ssub s1 t) a)) (fun i => nth (Z.to_nat i) pts p0) r j))
        (B2R (coord d i (nth (Z.to_nat j) pts p0)))).
    { specialize (HH n (Z.of_nat n) ltac:(lia) ltac:(lia)). rewrite Nat2Z.id in HH. exact HH. }
    induction r as [|r IH]; intros j Hr Hj.
    - cbn [gtri]. split; [|reflexivity]. apply (vfinite_coord prec emax d); [|exact Hi]. apply Hf0. lia.
    - cbn [gtri]. rewrite gcoord_add, !gcoord_mul by exact Hi. apply add_zero.
      + apply one_mul; [now split|apply IH; lia].
      + eapply zero_mul; [apply one_minus_one; now split|apply (IH (j - 1)%Z); lia].
  Qed.

  (** ** Clamped B-splines begin and end in their control points *)
  Lemma bspline_weights d (c : bspline num (vec num d)) (t : num) :
    let knots := map B2R (bs_knots c) in
    let p := bspline_degree (bs_pts c) knots in
    let n := length (bs_pts c) in
    tol_ok prec emax ->
    valid_bspline (bs_pts c) knots -> knots_apart (/ IZR (10 ^ 15)) knots -> bs_periodic c = false ->
    (forall x, In x (bs_knots c) -> is_finite x = true /\ Rabs (B2R x) <= bpow radix2 (emax - 2)) ->
    is_finite t = true -> lower_of (bs_pts c) knots <= B2R t <= upper_of (bs_pts c) knots ->
    (nth p knots 0 < nth (p + 1) knots 0 \/ lower_of (bs_pts c) knots < B2R t) ->
    exists (k : nat) (al : Z -> Z -> num), (p <= k < n)%nat /\
      nth k knots 0 < nth (k + 1) knots 0 /\ nth k knots 0 <= B2R t <= nth (k + 1) knots 0 /\
      bs_evaluate c t = Ok (gtri (fun r j a b => padd (pmul (ssub s1 (al r j)) a) (pmul (al r j) b))
        (fun i => nth (Z.to_nat (Z.of_nat k - Z.of_nat p + i)) (bs_pts c) p0) p (Z.of_nat p)) /\
      forall r j, (1 <= r <= j)%nat -> (j <= p)%nat ->
        (B2R t = nth (j + k - p) knots 0 -> is_num (al (Z.of_nat r) (Z.of_nat j)) 0) /\
        (B2R t = nth (j + k + 1 - r) knots 0 -> is_num (al (Z.of_nat r) (Z.of_nat j)) 1).
  Proof.
    intros knots p n Htol Hv Ha Hper HK Ft Ht Hs.
    pose (c' := bsreal prec emax c).
    assert (Hlen : length (bs_pts c') = length (bs_pts c)) by (unfold c'; cbn; apply map_length).
    assert (Hp' : bspline_degree (bs_pts c') (bs_knots c') = p).
    { unfold bspline_degree. rewrite Hlen. reflexivity. }
    assert (Hv' : valid_bspline (bs_pts c') (bs_knots c')).
    { destruct Hv as [V1 V2 V3 V4]. constructor.
      - rewrite Hlen. exact V1.
      - rewrite Hp', Hlen. exact V2.
      - exact V3.
      - rewrite Hp', Hlen. exact V4. }
    assert (Hpn : (p < n)%nat) by (apply (vb_pts _ _ Hv)).
    assert (HkN : length (bs_knots c) = (n + p + 1)%nat).
    { pose proof (vb_len _ _ Hv) as V1. unfold n, p, bspline_degree. unfold knots in V1. rewrite map_length in *. unfold knots. rewrite map_length. lia. }
    destruct (bspline_locate c' (B2R t) Hv') as (k & Ek & Hk & _ & Hk3).
    rewrite Hp', Hlen in *. change (bs_knots c') with knots in *.
    destruct Hk3 as (Hk1 & Hk2 & _); [exact Hs|apply Ht|].
    specialize (Hk2 ltac:(apply Ht)).
    assert (El : locate_span c t = Ok (Z.of_nat k)).
    { pose proof (flocate_span prec emax c t (fun x Hx => proj1 (HK x Hx)) Ft) as HR. fold c' in HR. rewrite Ek in HR.
      destruct (locate_span c t); simpl in HR; try contradiction. now subst. }
    assert (Hpts : arr (bs_pts c) (Z.of_nat n) (fun i => nth (Z.to_nat i) (bs_pts c) p0)) by apply arr_nth.
    assert (Hkn : arr (bs_knots c) (Z.of_nat n + Z.of_nat p + 1) (fun i => nth (Z.to_nat i) (bs_knots c) s0)).
    { replace (Z.of_nat n + Z.of_nat p + 1)%Z with (zlen (bs_knots c)) by (unfold zlen; lia). apply arr_nth. }
    set (U := fun i : Z => nth (Z.to_nat i) (bs_knots c) s0) in *.
    exists k, (fun r j => galpha U t (Z.of_nat p) (Z.of_nat k) r j). split; [exact Hk|]. split; [exact Hk1|]. split; [exact Hk2|].
    split.
    { rewrite (bs_evaluate_gtri c (Z.of_nat n) (Z.of_nat p) (Z.of_nat k) _ _ t Hpts Hkn ltac:(lia) Hper
               (fdiff_nonzero prec emax Htol) El ltac:(lia)). rewrite Nat2Z.id. reflexivity. }
    intros r j Hr Hj. unfold galpha.
    replace (Z.of_nat j + Z.of_nat k + 1 - Z.of_nat r)%Z with (Z.of_nat (j + k + 1 - r)) by lia.
    replace (Z.of_nat j + Z.of_nat k - Z.of_nat p)%Z with (Z.of_nat (j + k - p)) by lia.
    set (i1 := (j + k + 1 - r)%nat). set (i0 := (j + k - p)%nat).
    assert (Hi1 : (i1 < length (bs_knots c))%nat) by (unfold i1; lia).
    assert (Hi0 : (i0 < length (bs_knots c))%nat) by (unfold i0; lia).
    assert (HU : forall m, (m < length (bs_knots c))%nat -> is_finite (U (Z.of_nat m)) = true /\
        nth m knots 0 = B2R (U (Z.of_nat m)) /\ Rabs (B2R (U (Z.of_nat m))) <= bpow radix2 (emax - 2)).
    { intros m Hm. unfold U. rewrite Nat2Z.id.
      assert (HI : In (nth m (bs_knots c) s0) (bs_knots c)) by (apply nth_In; exact Hm).
      destruct (HK _ HI) as [H1 H2]. split; [exact H1|]. split; [|exact H2].
      unfold knots. change 0 with (B2R (@s0 num FO4)). apply map_nth. }
    destruct (HU i1 Hi1) as (F1 & E1 & B1). destruct (HU i0 Hi0) as (F0 & E0 & B0).
    assert (Hle0 : nth i0 knots 0 <= nth k knots 0).
    { apply (vb_sorted _ _ Hv). unfold knots. rewrite map_length. unfold i0. lia. }
    assert (Hle1 : nth (k + 1) knots 0 <= nth i1 knots 0).
    { apply (vb_sorted _ _ Hv). unfold knots. rewrite map_length. unfold i1. lia. }
    assert (Hap : / IZR (10 ^ 15) < nth i1 knots 0 - nth i0 knots 0).
    { apply Ha; [|lra]. unfold knots. rewrite map_length. unfold i0, i1 in *. lia. }
    rewrite E1, E0 in *.
    assert (Hom : (1 + u) * (B2R (U (Z.of_nat i1)) - B2R (U (Z.of_nat i0))) < Omega).
    { apply Rabs_le_inv in B1. apply Rabs_le_inv in B0.
      assert (HOq : Omega = 4 * bpow radix2 (emax - 2)).
      { change 4 with (bpow radix2 2). rewrite <- bpow_plus. f_equal. lia. }
      pose proof (bpow_gt_0 radix2 (emax - 2)). rewrite HOq.
      assert (B2R (U (Z.of_nat i1)) - B2R (U (Z.of_nat i0)) <= 2 * bpow radix2 (emax - 2)) by lra.
      pose proof (u_le_half prec). pose proof (u_pos prec). nra. }
    destruct (ratio_spec prec emax t _ _ Ft F0 F1 ltac:(lra) ltac:(lra) Hom) as (Fd & Hd & Fa & Ha01 & _ & Hz & Ho).
    destruct Htol as [Ftol [Htol1 Htol2]].
    assert (Ec : slt (btolT : num) (ssub (U (Z.of_nat i1)) (U (Z.of_nat i0))) = true).
    { cbn [slt ssub FO2 FO4 ieee_ops]. rewrite Bltb_correct by assumption. apply Rlt_bool_true.
      eapply Rle_lt_trans; [exact Htol2|]. eapply Rlt_le_trans; [|exact Hd].
      pose proof (u_le_half prec). pose proof (u_pos prec).
      apply Rlt_le_trans with (/ 2 * / IZR (10 ^ 15)).
      - replace (IZR (10 ^ 15)) with (IZR (10 ^ 16) / 10) by (simpl; lra). simpl. lra.
      - apply Rmult_le_compat; lra. }
    cbv zeta. rewrite Ec. split; intros E; (split; [exact Fa|]); [apply Hz; exact E|apply Ho; exact E].
  Qed.

  Lemma bspline_start_exact d (c : bspline num (vec num d)) (t : num) :
    let knots := map B2R (bs_knots c) in
    let p := bspline_degree (bs_pts c) knots in
    tol_ok prec emax ->
    valid_bspline (bs_pts c) knots -> knots_apart (/ IZR (10 ^ 15)) knots -> bs_periodic c = false ->
    (forall x, In x (bs_knots c) -> is_finite x = true /\ Rabs (B2R x) <= bpow radix2 (emax - 2)) ->
    (forall a, In a (bs_pts c) -> vfinite d a) ->
    nth p knots 0 < nth (p + 1) knots 0 -> (forall i, (1 <= i <= p)%nat -> nth i knots 0 = nth p knots 0) ->
    is_finite t = true -> B2R t = nth p knots 0 ->
    exists q, bs_evaluate c t = Ok q /\ vfinite d q /\ vreal d q = vreal d (nth 0 (bs_pts c) p0).
  Proof.
    intros knots p Htol Hv Ha Hper HK HP Hst Hcl Ft Et.
    assert (Hpn : (p < length (bs_pts c))%nat) by (apply (vb_pts _ _ Hv)).
    assert (Hdom := vb_domain _ _ Hv). fold knots p in Hdom.
    destruct (bspline_weights d c t Htol Hv Ha Hper HK Ft) as (k & al & Hk & Hk1 & Hk2 & E & Hal).
    - unfold lower_of, upper_of. fold knots p. lra.
    - left. exact Hst.
    - fold knots p in Hk, Hk1, Hk2, E, Hal.
      assert (k = p).
      { destruct (Nat.eq_dec k p) as [|Hne]; [assumption|]. exfalso.
        assert (nth (p + 1) knots 0 <= nth k knots 0).
        { apply (vb_sorted _ _ Hv). fold knots. assert (length knots = (length (bs_pts c) + p + 1)%nat).
          { pose proof (vb_len _ _ Hv) as V1. fold knots in V1. unfold p, bspline_degree. lia. } lia. }
        lra. }
      subst k. rewrite E. eexists. split; [reflexivity|].
      apply vec_same; [apply HP, nth_In; lia|]. intros i Hi.
      rewrite Z.sub_diag.
      set (g := fun i0 : Z => nth (Z.to_nat (0 + i0)) (bs_pts c) p0).
      match goal with |- context [gtri ?F g] => set (f := F) end.
      enough (HH : forall r j, (r <= j)%nat -> (j <= p)%nat ->
        is_num (coord d i (gtri f g r (Z.of_nat j))) (B2R (coord d i (nth (j - r) (bs_pts c) p0)))).
      { specialize (HH p p ltac:(lia) ltac:(lia)). rewrite Nat.sub_diag in HH. exact HH. }
      induction r as [|r IH]; intros j Hr Hj.
      + cbn [gtri]. unfold g. replace (Z.to_nat (0 + Z.of_nat j)) with (j - 0)%nat by lia. split; [|reflexivity].
        apply (vfinite_coord prec emax d); [|exact Hi]. apply HP, nth_In. lia.
      + cbn [gtri]. unfold f at 1. rewrite gcoord_add, !gcoord_mul by exact Hi.
        destruct (Hal (S r) j ltac:(lia) ltac:(lia)) as [Hz _].
        specialize (Hz ltac:(replace (j + p - p)%nat with j by lia; rewrite Hcl by lia; exact Et)).
        apply add_zero.
        * apply one_mul; [apply one_minus_zero; exact Hz|].
          replace (Z.of_nat j - 1)%Z with (Z.of_nat (j - 1)) by lia.
          replace (j - S r)%nat with (j - 1 - r)%nat by lia. apply IH; lia.
        * eapply zero_mul; [exact Hz|apply (IH j); lia].
  Qed.

  Lemma bspline_end_exact d (c : bspline num (vec num d)) (t : num) :
    let knots := map B2R (bs_knots c) in
    let p := bspline_degree (bs_pts c) knots in
    let n := length (bs_pts c) in
    tol_ok prec emax ->
    valid_bspline (bs_pts c) knots -> knots_apart (/ IZR (10 ^ 15)) knots -> bs_periodic c = false ->
    (forall x, In x (bs_knots c) -> is_finite x = true /\ Rabs (B2R x) <= bpow radix2 (emax - 2)) ->
    (forall a, In a (bs_pts c) -> vfinite d a) ->
    nth (n - 1) knots 0 < nth n knots 0 -> (forall i, (n <= i < n + p)%nat -> nth i knots 0 = nth n knots 0) ->
    is_finite t = true -> B2R t = nth n knots 0 ->
    exists q, bs_evaluate c t = Ok q /\ vfinite d q /\ vreal d q = vreal d (nth (n - 1) (bs_pts c) p0).
  Proof.
    intros knots p n Htol Hv Ha Hper HK HP Hst Hcl Ft Et.
    assert (Hpn : (p < n)%nat) by (apply (vb_pts _ _ Hv)).
    assert (Hdom := vb_domain _ _ Hv). fold knots p n in Hdom.
    assert (HL : length knots = (n + p + 1)%nat).
    { pose proof (vb_len _ _ Hv) as V1. fold knots in V1. unfold n, p, bspline_degree. lia. }
    destruct (bspline_weights d c t Htol Hv Ha Hper HK Ft) as (k & al & Hk & Hk1 & Hk2 & E & Hal).
    - unfold lower_of, upper_of. fold knots p n. lra.
    - right. unfold lower_of. fold knots p. lra.
    - fold knots p n in Hk, Hk1, Hk2, E, Hal.
      assert (k = (n - 1)%nat).
      { destruct (Nat.eq_dec k (n - 1)) as [|Hne]; [assumption|]. exfalso.
        assert (nth (k + 1) knots 0 <= nth (n - 1) knots 0) by (apply (vb_sorted _ _ Hv); fold knots; lia).
        lra. }
      subst k. rewrite E. eexists. split; [reflexivity|].
      apply vec_same; [apply HP, nth_In; fold n; lia|]. intros i Hi.
      set (g := fun i0 : Z => nth (Z.to_nat (Z.of_nat (n - 1) - Z.of_nat p + i0)) (bs_pts c) p0).
      match goal with |- context [gtri ?F g] => set (f := F) end.
      enough (HH : forall r j, (r <= j)%nat -> (j <= p)%nat ->
        is_num (coord d i (gtri f g r (Z.of_nat j))) (B2R (coord d i (nth (n - 1 - p + j) (bs_pts c) p0)))).
      { specialize (HH p p ltac:(lia) ltac:(lia)). replace (n - 1 - p + p)%nat with (n - 1)%nat in HH by lia. exact HH. }
      induction r as [|r IH]; intros j Hr Hj.
      + cbn [gtri]. unfold g.
        replace (Z.to_nat (Z.of_nat (n - 1) - Z.of_nat p + Z.of_nat j)) with (n - 1 - p + j)%nat by lia. split; [|reflexivity].
        apply (vfinite_coord prec emax d); [|exact Hi]. apply HP, nth_In. fold n. lia.
      + cbn [gtri]. unfold f at 1. rewrite gcoord_add, !gcoord_mul by exact Hi.
        destruct (Hal (S r) j ltac:(lia) ltac:(lia)) as [_ Ho].
        specialize (Ho ltac:(rewrite Hcl by lia; exact Et)).
        apply zero_add.
        * eapply zero_mul; [apply one_minus_one; exact Ho|].
          replace (Z.of_nat j - 1)%Z with (Z.of_nat (j - 1)) by lia. apply (IH (j - 1)%nat); lia.
        * apply one_mul; [exact Ho|apply IH; lia].
  Qed.
End Float.
