(** Runs of knot removal, combination of pieces and degree elevation on rationals are runs on reals.

    These compare a length with the machine epsilon.  [Qn_ops] is the rational instance whose square root is
    the identity, and [vecn_ops d] are rational points whose squared length is divided by the epsilon: the
    comparison [eps < |v|^2 / eps] then stands for [eps < |v|], and no root is taken. *)
From Coq Require Import Reals QArith Qreals Qround Lra Lia ZArith List Bool.
From Verif Require Import Monad MonadFacts Scalar ScalarFacts ModelCurve ModelBezier ModelBSpline Transfer TransferBSpline.
Import ListNotations.
Local Open Scope Z_scope.

Section T.
  Context {T1 T2 P1 P2 : Type} {O1 : ScalarOps T1} {O2 : ScalarOps T2} {V1 : PointOps T1 P1} {V2 : PointOps T2 P2}.
  Context {X : SRel T1 T2} {Y : PRel T1 T2 P1 P2}.
  Hypothesis far_rel : forall (v : P1) (v' : P2), Rp v v' -> slt seps (pnorm v) = slt seps (pnorm v').
  Hypothesis near_rel : forall (v : P1) (v' : P2), Rp v v' -> slt (pnorm v) seps = slt (pnorm v') seps.

  Hint Resolve lower_rel upper_rel in_domain_rel validate_rel locate_span_rel multiplicity_rel convert_rel : xfer.

  Ltac xb := cbv beta zeta; xlen; eapply bind_rel; [solve [xf]|intros ? ? ?].
  Definition Rsw : list P1 * Z * Z * Z * Z -> list P2 * Z * Z * Z * Z -> Prop :=
    prodrel (prodrel (prodrel (prodrel (Forall2 Rp) eq) eq) eq) eq.

  Lemma sweep_rel U U' Pw Pw' t t' ord k st st' : Forall2 Rs U U' -> Forall2 Rp Pw Pw' -> Rs t t' -> Rsw st st' ->
    res_rel Rsw (remove_sweep U Pw t ord k st) (remove_sweep U' Pw' t' ord k st').
  Proof.
    intros HU HP Ht Hst. unfold remove_sweep. xlen. apply while_rel; [| |exact Hst].
    - intros [[[[a b] c] e] f] [[[[a' b'] c'] e'] f'] [[[[H1 H2] H3] H4] H5]. cbn [fst snd] in *. subst. reflexivity.
    - intros [[[[a b] c] e] f] [[[[a' b'] c'] e'] f'] [[[[H1 H2] H3] H4] H5]. cbn [fst snd] in *. subst. xf.
      repeat split; assumption.
  Qed.
  Lemma copy_rel Pw Pw' te te' a b o k : Forall2 Rp Pw Pw' -> Forall2 Rp te te' ->
    res_rel (Forall2 Rp) (remove_copy Pw te a b o k) (remove_copy Pw' te' a b o k).
  Proof.
    intros HP Ht. unfold remove_copy. xlen. apply (bind_rel (prodrel (prodrel (Forall2 Rp) eq) eq)).
    - apply while_rel; [| |repeat split; exact HP].
      + intros [[x y] z] [[x' y'] z'] [[H1 H2] H3]. cbn [fst snd] in *. subst. reflexivity.
      + intros [[x y] z] [[x' y'] z'] [[H1 H2] H3]. cbn [fst snd] in *. subst. xf. repeat split; assumption.
    - intros [[x y] z] [[x' y'] z'] [[H1 H2] H3]. exact H1.
  Qed.
  Hint Resolve sweep_rel copy_rel : xfer.

  Lemma remove_tol_rel c c' t t' n tol tol' : (forall (v : P1) (v' : P2), Rp v v' -> slt tol (pnorm v) = slt tol' (pnorm v')) ->
    Rbs c c' -> Rs t t' ->
    res_rel (prodrel Rbs eq) (bs_remove_knot c t n tol) (bs_remove_knot c' t' n tol').
  Proof.
    intros Htol H Ht. unfold bs_remove_knot. rewrite (degree_rel _ _ H). pose proof H as (Hp & Hk & E). cbv zeta.
    do 7 (xb; try subst). xlen.
    destruct (_ =? 0)%Z; [split; [exact H|reflexivity]|].
    destruct (_ || _); [split; [exact H|reflexivity]|].
    do 4 xb.
    pose (RA := prodrel (prodrel (prodrel (prodrel (Forall2 Rp) (Forall2 Rp)) (@eq Z)) (@eq Z)) (@eq Z)).
    pose (RB := prodrel (Forall2 Rp) (@eq Z)).
    apply (bind_rel (sumrel RA RB)).
    - apply forb_up_rel; [|repeat split; assumption].
      intros i [[[[x1 x2] x3] x4] x5] [[[[y1 y2] y3] y4] y5] [[[[? ?] ?] ?] ?]. cbn [fst snd] in *. subst.
      xb. xb. xb. xb.
      apply (bind_rel Rsw); [apply sweep_rel; try assumption; repeat split; assumption|].
      intros [[[[z1 z2] z3] z4] z5] [[[[w1 w2] w3] w4] w5] [[[[G1 G2] G3] G4] G5]. cbn [fst snd] in *. subst.
      apply (bind_rel eq).
      + destruct (_ <? _)%Z; xf; cbn [res_rel]; apply Htol; eauto 20 with xfer nocore.
      + intros b ? <-. destruct b; [split; [assumption|reflexivity]|].
        xb. cbn [res_rel sumrel]. repeat split; assumption.
    - intros x y Hxy.
      assert (HB : RB match x with inl (Pw, _, _, _, count) => (Pw, count) | inr y => y end
                      match y with inl (Pw, _, _, _, count) => (Pw, count) | inr y => y end).
      { destruct x as [[[[[x1 x2] x3] x4] x5]|[x1 x2]], y as [[[[[y1 y2] y3] y4] y5]|[y1 y2]]; simpl in Hxy; try contradiction.
        - destruct Hxy as [[[[? ?] ?] ?] ?]. split; assumption.
        - exact Hxy. }
      destruct (match x with inl (Pw, _, _, _, count) => (Pw, count) | inr y => y end) as [Pw cnt].
      destruct (match y with inl (Pw, _, _, _, count) => (Pw, count) | inr y => y end) as [Pw' cnt'].
      destruct HB as [HB1 HB2]. cbn [fst snd] in *. subst cnt'.
      destruct (cnt =? 0)%Z; [repeat split; assumption|].
      xb. xb.
      apply (bind_rel eq).
      + apply for_up_rel; [|reflexivity]. intros i [u v] ? <-. destruct (_ =? 1)%Z; reflexivity.
      + intros [u v] ? <-. apply (bind_rel RB).
        * apply for_up_rel; [|split; [assumption|reflexivity]]. intros i [e1 e2] [e1' e2'] [E1 E2]. cbn [fst snd] in *. subst. xf.
          split; assumption || reflexivity.
        * intros [e1 e2] [e1' e2'] [E1 E2]. cbn [fst snd] in *. subst. xf. repeat split; assumption.
  Qed.
  Lemma remove_rel c c' t t' n : Rbs c c' -> Rs t t' ->
    res_rel (prodrel Rbs eq) (bs_remove_knot c t n seps) (bs_remove_knot c' t' n seps).
  Proof. exact (remove_tol_rel c c' t t' n seps seps far_rel). Qed.
  Hint Resolve remove_rel : xfer.

  Lemma combine_rel l l' b b' : Forall2 Rbz l l' -> Forall2 Rs b b' -> res_rel Rbs (bs_combine_Beziers l b) (bs_combine_Beziers l' b').
  Proof.
    intros Hl Hb. unfold bs_combine_Beziers. xlen. cbv zeta. destruct (_ =? 0)%Z; [reflexivity|].
    xb. eapply bind_rel; [eapply get_rel; exact Hl|]. intros b0 b0' [Hp Hper].
    assert (Hdeg : bz_degree b0 = bz_degree b0') by (unfold bz_degree; now rewrite (Forall2_zlen _ _ _ Hp)).
    rewrite Hdeg. do 3 xb.
    eapply bind_rel.
    { eapply for_up_rel; [|eassumption]. intros i s s' Hs.
      eapply bind_rel; [eapply get_rel; exact Hl|]. intros b1 b1' [Hp1 Hper1].
      assert (Hdeg1 : bz_degree b1 = bz_degree b1') by (unfold bz_degree; now rewrite (Forall2_zlen _ _ _ Hp1)).
      rewrite Hdeg1. do 3 xb.
      eapply bind_rel.
      - erewrite near_rel; [apply assert_rel|]. eauto 20 with xfer nocore.
      - intros. xf. }
    intros pts pts' Hpts. do 3 xb.
    eapply bind_rel; [apply (alloc_rel Rs); eassumption|]. intros. xb.
    eapply bind_rel; [apply (alloc_rel Rs); eassumption|]. intros. xb.
    eapply bind_rel.
    { eapply for_up_rel; [|eassumption]. intros. xb. eapply bind_rel; [apply (alloc_rel Rs); eassumption|]. intros. xf. }
    intros kn kn' Hkn. eapply for_up_rel; [|repeat split; assumption].
    intros i s s' Hs. xb. eapply bind_rel; [apply remove_rel; eassumption|]. intros [u v] [u' v'] [E1 E2]. exact E1.
  Qed.

  Lemma elevate_piece_rel c c' : Rbz c c' -> res_rel Rbz (bz_elevate_degree c) (bz_elevate_degree c').
  Proof.
    intros [Hp Hper]. unfold bz_elevate_degree.
    assert (Hdeg : bz_degree c = bz_degree c') by (unfold bz_degree; now rewrite (Forall2_zlen _ _ _ Hp)).
    rewrite Hdeg. cbv zeta. xf; [|split; assumption].
    eapply set_rel; [eassumption|]. apply Rp_add; apply Rp_mul; try assumption. apply Rs_sub; [exact Rs_1|assumption].
  Qed.

  Lemma elevate_rel c c' : Rbs c c' -> res_rel Rbs (bs_elevate_degree bz_elevate_degree c) (bs_elevate_degree bz_elevate_degree c').
  Proof.
    intros H. unfold bs_elevate_degree. rewrite (degree_rel _ _ H). destruct (_ =? 0)%Z; [reflexivity|].
    eapply bind_rel; [apply convert_rel; exact H|]. intros [l b] [l' b'] [H1 H2]. cbn [fst snd] in *.
    eapply bind_rel; [eapply mapM_rel; [|exact H1]; exact elevate_piece_rel|]. intros e e' He.
    eapply bind_rel; [apply combine_rel; [exact He|exact H2]|]. intros n n' (Hn1 & Hn2 & _).
    destruct H as (_ & _ & Hper). repeat split; assumption.
  Qed.
End T.

(** * The instance *)
Definition Qn_ops : ScalarOps Q := {|
  s0 := 0%Q; s1 := 1%Q; sadd := fun a b => Qred (a + b); ssub := fun a b => Qred (a - b); smul := fun a b => Qred (a * b);
  sdiv := fun a b => Qred (a / b); sopp := fun a => Qred (- a); sle := Qle_bool; slt := fun a b => negb (Qle_bool b a);
  seq_ := Qeq_bool; sofZ := fun z => (z # 1)%Q; sofQ := Qred; sfloor := Qfloor; ssqrt := fun x => x |}.

Definition vecn_ops (d : nat) : PointOps Q (vec Q d) := {|
  p0 := @p0 _ _ (@vec_ops Q Q_ops d); padd := @padd _ _ (@vec_ops Q Q_ops d); psub := @psub _ _ (@vec_ops Q Q_ops d);
  pmul := @pmul _ _ (@vec_ops Q Q_ops d); pdot := fun a b => (inject_Z (2 ^ 52) * @pdot _ _ (@vec_ops Q Q_ops d) a b)%Q |}.

Definition srel_n : @SRel Q R Qn_ops R_ops :=
  @Build_SRel Q R Qn_ops R_ops Qs Qs_0 Qs_1 Qs_add Qs_sub Qs_mul Qs_opp Qs_sofZ Qs_sofQ Qs_le Qs_lt Qs_eq Qs_floor Qs_div.
Definition prel_n (d : nat) : @PRel Q R (vec Q d) (vec R d) Qn_ops R_ops (vecn_ops d) (vec_ops d) srel_n :=
  @Build_PRel Q R (vec Q d) (vec R d) Qn_ops R_ops (vecn_ops d) (vec_ops d) srel_n (Rv d)
    (@Rp_0 _ _ _ _ _ _ _ _ _ (vec_prel d)) (@Rp_add _ _ _ _ _ _ _ _ _ (vec_prel d)) (@Rp_sub _ _ _ _ _ _ _ _ _ (vec_prel d))
    (@Rp_mul _ _ _ _ _ _ _ _ _ (vec_prel d)).

Lemma Rv_dot d (a b : vec Q d) (a' b' : vec R d) : Rv d a a' -> Rv d b b' -> Qs (@pdot _ _ (@vec_ops Q Q_ops d) a b) (pdot a' b').
Proof.
  induction d; intros Ha Hb; [exact Qs_0|]. destruct Ha, Hb. simpl. apply Qs_add; [now apply Qs_mul|]. now apply IHd.
Qed.

Lemma norm_sq d (v : vec Q d) (v' : vec R d) : Rv d v v' ->
  (0 <= Q2R (@pdot _ _ (@vec_ops Q Q_ops d) v v))%R /\ @pnorm R (vec R d) R_ops (vec_ops d) v' = sqrt (Q2R (@pdot _ _ (@vec_ops Q Q_ops d) v v)) /\
  Q2R (@pnorm _ _ Qn_ops (vecn_ops d) v) = (IZR (2 ^ 52) * Q2R (@pdot _ _ (@vec_ops Q Q_ops d) v v))%R.
Proof.
  intros H. pose proof (Rv_dot d v v v' v' H H) as E. unfold Qs in E. rewrite E. split; [|split].
  - clear. induction d; simpl; [lra|]. pose proof (IHd (snd v')). simpl in *. nra.
  - reflexivity.
  - unfold pnorm, sqnorm. cbn [ssqrt Qn_ops pdot vecn_ops]. rewrite Q2R_mult, E. f_equal. unfold Q2R. simpl. lra.
Qed.

Lemma seps_Q2R : Q2R (@seps Q Qn_ops) = (/ IZR (2 ^ 52))%R.
Proof. unfold seps. cbn [sofQ Qn_ops]. rewrite Q2R_red. unfold Q2R. cbn [Qnum Qden]. rewrite Rmult_1_l. reflexivity. Qed.
Lemma seps_is : @seps R R_ops = (/ IZR (2 ^ 52))%R.
Proof. unfold seps. cbn [sofQ R_ops Qnum Qden]. unfold Rdiv. rewrite Rmult_1_l. reflexivity. Qed.

Lemma sqrt_above s e : (0 <= s -> 0 < e -> (e < sqrt s <-> e < / e * s))%R.
Proof.
  intros Hs He. pose proof (sqrt_pos s) as Hp. pose proof (sqrt_sqrt s Hs) as Hq.
  assert (E : (s = e * (/ e * s))%R) by (field; lra). set (z := (/ e * s)%R) in *. split; intros H; nra.
Qed.
Lemma sqrt_below s e : (0 <= s -> 0 < e -> (sqrt s < e <-> / e * s < e))%R.
Proof.
  intros Hs He. pose proof (sqrt_pos s) as Hp. pose proof (sqrt_sqrt s Hs) as Hq.
  assert (E : (s = e * (/ e * s))%R) by (field; lra). set (z := (/ e * s)%R) in *. split; intros H; nra.
Qed.

Lemma Rltb_iff a b a' b' : (a < b <-> a' < b')%R -> Rltb a b = Rltb a' b'.
Proof. intros H. unfold Rltb. destruct (Rlt_dec a b), (Rlt_dec a' b'); try reflexivity; tauto. Qed.

Lemma far_n d (v : vec Q d) (v' : vec R d) : Rv d v v' -> @slt Q Qn_ops (@seps Q Qn_ops) (@pnorm _ _ Qn_ops (vecn_ops d) v) = slt seps (pnorm v').
Proof.
  intros H. destruct (norm_sq d v v' H) as (H1 & H2 & H3).
  etransitivity; [exact (Qs_lt _ _ _ _ (eq_refl : Qs (@seps Q Qn_ops) _) (eq_refl : Qs (@pnorm _ _ Qn_ops (vecn_ops d) v) _))|].
  cbn [slt R_ops]. apply Rltb_iff. rewrite H3, seps_Q2R, seps_is, H2. rewrite sqrt_above by (try assumption; apply Rinv_0_lt_compat, IZR_lt; reflexivity).
  rewrite Rinv_inv. reflexivity.
Qed.
Lemma near_n d (v : vec Q d) (v' : vec R d) : Rv d v v' -> @slt Q Qn_ops (@pnorm _ _ Qn_ops (vecn_ops d) v) (@seps Q Qn_ops) = slt (pnorm v') seps.
Proof.
  intros H. destruct (norm_sq d v v' H) as (H1 & H2 & H3).
  etransitivity; [exact (Qs_lt _ _ _ _ (eq_refl : Qs (@pnorm _ _ Qn_ops (vecn_ops d) v) _) (eq_refl : Qs (@seps Q Qn_ops) _))|].
  cbn [slt R_ops]. apply Rltb_iff. rewrite H3, seps_Q2R, seps_is, H2. rewrite sqrt_below by (try assumption; apply Rinv_0_lt_compat, IZR_lt; reflexivity).
  rewrite Rinv_inv. reflexivity.
Qed.

(** * Runs *)
Lemma Rbz_bzR d (c : bezier (vec Q d)) : @Rbz _ _ _ _ _ _ _ _ _ (prel_n d) c (bzR c).
Proof. split; [|reflexivity]. cbn [bz_pts bzR]. induction (bz_pts c); constructor; [apply Rv_vR|assumption]. Qed.

Lemma run_combine d (l : list (bezier (vec Q d))) b c :
  @bs_combine_Beziers Q (vec Q d) Qn_ops (vecn_ops d) l b = Ok c -> bs_combine_Beziers (map bzR l) (map Q2R b) = Ok (bsR c).
Proof.
  intros H. assert (E : res_rel (@Rbs _ _ _ _ _ _ _ _ _ (prel_n d)) (@bs_combine_Beziers Q (vec Q d) Qn_ops (vecn_ops d) l b) (bs_combine_Beziers (map bzR l) (map Q2R b))).
  { apply (@combine_rel _ _ _ _ Qn_ops R_ops (vecn_ops d) (vec_ops d) srel_n (prel_n d) (far_n d) (near_n d)).
    - clear. induction l; constructor; [apply Rbz_bzR|assumption].
    - clear. induction b; constructor; [reflexivity|assumption]. }
  rewrite H in E. destruct (bs_combine_Beziers (map bzR l) (map Q2R b)); simpl in E; try contradiction. now rewrite (Rbs_det _ _ _ E).
Qed.

Lemma run_elevate d (c c' : bspline Q (vec Q d)) :
  @bs_elevate_degree Q (vec Q d) Qn_ops (vecn_ops d) (@bz_elevate_degree Q (vec Q d) Qn_ops (vecn_ops d)) c = Ok c' ->
  bs_elevate_degree bz_elevate_degree (bsR c) = Ok (bsR c').
Proof.
  intros H. pose proof (@elevate_rel _ _ _ _ Qn_ops R_ops (vecn_ops d) (vec_ops d) srel_n (prel_n d) (far_n d) (near_n d) c (bsR c) (Rbs_bsR d c)) as E.
  rewrite H in E. destruct (bs_elevate_degree bz_elevate_degree (bsR c)); simpl in E; try contradiction. now rewrite (Rbs_det _ _ _ E).
Qed.

(** Removal at tolerance zero: no scaling matters there. *)
Lemma zero_n d (v : vec Q d) (v' : vec R d) : Rv d v v' -> @slt Q Qn_ops 0%Q (@pnorm _ _ Qn_ops (vecn_ops d) v) = slt 0%R (pnorm v').
Proof.
  intros H. destruct (norm_sq d v v' H) as (H1 & H2 & H3).
  etransitivity; [exact (Qs_lt _ _ _ _ (Qs_0 : Qs 0%Q 0%R) (eq_refl : Qs (@pnorm _ _ Qn_ops (vecn_ops d) v) _))|].
  cbn [slt R_ops]. apply Rltb_iff. rewrite H3, H2. split; intros G.
  - apply sqrt_lt_R0. apply Rnot_le_lt. intros G'. assert (0 < IZR (2 ^ 52))%R by (apply IZR_lt; reflexivity). nra.
  - assert (0 < IZR (2 ^ 52))%R by (apply IZR_lt; reflexivity). apply Rmult_lt_0_compat; [assumption|].
    destruct H1 as [H1|H1]; [assumption|]. rewrite <- H1, sqrt_0 in G. lra.
Qed.

Lemma run_remove0 d (c : bspline Q (vec Q d)) (t : Q) (n : Z) :
  res_rel (prodrel (@Rbs _ _ _ _ _ _ _ _ _ (prel_n d)) eq) (@bs_remove_knot Q (vec Q d) Qn_ops (vecn_ops d) c t n 0%Q)
    (bs_remove_knot (bsR c) (Q2R t) n 0%R).
Proof.
  apply (@remove_tol_rel _ _ _ _ Qn_ops R_ops (vecn_ops d) (vec_ops d) srel_n (prel_n d)); [exact (zero_n d)|exact (Rbs_bsR d c)|reflexivity].
Qed.
Lemma run_remove0_ok d (c c' : bspline Q (vec Q d)) (t : Q) (n r : Z) :
  @bs_remove_knot Q (vec Q d) Qn_ops (vecn_ops d) c t n 0%Q = Ok (c', r) ->
  bs_remove_knot (bsR c) (Q2R t) n 0%R = Ok (bsR c', r).
Proof.
  intros H. pose proof (run_remove0 d c t n) as E. rewrite H in E.
  destruct (bs_remove_knot (bsR c) (Q2R t) n 0%R) as [[c2 r2]| | |]; simpl in E; try contradiction. destruct E as [E1 E2]. cbn [fst snd] in *.
  subst. now rewrite (Rbs_det _ _ _ E1).
Qed.
Lemma run_remove0_undef d (c : bspline Q (vec Q d)) (t : Q) (n : Z) :
  @bs_remove_knot Q (vec Q d) Qn_ops (vecn_ops d) c t n 0%Q = Undef -> bs_remove_knot (bsR c) (Q2R t) n 0%R = Undef.
Proof.
  intros H. pose proof (run_remove0 d c t n) as E. rewrite H in E.
  destruct (bs_remove_knot (bsR c) (Q2R t) n 0%R) as [[c2 r2]| | |]; simpl in E; try contradiction. reflexivity.
Qed.
