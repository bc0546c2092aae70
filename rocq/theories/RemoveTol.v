(** Knot removal with a tolerance of any sign. *)
From Coq Require Import Reals Lra Lia ZArith List Bool Permutation.
From Verif Require Import Monad MonadFacts Scalar ScalarFacts Spec SpecGeom SpecRemove ModelCurve ModelBezier ModelBSpline ModelRational ModelRemove
  BSplineFacts BSplineMath BSplineThms BSplineThms2 BSplineThms3 BSplineInsert BSplineInsert2 BSplineInsert3 BSplineSplit BSplineConvert BSplineCombine BSplineRemove5 BSplineRemove6.
Import ListNotations.
Local Open Scope R_scope.

Lemma smax_ge (a b : R) : a <= smax a b /\ b <= smax a b /\ (smax a b = a \/ smax a b = b).
Proof. unfold smax. cbn [slt R_ops]. unfold Rltb. destruct (Rlt_dec a b); repeat split; try lra; auto. Qed.
Lemma smin_le (a b : R) : smin a b <= a /\ smin a b <= b /\ (smin a b = a \/ smin a b = b).
Proof. unfold smin. cbn [slt R_ops]. unfold Rltb. destruct (Rlt_dec b a); repeat split; try lra; auto. Qed.

Lemma fold_max l : forall x : R, (forall y, In y (x :: l) -> y <= fold_left smax l x) /\ In (fold_left smax l x) (x :: l).
Proof.
  induction l as [|z l IH]; intros x; cbn [fold_left].
  - split; [|now left]. intros y [<-|[]]. lra.
  - destruct (IH (smax x z)) as [H1 H2]. destruct (smax_ge x z) as (G1 & G2 & G3). split.
    + intros y [<-|[<-|Hy]].
      * apply Rle_trans with (2 := H1 (smax x z) (or_introl eq_refl)). exact G1.
      * apply Rle_trans with (2 := H1 (smax x z) (or_introl eq_refl)). exact G2.
      * apply H1. now right.
    + destruct H2 as [H2|H2]; [|right; right; exact H2]. rewrite <- H2. destruct G3 as [->| ->]; [now left|right; now left].
Qed.
Lemma fold_min l : forall x : R, (forall y, In y (x :: l) -> fold_left smin l x <= y) /\ In (fold_left smin l x) (x :: l).
Proof.
  induction l as [|z l IH]; intros x; cbn [fold_left].
  - split; [|now left]. intros y [<-|[]]. lra.
  - destruct (IH (smin x z)) as [H1 H2]. destruct (smin_le x z) as (G1 & G2 & G3). split.
    + intros y [<-|[<-|Hy]].
      * apply Rle_trans with (1 := H1 (smin x z) (or_introl eq_refl)). exact G1.
      * apply Rle_trans with (1 := H1 (smin x z) (or_introl eq_refl)). exact G2.
      * apply H1. now right.
    + destruct H2 as [H2|H2]; [|right; right; exact H2]. rewrite <- H2. destruct G3 as [->| ->]; [now left|right; now left].
Qed.
Lemma max_coeff_ok (l : list R) : l <> [] -> exists m, max_coeff l = Ok m /\ (forall y, In y l -> y <= m) /\ In m l.
Proof. destruct l as [|x l]; [congruence|]. intros _. exists (fold_left smax l x). destruct (fold_max l x). auto. Qed.
Lemma min_coeff_ok (l : list R) : l <> [] -> exists m, min_coeff l = Ok m /\ (forall y, In y l -> m <= y) /\ In m l.
Proof. destruct l as [|x l]; [congruence|]. intros _. exists (fold_left smin l x). destruct (fold_min l x). auto. Qed.

Lemma default_tol_ok d (pts : list (vec R d)) : pts <> [] -> (1 <= d)%nat ->
  exists e, longest_side pts e /\ default_tol pts = Ok (e / IZR (10 ^ 6)).
Proof.
  intros Hp Hd.
  assert (Hc : forall i, map (coord d i) pts <> []) by (intros i; destruct pts; [congruence|discriminate]).
  pose (hi := fun i => match max_coeff (map (coord d i) pts) with Ok m => m | _ => 0 end).
  pose (lo := fun i => match min_coeff (map (coord d i) pts) with Ok m => m | _ => 0 end).
  assert (H1 : forall i, max_coeff (map (coord d i) pts) = Ok (hi i) /\ (forall y, In y pts -> coord d i y <= hi i) /\ exists y, In y pts /\ coord d i y = hi i).
  { intros i. destruct (max_coeff_ok _ (Hc i)) as (m & E & A & B). unfold hi. rewrite E. split; [reflexivity|]. split.
    - intros y Hy. apply A. now apply in_map.
    - apply in_map_iff in B. destruct B as (y & E' & Hy). eauto. }
  assert (H2 : forall i, min_coeff (map (coord d i) pts) = Ok (lo i) /\ (forall y, In y pts -> lo i <= coord d i y) /\ exists y, In y pts /\ coord d i y = lo i).
  { intros i. destruct (min_coeff_ok _ (Hc i)) as (m & E & A & B). unfold lo. rewrite E. split; [reflexivity|]. split.
    - intros y Hy. apply A. now apply in_map.
    - apply in_map_iff in B. destruct B as (y & E' & Hy). eauto. }
  unfold default_tol. rewrite (mapM_Ok _ (fun i => hi i - lo i)).
  2:{ intros i _. destruct (H1 i) as (-> & _). destruct (H2 i) as (-> & _). reflexivity. }
  rewrite bind_Ok. destruct (max_coeff_ok (map (fun i => hi i - lo i) (seq 0 d))) as (m & E & A & B).
  { destruct d; [lia|]. discriminate. }
  exists m. split.
  - split.
    + intros i a b Hi Ha Hb. destruct (H1 i) as (_ & G1 & _). destruct (H2 i) as (_ & G2 & _).
      specialize (G1 a Ha). specialize (G2 b Hb).
      assert (G : hi i - lo i <= m) by (apply A; apply (in_map (fun i => hi i - lo i)); apply in_seq; lia). lra.
    + apply in_map_iff in B. destruct B as (i & E' & Hi). apply in_seq in Hi.
      destruct (H1 i) as (_ & _ & y & Hy & Ey). destruct (H2 i) as (_ & _ & z & Hz & Ez).
      exists i, y, z. repeat split; [lia|exact Hy|exact Hz|lra].
  - rewrite E, bind_Ok. f_equal. cbn [smul sofQ R_ops QArith_base.Qnum QArith_base.Qden]. unfold Rdiv. rewrite Rmult_1_l. reflexivity.
Qed.

Lemma longest_side_pos d (pts : list (vec R d)) e : longest_side pts e -> 0 <= e.
Proof. intros [H (i & a & b & Hi & Ha & Hb & _)]. specialize (H i a a Hi Ha Ha). lra. Qed.

(** The tolerance in force. *)
Lemma remove_any_ok d (c : bspline R (vec R d)) t n tol tol' r : bs_remove_knot c t n tol' = Ok r ->
  (tol < 0 -> default_tol (bs_pts c) = Ok tol') -> (0 <= tol -> tol' = tol) -> bs_remove_knot_any c t n tol = Ok r.
Proof.
  intros H H1 H2. unfold bs_remove_knot_any.
  assert (H0 := H). unfold bs_remove_knot in H0.
  destruct (assert_ (1 <=? n)%Z) as [[]| | |]; try discriminate. rewrite bind_Ok in *.
  destruct (bs_in_domain c t) as [b| | |]; try discriminate. rewrite bind_Ok in *.
  destruct (assert_ b) as [[]| | |]; try discriminate. rewrite bind_Ok in *.
  destruct (bs_validate c) as [[]| | |]; try discriminate. rewrite bind_Ok in *. clear H0.
  cbn [slt R_ops s0]. unfold Rltb. destruct (Rlt_dec tol 0) as [G|G].
  - rewrite (H1 G), bind_Ok. exact H.
  - rewrite bind_Ok, <- (H2 ltac:(lra)). exact H.
Qed.

Lemma pick_tol d (pts : list (vec R d)) tol : pts <> [] -> (1 <= d)%nat ->
  exists tol', 0 <= tol' /\ (tol < 0 -> default_tol pts = Ok tol') /\ (0 <= tol -> tol' = tol) /\
    (tol < 0 -> exists e, longest_side pts e /\ tol' = e / IZR (10 ^ 6)).
Proof.
  intros Hp Hd. destruct (Rlt_dec tol 0) as [G|G].
  - destruct (default_tol_ok d pts Hp Hd) as (e & He & E). exists (e / IZR (10 ^ 6)).
    split; [|split; [intros _; exact E|split; [lra|eauto]]].
    apply Rmult_le_pos; [exact (longest_side_pos _ _ _ He)|]. left. apply Rinv_0_lt_compat, IZR_lt. reflexivity.
  - exists tol. repeat split; lra.
Qed.

Lemma valid_ne d (c : bspline R (vec R d)) : valid_bspline (bs_pts c) (bs_knots c) -> bs_pts c <> [].
Proof. intros H E. pose proof (vb_pts _ _ H) as G. rewrite E in G. simpl in G. lia. Qed.

Lemma insert_ne d (c c1 : bspline R (vec R d)) t (m : nat) : valid_bspline (bs_pts c) (bs_knots c) ->
  lower_of (bs_pts c) (bs_knots c) < t < upper_of (bs_pts c) (bs_knots c) -> (1 <= m)%nat ->
  (m + count_occ Req_EM_T (bs_knots c) t <= bspline_degree (bs_pts c) (bs_knots c))%nat ->
  bs_insert_knot c t (Z.of_nat m) = Ok c1 -> bs_pts c1 <> [] /\ bs_periodic c1 = bs_periodic c.
Proof.
  intros Hv Ht Hm1 Hmp E1. destruct (valid_rep c Hv) as [Hr Hk]. pose proof (vb_pts _ _ Hv) as Hpl.
  assert (EL0 : lower_of (bs_pts c) (bs_knots c) = knot_of (bs_knots c) (Z.of_nat (bspline_degree (bs_pts c) (bs_knots c))))
    by (unfold lower_of; now rewrite knot_of_nat).
  assert (EU0 : upper_of (bs_pts c) (bs_knots c) = knot_of (bs_knots c) (Z.of_nat (length (bs_pts c))))
    by (unfold upper_of; now rewrite knot_of_nat).
  rewrite EL0, EU0 in *. pose proof (mult_rep c t m Hv Hmp) as Hml.
  set (n := Z.of_nat (length (bs_pts c))) in *. set (p := bspline_degree (bs_pts c) (bs_knots c)) in *.
  set (U := knot_of (bs_knots c)) in *. set (cp := pts_at (bs_pts c)) in *.
  destruct (ins_setup c n (Z.of_nat p) U cp t (Z.of_nat m) Hr Hk ltac:(lra) ltac:(right; lra) ltac:(lia) Hml)
    as (k & s & Ek & Hkr & Hsp & Es & Hs0 & Hms & Hrun & Hsk & Hs1 & Hs2 & Hs3).
  destruct (in_span_bounds _ _ _ _ Hsp) as [Hb Hlt]. destruct Hk as [Hm Hd].
  destruct (bs_insert_gen c n (Z.of_nat p) U cp t (Z.of_nat m) k s Hr Hm ltac:(lra) Ek Hkr Hlt Es Hs0 ltac:(lia) Hms) as (c1' & E1' & Hper & Hr1).
  assert (c1' = c1) by congruence. subst c1'. split; [|exact Hper].
  intros G. pose proof (rep_npts _ _ _ _ _ Hr1) as Q. rewrite G in Q. unfold zlen in Q. simpl in Q. lia.
Qed.

Lemma remove_any_undo d (c c1 : bspline R (vec R d)) t (m N : nat) tol : (1 <= d)%nat ->
  valid_bspline (bs_pts c) (bs_knots c) ->
  lower_of (bs_pts c) (bs_knots c) < t < upper_of (bs_pts c) (bs_knots c) ->
  (1 <= m)%nat -> (m + count_occ Req_EM_T (bs_knots c) t <= bspline_degree (bs_pts c) (bs_knots c))%nat ->
  (m <= N <= m + count_occ Req_EM_T (bs_knots c) t)%nat ->
  bs_insert_knot c t (Z.of_nat m) = Ok c1 ->
  exists c' (count : nat), bs_remove_knot_any c1 t (Z.of_nat N) tol = Ok (c', Z.of_nat count) /\ (m <= count <= N)%nat /\
    (N = m -> c' = c).
Proof.
  intros Hd Hv Ht Hm Hmu HN E.
  destruct (insert_ne d c c1 t m Hv Ht Hm Hmu E) as [Hp _].
  destruct (pick_tol d (bs_pts c1) tol Hp Hd) as (tol' & H0 & H1 & H2 & _).
  destruct (bspline_undo d c c1 t m N tol' Hv Ht Hm Hmu HN H0 E) as (c' & k & E' & R').
  exists c', k. split; [|exact R']. exact (remove_any_ok _ _ _ _ _ _ _ E' H1 H2).
Qed.

(** The whole of [bspline_remove] for the default tolerance. *)
Lemma remove_default d (c : bspline R (vec R d)) t (N : nat) tol : (1 <= d)%nat -> tol < 0 ->
  valid_bspline (bs_pts c) (bs_knots c) -> knots_apart (/ IZR (10 ^ 16)) (bs_knots c) ->
  regular_start (bs_pts c) (bs_knots c) ->
  lower_of (bs_pts c) (bs_knots c) < t < upper_of (bs_pts c) (bs_knots c) ->
  (1 <= N <= count_occ Req_EM_T (bs_knots c) t)%nat ->
  (count_occ Req_EM_T (bs_knots c) t <= bspline_degree (bs_pts c) (bs_knots c))%nat ->
  exists c' (count : nat) (e : R), longest_side (bs_pts c) e /\
    bs_remove_knot_any c t (Z.of_nat N) tol = Ok (c', Z.of_nat count) /\ (count <= N)%nat /\
    bs_periodic c' = bs_periodic c /\
    valid_bspline (bs_pts c') (bs_knots c') /\
    bspline_degree (bs_pts c') (bs_knots c') = bspline_degree (bs_pts c) (bs_knots c) /\
    Permutation (bs_knots c) (repeat t count ++ bs_knots c') /\
    lower_of (bs_pts c') (bs_knots c') = lower_of (bs_pts c) (bs_knots c) /\
    upper_of (bs_pts c') (bs_knots c') = upper_of (bs_pts c) (bs_knots c) /\
    (forall x, (bs_periodic c = true \/ lower_of (bs_pts c) (bs_knots c) <= x <= upper_of (bs_pts c) (bs_knots c)) ->
       exists v v', bs_evaluate c x = Ok v /\ bs_evaluate c' x = Ok v' /\ edist v v' <= INR count * (e / IZR (10 ^ 6))).
Proof.
  intros Hd Hneg Hv Ha Hs Ht HN Hmu.
  destruct (pick_tol d (bs_pts c) tol (valid_ne _ _ Hv) Hd) as (tol' & H0 & H1 & H2 & H3).
  destruct (H3 Hneg) as (e & He & ->).
  destruct (bspline_remove d c t N (e / IZR (10 ^ 6)) Hv Ha Hs Ht HN Hmu H0) as (c' & k & E & Q1 & Q2 & Q3 & Q4 & Q5 & Q6 & Q7 & _ & _ & _ & Q8 & _).
  exists c', k, e. split; [exact He|]. split; [exact (remove_any_ok _ _ _ _ _ _ _ E H1 H2)|]. repeat (split; [assumption|]). exact Q8.
Qed.

(** With a tolerance that is not negative nothing is new. *)
Lemma remove_any_nonneg d (c : bspline R (vec R d)) t n tol : 0 <= tol -> bs_remove_knot_any c t n tol = bs_remove_knot c t n tol.
Proof.
  intros H. unfold bs_remove_knot_any. cbn [slt R_ops s0]. unfold Rltb. destruct (Rlt_dec tol 0); [lra|]. unfold bs_remove_knot at 2.
  destruct (assert_ (1 <=? n)%Z) as [[]| | |] eqn:E1; try reflexivity. rewrite !bind_Ok.
  destruct (bs_in_domain c t) as [b| | |] eqn:E2; try reflexivity. rewrite !bind_Ok.
  destruct (assert_ b) as [[]| | |] eqn:E3; try reflexivity. rewrite !bind_Ok.
  destruct (bs_validate c) as [[]| | |] eqn:E4; try reflexivity. rewrite !bind_Ok.
  unfold bs_remove_knot. rewrite E1, bind_Ok, E2, bind_Ok, E3, bind_Ok, E4, bind_Ok. reflexivity.
Qed.

Lemma remove_any_ends d (c : bspline R (vec R d)) t (N : nat) tol : (1 <= d)%nat ->
  valid_bspline (bs_pts c) (bs_knots c) -> (1 <= N)%nat ->
  (t = lower_of (bs_pts c) (bs_knots c) \/ t = upper_of (bs_pts c) (bs_knots c)) ->
  bs_remove_knot_any c t (Z.of_nat N) tol = Ok (c, 0%Z).
Proof.
  intros Hd Hv HN Ht. destruct (pick_tol d (bs_pts c) tol (valid_ne _ _ Hv) Hd) as (tol' & H0 & H1 & H2 & _).
  exact (remove_any_ok _ _ _ _ _ _ _ (bspline_remove_ends d c t N tol' Hv HN Ht) H1 H2).
Qed.

(** * More copies than there are *)
(** A loop that has been left early is left at the same point when it may run longer. *)
Lemma forb_nat_longer {S B} (body : Z -> S -> res (S + B)) n : forall lo s n' y, (n <= n')%nat ->
  forb_nat n lo body s = Ok (inr y) -> forb_nat n' lo body s = Ok (inr y).
Proof.
  induction n as [|n IH]; intros lo s n' y Hn H; [discriminate|]. destruct n' as [|n']; [lia|]. cbn [forb_nat] in *.
  destruct (body lo s) as [[s'|b]| | |]; try discriminate; rewrite bind_Ok in *; [|exact H]. apply IH; [lia|exact H].
Qed.
(** A loop that counts its rounds and is not left early has counted all of them. *)
Lemma forb_nat_count {S B} (body : Z -> S -> res (S + B)) (cnt : S -> Z) :
  (forall k s s', body k s = Ok (inl s') -> cnt s' = (cnt s + 1)%Z) ->
  forall n lo s s', forb_nat n lo body s = Ok (inl s') -> cnt s' = (cnt s + Z.of_nat n)%Z.
Proof.
  intros Hb n. induction n as [|n IH]; intros lo s s' H; cbn [forb_nat] in H; [injection H as <-; lia|].
  destruct (body lo s) as [[s1|b]| | |] eqn:E; try discriminate; rewrite bind_Ok in H.
  rewrite (IH _ _ _ H), (Hb _ _ _ E). lia.
Qed.

Lemma remove_more d (c c' : bspline R (vec R d)) t (N N' r : Z) tol : (N <= N')%Z -> (r < N)%Z ->
  bs_remove_knot c t N tol = Ok (c', r) -> bs_remove_knot c t N' tol = Ok (c', r).
Proof.
  intros HN Hr. unfold bs_remove_knot.
  destruct (1 <=? N)%Z eqn:H1; [|discriminate]. apply Z.leb_le in H1.
  assert (H1' : (1 <=? N')%Z = true) by (apply Z.leb_le; lia). rewrite H1'.
  cbn [assert_]. rewrite !bind_Ok.
  destruct (bs_in_domain c t) as [b| | |]; try discriminate. rewrite !bind_Ok.
  destruct (assert_ b) as [[]| | |]; try discriminate. rewrite !bind_Ok.
  destruct (bs_validate c) as [[]| | |]; try discriminate. rewrite !bind_Ok. cbv zeta.
  destruct (locate_span c t) as [k| | |]; try discriminate. rewrite !bind_Ok.
  destruct (get (bs_knots c) k) as [ur| | |]; try discriminate. rewrite !bind_Ok.
  destruct (if (t =? ur)%S then get_multiplicity c k else Ok 0%Z) as [s| | |]; try discriminate. rewrite !bind_Ok.
  destruct (s =? 0)%Z; [auto|]. destruct (_ || _); [auto|].
  destruct (assert_ _) as [[]| | |]; try discriminate. rewrite !bind_Ok.
  destruct (get (bs_knots c) (k + 1)) as [ur1| | |]; try discriminate. rewrite !bind_Ok.
  destruct (assert_ _) as [[]| | |]; try discriminate. rewrite !bind_Ok.
  destruct (alloc _ _) as [temp| | |]; try discriminate. rewrite !bind_Ok.
  match goal with |- context [forb_up 0 N ?bd ?st] => set (body := bd); set (st0 := st) end.
  unfold forb_up. destruct (forb_nat (Z.to_nat (N - 0)) 0 body st0) as [[s1|y]| | |] eqn:E; try discriminate.
  - (* all rounds done *)
    pose (cnt := fun st : list (vec R d) * list (vec R d) * Z * Z * Z => snd st).
    assert (Hc : cnt s1 = (cnt st0 + Z.of_nat (Z.to_nat (N - 0)))%Z).
    { apply (forb_nat_count body cnt) with (2 := E). intros i st st' Hb. unfold body in Hb.
      destruct st as [[[[Pw te] fi] la] co].
      repeat match type of Hb with (bind ?e _ = _) => destruct e; try discriminate; rewrite bind_Ok in Hb; cbv beta zeta in Hb
        | context [let '(_, _) := ?x in _] => destruct x
        | (if ?b then _ else _) = _ => destruct b; try discriminate end.
      injection Hb as <-. reflexivity. }
    rewrite bind_Ok. destruct s1 as [[[[Pw te] fi] la] co]. unfold cnt, st0 in Hc. cbn [snd] in Hc. rewrite bind_Ok || idtac.
    destruct (Z.eqb_spec co 0); [lia|].
    intros H. exfalso.
    repeat match type of H with (bind ?e _ = _) => destruct e; try discriminate; rewrite bind_Ok in H; cbv beta zeta in H
        | context [let '(_, _) := ?x in _] => destruct x end.
    injection H as _ H. lia.
  - rewrite (forb_nat_longer body (Z.to_nat (N - 0)) 0 st0 (Z.to_nat (N' - 0)) y ltac:(lia) E). auto.
Qed.

(** A parameter that is no knot. *)
Lemma remove_absent d (c : bspline R (vec R d)) t (N : nat) tol : valid_bspline (bs_pts c) (bs_knots c) -> (1 <= N)%nat ->
  lower_of (bs_pts c) (bs_knots c) <= t <= upper_of (bs_pts c) (bs_knots c) -> ~ In t (bs_knots c) ->
  bs_remove_knot c t (Z.of_nat N) tol = Ok (c, 0%Z).
Proof.
  intros Hv HN Ht Hni. destruct (valid_rep c Hv) as [Hr Hkv]. pose proof (rep_p _ _ _ _ _ Hr) as Hp. pose proof (rep_pn _ _ _ _ _ Hr) as Hpn.
  rewrite lower_knot, upper_knot in Ht.
  set (n := Z.of_nat (length (bs_pts c))) in *. set (p := Z.of_nat (bspline_degree (bs_pts c) (bs_knots c))) in *. set (U := knot_of (bs_knots c)) in *.
  unfold bs_remove_knot. replace (1 <=? Z.of_nat N)%Z with true by (symmetry; apply Z.leb_le; lia). cbn [assert_]. rewrite bind_Ok.
  unfold bs_in_domain. rewrite (rep_degree _ _ _ _ _ Hr), (rep_nknots _ _ _ _ _ Hr), (rep_npts _ _ _ _ _ Hr).
  rewrite (rep_get _ _ _ _ _ p Hr), bind_Ok by lia.
  replace (n + p + 1 - p - 1)%Z with n by lia.
  rewrite (rep_get _ _ _ _ _ n Hr), !bind_Ok by lia.
  assert (Hb : (sle (ssub (U p) seps) t && sle t (sadd (U n) seps))%bool = true).
  { pose proof seps_pos as He. generalize dependent (seps : R). intros e He. simpl. rewrite !Rleb_true by lra; reflexivity. }
  rewrite Hb. cbn [assert_]. rewrite bind_Ok. clear Hb. rewrite (rep_validate _ _ _ _ _ Hr), bind_Ok.
  assert (Hl : exists k, locate_span c t = Ok k /\ (0 <= k <= n + p)%Z).
  { destruct (locate_span_total c n p U _ t Hr Hkv) as (k & E & Hk). exists k. split; [exact E|lia]. }
  destruct Hl as (k & -> & Hk). rewrite bind_Ok. rewrite (rep_get _ _ _ _ _ k Hr), bind_Ok by lia.
  replace (seq_ t (U k)) with false; [rewrite bind_Ok; reflexivity|].
  symmetry. apply Reqb_false. intros E. apply Hni. rewrite E. unfold U.
  rewrite <- (Z2Nat.id k) by lia. rewrite knot_of_nat. apply nth_In. pose proof (rep_nknots _ _ _ _ _ Hr) as L. unfold zlen in L. lia.
Qed.
