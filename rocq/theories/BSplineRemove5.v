(** Knot removal on lists. *)
From Coq Require Import Reals Lra Lia ZArith List Permutation Bool.
From Verif Require Import Monad MonadFacts LoopFacts Scalar ScalarFacts Spec SpecFacts SpecGeom Polar ModelCurve CurveFacts ModelBezier
  BezierFacts BezierMath BezierThms BSplineMath ModelBSpline BSplineFacts BSplineThms BSplineThms2 BSplineThms3 BSplineInsert
  BSplineInsert2 BSplineInsert3 BSplineConvert CurveThms RationalThms PrimitiveFacts EdistFacts BSplineRemove BSplineRemove2 BSplineRemove3
  BSplineRemove4.
Import ListNotations.
Local Open Scope R_scope.

Lemma arr_Forall2 {A} (Q : A -> A -> Prop) l l' n f f' : arr l n f -> arr l' n f' ->
  (forall i, (0 <= i < n)%Z -> Q (f i) (f' i)) -> Forall2 Q l l'.
Proof.
  intros H H' HQ. rewrite (arr_eq _ _ _ H), (arr_eq _ _ _ H'). unfold mklist.
  assert (Hs : forall k, In k (seq 0 (Z.to_nat n)) -> Q (f (Z.of_nat k)) (f' (Z.of_nat k))).
  { intros k Hk. apply in_seq in Hk. apply HQ. lia. }
  induction (seq 0 (Z.to_nat n)) as [|k l0 IH]; simpl; constructor; [apply Hs; now left|]. apply IH. intros k' Hk'. apply Hs. now right.
Qed.

(** The knots equal to [t]. *)
Lemma knot_run {d} (c : bspline R (vec R d)) t : valid_bspline (bs_pts c) (bs_knots c) ->
  lower_of (bs_pts c) (bs_knots c) < t < upper_of (bs_pts c) (bs_knots c) ->
  (1 <= count_occ Req_EM_T (bs_knots c) t <= bspline_degree (bs_pts c) (bs_knots c))%nat ->
  exists a, (0 <= a)%Z /\ (a + Z.of_nat (count_occ Req_EM_T (bs_knots c) t) - 1 <= Z.of_nat (length (bs_pts c)) + Z.of_nat (bspline_degree (bs_pts c) (bs_knots c)))%Z /\
    forall i, (a <= i < a + Z.of_nat (count_occ Req_EM_T (bs_knots c) t))%Z -> knot_of (bs_knots c) i = t.
Proof.
  intros Hv Ht Hc. destruct (valid_rep c Hv) as [Hr Hk].
  assert (EL0 : lower_of (bs_pts c) (bs_knots c) = knot_of (bs_knots c) (Z.of_nat (bspline_degree (bs_pts c) (bs_knots c))))
    by (unfold lower_of; now rewrite knot_of_nat).
  assert (EU0 : upper_of (bs_pts c) (bs_knots c) = knot_of (bs_knots c) (Z.of_nat (length (bs_pts c))))
    by (unfold upper_of; now rewrite knot_of_nat).
  rewrite EL0, EU0 in *.
  set (n := Z.of_nat (length (bs_pts c))) in *. set (p := bspline_degree (bs_pts c) (bs_knots c)) in *.
  set (U := knot_of (bs_knots c)) in *.
  assert (Hlen : Z.of_nat (length (bs_knots c)) = (n + Z.of_nat p + 1)%Z).
  { pose proof (rep_nknots _ _ _ _ _ Hr). unfold zlen in *. lia. }
  assert (Hin : In t (bs_knots c)) by (apply (count_occ_In Req_EM_T); lia).
  apply (In_nth _ _ 0) in Hin. destruct Hin as (j & Hj & Ej).
  pose proof (mult_rep c t 0 Hv ltac:(lia)) as Hml. fold n p U in Hml. replace (Z.of_nat p - Z.of_nat 0)%Z with (Z.of_nat p) in Hml by lia.
  destruct (rem_setup c n (Z.of_nat p) U _ t Hr Hk Ht (Z.of_nat j) ltac:(lia) ltac:(unfold U; rewrite knot_of_nat; exact Ej) Hml)
    as (r & s & _ & Hrn & _ & Hs & Hsr & Hlo & Hrun & Hhi).
  assert (EC : count_occ Req_EM_T (bs_knots c) t = Z.to_nat s).
  { rewrite (run_count (bs_knots c) t (Z.to_nat (r - s + 1)) (Z.to_nat r)).
    - lia.
    - exact (vb_sorted _ _ Hv).
    - lia.
    - intros i Hi. rewrite <- knot_of_nat. apply Hrun. lia.
    - right. rewrite <- knot_of_nat. pose proof (Hlo (Z.of_nat (Z.to_nat (r - s + 1) - 1)) ltac:(lia)) as H. unfold U in H. lra.
    - right. rewrite <- knot_of_nat. pose proof (Hhi (Z.of_nat (Z.to_nat r + 1)) ltac:(lia)) as H. unfold U in H. lra. }
  exists (r - s + 1)%Z. rewrite EC. split; [lia|]. split; [lia|]. intros i Hi. apply Hrun. lia.
Qed.

Lemma bspline_remove d (c : bspline R (vec R d)) t (N : nat) tol :
  valid_bspline (bs_pts c) (bs_knots c) -> knots_apart (/ IZR (10 ^ 16)) (bs_knots c) ->
  regular_start (bs_pts c) (bs_knots c) ->
  lower_of (bs_pts c) (bs_knots c) < t < upper_of (bs_pts c) (bs_knots c) ->
  (1 <= N <= count_occ Req_EM_T (bs_knots c) t)%nat ->
  (count_occ Req_EM_T (bs_knots c) t <= bspline_degree (bs_pts c) (bs_knots c))%nat -> 0 <= tol ->
  exists c' (count : nat), bs_remove_knot c t (Z.of_nat N) tol = Ok (c', Z.of_nat count) /\ (count <= N)%nat /\
    bs_periodic c' = bs_periodic c /\
    valid_bspline (bs_pts c') (bs_knots c') /\
    bspline_degree (bs_pts c') (bs_knots c') = bspline_degree (bs_pts c) (bs_knots c) /\
    Permutation (bs_knots c) (repeat t count ++ bs_knots c') /\
    lower_of (bs_pts c') (bs_knots c') = lower_of (bs_pts c) (bs_knots c) /\
    upper_of (bs_pts c') (bs_knots c') = upper_of (bs_pts c) (bs_knots c) /\
    knots_apart (/ IZR (10 ^ 16)) (bs_knots c') /\ regular_start (bs_pts c') (bs_knots c') /\
    ((1 <= count)%nat -> exists c'', bs_insert_knot c' t (Z.of_nat count) = Ok c'' /\ bs_knots c'' = bs_knots c /\
       bs_periodic c'' = bs_periodic c /\ Forall2 (fun a b => edist a b <= INR count * tol) (bs_pts c) (bs_pts c'')) /\
    (forall x, (bs_periodic c = true \/ lower_of (bs_pts c) (bs_knots c) <= x <= upper_of (bs_pts c) (bs_knots c)) ->
       exists v v', bs_evaluate c x = Ok v /\ bs_evaluate c' x = Ok v' /\ edist v v' <= INR count * tol) /\
    (forall x, lower_of (bs_pts c) (bs_knots c) <= x <= upper_of (bs_pts c) (bs_knots c) ->
       exists v v', bs_evaluate (nonperiodic c) x = Ok v /\ bs_evaluate (nonperiodic c') x = Ok v' /\ edist v v' <= INR count * tol).
Proof.
  intros Hv Ha Hs Ht HN Hcp Htol. destruct (valid_rep c Hv) as [Hr Hk].
  destruct (knot_run c t Hv Ht ltac:(lia)) as (a & Ha0 & Ha1 & Harun).
  assert (EL0 : lower_of (bs_pts c) (bs_knots c) = knot_of (bs_knots c) (Z.of_nat (bspline_degree (bs_pts c) (bs_knots c))))
    by (unfold lower_of; now rewrite knot_of_nat).
  assert (EU0 : upper_of (bs_pts c) (bs_knots c) = knot_of (bs_knots c) (Z.of_nat (length (bs_pts c))))
    by (unfold upper_of; now rewrite knot_of_nat).
  rewrite EL0, EU0 in *.
  set (n := Z.of_nat (length (bs_pts c))) in *. set (p := bspline_degree (bs_pts c) (bs_knots c)) in *.
  set (U := knot_of (bs_knots c)) in *.
  pose proof (mult_rep c t 0 Hv ltac:(lia)) as Hml. fold n p U in Hml. replace (Z.of_nat p - Z.of_nat 0)%Z with (Z.of_nat p) in Hml by lia.
  destruct (rem_full c n (Z.of_nat p) U _ t (Z.of_nat N) tol Hr Hk (apart_rep c Hv Ha) (start_rep c Hs) Ht Hml a ltac:(lia)
     ltac:(intros i Hi; apply Harun; lia) ltac:(lia) Htol)
    as (c' & count & r & Ec & Hc & Hper & Hrn & Hcr & Hrun & (X & Hr') & Hk' & Hap' & Hst' & EL & EU & Hback & Hev & Hnev).
  set (W := remV U r count) in *.
  destruct (rep_valid c' _ _ _ _ Hr' Hk') as (Hv' & Hdeg & Hnp & HU' & _).
  assert (Hdeg' : bspline_degree (bs_pts c') (bs_knots c') = p) by lia.
  exists c', (Z.to_nat count). rewrite Z2Nat.id by lia. rewrite INR_IZR_INZ, Z2Nat.id by lia.
  split; [exact Ec|]. split; [lia|]. split; [exact Hper|]. split; [exact Hv'|]. split; [exact Hdeg'|].
  assert (ELc : lower_of (bs_pts c') (bs_knots c') = U (Z.of_nat p)).
  { unfold lower_of. rewrite <- knot_of_nat, Hdeg', HU' by lia. exact EL. }
  assert (EUc : upper_of (bs_pts c') (bs_knots c') = U n).
  { unfold upper_of. rewrite <- knot_of_nat, Hnp, HU' by lia. exact EU. }
  assert (Hapc : knots_apart (/ IZR (10 ^ 16)) (bs_knots c')).
  { pose proof (rep_nknots _ _ _ _ _ Hr') as HL'. unfold zlen in HL'.
    intros i j Hij Hlt. rewrite <- !knot_of_nat in Hlt |- *. rewrite !HU' in Hlt |- * by lia.
    rewrite <- btol_val. apply Hap'; (lia || exact Hlt). }
  assert (Hstc : regular_start (bs_pts c') (bs_knots c')).
  { unfold regular_start. rewrite Hdeg'. pose proof (rep_pn _ _ _ _ _ Hr') as Hpn'. pose proof (rep_p _ _ _ _ _ Hr') as Hp'.
    destruct Hst' as [H|[H1 H2]].
    * left. rewrite <- !knot_of_nat. rewrite !HU' by lia. replace (Z.of_nat (p + 1)) with (Z.of_nat p + 1)%Z by lia. exact H.
    * right. split; [lia|]. intros i Hi. rewrite <- !knot_of_nat. rewrite !HU' by lia.
      replace (Z.of_nat (i + p)) with (Z.of_nat i + Z.of_nat p)%Z by lia. apply H2. lia. }
  split.
  { destruct (Z.eq_dec count 0) as [E0|E0].
    - assert (bs_knots c' = bs_knots c).
      { apply (arr_uniq _ _ (n + Z.of_nat p + 1)%Z U); [|exact (rep_knots _ _ _ _ _ Hr)].
        pose proof (rep_knots _ _ _ _ _ Hr') as H. replace (n - count)%Z with n in H by lia. eapply arr_ext; [exact H|].
        intros i Hi. unfold W, remV. rewrite E0. destruct (i <=? r - 0)%Z; [reflexivity|f_equal; lia]. }
      rewrite H, E0. apply Permutation_refl.
    - destruct (Hback ltac:(lia)) as (c'' & Y & E'' & _ & Hr'' & _).
      assert (Ek : bs_knots c'' = bs_knots c).
      { apply (arr_uniq _ _ _ _ (rep_knots _ _ _ _ _ Hr'') (rep_knots _ _ _ _ _ Hr)). }
      assert (Hocc : (Z.to_nat count + count_occ Req_EM_T (bs_knots c') t <= p)%nat).
      { apply Nat.le_trans with (count_occ Req_EM_T (bs_knots c) t); [|lia].
        (* the knots of c are those of c' with [count] more *)
        assert (El : bs_knots c = firstn (Z.to_nat (r - count + 1)) (bs_knots c') ++ repeat t (Z.to_nat count) ++ skipn (Z.to_nat (r - count + 1)) (bs_knots c')).
        { pose proof (rep_nknots _ _ _ _ _ Hr') as HL'. unfold zlen in HL'.
          pose proof (rep_nknots _ _ _ _ _ Hr) as HL. unfold zlen in HL.
          apply (nth_ext _ _ 0 0).
          - rewrite !app_length, firstn_length, repeat_length, skipn_length. lia.
          - intros i Hi. rewrite <- knot_of_nat. fold U. 
            destruct (Z_le_gt_dec (Z.of_nat i) (r - count)) as [H1|H1].
            + rewrite app_nth1 by (rewrite firstn_length; lia). rewrite nth_firstn_lt by lia. rewrite <- knot_of_nat, HU' by lia.
              unfold W, remV. destruct (Z.leb_spec (Z.of_nat i) (r - count)); [reflexivity|lia].
            + rewrite app_nth2 by (rewrite firstn_length; lia). rewrite firstn_length, Nat.min_l by lia.
              destruct (Z_le_gt_dec (Z.of_nat i) r) as [H2|H2].
              * rewrite app_nth1 by (rewrite repeat_length; lia).
                rewrite nth_indep with (d' := t) by (rewrite repeat_length; lia). rewrite nth_repeat. apply Hrun. lia.
              * rewrite app_nth2 by (rewrite repeat_length; lia). rewrite repeat_length, nth_skipn_add, <- knot_of_nat, HU' by lia.
                unfold W, remV. match goal with |- context [Z.leb ?x ?y] => destruct (Z.leb_spec x y); [lia|] end. f_equal. lia. }
        rewrite El, !count_occ_app. rewrite <- (firstn_skipn (Z.to_nat (r - count + 1)) (bs_knots c')) at 1. rewrite count_occ_app.
        rewrite (count_occ_repeat_eq Req_EM_T) by reflexivity. lia. }
      destruct (bspline_insert_full d c' t (Z.to_nat count) Hv' Hapc Hstc) as (c3 & E3 & _ & _ & _ & HP & _).
      + rewrite ELc, EUc. lra.
      + intros u Hu. apply (In_nth _ _ 0) in Hu. destruct Hu as (i & Hi & <-).
        pose proof (rep_nknots _ _ _ _ _ Hr') as HL'. unfold zlen in HL'.
        rewrite <- knot_of_nat, HU' by lia. rewrite <- btol_val.
        assert (exists i0, W (Z.of_nat i) = U i0 /\ (0 <= i0 <= n + Z.of_nat p)%Z) as (i0 & -> & Hi0).
        { unfold W, remV. destruct (Z.leb_spec (Z.of_nat i) (r - count)); eexists; (split; [reflexivity|lia]). }
        assert (Ur : U r = t) by (apply Hrun; lia). pose proof (apart_rep c Hv Ha) as Hap. fold n p U in Hap.
        destruct (Rtotal_order (U i0) t) as [Hlt|[Heq|Hgt]]; [right|now left|right].
        * pose proof (Hap i0 r ltac:(lia) ltac:(lia) ltac:(lra)). rewrite Rabs_left by lra. lra.
        * pose proof (Hap r i0 ltac:(lia) ltac:(lia) ltac:(lra)). rewrite Rabs_right by lra. lra.
      + right. rewrite ELc. lra.
      + lia.
      + rewrite Hdeg'. exact Hocc.
      + rewrite Z2Nat.id in E3 by lia. assert (c3 = c'') by congruence. subst c3. rewrite <- Ek. exact HP. }
  split; [exact ELc|]. split; [exact EUc|]. split; [exact Hapc|]. split; [exact Hstc|]. split; [|split; [exact Hev|exact Hnev]].
  intros H1. destruct (Hback ltac:(lia)) as (c'' & Y & E'' & Hp'' & Hr'' & Hcl).
  exists c''. split; [exact E''|]. split; [apply (arr_uniq _ _ _ _ (rep_knots _ _ _ _ _ Hr'') (rep_knots _ _ _ _ _ Hr))|].
  split; [exact Hp''|].
  apply (arr_Forall2 _ _ _ n _ _ (rep_pts _ _ _ _ _ Hr) (rep_pts _ _ _ _ _ Hr'')). exact Hcl.
Qed.

(** ** Removal after insertion *)
Lemma insQ_extU {d} U U' p k s r t (X : Z -> vec R d) i : (forall j, U j = U' j) -> insQ U p k s r t X i = insQ U' p k s r t X i.
Proof.
  intros H. assert (HT : forall j g, insT U p t X j g = insT U' p t X j g).
  { intros j g. unfold insT. apply tri_ext; [|reflexivity]. intros r' j' x _ _. unfold alU. now rewrite !H. }
  unfold insQ. now rewrite !HT.
Qed.

Lemma bspline_undo d (c c1 : bspline R (vec R d)) t (m N : nat) tol :
  valid_bspline (bs_pts c) (bs_knots c) ->
  lower_of (bs_pts c) (bs_knots c) < t < upper_of (bs_pts c) (bs_knots c) ->
  (1 <= m)%nat -> (m + count_occ Req_EM_T (bs_knots c) t <= bspline_degree (bs_pts c) (bs_knots c))%nat ->
  (m <= N <= m + count_occ Req_EM_T (bs_knots c) t)%nat -> 0 <= tol ->
  bs_insert_knot c t (Z.of_nat m) = Ok c1 ->
  exists c' (count : nat), bs_remove_knot c1 t (Z.of_nat N) tol = Ok (c', Z.of_nat count) /\ (m <= count <= N)%nat /\
    (N = m -> c' = c).
Proof.
  intros Hv Ht Hm1 Hmp HNm Htol E1. destruct (valid_rep c Hv) as [Hr Hk].
  assert (EL0 : lower_of (bs_pts c) (bs_knots c) = knot_of (bs_knots c) (Z.of_nat (bspline_degree (bs_pts c) (bs_knots c))))
    by (unfold lower_of; now rewrite knot_of_nat).
  assert (EU0 : upper_of (bs_pts c) (bs_knots c) = knot_of (bs_knots c) (Z.of_nat (length (bs_pts c))))
    by (unfold upper_of; now rewrite knot_of_nat).
  rewrite EL0, EU0 in *.
  pose proof (mult_rep c t m Hv Hmp) as Hml.
  set (n := Z.of_nat (length (bs_pts c))) in *. set (p := bspline_degree (bs_pts c) (bs_knots c)) in *.
  set (U := knot_of (bs_knots c)) in *. set (cp := pts_at (bs_pts c)) in *.
  destruct (ins_setup c n (Z.of_nat p) U cp t (Z.of_nat m) Hr Hk ltac:(lra) ltac:(right; lra) ltac:(lia) Hml)
    as (k & s & Ek & Hkr & Hsp & Es & Hs0 & Hms & Hrun & Hsk & Hs1 & Hs2 & Hs3).
  destruct (in_span_bounds _ _ _ _ Hsp) as [Hb Hlt]. destruct Hk as [Hm Hd].
  destruct (bs_insert_gen c n (Z.of_nat p) U cp t (Z.of_nat m) k s Hr Hm ltac:(lra) Ek Hkr Hlt Es Hs0 ltac:(lia) Hms) as (c1' & E1' & Hper & Hr1).
  assert (c1' = c1) by congruence. subst c1'.
  assert (Htk : t < U (k + 1)%Z).
  { destruct Hsp as [[_ Hsp]|[Hsp _]]; [lra|]. rewrite Hsp. lra. }
  assert (Hlow : forall i, (0 <= i <= k - s)%Z -> U i < t).
  { intros i Hi. destruct (Req_EM_T t (U k)) as [E|E].
    - destruct (Hs3 E) as [H|H]; [lia|]. assert (U i <= U (k - s)%Z) by (apply Hm; lia). lra.
    - rewrite (Hs2 E) in *. assert (U i <= U k) by (apply Hm; lia). lra. }
  assert (Hhigh : forall i, (k < i <= n + Z.of_nat p)%Z -> t < U i).
  { intros i Hi. assert (U (k + 1)%Z <= U i) by (apply Hm; lia). lra. }
  assert (HNs : (Z.of_nat N <= Z.of_nat m + s)%Z).
  { destruct (Nat.eq_dec (count_occ Req_EM_T (bs_knots c) t) 0) as [E0|E0]; [lia|].
    destruct (knot_run c t Hv ltac:(rewrite EL0, EU0; exact Ht) ltac:(lia)) as (a & Ha0 & Ha1 & Harun).
    fold n p U in Ha1, Harun. set (q := Z.of_nat (count_occ Req_EM_T (bs_knots c) t)) in *.
    assert (k - s < a)%Z.
    { destruct (Z_lt_le_dec (k - s) a); [assumption|exfalso]. pose proof (Hlow a ltac:(lia)). pose proof (Harun a ltac:(lia)). lra. }
    assert (a + q - 1 <= k)%Z.
    { destruct (Z_le_gt_dec (a + q - 1) k); [assumption|exfalso]. pose proof (Hhigh (a + q - 1)%Z ltac:(lia)). pose proof (Harun (a + q - 1)%Z ltac:(lia)). lra. }
    lia. }
  set (M := Z.of_nat m) in *. set (U' := insU U k M t) in *. set (Q := insQ U (Z.to_nat (Z.of_nat p)) k s M t cp) in *.
  assert (Hm' : mono U' 0 (n + M + Z.of_nat p)).
  { replace (n + M + Z.of_nat p)%Z with (n + Z.of_nat p + M)%Z by lia. apply (insU_mono U 0%nat k M t 0 (n + Z.of_nat p) Hm); (lia || exact Hb). }
  assert (EUp : U' (Z.of_nat p) = U (Z.of_nat p)) by (apply insU_low; lia).
  assert (EUn : U' (n + M)%Z = U n) by (unfold U'; rewrite insU_high by lia; f_equal; lia).
  assert (Hk' : kval (n + M) (Z.of_nat p) U') by (split; [exact Hm'|rewrite EUp, EUn; exact Hd]).
  assert (Hlow' : forall i, (0 <= i <= k - s)%Z -> U' i < t) by (intros i Hi; unfold U'; rewrite insU_low by lia; apply Hlow; lia).
  assert (Hhigh' : forall i, (k + M < i <= n + M + Z.of_nat p)%Z -> t < U' i) by (intros i Hi; unfold U'; rewrite insU_high by lia; apply Hhigh; lia).
  assert (Hrun' : forall i, (k - s < i <= k + M)%Z -> U' i = t).
  { intros i Hi. destruct (Z_le_gt_dec i k); unfold U'; [rewrite insU_low by lia; apply Hrun; lia|apply insU_mid; lia]. }
  destruct (rem_setup c1 (n + M) (Z.of_nat p) U' Q t Hr1 Hk' ltac:(rewrite EUp, EUn; exact Ht) (k + M) ltac:(lia) (Hrun' (k + M)%Z ltac:(lia)))
    as (r & s' & Er & Hrn & Em & Hss & Hsr & Hlo & Hrr & Hhi).
  { intros i H1 H2 H3 H4.
    assert (k - s < i)%Z by (destruct (Z_lt_le_dec (k - s) i); [assumption|pose proof (Hlow' i ltac:(lia)); lra]).
    assert (i + Z.of_nat p <= k + M)%Z by (destruct (Z_le_gt_dec (i + Z.of_nat p) (k + M)); [assumption|pose proof (Hhigh' (i + Z.of_nat p)%Z ltac:(lia)); lra]).
    lia. }
  assert (r = k + M)%Z.
  { destruct (Z_lt_le_dec r (k + M)).
    - pose proof (Hhi (k + M)%Z ltac:(lia)). rewrite (Hrun' (k + M)%Z) in * by lia. lra.
    - destruct (Z.eq_dec r (k + M)); [assumption|]. pose proof (Hhigh' r ltac:(lia)). rewrite (Hrr r) in * by lia. lra. }
  subst r.
  assert (s' = s + M)%Z.
  { destruct (Z_lt_le_dec s' (s + M)).
    - pose proof (Hlo (k + M - s')%Z ltac:(lia)). rewrite (Hrun' (k + M - s')%Z) in * by lia. lra.
    - destruct (Z.eq_dec s' (s + M)); [assumption|]. pose proof (Hlow' (k - s)%Z ltac:(lia)). rewrite (Hrr (k - s)%Z) in * by lia. lra. }
  subst s'.
  destruct (rem_gen c1 (n + M) (Z.of_nat p) U' Q (k + M) (s + M) t (Z.of_nat N) tol Hr1 ltac:(lia) Hlo Hrr Hhi Hrn ltac:(lia) ltac:(lia) Htol Er Em ltac:(rewrite EUp, EUn; lra))
    as (c' & count & X & Ec & Hc & Hper' & Hr' & _ & Hmax).
  assert (EQ : forall i, (0 <= i < n + M)%Z -> Q i = reins U' (Z.of_nat p) (k + M) (s + M) t m 0 cp i).
  { intros i Hi. pose proof (reins_insQ U' (Z.of_nat p) (k + M) (s + M) t M m cp ltac:(lia) ltac:(lia) ltac:(lia) i) as E.
    fold M in E. rewrite Z.sub_diag in E. rewrite E. unfold Q.
    replace (k + M - M)%Z with k by lia. replace (s + M - M)%Z with s by lia.
    apply insQ_extU. intros j. unfold remV, U', insU. replace (k + M - M)%Z with k by lia.
    destruct (Z.leb_spec j k); [reflexivity|]. destruct (Z.leb_spec (j + M) k); [lia|]. destruct (Z.leb_spec (j + M) (k + M)); [lia|]. f_equal. lia. }
  destruct (Hmax m cp ltac:(lia) EQ) as [Hge HX].
  exists c', (Z.to_nat count). rewrite Z2Nat.id by lia. split; [exact Ec|]. split; [lia|].
  intros ->. assert (count = M)%Z by (unfold M in *; lia). subst count. replace (n + M - M)%Z with n in * by lia.
  destruct c as [pts kn per], c' as [pts' kn' per']. cbn [bs_pts bs_knots bs_periodic] in *. f_equal.
  - apply (arr_uniq pts' pts n cp); [|exact (rep_pts _ _ _ _ _ Hr)].
    eapply arr_ext; [exact (rep_pts _ _ _ _ _ Hr')|]. intros i Hi. apply HX; [reflexivity|lia].
  - apply (arr_uniq kn' kn (n + Z.of_nat p + 1)%Z U); [|exact (rep_knots _ _ _ _ _ Hr)].
    eapply arr_ext; [exact (rep_knots _ _ _ _ _ Hr')|]. intros j Hj. unfold remV, U', insU. replace (k + M - M)%Z with k by lia.
    destruct (Z.leb_spec j k); [reflexivity|]. destruct (Z.leb_spec (j + M) k); [lia|]. destruct (Z.leb_spec (j + M) (k + M)); [lia|]. f_equal. lia.
  - congruence.
Qed.
