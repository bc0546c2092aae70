(** Conversion of a B-spline curve to Bezier segments. *)
From Coq Require Import Reals Lra Lia ZArith List Permutation Bool.
From Verif Require Import Monad MonadFacts LoopFacts Scalar ScalarFacts Spec SpecFacts Polar ModelCurve CurveFacts ModelBezier
  BezierFacts BezierMath BezierThms BSplineMath ModelBSpline BSplineFacts BSplineThms BSplineThms2 BSplineThms3
  BSplineInsert BSplineInsert2 BSplineInsert3 BSplineSplit.
Import ListNotations.
Local Open Scope R_scope.

(** * Multiplicity of a knot as a count *)
Lemma run_count (l : list R) (u : R) a b : nondecreasing l -> (a <= b < length l)%nat ->
  (forall i, (a <= i <= b)%nat -> nth i l 0 = u) ->
  (a = 0%nat \/ nth (a - 1) l 0 <> u) -> (b = (length l - 1)%nat \/ nth (b + 1) l 0 <> u) ->
  count_occ Req_EM_T l u = (b - a + 1)%nat.
Proof.
  intros Hs Hab Hrun Ha Hb.
  rewrite <- (firstn_skipn a l). rewrite <- (firstn_skipn (b - a + 1) (skipn a l)).
  rewrite !count_occ_app.
  assert (E1 : count_occ Req_EM_T (firstn a l) u = 0%nat).
  { apply count_occ_not_In. intros Hin. apply (In_nth _ _ 0) in Hin. destruct Hin as (i & Hi & E).
    rewrite firstn_length in Hi. rewrite nth_firstn_lt in E by lia.
    destruct Ha as [Ha|Ha]; [lia|]. apply Ha.
    assert (nth i l 0 <= nth (a - 1) l 0) by (apply Hs; lia). assert (nth (a - 1) l 0 <= nth a l 0) by (apply Hs; lia).
    rewrite (Hrun a) in * by lia. lra. }
  assert (E2 : firstn (b - a + 1) (skipn a l) = repeat u (b - a + 1)).
  { apply (nth_ext _ _ 0 0).
    - rewrite firstn_length, skipn_length, repeat_length. lia.
    - intros i Hi. rewrite firstn_length, skipn_length in Hi. rewrite nth_firstn_lt by lia. rewrite nth_skipn_add.
      rewrite Hrun by lia. rewrite nth_indep with (d' := u) by (rewrite repeat_length; lia). now rewrite nth_repeat. }
  assert (E3 : count_occ Req_EM_T (skipn (b - a + 1) (skipn a l)) u = 0%nat).
  { apply count_occ_not_In. intros Hin. apply (In_nth _ _ 0) in Hin. destruct Hin as (i & Hi & E).
    rewrite !skipn_length in Hi. rewrite !nth_skipn_add in E.
    destruct Hb as [Hb|Hb]; [lia|]. apply Hb.
    assert (nth (b + 1) l 0 <= nth (a + (b - a + 1 + i)) l 0) by (apply Hs; lia). assert (nth b l 0 <= nth (b + 1) l 0) by (apply Hs; lia).
    rewrite (Hrun b) in * by lia. lra. }
  rewrite E1, E2, E3, count_occ_repeat_eq by reflexivity. lia.
Qed.

Lemma mult_count {P} {V : PointOps R P} {L : PointLaws P} (c : bspline R P) (k : Z) : valid_bspline (bs_pts c) (bs_knots c) ->
  (0 <= k < Z.of_nat (length (bs_knots c)))%Z ->
  exists a b, get_multiplicity c k = Ok (Z.of_nat (count_occ Req_EM_T (bs_knots c) (knot_of (bs_knots c) k))) /\
    Z.of_nat (count_occ Req_EM_T (bs_knots c) (knot_of (bs_knots c) k)) = (b - a + 1)%Z /\
    (0 <= a <= k)%Z /\ (k <= b < Z.of_nat (length (bs_knots c)))%Z /\
    (forall i, (a <= i <= b)%Z -> knot_of (bs_knots c) i = knot_of (bs_knots c) k).
Proof.
  intros Hv Hk. destruct (valid_rep c Hv) as [Hr Hkv]. pose proof (rep_nknots _ _ _ _ _ Hr) as HL. unfold zlen in HL.
  destruct (get_multiplicity_correct c _ _ _ _ k Hr ltac:(lia)) as (a & b & E & Ha & Hb & Hrun & H1 & H2).
  exists a, b.
  assert (Ec : Z.of_nat (count_occ Req_EM_T (bs_knots c) (knot_of (bs_knots c) k)) = (b - a + 1)%Z).
  { rewrite (run_count _ _ (Z.to_nat a) (Z.to_nat b) (vb_sorted _ _ Hv)); [lia|lia| | |].
    - intros i Hi. rewrite <- knot_of_nat. apply Hrun. lia.
    - destruct H1 as [H1|H1]; [left; lia|]. destruct (Z.eq_dec a 0) as [E0|E0]; [left; lia|]. right. rewrite <- knot_of_nat.
      replace (Z.of_nat (Z.to_nat a - 1)) with (a - 1)%Z by lia. exact H1.
    - destruct H2 as [H2|H2]; [left; lia|]. destruct (Z.eq_dec b (Z.of_nat (length (bs_knots c)) - 1)) as [E0|E0]; [left; lia|].
      right. rewrite <- knot_of_nat. replace (Z.of_nat (Z.to_nat b + 1)) with (b + 1)%Z by lia. exact H2. }
  split; [rewrite Ec; exact E|]. split; [exact Ec|]. split; [lia|]. split; [lia|exact Hrun].
Qed.

Lemma apart_in (l : list R) tol u v : knots_apart tol l -> nondecreasing l -> In u l -> In v l -> u = v \/ tol < Rabs (u - v).
Proof.
  intros Ha Hs Hu Hv. apply (In_nth _ _ 0) in Hu, Hv. destruct Hu as (i & Hi & <-), Hv as (j & Hj & <-).
  destruct (Rtotal_order (nth i l 0) (nth j l 0)) as [H|[H|H]]; [right|left; exact H|right].
  - assert (i <= j)%nat.
    { destruct (le_gt_dec i j); [assumption|]. assert (nth j l 0 <= nth i l 0) by (apply Hs; lia). lra. }
    specialize (Ha i j ltac:(lia) H). rewrite Rabs_left by lra. lra.
  - assert (j <= i)%nat.
    { destruct (le_gt_dec j i); [assumption|]. assert (nth i l 0 <= nth j l 0) by (apply Hs; lia). lra. }
    specialize (Ha j i ltac:(lia) H). rewrite Rabs_right by lra. lra.
Qed.

Lemma lower_knot {P} (c : bspline R P) : lower_of (bs_pts c) (bs_knots c) = knot_of (bs_knots c) (Z.of_nat (bspline_degree (bs_pts c) (bs_knots c))).
Proof. unfold lower_of; now rewrite knot_of_nat. Qed.
Lemma upper_knot {P} (c : bspline R P) : upper_of (bs_pts c) (bs_knots c) = knot_of (bs_knots c) (Z.of_nat (length (bs_pts c))).
Proof. unfold upper_of; now rewrite knot_of_nat. Qed.

(** * Saturating the knots *)
Section Sat.
  Context {d : nat}.
  Variable c : bspline R (vec R d).
  Notation pts := (bs_pts c).
  Notation knots := (bs_knots c).
  Notation p := (bspline_degree (bs_pts c) (bs_knots c)).
  Notation cnt := (count_occ Req_EM_T).
  Hypothesis Hv : valid_bspline pts knots.
  Hypothesis Ha : knots_apart (/ IZR (10 ^ 16)) knots.
  Hypothesis Hs : nth p knots 0 < nth (p + 1) knots 0.

  Record sat_rel (cv : bspline R (vec R d)) : Prop := {
    sr_per : bs_periodic cv = bs_periodic c;
    sr_valid : valid_bspline (bs_pts cv) (bs_knots cv);
    sr_apart : knots_apart (/ IZR (10 ^ 16)) (bs_knots cv);
    sr_start : regular_start (bs_pts cv) (bs_knots cv);
    sr_deg : bspline_degree (bs_pts cv) (bs_knots cv) = p;
    sr_lower : lower_of (bs_pts cv) (bs_knots cv) = lower_of pts knots;
    sr_upper : upper_of (bs_pts cv) (bs_knots cv) = upper_of pts knots;
    sr_in : forall u, In u (bs_knots cv) <-> In u knots;
    sr_cnt : forall u, (cnt knots u <= cnt (bs_knots cv) u <= Nat.max p (cnt knots u))%nat;
    sr_eval : forall x, lower_of pts knots <= x <= upper_of pts knots ->
      bs_evaluate (nonperiodic cv) x = bs_evaluate (nonperiodic c) x;
    sr_conv : conv_pres pts (bs_pts cv);
  }.

  Lemma sat_refl : sat_rel c.
  Proof.
    split; try reflexivity; try assumption; [left; exact Hs| |apply conv_refl]. intros u. lia.
  Qed.

  Lemma sat_step cv u : sat_rel cv -> In u knots -> lower_of pts knots <= u <= upper_of pts knots ->
    (nth p (bs_knots cv) 0 < nth (p + 1) (bs_knots cv) 0 \/ lower_of pts knots < u) ->
    exists cv', (if (Z.of_nat (cnt (bs_knots cv) u) <? Z.of_nat p)%Z
                 then bs_insert_knot cv u (Z.of_nat p - Z.of_nat (cnt (bs_knots cv) u)) else Ok cv) = Ok cv' /\
      sat_rel cv' /\ (p <= cnt (bs_knots cv') u)%nat /\ (forall v, (cnt (bs_knots cv) v <= cnt (bs_knots cv') v)%nat) /\
      (forall v, v <> u -> cnt (bs_knots cv') v = cnt (bs_knots cv) v).
  Proof.
    intros Hc Hin Hu Hreg. destruct Hc as [H1 H2 H3 H4 H5 H6 H7 H8 H9 H10 H11].
    destruct (Z.ltb_spec (Z.of_nat (cnt (bs_knots cv) u)) (Z.of_nat p)) as [Hlt|Hge].
    - set (r := (p - cnt (bs_knots cv) u)%nat).
      replace (Z.of_nat p - Z.of_nat (cnt (bs_knots cv) u))%Z with (Z.of_nat r) by lia.
      destruct (bspline_insert_full d cv u r H2 H3 H4) as (c' & E & P1 & P2 & P3 & P4 & P5 & P6 & _ & P7 & P8 & P9 & P10).
      + rewrite H6, H7. exact Hu.
      + intros v Hvin. apply (apart_in knots); [exact Ha|exact (vb_sorted _ _ Hv)| |exact Hin]. now apply H8.
      + rewrite H5, H6. exact Hreg.
      + lia.
      + rewrite H5. lia.
      + exists c'. split; [exact E|].
        assert (Ec : forall v, cnt (bs_knots c') v = ((if Req_EM_T u v then r else 0) + cnt (bs_knots cv) v)%nat).
        { intros v. rewrite (Permutation_count_occ Req_EM_T) in P4. rewrite (P4 v), count_occ_app. f_equal.
          destruct (Req_EM_T u v) as [->|Hn]; [now rewrite count_occ_repeat_eq|]. rewrite count_occ_repeat_neq by congruence. reflexivity. }
        split; [|split; [|split]].
        * split; try assumption; try congruence.
          -- intros v. rewrite <- H8. split; intros Hi.
             ++ apply (Permutation_in _ P4), in_app_or in Hi. destruct Hi as [Hi|Hi]; [|exact Hi].
                apply repeat_spec in Hi. subst v. now apply H8.
             ++ apply (Permutation_in _ (Permutation_sym P4)), in_or_app. now right.
          -- intros v. rewrite Ec. specialize (H9 v). destruct (Req_EM_T u v) as [->|]; unfold r; lia.
          -- intros x Hx. rewrite P9 by (rewrite H6, H7; exact Hx). now apply H10.
          -- eapply conv_trans; eassumption.
        * rewrite Ec. destruct (Req_EM_T u u); [unfold r; lia|congruence].
        * intros v. rewrite Ec. lia.
        * intros v Hn. rewrite Ec. destruct (Req_EM_T u v); [congruence|reflexivity].
    - exists cv. split; [reflexivity|]. split; [split; assumption|]. split; [lia|]. split; [intros v; lia|reflexivity].
  Qed.

  Lemma sat_all : exists cv, bs_saturate c = Ok cv /\ sat_rel cv /\
    forall u, In u knots -> lower_of pts knots <= u <= upper_of pts knots -> (p <= cnt (bs_knots cv) u)%nat.
  Proof.
    destruct (valid_rep c Hv) as [Hr Hk]. pose proof Hk as [Hm Hd].
    pose proof (rep_p _ _ _ _ _ Hr) as Hp. pose proof (rep_pn _ _ _ _ _ Hr) as Hpn.
    pose proof (rep_nknots _ _ _ _ _ Hr) as HL. unfold zlen in HL.
    pose proof (lower_knot c) as EL. pose proof (upper_knot c) as EU.
    assert (Hlu : lower_of pts knots < upper_of pts knots) by (rewrite EL, EU; exact Hd).
    unfold bs_saturate. rewrite (rep_degree _ _ _ _ _ Hr).
    rewrite (rep_lower _ _ _ _ _ Hr), (rep_upper _ _ _ _ _ Hr), !bind_Ok. rewrite <- EL, <- EU.
    rewrite (locate_span_low c _ _ _ _ _ Hr) by lra. rewrite bind_Ok.
    destruct (locate_span_high c _ _ _ _ (upper_of pts knots) Hr Hd Hm ltac:(lra)) as (ke & -> & Hke & _ & Eke). rewrite bind_Ok.
    destruct (mult_count c (Z.of_nat p) Hv ltac:(lia)) as (a1 & b1 & -> & _). rewrite bind_Ok. rewrite <- EL.
    destruct (mult_count c (ke + 1) Hv ltac:(lia)) as (a2 & b2 & -> & _). rewrite bind_Ok. rewrite Eke, <- EU.
    assert (Ilo : In (lower_of pts knots) knots) by (apply nth_In; lia).
    assert (Iup : In (upper_of pts knots) knots) by (apply nth_In; lia).
    destruct (sat_step c (lower_of pts knots) sat_refl Ilo ltac:(lra) (or_introl Hs)) as (c1 & -> & S1 & L1 & M1 & N1). rewrite bind_Ok.
    destruct (sat_step c1 (upper_of pts knots) S1 Iup ltac:(lra) ltac:(right; lra)) as (c2 & E2 & S2 & L2 & M2 & N2).
    rewrite (N1 (upper_of pts knots)) in E2 by lra. rewrite E2, bind_Ok.
    assert (L1' : (p <= cnt (bs_knots c2) (lower_of pts knots))%nat) by (rewrite N2 by lra; exact L1).
    set (Q := fun cv => sat_rel cv /\ forall u, In u knots -> lower_of pts knots <= u <= upper_of pts knots -> (p <= cnt (bs_knots cv) u)%nat).
    set (Inv := fun (i : Z) cv => sat_rel cv /\ (p <= cnt (bs_knots cv) (lower_of pts knots))%nat /\
       (p <= cnt (bs_knots cv) (upper_of pts knots))%nat /\
       forall j, (0 <= j < i)%Z -> lower_of pts knots <= knot_of knots j <= upper_of pts knots -> (p <= cnt (bs_knots cv) (knot_of knots j))%nat).
    match goal with |- context [forb_up 0 (zlen knots) ?f c2] =>
      destruct (forb_up_inv Inv Q 0 (zlen knots) f c2) as (x & Ex & Hx) end.
    - apply zlen_nonneg.
    - split; [exact S2|]. split; [exact L1'|]. split; [exact L2|]. intros j Hj; lia.
    - intros i cv Hi (Sc & Hlo & Hup & Hj). unfold zlen in Hi.
      assert (Eg : get knots i = Ok (knot_of knots i)) by (apply (rep_get _ _ _ _ _ i Hr); lia).
      rewrite Eg, bind_Ok. simpl sle.
      assert (Hin : In (knot_of knots i) knots) by (apply nth_In; lia).
      assert (Hnext : forall cv' : bspline R (vec R d), sat_rel cv' -> (forall v, (cnt (bs_knots cv) v <= cnt (bs_knots cv') v)%nat) ->
        (lower_of pts knots <= knot_of knots i <= upper_of pts knots -> (p <= cnt (bs_knots cv') (knot_of knots i))%nat) -> Inv (i + 1)%Z cv').
      { intros cv' S' M' H'. split; [exact S'|]. split; [pose proof (M' (lower_of pts knots)); lia|].
        split; [pose proof (M' (upper_of pts knots)); lia|].
        intros j Hj1 Hj2. destruct (Z.eq_dec j i) as [->|]; [now apply H'|].
        pose proof (M' (knot_of knots j)). specialize (Hj j ltac:(lia) Hj2). lia. }
      destruct (Rleb_spec (knot_of knots i) (lower_of pts knots)) as [Hle|Hgt].
      { eexists. split; [reflexivity|]. cbv beta iota. apply Hnext; [exact Sc|intros; lia|].
        intros Hb. replace (knot_of knots i) with (lower_of pts knots) by lra. exact Hlo. }
      destruct (Rleb_spec (upper_of pts knots) (knot_of knots i)) as [Hle|Hlt].
      { eexists. split; [reflexivity|]. cbv beta iota. split; [exact Sc|]. intros u Hu Hb.
        apply (In_nth _ _ 0) in Hu. destruct Hu as (j & Hjl & <-). rewrite <- knot_of_nat in *.
        destruct (Z_lt_le_dec (Z.of_nat j) i) as [Hji|Hji].
        - apply Hj; [lia|exact Hb].
        - assert (knot_of knots i <= knot_of knots (Z.of_nat j)) by (apply Hm; lia).
          replace (knot_of knots (Z.of_nat j)) with (upper_of pts knots) by lra. exact Hup. }
      destruct (valid_rep cv (sr_valid _ Sc)) as [Hrc Hkc].
      pose proof (lower_knot cv) as ELc. pose proof (upper_knot cv) as EUc.
      rewrite (sr_lower _ Sc) in ELc. rewrite (sr_upper _ Sc) in EUc. rewrite (sr_deg _ Sc) in *.
      pose proof (rep_nknots _ _ _ _ _ Hrc) as HLc. unfold zlen in HLc. pose proof (rep_pn _ _ _ _ _ Hrc) as Hpnc.
      destruct (locate_span_mid cv _ _ _ _ (knot_of knots i) Hrc ltac:(rewrite <- ELc, <- EUc; lra)) as (k & -> & Hkb & Hks).
      rewrite bind_Ok.
      assert (Ek : knot_of (bs_knots cv) k = knot_of knots i).
      { apply (sr_in _ Sc) in Hin. apply (In_nth _ _ 0) in Hin. destruct Hin as (j & Hjl & Ej). rewrite <- knot_of_nat in Ej.
        destruct (Z_le_gt_dec (Z.of_nat j) k).
        - assert (knot_of (bs_knots cv) (Z.of_nat j) <= knot_of (bs_knots cv) k) by (apply (kv_mono _ _ _ Hkc); lia). lra.
        - assert (knot_of (bs_knots cv) (k + 1) <= knot_of (bs_knots cv) (Z.of_nat j)) by (apply (kv_mono _ _ _ Hkc); lia). lra. }
      destruct (mult_count cv k (sr_valid _ Sc) ltac:(lia)) as (a & b & -> & _). rewrite bind_Ok, Ek.
      destruct (sat_step cv (knot_of knots i) Sc Hin ltac:(lra) ltac:(right; lra)) as (cv' & E' & S' & L' & M' & _).
      destruct (Z.of_nat (cnt (bs_knots cv) (knot_of knots i)) <? Z.of_nat p)%Z.
      + rewrite E', bind_Ok. eexists. split; [reflexivity|]. apply Hnext; auto.
      + injection E' as <-. eexists. split; [reflexivity|]. apply Hnext; auto.
    - rewrite Ex, bind_Ok. exists (match x with inl y => y | inr y => y end). split; [reflexivity|].
      destruct x as [cv|cv]; [|exact Hx]. destruct Hx as (S' & Hlo & Hup & Hj). split; [exact S'|].
      intros u Hu Hb. apply (In_nth _ _ 0) in Hu. destruct Hu as (j & Hjl & <-). rewrite <- knot_of_nat in *.
      apply Hj; [unfold zlen; lia|exact Hb].
  Qed.
End Sat.

(** * Cutting a saturated curve *)
Section Seg.
  Context {d : nat}.
  Variables (c : bspline R (vec R d)) (n p : Z) (U : Z -> R) (cp : Z -> vec R d).
  Hypothesis Hr : bsrep c n p U cp.
  Hypothesis Hv : kval n p U.
  Hypothesis Hap : kapart n p U.
  Hypothesis Hst : kstart p U.
  Hypothesis Hsat : forall k, (p <= k < n)%Z -> U k < U (k + 1)%Z ->
    (forall i, (k - p < i <= k)%Z -> U i = U k) /\ (forall i, (k + 1 <= i <= k + p)%Z -> U i = U (k + 1)%Z).

  (** Segment [l] holds the control points of span [k]. *)
  Definition seg_at (l : list (vec R d)) (k : Z) : Prop :=
    (p <= k < n)%Z /\ U k < U (k + 1)%Z /\ arr l (p + 1) (fun j => cp (k - p + j)%Z).

  Lemma seg_value l k x : seg_at l k ->
    bz_evaluate (mk_bezier l) ((x - U k) / (U (k + 1)%Z - U k)) = Ok (tri (alU U (Z.to_nat p)) cp (repeat x (Z.to_nat p)) k).
  Proof.
    intros (Hk & Hlt & Hl). pose proof (rep_p _ _ _ _ _ Hr) as Hp. pose proof (rep_pn _ _ _ _ _ Hr) as Hpn.
    destruct (Hsat k Hk Hlt) as [HsL HsR]. destruct Hv as [Hm Hd].
    rewrite (arr_bezier d (mk_bezier l) (Z.to_nat p) (fun j => cp (k - p + j)%Z)); [|reflexivity|].
    2:{ cbn [bz_pts mk_bezier]. replace (Z.of_nat (Z.to_nat p) + 1)%Z with (p + 1)%Z by lia. exact Hl. }
    f_equal. apply vec_ext. intros e He. rewrite !coord_tri by assumption.
    assert (Hsep : sepk U (Z.to_nat p) k) by (apply (sepk_mono U 0 (n + p)); [exact Hm|lia|lia|lia|lia|exact Hlt]).
    rewrite (bz_reparam (Z.to_nat p) _ (fun xs => tri (alU U (Z.to_nat p)) (fun i => coord d e (cp i)) xs k) (U k) (U (k + 1)%Z)).
    - do 3 f_equal. field. lra.
    - apply tri_polar. exact Hsep.
    - intros i Hi. rewrite <- (tri_at_knots U (Z.to_nat p) k Hsep (fun i => coord d e (cp i)) (k - p + i)) by lia.
      f_equal. replace (Z.to_nat p) with ((Z.to_nat p - Z.to_nat i) + Z.to_nat i)%nat at 1 by lia.
      rewrite seg_app. f_equal; apply seg_const; intros j Hj; [apply HsL; lia|apply HsR; lia].
  Qed.

  Lemma seg_eval l k x : seg_at l k ->
    (U k <= x < U (k + 1)%Z \/ (x = U (k + 1)%Z /\ (U (k + 1)%Z = U n \/ mult_le n p U x p))) ->
    bz_evaluate (mk_bezier l) ((x - U k) / (U (k + 1)%Z - U k)) = bs_evaluate (nonperiodic c) x.
  Proof.
    intros Hl Hx. rewrite (seg_value l k x Hl). destruct Hl as (Hk & Hlt & _). pose proof Hv as [Hm Hd].
    pose proof (rep_p _ _ _ _ _ Hr) as Hp. pose proof (rep_pn _ _ _ _ _ Hr) as Hpn.
    assert (HUk : U p <= U k) by (apply Hm; lia). assert (HUk1 : U (k + 1)%Z <= U n) by (apply Hm; lia).
    assert (Hu0 : bs_unwrap (nonperiodic c) x = Ok x) by (now apply bs_unwrap_off).
    destruct (bs_eval_tri (nonperiodic c) n p U cp x x (rep_nonper _ _ _ _ _ Hr) Hv Hap (or_introl Hst) Hu0 ltac:(destruct Hx as [?|[? ?]]; lra)) as (k0 & Hk0 & Hs0 & E0).
    rewrite E0. f_equal.
    destruct (Rlt_le_dec x (U (k + 1)%Z)) as [Hxl|Hxl].
    { assert (k0 = k); [|now subst]. apply (in_span_unique U (U n) 0 (n + p) k0 k x Hm); try lia; [exact Hs0|].
      left. destruct Hx as [?|[? ?]]; lra. }
    destruct Hx as [Hx|[Hx [He|Hml]]]; [lra| |].
    { assert (k0 = k); [|now subst]. apply (in_span_unique U (U n) 0 (n + p) k0 k x Hm); try lia; [exact Hs0|].
      right. lra. }
    destruct (Req_EM_T (U (k + 1)%Z) (U n)) as [He|Hne].
    { assert (k0 = k); [|now subst]. apply (in_span_unique U (U n) 0 (n + p) k0 k x Hm); try lia; [exact Hs0|].
      right. lra. }
    destruct (in_span_bounds _ _ _ _ Hs0) as [Hb0 Hlt0].
    assert (Hs0' : U k0 <= x < U (k0 + 1)%Z) by (destruct Hs0 as [[? ?]|[? ?]]; lra).
    assert (HkL : (k < k0)%Z).
    { destruct (Z_lt_le_dec k k0); [assumption|]. assert (U (k0 + 1)%Z <= U (k + 1)%Z) by (apply Hm; lia). lra. }
    assert (Ek0 : U k0 = x) by (assert (U (k + 1)%Z <= U k0) by (apply Hm; lia); lra).
    destruct (Hsat k0 Hk0 ltac:(lra)) as [HsL _]. destruct (Hsat k Hk Hlt) as [_ HsR].
    assert (Ek : k0 = (k + p)%Z).
    { destruct (Z.lt_trichotomy k0 (k + p)) as [H|[H|H]]; [exfalso|exact H|exfalso].
      - specialize (HsR (k0 + 1)%Z ltac:(lia)). lra.
      - apply (Hml (k0 - p)%Z); [lia|lia| |rewrite <- Ek0; f_equal; lia].
        assert (U (k + 1)%Z <= U (k0 - p)%Z) by (apply Hm; lia). assert (U (k0 - p)%Z <= U k0) by (apply Hm; lia). lra. }
    subst k0. apply vec_ext. intros e Hee. rewrite !coord_tri by assumption.
    assert (Eseg : repeat x (Z.to_nat p) = seg U (k + 1) (Z.to_nat p)).
    { symmetry. apply seg_const. intros i Hi. rewrite HsR by lia. lra. }
    rewrite Eseg.
    assert (Hsep1 : sepk U (Z.to_nat p) k) by (apply (sepk_mono U 0 (n + p)); [exact Hm|lia|lia|lia|lia|exact Hlt]).
    assert (Hsep2 : sepk U (Z.to_nat p) (k + p)) by (apply (sepk_mono U 0 (n + p)); [exact Hm|lia|lia|lia|lia|lra]).
    rewrite (tri_at_knots U (Z.to_nat p) k Hsep1 _ k) by lia.
    rewrite (tri_at_knots U (Z.to_nat p) (k + p) Hsep2 _ k) by lia. reflexivity.
  Qed.

  Definition segs_ok (segs : list (bezier (vec R d))) (bounds : list R) : Prop :=
    length bounds = S (length segs) /\ nth 0 bounds 0 = U p /\
    (forall b, In b bounds -> exists j, (0 <= j <= n + p)%Z /\ U j = b /\ U p <= b <= U n) /\
    forall j, (j < length segs)%nat -> exists l k, nth_error segs j = Some (mk_bezier l) /\ seg_at l k /\
      nth j bounds 0 = U k /\ nth (j + 1) bounds 0 = U (k + 1)%Z.

  Lemma segments_correct : exists segs bounds, bs_segments c p (U p) (U n) = Ok (segs, bounds) /\
    segs_ok segs bounds /\ nth (length segs) bounds 0 = U n /\
    forall j, (0 <= j <= n + p)%Z -> U p <= U j <= U n -> In (U j) bounds.
  Proof.
    pose proof (rep_p _ _ _ _ _ Hr) as Hp. pose proof (rep_pn _ _ _ _ _ Hr) as Hpn. pose proof Hv as [Hm Hd].
    unfold bs_segments. rewrite (rep_nknots _ _ _ _ _ Hr).
    set (Inv := fun (i : Z) (st : list (bezier (vec R d)) * list R * R) => let '(segs, bounds, curr) := st in
      segs_ok segs bounds /\ nth (length segs) bounds 0 = curr /\ U p <= curr <= U n /\
      (forall j, (0 <= j < i)%Z -> U j <= curr) /\ (curr = U p \/ exists j, (0 <= j < i)%Z /\ U j = curr) /\
      (forall j, (0 <= j < i)%Z -> U p <= U j -> In (U j) bounds)).
    set (Q := fun (st : list (bezier (vec R d)) * list R * R) => let '(segs, bounds, curr) := st in
      segs_ok segs bounds /\ nth (length segs) bounds 0 = U n /\
      forall j, (0 <= j <= n + p)%Z -> U p <= U j <= U n -> In (U j) bounds).
    assert (Hfin : forall i st, Inv i st -> (n < i)%Z -> (forall j, (i <= j <= n + p)%Z -> U n < U j) -> Q st).
    { intros i [[segs bounds] curr] (H1 & H2 & H3 & H4 & H5 & H6) Hi Hgt.
      assert (U n <= curr) by (apply H4; lia). split; [exact H1|]. split; [lra|].
      intros j Hj Hb. destruct (Z_lt_le_dec j i); [apply H6; [lia|lra]|]. specialize (Hgt j ltac:(lia)). lra. }
    match goal with |- context [forb_up 0 _ ?f ?s] =>
      destruct (forb_up_inv Inv Q 0 (n + p + 1) f s) as (x & Ex & Hx) end.
    - lia.
    - cbn. split.
      + split; [reflexivity|]. split; [reflexivity|]. split; [|intros j Hj; cbn in Hj; exfalso; lia].
        intros b [<-|[]]. exists p. split; [lia|]. split; [reflexivity|lra].
      + split; [reflexivity|]. split; [lra|]. split; [intros; exfalso; lia|]. split; [left; reflexivity|intros; exfalso; lia].
    - intros i [[segs bounds] curr] Hi HI. pose proof HI as (H1 & H2 & H3 & H4 & H5 & H6).
      rewrite (rep_get _ _ _ _ _ i Hr) by lia. rewrite bind_Ok. simpl sle.
      destruct (Rleb_spec (U i) curr) as [Hle|Hgt].
      { eexists. split; [reflexivity|]. cbn. split; [exact H1|]. split; [exact H2|]. split; [exact H3|]. split.
        - intros j Hj. destruct (Z.eq_dec j i) as [->|]; [exact Hle|apply H4; lia].
        - split; [destruct H5 as [H5|(j & Hj & E)]; [left; exact H5|right; exists j; split; [lia|exact E]]|].
          intros j Hj Hpj. destruct (Z.eq_dec j i) as [->|]; [|apply H6; [lia|exact Hpj]].
          destruct H5 as [H5|(j & Hj' & E)].
          + destruct H1 as (L1 & L2 & _). replace (U i) with (nth 0 bounds 0) by lra. apply nth_In. lia.
          + assert (U j <= U i) by (apply Hm; lia). replace (U i) with (U j) by lra. apply H6; [lia|lra]. }
      simpl slt. destruct (Rltb_spec (U n) (U i)) as [Hbrk|Hcont].
      { eexists. split; [reflexivity|]. cbv beta iota.
        apply (Hfin i (segs, bounds, curr) HI).
        - destruct (Z_lt_le_dec n i); [assumption|]. assert (U i <= U n) by (apply Hm; lia). lra.
        - intros j Hj. assert (U i <= U j) by (apply Hm; lia). lra. }
      assert (Hip : (p < i)%Z).
      { destruct (Z_lt_le_dec p i); [assumption|]. assert (U i <= U p) by (apply Hm; lia). lra. }
      assert (Hi1 : U (i - 1)%Z = curr).
      { assert (U (i - 1)%Z <= curr) by (apply H4; lia). destruct H5 as [H5|(j & Hj & E)].
        - assert (U p <= U (i - 1)%Z) by (apply Hm; lia). lra.
        - assert (U j <= U (i - 1)%Z) by (apply Hm; lia). lra. }
      assert (Hin : (i <= n)%Z).
      { destruct (Z_le_gt_dec i n); [assumption|]. assert (U n <= U (i - 1)%Z) by (apply Hm; lia). lra. }
      destruct (arr_block _ _ _ (i - p - 1) (p + 1) (rep_pts _ _ _ _ _ Hr) ltac:(lia) ltac:(lia) ltac:(lia)) as (l & -> & Hl).
      rewrite bind_Ok. eexists. split; [reflexivity|]. cbn.
      destruct H1 as (L1 & L2 & L3 & L4).
      split; [split; [|split; [|split]]|split; [|split; [|split; [|split]]]].
      + rewrite !app_length. simpl. lia.
      + rewrite app_nth1 by lia. exact L2.
      + intros b Hb. apply in_app_or in Hb. destruct Hb as [Hb|[<-|[]]]; [now apply L3|].
        exists i. split; [lia|]. split; [reflexivity|lra].
      + intros j Hj. rewrite app_length in Hj. simpl in Hj. destruct (Nat.eq_dec j (length segs)) as [->|Hne].
        * exists l, (i - 1)%Z. split; [rewrite nth_error_app2, Nat.sub_diag by lia; reflexivity|].
          replace (i - 1 + 1)%Z with i by lia. split.
          { split; [lia|]. split; [replace (i - 1 + 1)%Z with i by lia; lra|]. eapply arr_ext; [exact Hl|].
            intros j Hj'. cbv beta. f_equal. lia. }
          split; [rewrite app_nth1 by lia; lra|]. rewrite app_nth2 by lia. replace (length segs + 1 - length bounds)%nat with 0%nat by lia. reflexivity.
        * destruct (L4 j ltac:(lia)) as (l' & k' & E1 & E2 & E3 & E4). exists l', k'.
          split; [rewrite nth_error_app1 by lia; exact E1|]. split; [exact E2|]. split; rewrite app_nth1 by lia; assumption.
      + rewrite app_length. simpl. rewrite app_nth2 by lia. replace (length segs + 1 - length bounds)%nat with 0%nat by lia. reflexivity.
      + lra.
      + intros j Hj. apply Hm; lia.
      + right. exists i. split; [lia|reflexivity].
      + intros j Hj Hpj. apply in_or_app. destruct (Z.eq_dec j i) as [->|]; [right; left; reflexivity|left; apply H6; [lia|exact Hpj]].
    - rewrite Ex, bind_Ok. assert (HQ : Q (match x with inl y => y | inr y => y end)).
      { destruct x as [st|st]; [|exact Hx]. apply (Hfin _ _ Hx); [lia|intros; exfalso; lia]. }
      destruct (match x with inl y => y | inr y => y end) as [[segs bounds] curr]. destruct HQ as (Q1 & Q2 & Q3).
      exists segs, bounds. split; [reflexivity|]. split; [exact Q1|]. split; [exact Q2|exact Q3].
  Qed.
End Seg.

Lemma bspline_convert_full d (c : bspline R (vec R d)) :
  valid_bspline (bs_pts c) (bs_knots c) -> knots_apart (/ IZR (10 ^ 16)) (bs_knots c) ->
  nth (bspline_degree (bs_pts c) (bs_knots c)) (bs_knots c) 0
    < nth (bspline_degree (bs_pts c) (bs_knots c) + 1) (bs_knots c) 0 ->
  exists segs bounds, bs_convert_to_Bezier c = Ok (segs, bounds) /\
    length bounds = S (length segs) /\
    nth 0 bounds 0 = lower_of (bs_pts c) (bs_knots c) /\
    nth (length segs) bounds 0 = upper_of (bs_pts c) (bs_knots c) /\
    (forall u, In u bounds <-> (In u (bs_knots c) /\ lower_of (bs_pts c) (bs_knots c) <= u <= upper_of (bs_pts c) (bs_knots c))) /\
    (forall j, (j < length segs)%nat -> nth j bounds 0 < nth (j + 1) bounds 0) /\
    forall j, (j < length segs)%nat -> exists l, nth_error segs j = Some (mk_bezier l) /\
      conv_pres (bs_pts c) l /\ length l = S (bspline_degree (bs_pts c) (bs_knots c)) /\
      forall x, (nth j bounds 0 <= x < nth (j + 1) bounds 0 \/
                 (x = nth (j + 1) bounds 0 /\ (S j = length segs \/
                    (count_occ Req_EM_T (bs_knots c) x <= bspline_degree (bs_pts c) (bs_knots c))%nat))) ->
        bz_evaluate (mk_bezier l) ((x - nth j bounds 0) / (nth (j + 1) bounds 0 - nth j bounds 0))
          = bs_evaluate (mk_bspline (bs_pts c) (bs_knots c)) x.
Proof.
  intros Hv Ha Hs. destruct (sat_all c Hv Ha Hs) as (cv & Ecv & Sc & Hcnt).
  destruct (valid_rep c Hv) as [Hr0 Hk0]. destruct (valid_rep cv (sr_valid _ _ Sc)) as [Hr Hk].
  pose proof (lower_knot cv) as EL. pose proof (upper_knot cv) as EU.
  pose proof (lower_knot c) as EL0. pose proof (upper_knot c) as EU0.
  rewrite (sr_lower _ _ Sc) in EL. rewrite (sr_upper _ _ Sc) in EU.
  pose proof (apart_rep cv (sr_valid _ _ Sc) (sr_apart _ _ Sc)) as Hap. pose proof (start_rep cv (sr_start _ _ Sc)) as Hst.
  pose proof (mult_rep cv) as Hmr. 
  rewrite (sr_deg _ _ Sc) in *. set (p := bspline_degree (bs_pts c) (bs_knots c)) in *.
  set (U := knot_of (bs_knots cv)) in *. set (n := Z.of_nat (length (bs_pts cv))) in *.
  pose proof (rep_nknots _ _ _ _ _ Hr) as HL. unfold zlen in HL. pose proof (rep_pn _ _ _ _ _ Hr) as Hpn.
  pose proof Hk as [Hm Hd].
  assert (Hsat : forall k, (Z.of_nat p <= k < n)%Z -> U k < U (k + 1)%Z ->
    (forall i, (k - Z.of_nat p < i <= k)%Z -> U i = U k) /\ (forall i, (k + 1 <= i <= k + Z.of_nat p)%Z -> U i = U (k + 1)%Z)).
  { intros k Hkb Hlt.
    assert (HUk : U (Z.of_nat p) <= U k) by (apply Hm; lia). assert (HUk1 : U (k + 1)%Z <= U n) by (apply Hm; lia).
    assert (Hc : forall j, (0 <= j <= n + Z.of_nat p)%Z -> U (Z.of_nat p) <= U j <= U n -> (p <= count_occ Req_EM_T (bs_knots cv) (U j))%nat).
    { intros j Hj Hb. apply Hcnt; [|rewrite EL, EU; exact Hb]. apply (sr_in _ _ Sc). apply nth_In. lia. }
    split; intros i Hi.
    - destruct (mult_count cv k (sr_valid _ _ Sc) ltac:(lia)) as (a & b & _ & E & Hab & Hb & Hrun).
      specialize (Hc k ltac:(lia) ltac:(lra)). fold U in E, Hrun. rewrite Hrun; [reflexivity|].
      assert (b = k). { destruct (Z.eq_dec b k); [assumption|]. specialize (Hrun (k + 1)%Z ltac:(lia)). lra. } lia.
    - destruct (mult_count cv (k + 1) (sr_valid _ _ Sc) ltac:(lia)) as (a & b & _ & E & Hab & Hb & Hrun).
      specialize (Hc (k + 1)%Z ltac:(lia) ltac:(lra)). fold U in E, Hrun. rewrite Hrun; [reflexivity|].
      assert (a = k + 1)%Z. { destruct (Z.eq_dec a (k + 1)); [assumption|]. specialize (Hrun k ltac:(lia)). lra. } lia. }
  destruct (segments_correct cv n (Z.of_nat p) U _ Hr Hk) as (segs & bounds & E & (O1 & O2 & O3 & O4) & Hlast & Hall).
  exists segs, bounds. split.
  { unfold bs_convert_to_Bezier. rewrite (rep_lower _ _ _ _ _ Hr0), (rep_upper _ _ _ _ _ Hr0), (rep_degree _ _ _ _ _ Hr0), !bind_Ok.
    rewrite Ecv, bind_Ok. rewrite <- EL0, <- EU0, EL, EU. exact E. }
  split; [exact O1|]. split; [congruence|]. split; [congruence|]. split.
  { intros u. split.
    - intros Hu. destruct (O3 u Hu) as (j & Hj & Ej & Hb). split; [|rewrite EL, EU; exact Hb].
      apply (sr_in _ _ Sc). rewrite <- Ej. apply nth_In. lia.
    - intros [Hu Hb]. apply (sr_in _ _ Sc) in Hu. apply (In_nth _ _ 0) in Hu. destruct Hu as (j & Hj & <-).
      rewrite <- knot_of_nat in *. apply Hall; [lia|]. fold U in Hb |- *. rewrite <- EL, <- EU. exact Hb. }
  split.
  { intros j Hj. destruct (O4 j Hj) as (l & k & _ & (_ & Hlt & _) & -> & ->). exact Hlt. }
  intros j Hj. destruct (O4 j Hj) as (l & k & El & Hseg & Eb0 & Eb1). exists l. split; [exact El|].
  split. { destruct Hseg as (Hkk & _ & Hl). eapply conv_trans; [apply (sr_conv _ _ Sc)|].
    intros Q HQ HF. apply (arr_Forall Q _ _ _ Hl). intros i Hi. apply (arr_Forall Q _ _ _ (rep_pts _ _ _ _ _ Hr)); [exact HF|lia]. }
  split. { destruct Hseg as (_ & _ & Hl). pose proof (arr_len _ _ _ Hl). unfold zlen in *. lia. }
  intros x Hx. rewrite Eb0, Eb1 in *.
  assert (Hk1 : U (Z.of_nat p) <= U k) by (apply Hm; destruct Hseg as (? & ? & ?); lia).
  assert (Hk2 : U (k + 1)%Z <= U n) by (apply Hm; destruct Hseg as (? & ? & ?); lia).
  rewrite (seg_eval cv n (Z.of_nat p) U _ Hr Hk Hap Hst Hsat l k x Hseg).
  - apply (sr_eval _ _ Sc). rewrite EL, EU. destruct Hseg as (_ & Hlt & _). destruct Hx as [?|[? ?]]; lra.
  - destruct Hx as [Hx|[Hx [Hx'|Hx']]]; [left; exact Hx|right; split; [exact Hx|left]|right; split; [exact Hx|right]].
    + rewrite <- Eb1, <- Hlast. f_equal. lia.
    + replace (Z.of_nat p) with (Z.of_nat p - Z.of_nat 0)%Z at 2 by lia. apply (Hmr x 0%nat (sr_valid _ _ Sc)).
      pose proof (sr_cnt _ _ Sc x). fold p in H. lia.
Qed.

Lemma bspline_convert d (c : bspline R (vec R d)) :
  valid_bspline (bs_pts c) (bs_knots c) -> knots_apart (/ IZR (10 ^ 16)) (bs_knots c) ->
  nth (bspline_degree (bs_pts c) (bs_knots c)) (bs_knots c) 0
    < nth (bspline_degree (bs_pts c) (bs_knots c) + 1) (bs_knots c) 0 ->
  exists segs bounds, bs_convert_to_Bezier c = Ok (segs, bounds) /\
    length bounds = S (length segs) /\
    nth 0 bounds 0 = lower_of (bs_pts c) (bs_knots c) /\
    nth (length segs) bounds 0 = upper_of (bs_pts c) (bs_knots c) /\
    (forall u, In u bounds <-> (In u (bs_knots c) /\ lower_of (bs_pts c) (bs_knots c) <= u <= upper_of (bs_pts c) (bs_knots c))) /\
    (forall j, (j < length segs)%nat -> nth j bounds 0 < nth (j + 1) bounds 0) /\
    forall j, (j < length segs)%nat -> exists l, nth_error segs j = Some (mk_bezier l) /\
      length l = S (bspline_degree (bs_pts c) (bs_knots c)) /\
      forall x, (nth j bounds 0 <= x < nth (j + 1) bounds 0 \/
                 (x = nth (j + 1) bounds 0 /\ (S j = length segs \/
                    (count_occ Req_EM_T (bs_knots c) x <= bspline_degree (bs_pts c) (bs_knots c))%nat))) ->
        bz_evaluate (mk_bezier l) ((x - nth j bounds 0) / (nth (j + 1) bounds 0 - nth j bounds 0))
          = bs_evaluate (mk_bspline (bs_pts c) (bs_knots c)) x.
Proof.
  intros Hv Ha Hs. destruct (bspline_convert_full d c Hv Ha Hs) as (segs & bounds & H1 & H2 & H3 & H4 & H5 & H6 & H7).
  exists segs, bounds. repeat (split; [assumption|]). intros j Hj. destruct (H7 j Hj) as (l & A & _ & B). exists l. split; assumption.
Qed.
