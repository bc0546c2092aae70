(** Splitting a B-spline curve. *)
From Coq Require Import Reals Lra Lia ZArith List Permutation Bool.
From Verif Require Import Monad MonadFacts LoopFacts Scalar ScalarFacts Spec SpecFacts Polar ModelCurve CurveFacts ModelBezier
  BezierFacts BezierMath BezierThms BSplineMath ModelBSpline BSplineFacts BSplineThms BSplineThms2 BSplineThms3
  BSplineInsert BSplineInsert2 BSplineInsert3.
Import ListNotations.
Local Open Scope R_scope.

Lemma rep_nonper {P} {V : PointOps R P} (c : bspline R P) n p U cp : bsrep c n p U cp -> bsrep (nonperiodic c) n p U cp.
Proof. intros H; destruct H; split; assumption. Qed.

Lemma rep_in_domain {P} {V : PointOps R P} {L : PointLaws P} (c : bspline R P) n p U cp t : bsrep c n p U cp ->
  U p <= t <= U n -> bs_in_domain c t = Ok true.
Proof.
  intros H Ht. pose proof (rep_p _ _ _ _ _ H) as Hp. pose proof (rep_pn _ _ _ _ _ H) as Hpn.
  unfold bs_in_domain. rewrite (rep_degree _ _ _ _ _ H), (rep_nknots _ _ _ _ _ H).
  replace (n + p + 1 - p - 1)%Z with n by lia.
  rewrite (rep_get _ _ _ _ _ _ H), (rep_get _ _ _ _ _ _ H), !bind_Ok by lia.
  pose proof seps_pos as He. cbn [sle ssub sadd R_ops]. generalize dependent (seps : R). intros e He.
  destruct (Rleb_spec (U p - e) t); [|lra]. destruct (Rleb_spec t (U n + e)); [|lra]. reflexivity.
Qed.

(** Knots [U'] obtained from [U] by adding copies of [t] and cutting. *)
Record kfrom (n p : Z) (U : Z -> R) (t : R) (n' : Z) (U' : Z -> R) : Prop := {
  kf_start : U p < U (p + 1)%Z -> U' p < U' (p + 1)%Z;
  kf_in : forall i, (0 <= i <= n' + p)%Z -> U' i = t \/ exists j, (0 <= j <= n + p)%Z /\ U' i = U j;
  kf_mult : forall w m, w <> t -> (0 <= m)%Z -> mult_le n p U w m -> mult_le n' p U' w m;
}.

Lemma kfrom_trans n p U t n1 U1 n2 U2 : kfrom n p U t n1 U1 -> kfrom n1 p U1 t n2 U2 -> kfrom n p U t n2 U2.
Proof.
  intros [A1 A2 A3] [B1 B2 B3]. split.
  - auto.
  - intros i Hi. destruct (B2 i Hi) as [E|(j & Hj & E)]; [now left|]. rewrite E. apply A2, Hj.
  - intros w m Hw Hm Hml. apply B3; auto.
Qed.

Section Prep.
  Context {d : nat}.
  Variables (c : bspline R (vec R d)) (n p : Z) (U : Z -> R) (cp : Z -> vec R d) (t : R).
  Hypothesis Hr : bsrep c n p U cp.
  Hypothesis Hv : kval n p U.
  Hypothesis Hap : kapart n p U.
  Hypothesis Hst : kstart p U.
  Hypothesis Ht : U p < t < U n.
  Hypothesis Hta : tapart n p U t.
  Hypothesis Hp1 : (1 <= p)%Z.

  Definition split_insert (c : bspline R (vec R d)) : res (bspline R (vec R d)) :=
    do k <- locate_span c t;
    do uk <- get (bs_knots c) k;
    do s <- (if seq_ t uk then get_multiplicity c k else Ok 0%Z);
    if (s <? p)%Z then bs_insert_knot c t (p - s) else Ok c.

  Lemma split_prep : exists c1 n1 U1 cp1 k,
    split_insert c = Ok c1 /\ bs_periodic c1 = bs_periodic c /\ bsrep c1 n1 p U1 cp1 /\ kval n1 p U1 /\ kapart n1 p U1 /\
    kstart p U1 /\ U1 p = U p /\ U1 n1 = U n /\
    (forall x, U p <= x <= U n -> bs_evaluate (nonperiodic c1) x = bs_evaluate (nonperiodic c) x) /\
    locate_span c1 t = Ok k /\ (p <= k < n1)%Z /\ U1 k = t /\ t < U1 (k + 1)%Z /\
    (forall i, (k - p < i <= k)%Z -> U1 i = t) /\
    (mult_le n p U t p -> U1 (k - p)%Z < t) /\
    (forall i, (0 <= i <= n1 + p)%Z -> U1 i = t \/ exists j, (0 <= j <= n + p)%Z /\ U1 i = U j) /\
    (forall j, (0 <= j <= n + p)%Z -> exists i, (0 <= i <= n1 + p)%Z /\ U1 i = U j) /\
    conv_pres (bs_pts c) (bs_pts c1) /\ kfrom n p U t n1 U1.
  Proof.
    pose proof (rep_p _ _ _ _ _ Hr) as Hp. pose proof (rep_pn _ _ _ _ _ Hr) as Hpn. pose proof Hv as [Hm Hd].
    destruct (locate_span_regular c n p U cp t Hr Hv ltac:(right; lra) ltac:(lra)) as (k & Ek & Hk & Hs).
    destruct (in_span_bounds _ _ _ _ Hs) as [Hb Hlt].
    assert (Htk : t < U (k + 1)%Z) by (destruct Hs as [[? ?]|[? ?]]; lra).
    unfold split_insert. rewrite Ek, bind_Ok. rewrite (rep_get _ _ _ _ _ k Hr), bind_Ok by lia. simpl seq_.
    assert (HS : exists s, (if Reqb t (U k) then get_multiplicity c k else Ok 0%Z) = Ok s /\ (0 <= s <= k + 1)%Z /\
       (forall i, (k - s < i <= k)%Z -> U i = t) /\ ((k - s = -1)%Z \/ U (k - s)%Z < t)).
    { destruct (Reqb_spec t (U k)) as [E|E].
      - destruct (get_multiplicity_correct c n p U cp k Hr ltac:(lia)) as (a & b & Em & Ha & Hb' & Hrun & Hla & Hlb).
        assert (b = k).
        { destruct (Z.eq_dec b k); [assumption|exfalso]. specialize (Hrun (k + 1)%Z ltac:(lia)). lra. }
        subst b. exists (k - a + 1)%Z. split; [exact Em|]. split; [lia|]. split; [intros i Hi; rewrite E; apply Hrun; lia|].
        destruct (Z.eq_dec a 0) as [->|Ha0]; [left; lia|right]. destruct Hla as [Hla|Hla]; [lia|].
        replace (k - (k - a + 1))%Z with (a - 1)%Z by lia. assert (U (a - 1)%Z <= U k) by (apply Hm; lia). lra.
      - exists 0%Z. split; [reflexivity|]. split; [lia|]. split; [intros; lia|]. right. replace (k - 0)%Z with k by lia. lra. }
    destruct HS as (s & -> & Hs0 & Hrun & Hbelow). rewrite bind_Ok.
    destruct (Z.ltb_spec s p) as [Hsp|Hsp].
    - assert (Hmul : mult_le n p U t (p - (p - s))).
      { intros i Hi0 Hi1 E1 E2. replace (i + (p - (p - s)))%Z with (i + s)%Z in * by lia.
        assert (Hi2 : (i + s <= k)%Z).
        { destruct (Z_le_gt_dec (i + s) k); [assumption|]. assert (U (k + 1)%Z <= U (i + s)%Z) by (apply Hm; lia). lra. }
        destruct Hbelow as [Hbl|Hbl]; [lia|]. assert (U i <= U (k - s)%Z) by (apply Hm; lia). lra. }
      destruct (ins_full c n p U cp t (p - s)%Z Hr Hv Hap Hst ltac:(lra) ltac:(right; lra) Hta ltac:(lia) Hmul)
        as (c1 & k1 & s1 & E1 & Eper & Hk1 & Hs1 & (Hs10 & Hs11 & Hs12 & Hs13 & Hs14) & (cp1 & Hr1) & Hv1 & Hap1 & Hst1 & EUp & EUn & _ & Hev & Hcv).
      assert (k1 = k) by (apply (in_span_unique U (U n) 0 (n + p) k1 k t Hm); (lia || assumption)). subst k1.
      assert (s1 = s).
      { destruct (Z.lt_trichotomy s1 s) as [Hl|[He|Hl]]; [exfalso|exact He|exfalso].
        - destruct Hs14 as [Hq|Hq]; [lia|]. specialize (Hrun (k - s1)%Z ltac:(lia)). lra.
        - destruct Hbelow as [Hq|Hq]; [lia|]. specialize (Hs12 (k - s)%Z ltac:(lia)). lra. }
      subst s1. set (U1 := insU U k (p - s) t) in *. set (n1 := (n + (p - s))%Z) in *.
      assert (Elow : forall i, (i <= k)%Z -> U1 i = U i) by (intros; apply insU_low; lia).
      assert (Emid : forall i, (k < i <= k + (p - s))%Z -> U1 i = t) by (intros; apply insU_mid; lia).
      assert (Ehigh : forall i, (k + (p - s) < i)%Z -> U1 i = U (i - (p - s))%Z) by (intros; apply insU_high; lia).
      exists c1, n1, U1, cp1, (k + (p - s))%Z. split; [exact E1|]. split; [exact Eper|]. split; [exact Hr1|]. split; [exact Hv1|].
      split; [exact Hap1|]. split; [exact Hst1|]. split; [exact EUp|]. split; [exact EUn|]. split; [exact Hev|].
      assert (Ek1 : U1 (k + (p - s))%Z = t) by (apply Emid; lia).
      assert (Ek2 : U1 (k + (p - s) + 1)%Z = U (k + 1)%Z) by (rewrite Ehigh by lia; f_equal; lia).
      split.
      { destruct (locate_span_regular c1 n1 p U1 cp1 t Hr1 Hv1 ltac:(right; lra) ltac:(lra)) as (k' & Ek' & Hk' & Hs').
        rewrite Ek'. f_equal. apply (in_span_unique U1 (U1 n1) 0 (n1 + p) _ _ t (kv_mono _ _ _ Hv1)); try lia; [exact Hs'|].
        left. lra. }
      split; [lia|]. split; [exact Ek1|]. split; [lra|]. split.
      { intros i Hi. destruct (Z_le_gt_dec i k); [rewrite Elow by lia; apply Hrun; lia|apply Emid; lia]. }
      split.
      { intros _. replace (k + (p - s) - p)%Z with (k - s)%Z by lia. destruct Hbelow; [lia|]. rewrite Elow by lia. assumption. }
      assert (Hin : forall i, (0 <= i <= n1 + p)%Z -> U1 i = t \/ exists j, (0 <= j <= n + p)%Z /\ U1 i = U j).
      { intros i Hi. destruct (Z_le_gt_dec i k); [right; exists i; split; [lia|apply Elow; lia]|].
        destruct (Z_le_gt_dec i (k + (p - s))); [left; apply Emid; lia|]. right. exists (i - (p - s))%Z. split; [lia|]. apply Ehigh; lia. }
      split; [exact Hin|].
      split; [|split; [exact Hcv|split]].
      { intros j Hj. destruct (Z_le_gt_dec j k).
      + exists j. split; [lia|]. apply Elow; lia.
      + exists (j + (p - s))%Z. split; [lia|]. rewrite Ehigh by lia. f_equal. lia.
      }
      { intros Hlt0. rewrite (Elow p) by lia. destruct (Z_le_gt_dec (p + 1) k); [rewrite Elow by lia; exact Hlt0|].
        rewrite Emid by lia. lra. }
      { exact Hin. }
      { intros w m Hw Hm0 Hml i Hi0 Hi1 A B. destruct (Z_le_gt_dec (i + m) k).
        - rewrite Elow in A, B by lia. apply (Hml i); (assumption || lia).
        - destruct (Z_le_gt_dec (i + m) (k + (p - s))); [rewrite Emid in B by lia; congruence|].
          destruct (Z_le_gt_dec i (k + (p - s))).
          + destruct (Z_le_gt_dec i k); [|rewrite Emid in A by lia; congruence].
            rewrite Elow in A by lia. rewrite Ehigh in B by lia.
            assert (U i <= U k) by (apply Hm; lia). assert (U (k + 1)%Z <= U (i + m - (p - s))%Z) by (apply Hm; lia). lra.
          + rewrite Ehigh in A, B by lia. apply (Hml (i - (p - s))%Z); try lia; [exact A|].
            replace (i - (p - s) + m)%Z with (i + m - (p - s))%Z by lia. exact B. }
    - assert (Hkt : U k = t) by (apply Hrun; lia).
      exists c, n, U, cp, k. split; [reflexivity|]. split; [reflexivity|]. split; [exact Hr|]. split; [exact Hv|]. split; [exact Hap|].
      split; [exact Hst|]. split; [reflexivity|]. split; [reflexivity|]. split; [reflexivity|]. split; [exact Ek|].
      split; [exact Hk|]. split; [exact Hkt|]. split; [exact Htk|]. split; [intros i Hi; apply Hrun; lia|]. split.
      + intros Hmp. assert (U (k - p)%Z <= U k) by (apply Hm; lia).
        destruct (Req_EM_T (U (k - p)%Z) t) as [E|E]; [exfalso|lra].
        apply (Hmp (k - p)%Z); try lia; [exact E|]. rewrite <- Hkt. f_equal. lia.
      + split; [intros i Hi; right; exists i; split; [lia|reflexivity]|].
        split; [intros j Hj; exists j; split; [lia|reflexivity]|]. split; [apply conv_refl|].
        split; [auto|intros i Hi; right; exists i; split; [lia|reflexivity]|auto].
  Qed.
End Prep.

(** Cutting a curve whose knots k-p+1..k are all [t]. *)
Section Cut.
  Context {d : nat}.
  Variables (c : bspline R (vec R d)) (n p : Z) (U : Z -> R) (cp : Z -> vec R d) (t : R) (k : Z).
  Hypothesis Hr : bsrep c n p U cp.
  Hypothesis Hv : kval n p U.
  Hypothesis Hap : kapart n p U.
  Hypothesis Hst : kstart p U.
  Hypothesis Hp1 : (1 <= p)%Z.
  Hypothesis Hk : (p <= k < n)%Z.
  Hypothesis Hpt : U p < t.
  Hypothesis Hrun : forall i, (k - p < i <= k)%Z -> U i = t.
  Hypothesis Hkt : t < U (k + 1)%Z.

  (** Left piece. *)
  Definition cutU1 (i : Z) : R := if (i =? k + 1)%Z then U k else U i.
  (** Right piece. *)
  Definition cutU2 (i : Z) : R := if (i =? 0)%Z then U (k - p + 1)%Z else U (i + (k - p))%Z.

  Lemma cut_kp : (2 * p <= k)%Z.
  Proof.
    destruct Hv as [Hm Hd]. pose proof (rep_pn _ _ _ _ _ Hr) as Hpn.
    destruct (Z_le_gt_dec (2 * p) k); [assumption|exfalso].
    assert (U (k - p + 1)%Z <= U p) by (apply Hm; lia). rewrite (Hrun (k - p + 1)%Z) in * by lia. lra.
  Qed.

  Lemma cut_left (c1 : bspline R (vec R d)) : bs_periodic c1 = false ->
    arr (bs_pts c1) (k - p + 1) cp -> arr (bs_knots c1) (k + 2) cutU1 ->
    bsrep c1 (k - p + 1) p cutU1 cp /\ kval (k - p + 1) p cutU1 /\ kapart (k - p + 1) p cutU1 /\ kstart p cutU1 /\
    cutU1 p = U p /\ cutU1 (k - p + 1)%Z = t /\
    (forall x, U p <= x < t -> bs_evaluate c1 x = bs_evaluate (nonperiodic c) x) /\
    (U (k - p)%Z < t -> bs_evaluate c1 t = bs_evaluate (nonperiodic c) t).
  Proof.
    intros Hper Ha1 Ha2. pose proof cut_kp as Hkp. destruct Hv as [Hm Hd]. pose proof (rep_pn _ _ _ _ _ Hr) as Hpn.
    assert (Elow : forall i, (i <= k)%Z -> cutU1 i = U i) by (intros i Hi; unfold cutU1; destruct (Z.eqb_spec i (k + 1)); [lia|reflexivity]).
    assert (Etop : cutU1 (k + 1)%Z = U k) by (unfold cutU1; destruct (Z.eqb_spec (k + 1) (k + 1)); [reflexivity|lia]).
    assert (Hr1 : bsrep c1 (k - p + 1) p cutU1 cp).
    { split; [exact Ha1| |lia|lia]. replace (k - p + 1 + p + 1)%Z with (k + 2)%Z by lia. exact Ha2. }
    assert (Hm1 : mono cutU1 0 (k - p + 1 + p)).
    { intros i j Hi Hij Hj. destruct (Z.eq_dec j (k + 1)) as [->|].
      - rewrite Etop. destruct (Z.eq_dec i (k + 1)) as [->|]; [rewrite Etop; lra|]. rewrite Elow by lia. apply Hm; lia.
      - rewrite !Elow by lia. apply Hm; lia. }
    assert (EUp : cutU1 p = U p) by (apply Elow; lia).
    assert (EUn : cutU1 (k - p + 1)%Z = t) by (rewrite Elow by lia; apply Hrun; lia).
    assert (Hv1 : kval (k - p + 1) p cutU1) by (split; [exact Hm1|rewrite EUp, EUn; exact Hpt]).
    assert (Hap1 : kapart (k - p + 1) p cutU1).
    { assert (HH : forall i, (0 <= i <= k - p + 1 + p)%Z -> exists j, (0 <= j <= n + p)%Z /\ cutU1 i = U j).
      { intros i Hi. destruct (Z.eq_dec i (k + 1)) as [->|]; [exists k|exists i]; (split; [lia|]); [exact Etop|apply Elow; lia]. }
      intros i j Hi Hj Hij. destruct (HH i Hi) as (i' & Hi' & Ei), (HH j Hj) as (j' & Hj' & Ej).
      rewrite Ei, Ej in *. now apply Hap. }
    assert (Hst1 : kstart p cutU1).
    { destruct Hst as [H|[H1 H2]]; [left; rewrite !Elow by lia; exact H|right; split; [lia|]].
      intros i Hi. rewrite !Elow by lia. now apply H2. }
    split; [exact Hr1|]. split; [exact Hv1|]. split; [exact Hap1|]. split; [exact Hst1|]. split; [exact EUp|]. split; [exact EUn|].
    assert (Hu1 : forall x, bs_unwrap c1 x = Ok x) by (intros; now apply bs_unwrap_off).
    assert (Hu0 : forall x, bs_unwrap (nonperiodic c) x = Ok x) by (intros; now apply bs_unwrap_off).
    assert (Hext : forall x m, (p <= m <= k - p)%Z -> tri (alU cutU1 (Z.to_nat p)) cp (repeat x (Z.to_nat p)) m
       = tri (alU U (Z.to_nat p)) cp (repeat x (Z.to_nat p)) m).
    { intros x m Hmm. apply tri_ext; [|reflexivity]. intros r i y Hr' Hi. rewrite repeat_length in *.
      unfold alU. rewrite !Elow by lia. reflexivity. }
    assert (Htn : t <= U n) by (apply Rle_trans with (U (k + 1)%Z); [lra|apply Hm; lia]).
    assert (Htn2 : t < U n) by (apply Rlt_le_trans with (U (k + 1)%Z); [lra|apply Hm; lia]).
    split.
    - intros x Hx.
      destruct (bs_eval_tri (nonperiodic c) n p U cp x x (rep_nonper _ _ _ _ _ Hr) (Build_kval _ _ _ Hm Hd) Hap (or_introl Hst) (Hu0 x) ltac:(lra)) as (k0 & Hk0 & Hs0 & E0).
      destruct (bs_eval_tri c1 _ p cutU1 cp x x Hr1 Hv1 Hap1 (or_introl Hst1) (Hu1 x) ltac:(rewrite EUp, EUn; lra)) as (k1 & Hk1 & Hs1 & E1).
      rewrite E0, E1. f_equal. rewrite Hext by lia. f_equal.
      apply (in_span_unique U (U n) 0 (n + p) k1 k0 x Hm); try lia; [|exact Hs0].
      rewrite EUn in Hs1. destruct Hs1 as [[? ?]|[? ?]]; [|lra]. left. rewrite !Elow in * by lia. lra.
    - intros Hlt.
      destruct (bs_eval_tri (nonperiodic c) n p U cp t t (rep_nonper _ _ _ _ _ Hr) (Build_kval _ _ _ Hm Hd) Hap (or_introl Hst) (Hu0 t) ltac:(lra)) as (k0 & Hk0 & Hs0 & E0).
      destruct (bs_eval_tri c1 _ p cutU1 cp t t Hr1 Hv1 Hap1 (or_introl Hst1) (Hu1 t) ltac:(rewrite EUp, EUn; lra)) as (k1 & Hk1 & Hs1 & E1).
      rewrite E0, E1. f_equal. rewrite Hext by lia.
      assert (k0 = k).
      { apply (in_span_unique U (U n) 0 (n + p) k0 k t Hm); try lia; [exact Hs0|]. left. rewrite (Hrun k) by lia. lra. }
      assert (k1 = (k - p)%Z).
      { rewrite EUn in Hs1. apply (in_span_unique cutU1 t 0 (k - p + 1 + p) k1 (k - p) t Hm1); try lia; [exact Hs1|].
        right. replace (k - p + 1)%Z with (k - p + 1)%Z by lia. rewrite EUn. rewrite Elow by lia. lra. }
      subst k0 k1. apply vec_ext. intros e He. rewrite !coord_tri by assumption.
      assert (Eseg : repeat t (Z.to_nat p) = seg U (k - p + 1) (Z.to_nat p)).
      { symmetry. apply seg_const. intros i Hi. apply Hrun. lia. }
      rewrite Eseg.
      assert (Hsep1 : sepk U (Z.to_nat p) k) by (apply (sepk_mono U 0 (n + p)); [exact Hm|lia|lia|lia|lia|rewrite (Hrun k) by lia; lra]).
      assert (Hsep2 : sepk U (Z.to_nat p) (k - p)).
      { apply (sepk_mono U 0 (n + p)); [exact Hm|lia|lia|lia|lia|]. rewrite (Hrun (k - p + 1)%Z) by lia. lra. }
      rewrite (tri_at_knots U (Z.to_nat p) k Hsep1 _ (k - p)) by lia.
      rewrite (tri_at_knots U (Z.to_nat p) (k - p) Hsep2 _ (k - p)) by lia. reflexivity.
  Qed.

  Lemma cut_from1 : kfrom n p U t (k - p + 1) cutU1.
  Proof.
    pose proof cut_kp as Hkp. pose proof (rep_pn _ _ _ _ _ Hr) as Hpn.
    assert (Elow : forall i, (i <= k)%Z -> cutU1 i = U i) by (intros i Hi; unfold cutU1; destruct (Z.eqb_spec i (k + 1)); [lia|reflexivity]).
    assert (Etop : cutU1 (k + 1)%Z = t) by (unfold cutU1; destruct (Z.eqb_spec (k + 1) (k + 1)); [apply Hrun; lia|lia]).
    split.
    - intros H. rewrite !Elow by lia. exact H.
    - intros i Hi. destruct (Z.eq_dec i (k + 1)) as [->|]; [left; exact Etop|]. right. exists i. split; [lia|apply Elow; lia].
    - intros w m Hw Hm0 Hml i Hi0 Hi1 A B. destruct (Z.eq_dec (i + m) (k + 1)) as [E|]; [rewrite E in B; congruence|].
      rewrite Elow in A, B by lia. apply (Hml i); (assumption || lia).
  Qed.

  Lemma cut_from2 : kfrom n p U t (n - k + p) cutU2.
  Proof.
    pose proof cut_kp as Hkp. pose proof (rep_pn _ _ _ _ _ Hr) as Hpn.
    assert (Ehi : forall i, (1 <= i)%Z -> cutU2 i = U (i + (k - p))%Z) by (intros i Hi; unfold cutU2; destruct (Z.eqb_spec i 0); [lia|reflexivity]).
    assert (E0 : cutU2 0%Z = t) by (unfold cutU2; cbn [Z.eqb]; apply Hrun; lia).
    split.
    - intros _. rewrite !Ehi by lia. replace (p + (k - p))%Z with k by lia. replace (p + 1 + (k - p))%Z with (k + 1)%Z by lia.
      rewrite (Hrun k) by lia. exact Hkt.
    - intros i Hi. destruct (Z.eq_dec i 0) as [->|]; [left; exact E0|]. right. exists (i + (k - p))%Z. split; [lia|apply Ehi; lia].
    - intros w m Hw Hm0 Hml i Hi0 Hi1 A B. destruct (Z.eq_dec i 0) as [->|]; [congruence|].
      rewrite Ehi in A, B by lia. apply (Hml (i + (k - p))%Z); try lia; [exact A|].
      replace (i + (k - p) + m)%Z with (i + m + (k - p))%Z by lia. exact B.
  Qed.

  Lemma cut_right (c2 : bspline R (vec R d)) : bs_periodic c2 = false ->
    arr (bs_pts c2) (n - k + p) (fun i => cp (i + (k - p))%Z) -> arr (bs_knots c2) (n - k + p + p + 1) cutU2 ->
    bsrep c2 (n - k + p) p cutU2 (fun i => cp (i + (k - p))%Z) /\ kval (n - k + p) p cutU2 /\ kapart (n - k + p) p cutU2 /\ kstart p cutU2 /\
    cutU2 p = t /\ cutU2 (n - k + p)%Z = U n /\
    (forall x, t <= x <= U n -> bs_evaluate c2 x = bs_evaluate (nonperiodic c) x).
  Proof.
    intros Hper Ha1 Ha2. pose proof cut_kp as Hkp. destruct Hv as [Hm Hd]. pose proof (rep_pn _ _ _ _ _ Hr) as Hpn.
    assert (Ehi : forall i, (1 <= i)%Z -> cutU2 i = U (i + (k - p))%Z) by (intros i Hi; unfold cutU2; destruct (Z.eqb_spec i 0); [lia|reflexivity]).
    assert (E0 : cutU2 0%Z = U (k - p + 1)%Z) by reflexivity.
    assert (Hr1 : bsrep c2 (n - k + p) p cutU2 (fun i => cp (i + (k - p))%Z)) by (split; [exact Ha1|exact Ha2|lia|lia]).
    assert (Hm1 : mono cutU2 0 (n - k + p + p)).
    { intros i j Hi Hij Hj. destruct (Z.eq_dec i 0) as [->|].
      - rewrite E0. destruct (Z.eq_dec j 0) as [->|]; [rewrite E0; lra|]. rewrite Ehi by lia. apply Hm; lia.
      - rewrite !Ehi by lia. apply Hm; lia. }
    assert (EUp : cutU2 p = t) by (rewrite Ehi by lia; apply Hrun; lia).
    assert (EUn : cutU2 (n - k + p)%Z = U n) by (rewrite Ehi by lia; f_equal; lia).
    assert (Htn2 : t < U n) by (apply Rlt_le_trans with (U (k + 1)%Z); [lra|apply Hm; lia]).
    assert (Hv1 : kval (n - k + p) p cutU2) by (split; [exact Hm1|rewrite EUp, EUn; exact Htn2]).
    assert (Hap1 : kapart (n - k + p) p cutU2).
    { assert (HH : forall i, (0 <= i <= n - k + p + p)%Z -> exists j, (0 <= j <= n + p)%Z /\ cutU2 i = U j).
      { intros i Hi. destruct (Z.eq_dec i 0) as [->|].
        - exists (k - p + 1)%Z. split; [lia|exact E0].
        - exists (i + (k - p))%Z. split; [lia|apply Ehi; lia]. }
      intros i j Hi Hj Hij. destruct (HH i Hi) as (i' & Hi' & Ei), (HH j Hj) as (j' & Hj' & Ej).
      rewrite Ei, Ej in *. now apply Hap. }
    assert (Hst1 : kstart p cutU2).
    { left. rewrite EUp, Ehi by lia. replace (p + 1 + (k - p))%Z with (k + 1)%Z by lia. exact Hkt. }
    split; [exact Hr1|]. split; [exact Hv1|]. split; [exact Hap1|]. split; [exact Hst1|]. split; [exact EUp|]. split; [exact EUn|].
    intros x Hx.
    assert (Hu1 : bs_unwrap c2 x = Ok x) by (now apply bs_unwrap_off).
    assert (Hu0 : bs_unwrap (nonperiodic c) x = Ok x) by (now apply bs_unwrap_off).
    destruct (bs_eval_tri (nonperiodic c) n p U cp x x (rep_nonper _ _ _ _ _ Hr) (Build_kval _ _ _ Hm Hd) Hap (or_introl Hst) Hu0 ltac:(lra)) as (k0 & Hk0 & Hs0 & E1).
    destruct (bs_eval_tri c2 _ p cutU2 _ x x Hr1 Hv1 Hap1 (or_introl Hst1) Hu1 ltac:(rewrite EUp, EUn; lra)) as (k1 & Hk1 & Hs1 & E2).
    rewrite E1, E2. f_equal.
    assert (k0 = (k1 + (k - p))%Z).
    { apply (in_span_unique U (U n) 0 (n + p) _ _ x Hm); try lia; [exact Hs0|].
      rewrite EUn in Hs1. unfold in_span in *. rewrite !Ehi in Hs1 by lia.
      replace (k1 + (k - p) + 1)%Z with (k1 + 1 + (k - p))%Z by lia. exact Hs1. }
    subst k0.
    transitivity (tri (fun r i => alU U (Z.to_nat p) r (i + (k - p))%Z) (fun i => cp (i + (k - p))%Z) (repeat x (Z.to_nat p)) k1).
    - apply tri_ext; [|reflexivity]. intros r i y Hr' Hi. rewrite repeat_length in *.
      unfold alU. rewrite !Ehi by lia.
      replace (i + (k - p) + Z.of_nat (Z.to_nat p) + 1 - Z.of_nat r)%Z with (i + Z.of_nat (Z.to_nat p) + 1 - Z.of_nat r + (k - p))%Z by lia.
      reflexivity.
    - replace k1 with (k1 + (k - p) - (k - p))%Z at 1 by lia. apply tri_shift.
      + intros r i y. replace (i - (k - p) + (k - p))%Z with i by lia. reflexivity.
      + intros i. f_equal. lia.
  Qed.
End Cut.

Lemma nonper_mk {P} (c : bspline R P) : nonperiodic c = mk_bspline (bs_pts c) (bs_knots c).
Proof. reflexivity. Qed.

Section SplitRep.
  Context {d : nat}.
  Variables (c : bspline R (vec R d)) (n p : Z) (U : Z -> R) (cp : Z -> vec R d) (t : R).
  Hypothesis Hr : bsrep c n p U cp.
  Hypothesis Hv : kval n p U.
  Hypothesis Hap : kapart n p U.
  Hypothesis Hst : kstart p U.
  Hypothesis Ht : U p < t < U n.
  Hypothesis Hta : tapart n p U t.
  Hypothesis Hp1 : (1 <= p)%Z.

  Lemma split_rep_full : exists c1 c2 n1 n2 U1 U2 cp1 cp2,
    split_bspline c t = Ok [c1; c2] /\ bs_periodic c1 = false /\ bs_periodic c2 = false /\
    bsrep c1 n1 p U1 cp1 /\ kval n1 p U1 /\ kapart n1 p U1 /\ kstart p U1 /\ U1 p = U p /\ U1 n1 = t /\
    bsrep c2 n2 p U2 cp2 /\ kval n2 p U2 /\ kapart n2 p U2 /\ kstart p U2 /\ U2 p = t /\ U2 n2 = U n /\
    (forall x, U p <= x < t -> bs_evaluate c1 x = bs_evaluate (nonperiodic c) x) /\
    (mult_le n p U t p -> bs_evaluate c1 t = bs_evaluate (nonperiodic c) t) /\
    (forall x, t <= x <= U n -> bs_evaluate c2 x = bs_evaluate (nonperiodic c) x) /\
    conv_pres (bs_pts c) (bs_pts c1) /\ conv_pres (bs_pts c) (bs_pts c2) /\
    kfrom n p U t n1 U1 /\ kfrom n p U t n2 U2.
  Proof.
    pose proof (rep_p _ _ _ _ _ Hr) as Hp. pose proof (rep_pn _ _ _ _ _ Hr) as Hpn.
    destruct (split_prep c n p U cp t Hr Hv Hap Hst Ht Hta Hp1)
      as (c0 & n0 & U0 & cp0 & k & E0 & Hper & Hr0 & Hv0 & Hap0 & Hst0 & EUp & EUn & Hev & Ek & Hk & Ekt & Hkt & Hrun & Hbel & _ & _ & Hcv & Hkf).
    unfold split_bspline. rewrite (rep_in_domain c n p U cp t Hr) by lra. rewrite bind_Ok. cbn [negb].
    rewrite (rep_lower _ _ _ _ _ Hr), (rep_upper _ _ _ _ _ Hr), !bind_Ok. simpl seq_.
    destruct (Reqb_spec t (U p)); [lra|]. destruct (Reqb_spec t (U n)); [lra|].
    rewrite (rep_degree _ _ _ _ _ Hr). cbv zeta. unfold split_insert in E0.
    destruct (locate_span c t) as [k'| | |]; try discriminate E0. cbn [bind] in E0 |- *.
    destruct (get (bs_knots c) k') as [uk| | |]; try discriminate E0. cbn [bind] in E0 |- *. simpl seq_ in E0.
    destruct (if Reqb t uk then get_multiplicity c k' else Ok 0%Z) as [s| | |]; try discriminate E0. cbn [bind] in E0 |- *.
    rewrite E0, bind_Ok, Ek, bind_Ok.
    pose proof (rep_pts _ _ _ _ _ Hr0) as HA. pose proof (rep_knots _ _ _ _ _ Hr0) as HK.
    rewrite (arr_len _ _ _ HA), (arr_len _ _ _ HK).
    pose proof (cut_kp c0 n0 p U0 cp0 t k Hr0 Hv0 Hp1 Hk ltac:(lra) Hrun) as Hkp.
    destruct (arr_topRows _ _ _ (k - p + 1) HA ltac:(lia)) as (q1 & -> & Hq1). rewrite bind_Ok.
    destruct (arr_bottomRows _ _ _ (n0 - 1 - k + p + 1) HA ltac:(lia)) as (q2 & -> & Hq2). rewrite bind_Ok.
    destruct (arr_alloc (s0 : R) (k + 2) ltac:(lia)) as (l1 & -> & Hl1). rewrite bind_Ok.
    destruct (arr_block _ _ _ 0 (k + 1) HK ltac:(lia) ltac:(lia) ltac:(lia)) as (l2 & -> & Hl2). rewrite bind_Ok.
    destruct (arr_blit _ _ _ 0 _ _ _ Hl1 Hl2 ltac:(lia) ltac:(lia)) as (l3 & -> & Hl3). rewrite bind_Ok.
    rewrite (arr_get _ _ _ k Hl3) by lia. rewrite bind_Ok.
    lazymatch goal with |- context[set l3 (k + 1)%Z ?v] => destruct (arr_set _ _ _ (k + 1) v Hl3 ltac:(lia)) as (l4 & El4 & Hl4) end. rewrite El4, bind_Ok.
    destruct (arr_alloc (s0 : R) (n0 + p + 1 - 1 - k + p + 1) ltac:(lia)) as (m1 & -> & Hm1). rewrite bind_Ok.
    destruct (arr_block _ _ _ (k - p + 1) (n0 + p + 1 - 1 - k + p) HK ltac:(lia) ltac:(lia) ltac:(lia)) as (m2 & -> & Hm2). rewrite bind_Ok.
    destruct (arr_blit _ _ _ 1 _ _ _ Hm1 Hm2 ltac:(lia) ltac:(lia)) as (m3 & -> & Hm3). rewrite bind_Ok.
    rewrite (arr_get _ _ _ 1 Hm3) by lia. rewrite bind_Ok.
    lazymatch goal with |- context[set m3 0%Z ?v] => destruct (arr_set _ _ _ 0 v Hm3 ltac:(lia)) as (m4 & Em4 & Hm4) end. rewrite Em4, bind_Ok.
    destruct (cut_left c0 n0 p U0 cp0 t k Hr0 Hv0 Hap0 Hst0 Hp1 Hk ltac:(lra) Hrun Hkt (mk_bspline q1 l4) eq_refl Hq1)
      as (P1 & P2 & P3 & P4 & P5 & P6 & P7 & P8).
    { eapply arr_ext; [exact Hl4|]. intros i Hi. unfold fupd, cutU1. destruct (Z.eqb_spec i (k + 1)); zbool; f_equal; lia. }
    destruct (cut_right c0 n0 p U0 cp0 t k Hr0 Hv0 Hap0 Hst0 Hp1 Hk ltac:(lra) Hrun Hkt (mk_bspline q2 m4) eq_refl)
      as (Q1 & Q2 & Q3 & Q4 & Q5 & Q6 & Q7).
    { cbn [bs_pts mk_bspline]. replace (n0 - k + p)%Z with (n0 - 1 - k + p + 1)%Z by lia. eapply arr_ext; [exact Hq2|].
      intros i Hi. cbv beta. f_equal. lia. }
    { cbn [bs_knots mk_bspline]. replace (n0 - k + p + p + 1)%Z with (n0 + p + 1 - 1 - k + p + 1)%Z by lia. eapply arr_ext; [exact Hm4|].
      intros i Hi. unfold fupd, cutU2. destruct (Z.eqb_spec i 0); zbool; f_equal; lia. }
    exists (mk_bspline q1 l4), (mk_bspline q2 m4), (k - p + 1)%Z, (n0 - k + p)%Z, (cutU1 U0 k), (cutU2 p U0 k), cp0, (fun i => cp0 (i + (k - p))%Z).
    repeat (split; [first [reflexivity|assumption|congruence]|]).
    split; [intros x Hx; rewrite P7 by lra; apply Hev; lra|].
    split; [intros Hml; rewrite P8 by auto; apply Hev; lra|].
    split; [intros x Hx; rewrite Q7 by lra; apply Hev; lra|].
    split; [eapply conv_trans; [exact Hcv|]; eapply rep_conv; [exact Hr0|exact P1|]; intros q _ Hq i Hi; apply Hq; lia|].
    split; [eapply conv_trans; [exact Hcv|]; eapply rep_conv; [exact Hr0|exact Q1|]; intros q _ Hq i Hi; apply Hq; lia|].
    split; (eapply kfrom_trans; [exact Hkf|]).
    - apply (cut_from1 c0 n0 p U0 cp0 t k); try assumption; lra.
    - apply (cut_from2 c0 n0 p U0 cp0 t k); try assumption; lra.
  Qed.

  Lemma split_rep : exists c1 c2 n1 n2 U1 U2 cp1 cp2,
    split_bspline c t = Ok [c1; c2] /\ bs_periodic c1 = false /\ bs_periodic c2 = false /\
    bsrep c1 n1 p U1 cp1 /\ kval n1 p U1 /\ kapart n1 p U1 /\ kstart p U1 /\ U1 p = U p /\ U1 n1 = t /\
    bsrep c2 n2 p U2 cp2 /\ kval n2 p U2 /\ kapart n2 p U2 /\ kstart p U2 /\ U2 p = t /\ U2 n2 = U n /\
    (forall x, U p <= x < t -> bs_evaluate c1 x = bs_evaluate (nonperiodic c) x) /\
    (mult_le n p U t p -> bs_evaluate c1 t = bs_evaluate (nonperiodic c) t) /\
    (forall x, t <= x <= U n -> bs_evaluate c2 x = bs_evaluate (nonperiodic c) x) /\
    conv_pres (bs_pts c) (bs_pts c1) /\ conv_pres (bs_pts c) (bs_pts c2).
  Proof.
    destruct split_rep_full as (c1 & c2 & n1 & n2 & U1 & U2 & cp1 & cp2 & H). exists c1, c2, n1, n2, U1, U2, cp1, cp2.
    decompose [and] H. repeat (split; [assumption|]). assumption.
  Qed.
End SplitRep.

Lemma bspline_split_full d (c : bspline R (vec R d)) t :
  valid_bspline (bs_pts c) (bs_knots c) -> knots_apart (/ IZR (10 ^ 16)) (bs_knots c) ->
  regular_start (bs_pts c) (bs_knots c) -> (1 <= bspline_degree (bs_pts c) (bs_knots c))%nat ->
  lower_of (bs_pts c) (bs_knots c) < t < upper_of (bs_pts c) (bs_knots c) ->
  (forall u, In u (bs_knots c) -> u = t \/ / IZR (10 ^ 16) < Rabs (u - t)) ->
  exists c1 c2, split_bspline c t = Ok [c1; c2] /\
    bs_periodic c1 = false /\ bs_periodic c2 = false /\
    valid_bspline (bs_pts c1) (bs_knots c1) /\ valid_bspline (bs_pts c2) (bs_knots c2) /\
    bspline_degree (bs_pts c1) (bs_knots c1) = bspline_degree (bs_pts c) (bs_knots c) /\
    bspline_degree (bs_pts c2) (bs_knots c2) = bspline_degree (bs_pts c) (bs_knots c) /\
    lower_of (bs_pts c1) (bs_knots c1) = lower_of (bs_pts c) (bs_knots c) /\
    upper_of (bs_pts c1) (bs_knots c1) = t /\
    lower_of (bs_pts c2) (bs_knots c2) = t /\
    upper_of (bs_pts c2) (bs_knots c2) = upper_of (bs_pts c) (bs_knots c) /\
    (forall x, lower_of (bs_pts c) (bs_knots c) <= x < t ->
       bs_evaluate c1 x = bs_evaluate (mk_bspline (bs_pts c) (bs_knots c)) x) /\
    ((count_occ Req_EM_T (bs_knots c) t <= bspline_degree (bs_pts c) (bs_knots c))%nat ->
       bs_evaluate c1 t = bs_evaluate (mk_bspline (bs_pts c) (bs_knots c)) t) /\
    (forall x, t <= x <= upper_of (bs_pts c) (bs_knots c) ->
       bs_evaluate c2 x = bs_evaluate (mk_bspline (bs_pts c) (bs_knots c)) x) /\
    conv_pres (bs_pts c) (bs_pts c1) /\ conv_pres (bs_pts c) (bs_pts c2).
Proof.
  intros Hv Ha Hs Hp Ht Hta. destruct (valid_rep c Hv) as [Hr Hk].
  assert (EL0 : lower_of (bs_pts c) (bs_knots c) = knot_of (bs_knots c) (Z.of_nat (bspline_degree (bs_pts c) (bs_knots c))))
    by (unfold lower_of; now rewrite knot_of_nat).
  assert (EU0 : upper_of (bs_pts c) (bs_knots c) = knot_of (bs_knots c) (Z.of_nat (length (bs_pts c))))
    by (unfold upper_of; now rewrite knot_of_nat).
  pose proof (mult_rep c t 0 Hv) as Hmr.
  rewrite EL0, EU0 in *.
  set (n := Z.of_nat (length (bs_pts c))) in *. set (p := bspline_degree (bs_pts c) (bs_knots c)) in *.
  set (U := knot_of (bs_knots c)) in *.
  assert (Hlen : length (bs_knots c) = Z.to_nat (n + Z.of_nat p + 1)).
  { pose proof (rep_nknots _ _ _ _ _ Hr). unfold zlen in *. lia. }
  destruct (split_rep c n (Z.of_nat p) U _ t Hr Hk (apart_rep c Hv Ha) (start_rep c Hs) Ht)
    as (c1 & c2 & n1 & n2 & U1 & U2 & cp1 & cp2 & E & F1 & F2 & R1 & V1 & _ & _ & L1 & H1 & R2 & V2 & _ & _ & L2 & H2 & G1 & G2 & G3 & G4 & G5).
  - intros i Hi. rewrite btol_val. apply Hta. unfold U, knot_of. apply nth_In. lia.
  - lia.
  - destruct (rep_valid c1 _ _ _ _ R1 V1) as (A1 & A2 & A3 & A4 & _).
    destruct (rep_valid c2 _ _ _ _ R2 V2) as (B1 & B2 & B3 & B4 & _).
    pose proof (rep_pn _ _ _ _ _ R1). pose proof (rep_pn _ _ _ _ _ R2).
    exists c1, c2. repeat (split; [assumption||lia|]).
    split; [unfold lower_of; rewrite <- knot_of_nat, A2, A4 by lia; exact L1|].
    split; [unfold upper_of; rewrite <- knot_of_nat, A3, A4 by lia; exact H1|].
    split; [unfold lower_of; rewrite <- knot_of_nat, B2, B4 by lia; exact L2|].
    split; [unfold upper_of; rewrite <- knot_of_nat, B3, B4 by lia; exact H2|].
    split; [exact G1|]. split; [|split; [exact G3|split; [exact G4|exact G5]]].
    intros Hc. apply G2. replace (Z.of_nat p) with (Z.of_nat p - Z.of_nat 0)%Z at 2 by lia. apply Hmr. lia.
Qed.

Lemma bspline_split d (c : bspline R (vec R d)) t :
  valid_bspline (bs_pts c) (bs_knots c) -> knots_apart (/ IZR (10 ^ 16)) (bs_knots c) ->
  regular_start (bs_pts c) (bs_knots c) -> (1 <= bspline_degree (bs_pts c) (bs_knots c))%nat ->
  lower_of (bs_pts c) (bs_knots c) < t < upper_of (bs_pts c) (bs_knots c) ->
  (forall u, In u (bs_knots c) -> u = t \/ / IZR (10 ^ 16) < Rabs (u - t)) ->
  exists c1 c2, split_bspline c t = Ok [c1; c2] /\
    bs_periodic c1 = false /\ bs_periodic c2 = false /\
    valid_bspline (bs_pts c1) (bs_knots c1) /\ valid_bspline (bs_pts c2) (bs_knots c2) /\
    bspline_degree (bs_pts c1) (bs_knots c1) = bspline_degree (bs_pts c) (bs_knots c) /\
    bspline_degree (bs_pts c2) (bs_knots c2) = bspline_degree (bs_pts c) (bs_knots c) /\
    lower_of (bs_pts c1) (bs_knots c1) = lower_of (bs_pts c) (bs_knots c) /\
    upper_of (bs_pts c1) (bs_knots c1) = t /\
    lower_of (bs_pts c2) (bs_knots c2) = t /\
    upper_of (bs_pts c2) (bs_knots c2) = upper_of (bs_pts c) (bs_knots c) /\
    (forall x, lower_of (bs_pts c) (bs_knots c) <= x < t ->
       bs_evaluate c1 x = bs_evaluate (mk_bspline (bs_pts c) (bs_knots c)) x) /\
    ((count_occ Req_EM_T (bs_knots c) t <= bspline_degree (bs_pts c) (bs_knots c))%nat ->
       bs_evaluate c1 t = bs_evaluate (mk_bspline (bs_pts c) (bs_knots c)) t) /\
    (forall x, t <= x <= upper_of (bs_pts c) (bs_knots c) ->
       bs_evaluate c2 x = bs_evaluate (mk_bspline (bs_pts c) (bs_knots c)) x).
Proof.
  intros Hv Ha Hs Hp Ht Hta.
  destruct (bspline_split_full d c t Hv Ha Hs Hp Ht Hta) as (c1 & c2 & H). exists c1, c2.
  decompose [and] H. repeat (split; [assumption|]). assumption.
Qed.

(** At the ends of the domain the curve itself is returned; outside (beyond the tolerance) the call throws. *)
Lemma bspline_split_ends d (c : bspline R (vec R d)) t : valid_bspline (bs_pts c) (bs_knots c) ->
  t = lower_of (bs_pts c) (bs_knots c) \/ t = upper_of (bs_pts c) (bs_knots c) -> split_bspline c t = Ok [c].
Proof.
  intros Hv Ht. destruct (valid_rep c Hv) as [Hr Hk]. pose proof (kv_dom _ _ _ Hk) as Hd.
  assert (EL0 : lower_of (bs_pts c) (bs_knots c) = knot_of (bs_knots c) (Z.of_nat (bspline_degree (bs_pts c) (bs_knots c))))
    by (unfold lower_of; now rewrite knot_of_nat).
  assert (EU0 : upper_of (bs_pts c) (bs_knots c) = knot_of (bs_knots c) (Z.of_nat (length (bs_pts c))))
    by (unfold upper_of; now rewrite knot_of_nat).
  rewrite EL0, EU0 in *. unfold split_bspline.
  rewrite (rep_in_domain c _ _ _ _ t Hr) by (destruct Ht; lra). rewrite bind_Ok. cbn [negb].
  rewrite (rep_lower _ _ _ _ _ Hr), (rep_upper _ _ _ _ _ Hr), !bind_Ok. simpl seq_.
  destruct (Reqb_spec t (knot_of (bs_knots c) (Z.of_nat (bspline_degree (bs_pts c) (bs_knots c))))); [reflexivity|].
  destruct Ht as [Ht|Ht]; [contradiction|].
  destruct (Reqb_spec t (knot_of (bs_knots c) (Z.of_nat (length (bs_pts c))))); [reflexivity|contradiction].
Qed.

Lemma bspline_split_outside d (c : bspline R (vec R d)) t : valid_bspline (bs_pts c) (bs_knots c) ->
  t < lower_of (bs_pts c) (bs_knots c) - / IZR (2 ^ 52) \/ upper_of (bs_pts c) (bs_knots c) + / IZR (2 ^ 52) < t ->
  split_bspline c t = Throw invalid_setting_error.
Proof.
  intros Hv Ht. destruct (valid_rep c Hv) as [Hr Hk].
  assert (EL0 : lower_of (bs_pts c) (bs_knots c) = knot_of (bs_knots c) (Z.of_nat (bspline_degree (bs_pts c) (bs_knots c))))
    by (unfold lower_of; now rewrite knot_of_nat).
  assert (EU0 : upper_of (bs_pts c) (bs_knots c) = knot_of (bs_knots c) (Z.of_nat (length (bs_pts c))))
    by (unfold upper_of; now rewrite knot_of_nat).
  rewrite EL0, EU0 in *. unfold split_bspline, bs_in_domain.
  pose proof (rep_p _ _ _ _ _ Hr) as Hp. pose proof (rep_pn _ _ _ _ _ Hr) as Hpn.
  set (n := Z.of_nat (length (bs_pts c))) in *. set (p := Z.of_nat (bspline_degree (bs_pts c) (bs_knots c))) in *.
  rewrite (rep_degree _ _ _ _ _ Hr), (rep_nknots _ _ _ _ _ Hr).
  replace (n + p + 1 - p - 1)%Z with n by lia.
  rewrite (rep_get _ _ _ _ _ _ Hr), (rep_get _ _ _ _ _ _ Hr), !bind_Ok by lia.
  rewrite <- seps_R in Ht. pose proof seps_pos as He. cbn [sle ssub sadd R_ops]. generalize dependent (seps : R). intros e Ht He.
  destruct (Rleb_spec (knot_of (bs_knots c) p - e) t); [|reflexivity].
  destruct (Rleb_spec t (knot_of (bs_knots c) n + e)); [lra|reflexivity].
Qed.
