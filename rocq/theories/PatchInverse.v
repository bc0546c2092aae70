(** Splitting B-spline curves and patches keeps the knots sorted, without any assumption on the distance of the
    knots; the range of the approximate inverse of B-spline, NURBS and rational Bezier patches. *)
From Coq Require Import Reals Lra Lia ZArith List Bool.
From Verif Require Import Monad MonadFacts LoopFacts Scalar ScalarFacts Spec SpecFacts Polar ModelCurve CurveFacts ModelBezier
  BezierFacts BezierMath BezierThms BSplineMath ModelBSpline BSplineFacts BSplineThms BSplineThms2 BSplineThms3
  BSplineInsert BSplineInsert2 BSplineInsert3 BSplineSplit SpecPatch ModelPatchBase ModelPatch PatchFacts
  BSplinePatchThms BSplinePatchThms2 BSplinePatchSplit ModelRational ModelPatchRational ModelInverse ModelInverse2 InverseThms CurveThms.
Import ListNotations.
Local Open Scope R_scope.

Section WeakSplit.
  Context {d : nat}.
  Variables (c : bspline R (vec R d)) (n p : Z) (U : Z -> R) (cp : Z -> vec R d) (t : R).
  Hypothesis Hr : bsrep c n p U cp.
  Hypothesis Hv : kval n p U.
  Hypothesis Ht : U p < t < U n.
  Hypothesis Hp1 : (1 <= p)%Z.

  Lemma weak_prep : exists c1 n1 U1 cp1 k,
    split_insert p t c = Ok c1 /\ bsrep c1 n1 p U1 cp1 /\ kval n1 p U1 /\
    U1 p = U p /\ U1 n1 = U n /\
    locate_span c1 t = Ok k /\ (p <= k < n1)%Z /\ U1 k = t /\ t < U1 (k + 1)%Z /\
    (forall i, (k - p < i <= k)%Z -> U1 i = t).
  Proof.
    pose proof (rep_p _ _ _ _ _ Hr) as Hp. pose proof (rep_pn _ _ _ _ _ Hr) as Hpn. pose proof Hv as [Hm Hd].
    destruct (locate_span_regular c n p U cp t Hr Hv ltac:(right; lra) ltac:(lra)) as (k & Ek & Hk & Hs).
    destruct (in_span_bounds _ _ _ _ Hs) as [Hb Hlt].
    assert (Htk : t < U (k + 1)%Z) by (destruct Hs as [[? ?]|[? ?]]; lra).
    unfold split_insert. rewrite Ek, bind_Ok. rewrite (rep_get _ _ _ _ _ k Hr), bind_Ok by lia. simpl seq_.
    assert (HS : exists s, (if Reqb t (U k) then get_multiplicity c k else Ok 0%Z) = Ok s /\ (0 <= s <= k + 1)%Z /\
       (forall i, (k - s < i <= k)%Z -> U i = t)).
    { destruct (Reqb_spec t (U k)) as [E|E].
      - destruct (get_multiplicity_correct c n p U cp k Hr ltac:(lia)) as (a & b & Em & Ha & Hb' & Hrun & Hla & Hlb).
        assert (b = k).
        { destruct (Z.eq_dec b k); [assumption|exfalso]. specialize (Hrun (k + 1)%Z ltac:(lia)). lra. }
        subst b. exists (k - a + 1)%Z. split; [exact Em|]. split; [lia|]. intros i Hi; rewrite E; apply Hrun; lia.
      - exists 0%Z. split; [reflexivity|]. split; [lia|]. intros; lia. }
    destruct HS as (s & Es & Hs0 & Hrun). rewrite Es, bind_Ok.
    destruct (Z.ltb_spec s p) as [Hsp|Hsp].
    - destruct (bs_insert_gen c n p U cp t (p - s) k s Hr Hm ltac:(lra) Ek Hk Hlt Es ltac:(lia) ltac:(lia) ltac:(lia)) as (c1 & E1 & _ & Hr1).
      set (U1 := insU U k (p - s) t) in *. set (n1 := (n + (p - s))%Z) in *.
      assert (Elow : forall i, (i <= k)%Z -> U1 i = U i) by (intros; apply insU_low; lia).
      assert (Emid : forall i, (k < i <= k + (p - s))%Z -> U1 i = t) by (intros; apply insU_mid; lia).
      assert (Ehigh : forall i, (k + (p - s) < i)%Z -> U1 i = U (i - (p - s))%Z) by (intros; apply insU_high; lia).
      assert (Hm1 : mono U1 0 (n1 + p)).
      { replace (n1 + p)%Z with (n + p + (p - s))%Z by lia. apply (insU_mono U 0%nat k (p - s) t 0 (n + p) Hm); (lia || exact Hb). }
      assert (EUp : U1 p = U p) by (apply Elow; lia).
      assert (EUn : U1 n1 = U n) by (unfold n1; rewrite Ehigh by lia; f_equal; lia).
      assert (Hv1 : kval n1 p U1) by (split; [exact Hm1|rewrite EUp, EUn; exact Hd]).
      assert (Ek1 : U1 (k + (p - s))%Z = t) by (apply Emid; lia).
      assert (Ek2 : U1 (k + (p - s) + 1)%Z = U (k + 1)%Z) by (rewrite Ehigh by lia; f_equal; lia).
      exists c1, n1, U1, (insQ U (Z.to_nat p) k s (p - s) t cp), (k + (p - s))%Z.
      split; [exact E1|]. split; [exact Hr1|]. split; [exact Hv1|]. split; [exact EUp|]. split; [exact EUn|].
      split.
      { destruct (locate_span_regular c1 n1 p U1 _ t Hr1 Hv1 ltac:(right; lra) ltac:(lra)) as (k' & Ek' & Hk' & Hs').
        rewrite Ek'. f_equal. apply (in_span_unique U1 (U1 n1) 0 (n1 + p) _ _ t Hm1); try lia; [exact Hs'|].
        left. lra. }
      split; [lia|]. split; [exact Ek1|]. split; [lra|].
      intros i Hi. destruct (Z_le_gt_dec i k); [rewrite Elow by lia; apply Hrun; lia|apply Emid; lia].
    - assert (Hkt : U k = t) by (apply Hrun; lia).
      exists c, n, U, cp, k. repeat (split; [first [reflexivity|assumption|lra]|]). intros i Hi; apply Hrun; lia.
  Qed.

  Lemma weak_split : exists c1 c2 n1 n2 U1 U2 cp1 cp2,
    split_bspline c t = Ok [c1; c2] /\
    bsrep c1 n1 p U1 cp1 /\ kval n1 p U1 /\ U1 p = U p /\ U1 n1 = t /\
    bsrep c2 n2 p U2 cp2 /\ kval n2 p U2 /\ U2 p = t /\ U2 n2 = U n.
  Proof.
    pose proof (rep_p _ _ _ _ _ Hr) as Hp. pose proof (rep_pn _ _ _ _ _ Hr) as Hpn.
    destruct weak_prep as (c0 & n0 & U0 & cp0 & k & E0 & Hr0 & Hv0 & EUp & EUn & Ek & Hk & Ekt & Hkt & Hrun).
    unfold split_bspline. rewrite (rep_in_domain c n p U cp t Hr) by lra. rewrite bind_Ok. cbn [negb].
    rewrite (rep_lower _ _ _ _ _ Hr), (rep_upper _ _ _ _ _ Hr), !bind_Ok. simpl seq_.
    destruct (Reqb_spec t (U p)); [lra|]. destruct (Reqb_spec t (U n)); [lra|].
    rewrite (rep_degree _ _ _ _ _ Hr). cbv zeta. unfold split_insert in E0.
    destruct (locate_span c t) as [k'| | |]; try discriminate E0. cbn [bind] in E0 |- *.
    destruct (get (bs_knots c) k') as [uk| | |]; try discriminate E0. cbn [bind] in E0 |- *. simpl seq_ in E0.
    destruct (if Reqb t uk then get_multiplicity c k' else Ok 0%Z) as [s| | |]; try discriminate E0. cbn [bind] in E0 |- *.
    rewrite E0, bind_Ok, Ek, bind_Ok.
    pose proof (rep_pts _ _ _ _ _ Hr0) as HA. pose proof (rep_knots _ _ _ _ _ Hr0) as HK. pose proof (rep_pn _ _ _ _ _ Hr0) as Hpn0.
    rewrite (arr_len _ _ _ HA), (arr_len _ _ _ HK).
    pose proof (cut_kp c0 n0 p U0 cp0 t k Hr0 Hv0 Hp1 Hk ltac:(lra) Hrun) as Hkp.
    destruct (arr_topRows _ _ _ (k - p + 1) HA ltac:(lia)) as (q1 & -> & Hq1). rewrite bind_Ok.
    destruct (arr_bottomRows _ _ _ (n0 - 1 - k + p + 1) HA ltac:(lia)) as (q2 & -> & Hq2). rewrite bind_Ok.
    destruct (arr_alloc (s0 : R) (k + 2) ltac:(lia)) as (l1 & -> & Hl1). rewrite bind_Ok.
    destruct (arr_block _ _ _ 0 (k + 1) HK ltac:(lia) ltac:(lia) ltac:(lia)) as (l2 & -> & Hl2). rewrite bind_Ok.
    destruct (arr_blit _ _ _ 0 _ _ _ Hl1 Hl2 ltac:(lia) ltac:(lia)) as (l3 & -> & Hl3). rewrite bind_Ok.
    rewrite (arr_get _ _ _ k Hl3) by lia. rewrite bind_Ok.
    lazymatch goal with |- context[set l3 (k + 1)%Z ?v] => destruct (arr_set _ _ _ (k + 1) v Hl3 ltac:(lia)) as (l4 & El4 & Hl4) end. rewrite El4, bind_Ok.
    destruct (arr_alloc (s0 : R) (n0 + p + 1 - 1 - k + p + 1) ltac:(lia)) as (m1 & -> & Hm1). rewrite bind_Ok.
    destruct (arr_block _ _ _ (k - p + 1) (n0 + p + 1 - 1 - k + p) HK ltac:(lia) ltac:(lia) ltac:(lia)) as (m2 & -> & Hm2). rewrite bind_Ok.
    destruct (arr_blit _ _ _ 1 _ _ _ Hm1 Hm2 ltac:(lia) ltac:(lia)) as (m3 & -> & Hm3). rewrite bind_Ok.
    rewrite (arr_get _ _ _ 1 Hm3) by lia. rewrite bind_Ok.
    lazymatch goal with |- context[set m3 0%Z ?v] => destruct (arr_set _ _ _ 0 v Hm3 ltac:(lia)) as (m4 & Em4 & Hm4) end. rewrite Em4, bind_Ok.
    pose proof Hv0 as [HM HD].
    assert (A1 : arr l4 (k + 2) (cutU1 U0 k)).
    { eapply arr_ext; [exact Hl4|]. intros i Hi. unfold fupd, cutU1. destruct (Z.eqb_spec i (k + 1)); zbool; f_equal; lia. }
    assert (A2 : arr m4 (n0 - k + p + p + 1) (cutU2 p U0 k)).
    { replace (n0 - k + p + p + 1)%Z with (n0 + p + 1 - 1 - k + p + 1)%Z by lia. eapply arr_ext; [exact Hm4|].
      intros i Hi. unfold fupd, cutU2. destruct (Z.eqb_spec i 0); zbool; f_equal; lia. }
    assert (A3 : arr q2 (n0 - k + p) (fun i => cp0 (i + (k - p))%Z)).
    { replace (n0 - k + p)%Z with (n0 - 1 - k + p + 1)%Z by lia. eapply arr_ext; [exact Hq2|]. intros i Hi. cbv beta. f_equal. lia. }
    exists (mk_bspline q1 l4), (mk_bspline q2 m4), (k - p + 1)%Z, (n0 - k + p)%Z, (cutU1 U0 k), (cutU2 p U0 k), cp0, (fun i => cp0 (i + (k - p))%Z).
    split; [reflexivity|].
    assert (Elow : forall i, (i <= k)%Z -> cutU1 U0 k i = U0 i) by (intros i Hi; unfold cutU1; destruct (Z.eqb_spec i (k + 1)); [lia|reflexivity]).
    assert (Etop : cutU1 U0 k (k + 1)%Z = U0 k) by (unfold cutU1; destruct (Z.eqb_spec (k + 1) (k + 1)); [reflexivity|lia]).
    assert (Ehi : forall i, (1 <= i)%Z -> cutU2 p U0 k i = U0 (i + (k - p))%Z) by (intros i Hi; unfold cutU2; destruct (Z.eqb_spec i 0); [lia|reflexivity]).
    assert (Ez : cutU2 p U0 k 0%Z = U0 (k - p + 1)%Z) by reflexivity.
    split; [split; [exact Hq1| |lia|lia]; cbn [bs_knots mk_bspline]; replace (k - p + 1 + p + 1)%Z with (k + 2)%Z by lia; exact A1|].
    assert (B1 : cutU1 U0 k p = U p) by (rewrite Elow by lia; exact EUp).
    assert (B2 : cutU1 U0 k (k - p + 1)%Z = t) by (rewrite Elow by lia; apply Hrun; lia).
    assert (B3 : cutU2 p U0 k p = t) by (rewrite Ehi by lia; apply Hrun; lia).
    assert (B4 : cutU2 p U0 k (n0 - k + p)%Z = U n) by (rewrite Ehi by lia; rewrite <- EUn; f_equal; lia).
    split.
    { split; [|rewrite B1, B2; lra]. intros i j Hi Hij Hj. destruct (Z.eq_dec j (k + 1)) as [->|].
      - rewrite Etop. destruct (Z.eq_dec i (k + 1)) as [->|]; [rewrite Etop; lra|]. rewrite Elow by lia. apply HM; lia.
      - rewrite !Elow by lia. apply HM; lia. }
    split; [exact B1|]. split; [exact B2|].
    split; [split; [exact A3|exact A2|lia|lia]|].
    split; [|split; [exact B3|exact B4]].
    split; [|rewrite B3, B4; lra]. intros i j Hi Hij Hj. destruct (Z.eq_dec i 0) as [->|].
    - rewrite Ez. destruct (Z.eq_dec j 0) as [->|]; [rewrite Ez; lra|]. rewrite Ehi by lia. apply HM; lia.
    - rewrite !Ehi by lia. apply HM; lia.
  Qed.
End WeakSplit.

Lemma weak_dir_split {d} p knots per t : valid_dir p knots -> (1 <= p)%nat -> dir_lo p knots < t < dir_hi p knots ->
  forall pts : list (vec R d), length pts = dir_count p knots ->
  exists c1 c2, split_bspline {| bs_pts := pts; bs_knots := knots; bs_periodic := per |} t = Ok [c1; c2] /\
    bs_degree c1 = Z.of_nat p /\ bs_degree c2 = Z.of_nat p /\
    valid_dir p (bs_knots c1) /\ valid_dir p (bs_knots c2) /\
    dir_lo p (bs_knots c1) = dir_lo p knots /\ dir_hi p (bs_knots c1) = t /\
    dir_lo p (bs_knots c2) = t /\ dir_hi p (bs_knots c2) = dir_hi p knots.
Proof.
  intros Hv Hp Ht pts Hl. set (c := {| bs_pts := pts; bs_knots := knots; bs_periodic := per |}).
  destruct (dir_rep p knots Hv c eq_refl Hl) as [Hr Hk].
  rewrite (dir_lo_U p knots), (dir_hi_U p knots) in *.
  destruct (weak_split c _ _ _ _ t Hr Hk Ht ltac:(lia)) as (c1 & c2 & n1 & n2 & U1 & U2 & cp1 & cp2 & E & R1 & V1 & L1 & H1 & R2 & V2 & L2 & H2).
  exists c1, c2. split; [exact E|]. split; [exact (rep_degree _ _ _ _ _ R1)|]. split; [exact (rep_degree _ _ _ _ _ R2)|].
  assert (K : forall (c1 : bspline R (vec R d)) n1 U1 cp1, bsrep c1 n1 (Z.of_nat p) U1 cp1 -> kval n1 (Z.of_nat p) U1 ->
    valid_dir p (bs_knots c1) /\ dir_lo p (bs_knots c1) = U1 (Z.of_nat p) /\ dir_hi p (bs_knots c1) = U1 n1).
  { clear. intros c1 n1 U1 cp1 R1 V1. destruct (rep_valid c1 _ _ _ _ R1 V1) as (W1 & W2 & W3 & W4 & _).
    pose proof (rep_pn _ _ _ _ _ R1) as Hpn.
    assert (L1 : length (bs_knots c1) = (length (bs_pts c1) + p + 1)%nat).
    { unfold bspline_degree in W2. destruct W1 as [X1 X2 _ _]. unfold bspline_degree in *. lia. }
    assert (Ec : dir_count p (bs_knots c1) = length (bs_pts c1)) by (unfold dir_count; lia).
    assert (Eu : forall i, (0 <= i <= n1 + Z.of_nat p)%Z -> nth (Z.to_nat i) (bs_knots c1) 0 = U1 i) by exact W4.
    assert (Elo : dir_lo p (bs_knots c1) = U1 (Z.of_nat p)).
    { unfold dir_lo. rewrite <- Eu by lia. f_equal. lia. }
    assert (Ehi : dir_hi p (bs_knots c1) = U1 n1).
    { unfold dir_hi. rewrite Ec, <- Eu by lia. f_equal. lia. }
    split; [|now split]. split; [lia|exact (vb_sorted _ _ W1)|]. rewrite Elo, Ehi. exact (kv_dom _ _ _ V1). }
  destruct (K c1 n1 U1 cp1 R1 V1) as (A1 & A2 & A3). destruct (K c2 n2 U2 cp2 R2 V2) as (B1 & B2 & B3).
  rewrite A2, A3, B2, B3. auto 10.
Qed.

(** A patch fit to be split. *)
Record wpatch {d} (s : spatch R (vec R d)) (p q : nat) : Prop := {
  wp_fit : sfit s p q;
  wp_init : sp_initialize s = Ok s;
  wp_t : (sp_tu s < 0 \/ sp_tv s < 0 \/ (sp_tu s = Z.of_nat p /\ sp_tv s = Z.of_nat q))%Z;
}.

Lemma wpiece {d} tu tv p q (g : list (vec R d)) ku kv a : valid_dir p ku -> valid_dir q kv ->
  (tu < 0 \/ tv < 0 \/ (tu = Z.of_nat p /\ tv = Z.of_nat q))%Z ->
  sp_initialize (sp_make tu tv (Z.of_nat p) (Z.of_nat q) g ku kv false false) = Ok a ->
  wpatch a p q /\ sp_ku a = ku /\ sp_kv a = kv.
Proof.
  intros Hu Hv Ht E. set (s0 := sp_make tu tv (Z.of_nat p) (Z.of_nat q) g ku kv false false) in *.
  destruct (dir_len _ _ Hu) as [L1 L2]. destruct (dir_len _ _ Hv) as [L3 L4].
  assert (F : sfit s0 p q).
  { split; try reflexivity; try assumption. unfold sp_initialize, checked_degree in E. cbn [sp_degu sp_degv sp_grid sp_ku sp_kv s0 sp_make] in E |- *.
    destruct (Z.leb_spec 0 (Z.of_nat p)); [|lia]. destruct (Z.leb_spec 0 (Z.of_nat q)); [|lia]. cbn [assert_ bind] in E.
    destruct (_ || _) in E; [discriminate|].
    destruct (Z.eqb_spec (zlen g) ((zlen ku - Z.of_nat p - 1) * (zlen kv - Z.of_nat q - 1))) as [Eg|]; [|discriminate].
    rewrite Eg. unfold zlen. f_equal; lia. }
  destruct (sp_init_gen s0 p q F) as (s' & E' & A1 & A2 & A3 & A4 & A5 & A6 & A7 & A8 & A9 & A10).
  rewrite E in E'. injection E' as <-.
  cbn [sp_tu sp_tv sp_degu sp_degv sp_grid sp_ku sp_kv s0 sp_make] in *.
  split; [|now split]. split; [|assumption|].
  - destruct F as [F1 F2 F3 F4 F5]. split; rewrite ?A3, ?A4, ?A5, ?A6, ?A7; try assumption; try reflexivity.
  - rewrite A1, A2. exact Ht.
Qed.

Lemma wsplit_u {d} (s : spatch R (vec R d)) p q u l : wpatch s p q -> (1 <= p)%nat ->
  dir_lo p (sp_ku s) < u < dir_hi p (sp_ku s) -> sp_split_u s u = Ok l ->
  exists a b, l = [a; b] /\ wpatch a p q /\ wpatch b p q /\ sp_kv a = sp_kv s /\ sp_kv b = sp_kv s /\
    dir_lo p (sp_ku a) = dir_lo p (sp_ku s) /\ dir_hi p (sp_ku a) = u /\
    dir_lo p (sp_ku b) = u /\ dir_hi p (sp_ku b) = dir_hi p (sp_ku s).
Proof.
  intros [Hf Hi Ht] Hp Hu E. set (n := dir_count p (sp_ku s)) in *. set (m := dir_count q (sp_kv s)) in *.
  destruct (dir_len _ _ (sr_ku _ _ _ Hf)) as [L1 L2]. fold n in L1, L2.
  destruct (dir_len _ _ (sr_kv _ _ _ Hf)) as [L3 L4]. fold m in L3, L4.
  unfold sp_split_u in E. rewrite (sp_ulo_Ok s p q Hf), (sp_uhi_Ok s p q Hf), !bind_Ok, endp_in in E by exact Hu.
  rewrite (sp_nv_Ok s p q Hf), bind_Ok in E. fold m in E.
  destruct (sp_cached s p q Hf Hi) as [Cu _]. fold m in Cu. rewrite Cu in E.
  set (iso := fun j => {| bs_pts := scol s p q j; bs_knots := sp_ku s; bs_periodic := sp_peru s |}) in *.
  set (F := fun j => match split_bspline (iso j) u with Ok l => l | _ => [] end).
  assert (HF : forall j, exists c1 c2, split_bspline (iso j) u = Ok (F j) /\ F j = [c1; c2] /\
    bs_degree c1 = Z.of_nat p /\ bs_degree c2 = Z.of_nat p /\
    valid_dir p (bs_knots c1) /\ valid_dir p (bs_knots c2) /\
    dir_lo p (bs_knots c1) = dir_lo p (sp_ku s) /\ dir_hi p (bs_knots c1) = u /\
    dir_lo p (bs_knots c2) = u /\ dir_hi p (bs_knots c2) = dir_hi p (sp_ku s)).
  { intros j. destruct (weak_dir_split p (sp_ku s) (sp_peru s) u (sr_ku _ _ _ Hf) Hp Hu (scol s p q j) (len_scol s p q j)) as (c1 & c2 & Es & A).
    fold (iso j) in Es. exists c1, c2. unfold F. rewrite Es. auto. }
  rewrite (tabulate_Ok _ _ F) in E by (lia || (intros j Hj; rewrite get_mklist by lia; rewrite bind_Ok; destruct (HF j) as (? & ? & Es & _); exact Es)).
  rewrite bind_Ok in E. rewrite get_mklist in E by lia. rewrite bind_Ok in E.
  destruct (HF 0%Z) as (c1 & c2 & _ & EF0 & D1 & D2 & V1 & V2 & A1 & A2 & A3 & A4). rewrite EF0 in E.
  change (get [c1; c2] 0) with (Ok c1) in E. change (get [c1; c2] 1) with (Ok c2) in E. rewrite !bind_Ok in E.
  apply bind_inv in E. destruct E as (g0 & _ & E). apply bind_inv in E. destruct E as (g1 & _ & E).
  apply bind_inv in E. destruct E as ([h0 h1] & _ & E). cbv zeta in E.
  assert (Edv : checked_degree (sp_degv s) = Ok (Z.of_nat q)).
  { unfold checked_degree. rewrite (sr_v _ _ _ Hf). replace (0 <=? Z.of_nat q)%Z with true by (symmetry; apply Z.leb_le; lia). reflexivity. }
  rewrite Edv, !bind_Ok, D1, D2 in E.
  assert (ET : (if ((sp_tu s <? 0)%Z || (sp_tv s <? 0)%Z)%bool then (Z.of_nat p, Z.of_nat q) else (sp_tu s, sp_tv s)) = (Z.of_nat p, Z.of_nat q)).
  { destruct (Z.ltb_spec (sp_tu s) 0); [reflexivity|]. destruct (Z.ltb_spec (sp_tv s) 0); [reflexivity|].
    destruct Ht as [?|[?|[-> ->]]]; [lia|lia|reflexivity]. }
  rewrite ET in E. apply bind_inv in E. destruct E as (a & Ea & E). apply bind_inv in E. destruct E as (b & Eb & E). injection E as <-.
  destruct (wpiece _ _ p q _ _ _ a V1 (sr_kv _ _ _ Hf) Ht Ea) as (Wa & Ka1 & Ka2).
  destruct (wpiece _ _ p q _ _ _ b V2 (sr_kv _ _ _ Hf) Ht Eb) as (Wb & Kb1 & Kb2).
  exists a, b. rewrite Ka1, Kb1. auto 12.
Qed.

Lemma wsplit_v {d} (s : spatch R (vec R d)) p q v l : wpatch s p q -> (1 <= q)%nat ->
  dir_lo q (sp_kv s) < v < dir_hi q (sp_kv s) -> sp_split_v s v = Ok l ->
  exists a b, l = [a; b] /\ wpatch a p q /\ wpatch b p q /\ sp_ku a = sp_ku s /\ sp_ku b = sp_ku s /\
    dir_lo q (sp_kv a) = dir_lo q (sp_kv s) /\ dir_hi q (sp_kv a) = v /\
    dir_lo q (sp_kv b) = v /\ dir_hi q (sp_kv b) = dir_hi q (sp_kv s).
Proof.
  intros [Hf Hi Ht] Hq Hv E. set (n := dir_count p (sp_ku s)) in *. set (m := dir_count q (sp_kv s)) in *.
  destruct (dir_len _ _ (sr_ku _ _ _ Hf)) as [L1 L2]. fold n in L1, L2.
  destruct (dir_len _ _ (sr_kv _ _ _ Hf)) as [L3 L4]. fold m in L3, L4.
  unfold sp_split_v in E. rewrite (sp_vlo_Ok s p q Hf), (sp_vhi_Ok s p q Hf), !bind_Ok, endp_in in E by exact Hv.
  destruct (negb _) in E; [discriminate|].
  rewrite (sp_nu_Ok s p q Hf), bind_Ok in E. fold n in E.
  destruct (sp_cached s p q Hf Hi) as [_ Cv]. fold n in Cv. rewrite Cv in E.
  set (iso := fun i => {| bs_pts := srow s q i; bs_knots := sp_kv s; bs_periodic := sp_perv s |}) in *.
  set (F := fun j => match split_bspline (iso j) v with Ok l => l | _ => [] end).
  assert (HF : forall j, exists c1 c2, split_bspline (iso j) v = Ok (F j) /\ F j = [c1; c2] /\
    bs_degree c1 = Z.of_nat q /\ bs_degree c2 = Z.of_nat q /\
    valid_dir q (bs_knots c1) /\ valid_dir q (bs_knots c2) /\
    dir_lo q (bs_knots c1) = dir_lo q (sp_kv s) /\ dir_hi q (bs_knots c1) = v /\
    dir_lo q (bs_knots c2) = v /\ dir_hi q (bs_knots c2) = dir_hi q (sp_kv s)).
  { intros j. destruct (weak_dir_split q (sp_kv s) (sp_perv s) v (sr_kv _ _ _ Hf) Hq Hv (srow s q j) (len_srow s q j)) as (c1 & c2 & Es & A).
    fold (iso j) in Es. exists c1, c2. unfold F. rewrite Es. auto. }
  rewrite (tabulate_Ok _ _ F) in E by (lia || (intros j Hj; rewrite get_mklist by lia; rewrite bind_Ok; destruct (HF j) as (? & ? & Es & _); exact Es)).
  rewrite bind_Ok in E. rewrite get_mklist in E by lia. rewrite bind_Ok in E.
  destruct (HF 0%Z) as (c1 & c2 & _ & EF0 & D1 & D2 & V1 & V2 & A1 & A2 & A3 & A4). rewrite EF0 in E.
  change (get [c1; c2] 0) with (Ok c1) in E. change (get [c1; c2] 1) with (Ok c2) in E. rewrite !bind_Ok in E.
  apply bind_inv in E. destruct E as (g0 & _ & E). apply bind_inv in E. destruct E as (g1 & _ & E).
  apply bind_inv in E. destruct E as ([h0 h1] & _ & E). cbv zeta in E.
  assert (Edu : checked_degree (sp_degu s) = Ok (Z.of_nat p)).
  { unfold checked_degree. rewrite (sr_u _ _ _ Hf). replace (0 <=? Z.of_nat p)%Z with true by (symmetry; apply Z.leb_le; lia). reflexivity. }
  rewrite Edu, !bind_Ok, D1, D2 in E.
  assert (ET : (if ((sp_tu s <? 0)%Z || (sp_tv s <? 0)%Z)%bool then (Z.of_nat p, Z.of_nat q) else (sp_tu s, sp_tv s)) = (Z.of_nat p, Z.of_nat q)).
  { destruct (Z.ltb_spec (sp_tu s) 0); [reflexivity|]. destruct (Z.ltb_spec (sp_tv s) 0); [reflexivity|].
    destruct Ht as [?|[?|[-> ->]]]; [lia|lia|reflexivity]. }
  rewrite ET in E. apply bind_inv in E. destruct E as (a & Ea & E). apply bind_inv in E. destruct E as (b & Eb & E). injection E as <-.
  destruct (wpiece _ _ p q _ _ _ a (sr_ku _ _ _ Hf) V1 Ht Ea) as (Wa & Ka1 & Ka2).
  destruct (wpiece _ _ p q _ _ _ b (sr_ku _ _ _ Hf) V2 Ht Eb) as (Wb & Kb1 & Kb2).
  exists a, b. rewrite Ka2, Kb2. auto 12.
Qed.

Lemma wupper_u {d} (a : spatch R (vec R d)) p q u b : wpatch a p q -> (1 <= p)%nat -> dir_lo p (sp_ku a) <= u < dir_hi p (sp_ku a) ->
  (do l <- sp_split_u a u; get l 0) = Ok b -> wpatch b p q /\ sp_kv b = sp_kv a.
Proof.
  intros W Hp Hu E. apply bind_inv in E. destruct E as (l & El & E). destruct (Req_EM_T u (dir_lo p (sp_ku a))) as [Eu|Eu].
  - unfold sp_split_u in El. rewrite (sp_ulo_Ok a p q (wp_fit _ _ _ W)), (sp_uhi_Ok a p q (wp_fit _ _ _ W)), !bind_Ok, endp_end in El by now left.
    injection El as <-. cbn in E. injection E as <-. now split.
  - destruct (wsplit_u a p q u l W Hp ltac:(lra) El) as (x & y & -> & Wx & _ & Kx & _). cbn in E. injection E as <-. now split.
Qed.
Lemma wupper_v {d} (a : spatch R (vec R d)) p q v b : wpatch a p q -> (1 <= q)%nat -> dir_lo q (sp_kv a) <= v < dir_hi q (sp_kv a) ->
  (do l <- sp_split_v a v; get l 0) = Ok b -> wpatch b p q.
Proof.
  intros W Hp Hu E. apply bind_inv in E. destruct E as (l & El & E). destruct (Req_EM_T v (dir_lo q (sp_kv a))) as [Eu|Eu].
  - unfold sp_split_v in El. rewrite (sp_vlo_Ok a p q (wp_fit _ _ _ W)), (sp_vhi_Ok a p q (wp_fit _ _ _ W)), !bind_Ok, endp_end in El by now left.
    destruct (negb _) in El; [discriminate|]. injection El as <-. cbn in E. injection E as <-. exact W.
  - destruct (wsplit_v a p q v l W Hp ltac:(lra) El) as (x & y & -> & Wx & _). cbn in E. injection E as <-. exact Wx.
Qed.

Lemma endp_false (lo hi t : R) : lo <= t <= hi -> is_endpoint_1 lo hi t = false -> lo < t < hi.
Proof.
  unfold is_endpoint_1. cbn [seq_ R_ops]. intros H E. destruct (Reqb_spec t lo); [discriminate|]. destruct (Reqb_spec t hi); [discriminate|]. lra.
Qed.

Lemma wsubpatch {d} (s : spatch R (vec R d)) p q u0 u1 v0 v1 a : wpatch s p q -> (1 <= p)%nat -> (1 <= q)%nat ->
  dir_lo p (sp_ku s) <= u0 -> u1 <= dir_hi p (sp_ku s) -> dir_lo q (sp_kv s) <= v0 -> v1 <= dir_hi q (sp_kv s) ->
  sp_subpatch s u0 u1 v0 v1 = Ok a -> wpatch a p q /\ u0 <= u1 /\ v0 <= v1.
Proof.
  intros W Hp Hq Hu0 Hu1 Hv0 Hv1 E. pose proof (wp_fit _ _ _ W) as Hf. unfold sp_subpatch in E.
  rewrite (sp_ulo_Ok s p q Hf), (sp_uhi_Ok s p q Hf), (sp_vlo_Ok s p q Hf), (sp_vhi_Ok s p q Hf), !bind_Ok in E.
  cbn [slt R_ops] in E. destruct (Rltb_spec u1 u0) as [|Hu]; [discriminate|].
  destruct (_ || _) in E; [discriminate|]. destruct (Rltb_spec v1 v0) as [|Hv]; [discriminate|].
  destruct (_ || _) in E; [discriminate|]. split; [|lra].
  apply bind_inv in E. destruct E as (a1 & E1 & E).
  assert (W1 : wpatch a1 p q /\ sp_kv a1 = sp_kv s /\ (is_endpoint_1 (dir_lo p (sp_ku s)) (dir_hi p (sp_ku s)) u1 = false ->
     dir_lo p (sp_ku a1) <= u1 < dir_hi p (sp_ku a1))).
  { destruct (is_endpoint_1 _ _ u0) eqn:Eu.
    - injection E1 as <-. split; [exact W|]. split; [reflexivity|]. intros H. apply endp_false in H; lra.
    - apply endp_false in Eu; [|lra]. apply bind_inv in E1. destruct E1 as (l & El & E1).
      destruct (wsplit_u s p q u0 l W Hp Eu El) as (x & y & -> & Wx & Wy & Kx & Ky & X1 & X2 & Y1 & Y2). cbn in E1. injection E1 as <-.
      split; [exact Wy|]. split; [exact Ky|]. intros H. apply endp_false in H; lra. }
  destruct W1 as (W1 & K1 & D1). apply bind_inv in E. destruct E as (a2 & E2 & E).
  assert (W2 : wpatch a2 p q /\ sp_kv a2 = sp_kv s).
  { destruct (is_endpoint_1 _ _ u1).
    - injection E2 as <-. now split.
    - destruct (wupper_u a1 p q u1 a2 W1 Hp (D1 eq_refl) E2) as [X Y]. split; congruence. }
  destruct W2 as (W2 & K2). apply bind_inv in E. destruct E as (a3 & E3 & E).
  assert (W3 : wpatch a3 p q /\ (is_endpoint_1 (dir_lo q (sp_kv s)) (dir_hi q (sp_kv s)) v1 = false ->
     dir_lo q (sp_kv a3) <= v1 < dir_hi q (sp_kv a3))).
  { destruct (is_endpoint_1 _ _ v0) eqn:Ev.
    - injection E3 as <-. split; [exact W2|]. rewrite K2. intros H. apply endp_false in H; lra.
    - apply endp_false in Ev; [|lra]. apply bind_inv in E3. destruct E3 as (l & El & E3).
      destruct (wsplit_v a2 p q v0 l W2 Hq ltac:(rewrite K2; lra) El) as (x & y & -> & Wx & Wy & Kx & Ky & X1 & X2 & Y1 & Y2). cbn in E3. injection E3 as <-.
      split; [exact Wy|]. rewrite Y1, Y2, K2. intros H. apply endp_false in H; lra. }
  destruct W3 as (W3 & D3).
  destruct (is_endpoint_1 _ _ v1).
  - injection E as <-. exact W3.
  - exact (wupper_v a3 p q v1 a W3 Hq (D3 eq_refl) E).
Qed.

(** ** Greville abscissae are monotone *)
Lemma get_nth_R (l : list R) i x : get l i = Ok x -> (0 <= i < zlen l)%Z /\ x = nth (Z.to_nat i) l 0.
Proof.
  unfold get, zlen. destruct (Z.ltb_spec i 0); [discriminate|]. destruct (nth_error l (Z.to_nat i)) eqn:E; [|discriminate].
  intros Ex. injection Ex as <-. split; [|symmetry; now apply nth_error_nth].
  assert (Z.to_nat i < length l)%nat by (apply nth_error_Some; congruence). lia.
Qed.

Lemma greville_sum (knots : list R) i i' n : nondecreasing knots -> (i <= i')%Z -> forall lo a a' y y', a <= a' ->
  for_nat n lo (fun k sum => do x <- get knots (1 + i + k); Ok (sadd sum x)) a = Ok y ->
  for_nat n lo (fun k sum => do x <- get knots (1 + i' + k); Ok (sadd sum x)) a' = Ok y' -> y <= y'.
Proof.
  intros Hs Hi. induction n as [|n IH]; intros lo a a' y y' Ha E E'; cbn [for_nat] in E, E'.
  - injection E as <-. injection E' as <-. exact Ha.
  - apply bind_inv in E. destruct E as (b & Eb & E). apply bind_inv in E'. destruct E' as (b' & Eb' & E').
    apply bind_inv in Eb. destruct Eb as (x & Ex & Eb). apply bind_inv in Eb'. destruct Eb' as (x' & Ex' & Eb').
    injection Eb as <-. injection Eb' as <-. apply get_nth_R in Ex. apply get_nth_R in Ex'. destruct Ex as [B ->], Ex' as [B' ->]. unfold zlen in *.
    refine (IH _ _ _ _ _ _ E E'). cbn [sadd R_ops]. apply Rplus_le_compat; [exact Ha|]. apply Hs. lia.
Qed.

Lemma greville_mono (knots : list R) deg i i' x x' : nondecreasing knots -> (0 <= deg)%Z -> (i <= i')%Z ->
  greville knots deg i = Ok x -> greville knots deg i' = Ok x' -> x <= x'.
Proof.
  intros Hs Hd Hi E E'. unfold greville in *. apply bind_inv in E. destruct E as (y & Ey & E). apply bind_inv in E'. destruct E' as (y' & Ey' & E').
  pose proof (greville_sum knots i i' _ Hs Hi 0 _ _ y y' (Rle_refl _) Ey Ey') as Hy.
  cbn [sofZ R_ops] in *. destruct (Z.eq_dec deg 0) as [->|Hne].
  - unfold ddiv in E. cbn [seq_ s0 R_ops] in E. rewrite Reqb_true in E by reflexivity. discriminate.
  - assert (0 < IZR deg) by (apply IZR_lt; lia). rewrite ddiv_R in E by lra. rewrite ddiv_R in E' by lra. injection E as <-. injection E' as <-.
    unfold Rdiv. apply Rmult_le_compat_r; [left; now apply Rinv_0_lt_compat|exact Hy].
Qed.

Lemma sp_preimage_mono {d} (a : spatch R (vec R d)) p q i j i' j' lo hi : sfit a p q -> (i <= i')%Z -> (j <= j')%Z ->
  sp_preimage a i j = Ok lo -> sp_preimage a i' j' = Ok hi -> fst lo <= fst hi /\ snd lo <= snd hi.
Proof.
  intros Hf Hi Hj E E'. unfold sp_preimage, checked_degree in *. rewrite (sr_u _ _ _ Hf), (sr_v _ _ _ Hf) in *.
  replace (0 <=? Z.of_nat p)%Z with true in * by (symmetry; apply Z.leb_le; lia).
  replace (0 <=? Z.of_nat q)%Z with true in * by (symmetry; apply Z.leb_le; lia). cbn [assert_ bind] in *.
  apply bind_inv in E. destruct E as (x & Ex & E). apply bind_inv in E. destruct E as (y & Ey & E). injection E as <-.
  apply bind_inv in E'. destruct E' as (x' & Ex' & E'). apply bind_inv in E'. destruct E' as (y' & Ey' & E'). injection E' as <-.
  cbn [fst snd]. split.
  - exact (greville_mono _ _ _ _ _ _ (vd_sorted _ _ (sr_ku _ _ _ Hf)) (Zle_0_nat p) Hi Ex Ex').
  - exact (greville_mono _ _ _ _ _ _ (vd_sorted _ _ (sr_kv _ _ _ Hf)) (Zle_0_nat q) Hj Ey Ey').
Qed.

Lemma clamp_range (a b x : R) : a <= b -> a <= smin (smax x a) b <= b.
Proof. intros H. rewrite smin_R, smax_R. unfold Rmin, Rmax. destruct (Rle_dec x a); destruct (Rle_dec _ b); lra. Qed.
Lemma clamp_mono (a b x y : R) : a <= b -> x <= y -> smin (smax x a) b <= smin (smax y a) b.
Proof. intros. rewrite !smin_R, !smax_R. unfold Rmin, Rmax. destruct (Rle_dec x a), (Rle_dec y a); repeat destruct (Rle_dec _ b); lra. Qed.

(** ** B-spline patches *)
Lemma spatch_inverse_range d p nsu nsv level : (0 < nsu)%Z -> (0 < nsv)%Z -> forall (s : spatch R (vec R d)) m n a b c e r, wpatch s m n ->
  a <= b -> c <= e ->
  sp_approx_inverse s p nsu nsv a b c e level = Ok r -> (a <= fst r <= b) /\ (c <= snd r <= e).
Proof.
  intros Hnu Hnv.
  assert (Base : forall (s : spatch R (vec R d)) a b c e l r, a <= b -> c <= e ->
    (do ops <- sp_ops s; patch_approx_inverse ops p nsu nsv a b c e l) = Ok r -> (a <= fst r <= b) /\ (c <= snd r <= e)).
  { intros s a b c e l r Hab Hce E. apply bind_inv in E. destruct E as (ops & _ & E).
    exact (patch_approx_range d _ p nsu nsv a b c e l r Hnu Hnv Hab Hce E). }
  induction level as [|level IH]; intros s m n a b c e r W Hab Hce E; cbn [sp_approx_inverse] in E; cbv zeta in E;
  (destruct (sp_peru s || sp_perv s); [exact (Base _ _ _ _ _ _ _ Hab Hce E)|]; pose proof (wp_fit _ _ _ W) as Hf;
   unfold checked_degree in E; rewrite (sr_u _ _ _ Hf), (sr_v _ _ _ Hf) in E;
   replace (0 <=? Z.of_nat m)%Z with true in E by (symmetry; apply Z.leb_le; lia);
   replace (0 <=? Z.of_nat n)%Z with true in E by (symmetry; apply Z.leb_le; lia); cbn [assert_ bind] in E;
   destruct (Z.ltb_spec (Z.of_nat m) 2) as [|Hm]; cbn [bind] in E; [exact (Base _ _ _ _ _ _ _ Hab Hce E)|];
   destruct (Z.ltb_spec (Z.of_nat n) 2) as [|Hn]; [exact (Base _ _ _ _ _ _ _ Hab Hce E)|];
   apply bind_inv in E; destruct E as (nu & _ & E); apply bind_inv in E; destruct E as (few & _ & E);
   destruct few; [exact (Base _ _ _ _ _ _ _ Hab Hce E)|];
   apply bind_inv in E; destruct E as (nv & _ & E);
   rewrite (sp_ulo_Ok s m n Hf), (sp_uhi_Ok s m n Hf), (sp_vlo_Ok s m n Hf), (sp_vhi_Ok s m n Hf), !bind_Ok in E;
   apply bind_inv in E; destruct E as (s' & Es & E);
   rewrite !smax_R, !smin_R in Es;
   set (ul := dir_lo m (sp_ku s)) in *; set (uh := dir_hi m (sp_ku s)) in *; set (vl := dir_lo n (sp_kv s)) in *; set (vh := dir_hi n (sp_kv s)) in *;
   set (u0 := Rmax a ul) in *; set (u1 := Rmin b uh) in *; set (v0 := Rmax c vl) in *; set (v1 := Rmin e vh) in *;
   assert (Hr : a <= u0 /\ u1 <= b /\ c <= v0 /\ v1 <= e /\ ul <= u0 /\ u1 <= uh /\ vl <= v0 /\ v1 <= vh) by
     (unfold u0, u1, v0, v1; repeat split; (apply Rmax_l || apply Rmax_r || apply Rmin_l || apply Rmin_r));
   destruct (wsubpatch s m n u0 u1 v0 v1 s' W ltac:(lia) ltac:(lia) ltac:(apply Hr) ltac:(apply Hr) ltac:(apply Hr) ltac:(apply Hr) Es) as (W' & Hu & Hv);
   apply bind_inv in E; destruct E as (anu & _ & E); apply bind_inv in E; destruct E as (anv & _ & E);
   apply bind_inv in E; destruct E as ([i j] & _ & E);
   rewrite (smax_R a ul), (smin_R b uh), (smax_R c vl), (smin_R e vh) in E;
   fold u0 u1 v0 v1 in E).
  - apply bind_inv in E. destruct E as (uv & _ & E). injection E as <-. unfold clamp_to. cbn [fst snd].
    pose proof (clamp_range u0 u1 (fst uv) Hu). pose proof (clamp_range v0 v1 (snd uv) Hv). lra.
  - apply bind_inv in E. destruct E as (lo & El & E). apply bind_inv in E. destruct E as (hi & Eh & E).
    destruct (fun Hi Hj => sp_preimage_mono s' m n _ _ _ _ lo hi (wp_fit _ _ _ W') Hi Hj El Eh) as [M1 M2];
      [destruct (Z.ltb_spec 0 i), (Z.ltb_spec i (nu - 1)%Z); lia|destruct (Z.ltb_spec 0 j), (Z.ltb_spec j (nv - 1)%Z); lia|].
    unfold clamp_to in E. cbn [fst snd] in E.
    apply (IH _ m n) in E; [|exact W'|now apply clamp_mono..].
    pose proof (clamp_range u0 u1 (fst lo) Hu). pose proof (clamp_range u0 u1 (fst hi) Hu).
    pose proof (clamp_range v0 v1 (snd lo) Hv). pose proof (clamp_range v0 v1 (snd hi) Hv). lra.
Qed.

Lemma spatch_approx_range d (p : vec R d) nsu nsv level : (0 < nsu)%Z -> (0 < nsv)%Z -> forall (s : spatch R (vec R d)) a b c e r,
  sp_initialize s = Ok s ->
  valid_dir (Z.to_nat (sp_degu s)) (sp_ku s) -> valid_dir (Z.to_nat (sp_degv s)) (sp_kv s) ->
  (sp_tu s < 0 \/ sp_tv s < 0 \/ (sp_tu s = sp_degu s /\ sp_tv s = sp_degv s))%Z ->
  a <= b -> c <= e ->
  sp_approx_inverse s p nsu nsv a b c e level = Ok r -> (a <= fst r <= b) /\ (c <= snd r <= e).
Proof.
  intros Hu Hv s a b c e r Hi Vu Vv Ht. pose proof (sfit_init s Hi Vu Vv) as Hf.
  apply (spatch_inverse_range d p nsu nsv level Hu Hv s (Z.to_nat (sp_degu s)) (Z.to_nat (sp_degv s)) a b c e r). split; [exact Hf|exact Hi|].
  rewrite <- (sr_u _ _ _ Hf), <- (sr_v _ _ _ Hf). exact Ht.
Qed.

(** ** NURBS patches *)
Lemma npatch_inverse_range d p nsu nsv level : (0 < nsu)%Z -> (0 < nsv)%Z -> forall (s : nupatch R d) m n a b c e r,
  wpatch (np_hom s) m n -> np_degu s = Z.of_nat m -> np_degv s = Z.of_nat n -> a <= b -> c <= e ->
  np_approx_inverse s p nsu nsv a b c e level = Ok r -> (a <= fst r <= b) /\ (c <= snd r <= e).
Proof.
  intros Hnu Hnv.
  assert (Base : forall (s : nupatch R d) a b c e l r, a <= b -> c <= e ->
    (do ops <- np_ops s; patch_approx_inverse ops p nsu nsv a b c e l) = Ok r -> (a <= fst r <= b) /\ (c <= snd r <= e)).
  { intros s a b c e l r Hab Hce E. apply bind_inv in E. destruct E as (ops & _ & E).
    exact (patch_approx_range d _ p nsu nsv a b c e l r Hnu Hnv Hab Hce E). }
  induction level as [|level IH]; intros s m n a b c e r W Dm Dn Hab Hce E; cbn [np_approx_inverse] in E; cbv zeta in E;
  (destruct (np_peru s || np_perv s); [exact (Base _ _ _ _ _ _ _ Hab Hce E)|]; pose proof (wp_fit _ _ _ W) as Hf;
   unfold checked_degree in E; rewrite Dm, Dn in E;
   replace (0 <=? Z.of_nat m)%Z with true in E by (symmetry; apply Z.leb_le; lia);
   replace (0 <=? Z.of_nat n)%Z with true in E by (symmetry; apply Z.leb_le; lia); cbn [assert_ bind] in E;
   destruct (Z.ltb_spec (Z.of_nat m) 2) as [|Hm]; cbn [bind] in E; [exact (Base _ _ _ _ _ _ _ Hab Hce E)|];
   destruct (Z.ltb_spec (Z.of_nat n) 2) as [|Hn]; [exact (Base _ _ _ _ _ _ _ Hab Hce E)|];
   apply bind_inv in E; destruct E as (nu & _ & E); apply bind_inv in E; destruct E as (few & _ & E);
   destruct few; [exact (Base _ _ _ _ _ _ _ Hab Hce E)|];
   apply bind_inv in E; destruct E as (nv & _ & E);
   rewrite (sp_ulo_Ok (np_hom s) m n Hf), (sp_uhi_Ok (np_hom s) m n Hf), (sp_vlo_Ok (np_hom s) m n Hf), (sp_vhi_Ok (np_hom s) m n Hf), !bind_Ok in E;
   apply bind_inv in E; destruct E as (s' & Es & E);
   rewrite !smax_R, !smin_R in Es;
   set (ul := dir_lo m (sp_ku (np_hom s))) in *; set (uh := dir_hi m (sp_ku (np_hom s))) in *;
   set (vl := dir_lo n (sp_kv (np_hom s))) in *; set (vh := dir_hi n (sp_kv (np_hom s))) in *;
   set (u0 := Rmax a ul) in *; set (u1 := Rmin b uh) in *; set (v0 := Rmax c vl) in *; set (v1 := Rmin e vh) in *;
   assert (Hr : a <= u0 /\ u1 <= b /\ c <= v0 /\ v1 <= e /\ ul <= u0 /\ u1 <= uh /\ vl <= v0 /\ v1 <= vh) by
     (unfold u0, u1, v0, v1; repeat split; (apply Rmax_l || apply Rmax_r || apply Rmin_l || apply Rmin_r));
   unfold np_subpatch in Es; apply bind_inv in Es; destruct Es as (h & Es & Eh0);
   destruct (wsubpatch (np_hom s) m n u0 u1 v0 v1 h W ltac:(lia) ltac:(lia) ltac:(apply Hr) ltac:(apply Hr) ltac:(apply Hr) ltac:(apply Hr) Es) as (W' & Hu & Hv);
   unfold np_set_homogeneous in Eh0; apply bind_inv in Eh0; destruct Eh0 as (g & _ & Eh0);
   unfold checked_degree in Eh0; rewrite (sr_u _ _ _ (wp_fit _ _ _ W')), (sr_v _ _ _ (wp_fit _ _ _ W')) in Eh0;
   replace (0 <=? Z.of_nat m)%Z with true in Eh0 by (symmetry; apply Z.leb_le; lia);
   replace (0 <=? Z.of_nat n)%Z with true in Eh0 by (symmetry; apply Z.leb_le; lia); cbn [assert_ bind] in Eh0;
   apply bind_inv in Eh0; destruct Eh0 as (u & _ & Eh0);
   assert (Ed : np_degu s' = Z.of_nat m /\ np_degv s' = Z.of_nat n /\ np_hom s' = h) by (injection Eh0 as <-; now split);
   clear Eh0; destruct Ed as (Dm' & Dn' & <-);
   apply bind_inv in E; destruct E as (anu & _ & E); apply bind_inv in E; destruct E as (anv & _ & E);
   apply bind_inv in E; destruct E as ([i j] & _ & E);
   rewrite (smax_R a ul), (smin_R b uh), (smax_R c vl), (smin_R e vh) in E;
   fold u0 u1 v0 v1 in E).
  - apply bind_inv in E. destruct E as (uv & _ & E). injection E as <-. unfold clamp_to. cbn [fst snd].
    pose proof (clamp_range u0 u1 (fst uv) Hu). pose proof (clamp_range v0 v1 (snd uv) Hv). lra.
  - apply bind_inv in E. destruct E as (lo & El & E). apply bind_inv in E. destruct E as (hi & Eh & E).
    destruct (fun Hi Hj => sp_preimage_mono (np_hom s') m n _ _ _ _ lo hi (wp_fit _ _ _ W') Hi Hj El Eh) as [M1 M2];
      [destruct (Z.ltb_spec 0 i), (Z.ltb_spec i (nu - 1)%Z); lia|destruct (Z.ltb_spec 0 j), (Z.ltb_spec j (nv - 1)%Z); lia|].
    unfold clamp_to in E. cbn [fst snd] in E.
    apply (IH _ m n) in E; [|exact W'|exact Dm'|exact Dn'|now apply clamp_mono..].
    pose proof (clamp_range u0 u1 (fst lo) Hu). pose proof (clamp_range u0 u1 (fst hi) Hu).
    pose proof (clamp_range v0 v1 (snd lo) Hv). pose proof (clamp_range v0 v1 (snd hi) Hv). lra.
Qed.

Lemma npatch_approx_range d (p : vec R d) nsu nsv level : (0 < nsu)%Z -> (0 < nsv)%Z -> forall (s : nupatch R d) a b c e r,
  np_initialize s = Ok s ->
  valid_dir (Z.to_nat (np_degu s)) (np_ku s) -> valid_dir (Z.to_nat (np_degv s)) (np_kv s) ->
  (sp_tu (np_hom s) < 0 \/ sp_tv (np_hom s) < 0 \/ (sp_tu (np_hom s) = np_degu s /\ sp_tv (np_hom s) = np_degv s))%Z ->
  a <= b -> c <= e ->
  np_approx_inverse s p nsu nsv a b c e level = Ok r -> (a <= fst r <= b) /\ (c <= snd r <= e).
Proof.
  intros Hnu Hnv s a b c e r Hi Vu Vv Ht. unfold np_initialize in Hi. destruct (negb _) in Hi; [discriminate|].
  apply bind_inv in Hi. destruct Hi as (cpts & _ & Hi). unfold checked_degree in Hi.
  destruct (Z.leb_spec 0 (np_degu s)) as [H1|]; [|discriminate]. cbn [assert_ bind] in Hi.
  destruct (Z.leb_spec 0 (np_degv s)) as [H2|]; [|discriminate]. cbn [assert_ bind] in Hi.
  apply bind_inv in Hi. destruct Hi as (h & Eh & Hi).
  assert (Ehs : np_hom s = h) by (injection Hi as <-; reflexivity). clear Hi.
  set (s0 := sp_with (np_hom s) (np_degu s) (np_degv s) cpts (np_ku s) (np_kv s) (np_peru s) (np_perv s)) in *.
  set (m := Z.to_nat (np_degu s)) in *. set (n := Z.to_nat (np_degv s)) in *.
  assert (Dm : np_degu s = Z.of_nat m) by (unfold m; lia). assert (Dn : np_degv s = Z.of_nat n) by (unfold n; lia).
  destruct (dir_len _ _ Vu) as [L1 L2]. destruct (dir_len _ _ Vv) as [L3 L4].
  assert (F : sfit s0 m n).
  { split; try assumption. pose proof Eh as E. unfold sp_initialize, checked_degree in E. cbn [sp_degu sp_degv sp_grid sp_ku sp_kv s0 sp_with] in E |- *.
    rewrite Dm, Dn in E.
    destruct (Z.leb_spec 0 (Z.of_nat m)); [|lia]. destruct (Z.leb_spec 0 (Z.of_nat n)); [|lia]. cbn [assert_ bind] in E.
    destruct (_ || _) in E; [discriminate|].
    destruct (Z.eqb_spec (zlen cpts) ((zlen (np_ku s) - Z.of_nat m - 1) * (zlen (np_kv s) - Z.of_nat n - 1))) as [Eg|]; [|discriminate].
    rewrite Eg. unfold zlen. f_equal; lia. }
  destruct (sp_init_gen s0 m n F) as (s' & E' & A1 & A2 & A3 & A4 & A5 & A6 & A7 & A8 & A9 & A10).
  rewrite Eh in E'. injection E' as <-.
  apply (npatch_inverse_range d p nsu nsv level Hnu Hnv s m n a b c e r); [|exact Dm|exact Dn].
  rewrite Ehs. split; [|exact A10|].
  - destruct F as [F1 F2 F3 F4 F5]. split; rewrite ?A3, ?A4, ?A5, ?A6, ?A7; assumption.
  - rewrite A1, A2. cbn [s0 sp_with sp_tu sp_tv]. rewrite <- Dm, <- Dn. exact Ht.
Qed.

(** ** Rational Bezier patches *)
Lemma rpatch_inverse_range d (p : vec R d) nsu nsv level : (0 < nsu)%Z -> (0 < nsv)%Z -> forall (s : rbpatch R d) a b c e r, a <= b -> c <= e ->
  rp_approx_inverse s p nsu nsv a b c e level = Ok r -> (a <= fst r <= b) /\ (c <= snd r <= e).
Proof.
  intros Hnu Hnv. induction level as [|level IH]; intros s a b c e r Hab Hce E; cbn [rp_approx_inverse] in E;
  (destruct (rp_peru s || rp_perv s); [exact (patch_approx_range d _ p nsu nsv a b c e 3 r Hnu Hnv Hab Hce E)|];
   apply bind_inv in E; destruct E as (du & _ & E); apply bind_inv in E; destruct E as (low & _ & E);
   destruct low; [exact (patch_approx_range d _ p nsu nsv a b c e 3 r Hnu Hnv Hab Hce E)|];
   apply bind_inv in E; destruct E as (nu & _ & E); apply bind_inv in E; destruct E as (few & _ & E);
   destruct few; [exact (patch_approx_range d _ p nsu nsv a b c e 3 r Hnu Hnv Hab Hce E)|];
   apply bind_inv in E; destruct E as (nv & _ & E); cbv zeta in E; apply bind_inv in E; destruct E as (s' & Es & E);
   unfold rp_subpatch in Es; apply bind_inv in Es; destruct Es as (h & Es & Eh0);
   unfold rp_of_part, rp_set_homogeneous in Eh0; apply bind_inv in Eh0; destruct Eh0 as (g & _ & Eh0); cbv zeta in Eh0;
   apply bind_inv in Eh0; destruct Eh0 as (u & _ & Eh0); assert (Ehs : rp_hom s' = h) by (injection Eh0 as <-; reflexivity); clear Eh0; subst h;
   apply bp_subpatch_le in Es; rewrite !smax_R, !smin_R in Es; rewrite !smax_R, !smin_R in E; cbn [s0 s1 R_ops] in Es, E;
   set (u0 := Rmax a 0) in *; set (u1 := Rmin b 1) in *; set (v0 := Rmax c 0) in *; set (v1 := Rmin e 1) in *;
   assert (Hr : a <= u0 /\ u1 <= b /\ c <= v0 /\ v1 <= e) by
     (unfold u0, u1, v0, v1, Rmax, Rmin; destruct (Rle_dec a 0), (Rle_dec b 1), (Rle_dec c 0), (Rle_dec e 1); lra);
   apply bind_inv in E; destruct E as (anu & _ & E); apply bind_inv in E; destruct E as (anv & _ & E);
   apply bind_inv in E; destruct E as ([i j] & _ & E)).
  - apply bind_inv in E. destruct E as (uv & _ & E). injection E as <-. unfold remap_2d, clamp_2d. cbn [fst snd smul sadd ssub s0 s1 R_ops].
    pose proof (remap_range u0 u1 _ (proj1 Es) (clamp01 (fst uv))). pose proof (remap_range v0 v1 _ (proj2 Es) (clamp01 (snd uv))). lra.
  - apply bind_inv in E. destruct E as (lo & El & E). apply bind_inv in E. destruct E as (hi & Eh & E). cbv zeta in E.
    apply bind_inv in E. destruct E as (uv & Euv & E). injection E as <-.
    destruct (fun Hi Hj => bp_preimage_mono (rp_hom s') _ _ _ _ lo hi Hi Hj El Eh) as [M1 M2];
      [destruct (Z.ltb_spec 0 i), (Z.ltb_spec i (nu - 1)%Z); lia|destruct (Z.ltb_spec 0 j), (Z.ltb_spec j (nv - 1)%Z); lia|].
    unfold clamp_2d in Euv. cbn [fst snd s0 s1 R_ops] in Euv.
    apply IH in Euv; [|now apply clamp01_mono..].
    pose proof (clamp01 (fst lo)). pose proof (clamp01 (fst hi)). pose proof (clamp01 (snd lo)). pose proof (clamp01 (snd hi)).
    unfold remap_2d. cbn [fst snd smul sadd ssub R_ops].
    pose proof (remap_range u0 u1 (fst uv) (proj1 Es) ltac:(lra)). pose proof (remap_range v0 v1 (snd uv) (proj2 Es) ltac:(lra)). lra.
Qed.
