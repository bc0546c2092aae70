(** Split into four and subpatch of B-spline patches (BSplinePatch.h:397-619). *)
From Coq Require Import Reals Lra Lia ZArith List Bool.
From Verif Require Import Monad MonadFacts LoopFacts Scalar ScalarFacts Spec SpecFacts Polar SpecPatch SpecPatch2
  ModelCurve ModelBezier ModelBSpline ModelPatchBase ModelPatch CurveFacts TensorFacts PatchFacts
  BSplineInsert3 BSplineSplit BSplinePatchThms BSplinePatchThms2 BSplinePatchSplit.
Import ListNotations.
Local Open Scope R_scope.

Lemma dmult_count p knots w : valid_dir p knots -> (count_occ Req_EM_T knots w <= p)%nat -> dmult p knots w.
Proof.
  intros Hv Hc. destruct (dir_len p knots Hv) as [L1 L2]. set (n := dir_count p knots) in *.
  set (c := {| bs_pts := repeat (p0 : vec R 1) n; bs_knots := knots; bs_periodic := false |}).
  assert (Ed : bspline_degree (bs_pts c) (bs_knots c) = p) by (unfold bspline_degree; cbn [c bs_pts bs_knots]; rewrite repeat_length; lia).
  assert (Vb : valid_bspline (bs_pts c) (bs_knots c)).
  { destruct Hv as [H1 H2 H3]. split; unfold lower_of, upper_of; rewrite ?Ed; cbn [c bs_pts bs_knots]; rewrite ?repeat_length; auto; try lia. }
  pose proof (mult_rep c w 0 Vb) as M. rewrite Ed in M. cbn [c bs_pts bs_knots] in M. rewrite repeat_length in M.
  unfold dmult. fold n. replace (Z.of_nat p) with (Z.of_nat p - Z.of_nat 0)%Z at 2 by lia. apply M. lia.
Qed.

Lemma ready_snice {d} (s : spatch R (vec R d)) : ready s -> snice s (Z.to_nat (sp_degu s)) (Z.to_nat (sp_degv s)).
Proof.
  intros [Hi Hu Hv Ht]. pose proof (sfit_init s Hi (rd_valid _ _ Hu) (rd_valid _ _ Hv)) as Hf.
  split; auto. destruct Hf as [F1 F2 _ _ _]. rewrite <- F1, <- F2. exact Ht.
Qed.
Lemma snice_ready {d} (s : spatch R (vec R d)) p q : snice s p q -> ready s.
Proof.
  intros [Hf Hi Hu Hv Ht]. destruct Hf as [F1 F2 F3 F4 F5]. split; rewrite ?F1, ?F2, ?Nat2Z.id; auto.
Qed.

Definition rng (p : nat) (knots : list R) (lo hi x : R) : Prop :=
  lo <= x /\ (x < hi \/ (x = hi /\ (hi = dir_hi p knots \/ dmult p knots hi))).

Record rect {d} (s a : spatch R (vec R d)) (p q : nat) (Lu Lv : list R) (u0 u1 v0 v1 : R) : Prop := {
  rc_nice : snice a p q;
  rc_flags : a = s \/ (sp_peru a = false /\ sp_perv a = false);
  rc_ulo : dir_lo p (sp_ku a) = u0;
  rc_uhi : dir_hi p (sp_ku a) = u1;
  rc_vlo : dir_lo q (sp_kv a) = v0;
  rc_vhi : dir_hi q (sp_kv a) = v1;
  rc_u : dir_lo p (sp_ku s) <= u0 /\ u1 <= dir_hi p (sp_ku s);
  rc_v : dir_lo q (sp_kv s) <= v0 /\ v1 <= dir_hi q (sp_kv s);
  rc_ku : forall w, In w (sp_ku a) -> In w (Lu ++ sp_ku s);
  rc_kv : forall w, In w (sp_kv a) -> In w (Lv ++ sp_kv s);
  rc_mu : forall w, u0 < w < u1 -> dmult p (sp_ku s) w -> dmult p (sp_ku a) w;
  rc_mv : forall w, v0 < w < v1 -> dmult q (sp_kv s) w -> dmult q (sp_kv a) w;
  rc_conv : conv_pres (sp_grid s) (sp_grid a);
  rc_t : sp_tu a = sp_tu s /\ sp_tv a = sp_tv s;
  rc_val : forall x y, rng p (sp_ku s) u0 u1 x -> rng q (sp_kv s) v0 v1 y -> sval a p q x y = sval s p q x y;
}.

Lemma rect_refl {d} (s : spatch R (vec R d)) p q : snice s p q ->
  rect s s p q [] [] (dir_lo p (sp_ku s)) (dir_hi p (sp_ku s)) (dir_lo q (sp_kv s)) (dir_hi q (sp_kv s)).
Proof. intros H. split; auto; try lra. apply conv_refl. Qed.

Lemma rect_split_u {d} (s a : spatch R (vec R d)) p q Lu Lv u0 u1 v0 v1 u :
  rect s a p q Lu Lv u0 u1 v0 v1 -> (1 <= p)%nat -> u0 < u < u1 -> apart_from (Lu ++ sp_ku s) u ->
  exists b c, sp_split_u a u = Ok [b; c] /\ (sp_peru b = false /\ sp_perv b = false) /\ (sp_peru c = false /\ sp_perv c = false) /\
    rect s b p q (u :: Lu) Lv u0 u v0 v1 /\ rect s c p q (u :: Lu) Lv u u1 v0 v1.
Proof.
  intros [Hn Hf E1 E2 E3 E4 Bu Bv Ku Kv Mu Mv CV [T1 T2] V] Hp Hu Ha.
  destruct (sp_split_u_gen a p q u Hn Hp) as (b & c & E & [Nb Fb1 Fb2 CVb [Tb1 Tb2]] & [Nc Fc1 Fc2 CVc [Tc1 Tc2]] & Kb & Kc & Lb & Hb & Lc & Hc & HI & HM & Vb & Vc).
  { rewrite E1, E2. exact Hu. }
  { intros w Hw. apply Ha, Ku, Hw. }
  rewrite E1, E2 in *.
  exists b, c. split; [exact E|]. split; [now split|]. split; [now split|]. split.
  - split; rewrite ?Kb; auto; try lra.
    + intros w Hw. destruct (HI w (or_introl Hw)) as [->|W]; [now left|right; now apply Ku].
    + intros w Hw Hm. apply HM; [lra|]. apply Mu; [lra|exact Hm].
    + exact (conv_trans _ _ _ CV CVb).
    + split; congruence.
    + intros x y [X1 X2] Y.
      rewrite Vb; [| lra |].
      * apply V; [|exact Y]. split; [exact X1|]. left. lra.
      * destruct X2 as [X2|[-> [X2|X2]]]; [now left|lra|]. right. split; [reflexivity|]. apply Mu; [lra|exact X2].
  - split; rewrite ?Kc; auto; try lra.
    + intros w Hw. destruct (HI w (or_intror Hw)) as [->|W]; [now left|right; now apply Ku].
    + intros w Hw Hm. apply HM; [lra|]. apply Mu; [lra|exact Hm].
    + exact (conv_trans _ _ _ CV CVc).
    + split; congruence.
    + intros x y [X1 X2] Y. rewrite Vc by lra. apply V; [|exact Y]. split; [lra|exact X2].
Qed.

Lemma rect_split_v {d} (s a : spatch R (vec R d)) p q Lu Lv u0 u1 v0 v1 v :
  rect s a p q Lu Lv u0 u1 v0 v1 -> (1 <= q)%nat -> v0 < v < v1 -> apart_from (Lv ++ sp_kv s) v ->
  exists b c, sp_split_v a v = Ok [b; c] /\ (sp_peru b = false /\ sp_perv b = false) /\ (sp_peru c = false /\ sp_perv c = false) /\
    rect s b p q Lu (v :: Lv) u0 u1 v0 v /\ rect s c p q Lu (v :: Lv) u0 u1 v v1.
Proof.
  intros [Hn Hf E1 E2 E3 E4 Bu Bv Ku Kv Mu Mv CV [T1 T2] V] Hq Hv Ha.
  destruct (sp_split_v_gen a p q v Hn Hq) as (b & c & E & [Nb Fb1 Fb2 CVb [Tb1 Tb2]] & [Nc Fc1 Fc2 CVc [Tc1 Tc2]] & Kb & Kc & Lb & Hb & Lc & Hc & HI & HM & Vb & Vc).
  { rewrite E3, E4. exact Hv. }
  { intros w Hw. apply Ha, Kv, Hw. }
  rewrite E3, E4 in *.
  exists b, c. split; [exact E|]. split; [now split|]. split; [now split|]. split.
  - split; rewrite ?Kb; auto; try lra.
    + intros w Hw. destruct (HI w (or_introl Hw)) as [->|W]; [now left|right; now apply Kv].
    + intros w Hw Hm. apply HM; [lra|]. apply Mv; [lra|exact Hm].
    + exact (conv_trans _ _ _ CV CVb).
    + split; congruence.
    + intros x y X [Y1 Y2].
      rewrite Vb; [| lra |].
      * apply V; [exact X|]. split; [exact Y1|]. left. lra.
      * destruct Y2 as [Y2|[-> [Y2|Y2]]]; [now left|lra|]. right. split; [reflexivity|]. apply Mv; [lra|exact Y2].
  - split; rewrite ?Kc; auto; try lra.
    + intros w Hw. destruct (HI w (or_intror Hw)) as [->|W]; [now left|right; now apply Kv].
    + intros w Hw Hm. apply HM; [lra|]. apply Mv; [lra|exact Hm].
    + exact (conv_trans _ _ _ CV CVc).
    + split; congruence.
    + intros x y X [Y1 Y2]. rewrite Vc by lra. apply V; [exact X|]. split; [lra|exact Y2].
Qed.

Lemma part_rng per p knots lo hi x : valid_dir p knots -> part_param per p knots lo hi x -> rng p knots lo hi x.
Proof.
  intros Hv [H1 H2]. split; [exact H1|]. destruct H2 as [H2|[-> [[H2 _]|[H2 H3]]]]; [now left|right; auto|].
  right. split; [reflexivity|]. right. now apply dmult_count.
Qed.
Lemma part_plain per p knots lo hi x : dir_lo p knots <= lo -> hi <= dir_hi p knots ->
  part_param per p knots lo hi x -> plain per p knots x.
Proof.
  intros Hl Hh [H1 H2]. split; [destruct H2 as [H2|[-> _]]; lra|]. intros ->.
  destruct H2 as [H2|[-> [[_ H2]|[H2 _]]]]; [lra|discriminate|exact H2].
Qed.
Lemma part_in per p knots lo hi x : part_param per p knots lo hi x -> lo <= x <= hi.
Proof. intros [H1 [H2|[H2 _]]]; lra. Qed.

Lemma rect_part {d} (s a : spatch R (vec R d)) Lu Lv u0 u1 v0 v1 : ready s ->
  rect s a (Z.to_nat (sp_degu s)) (Z.to_nat (sp_degv s)) Lu Lv u0 u1 v0 v1 -> part_of s a u0 u1 v0 v1.
Proof.
  intros Hr H. pose proof (ready_snice s Hr) as Hs. set (p := Z.to_nat (sp_degu s)) in *. set (q := Z.to_nat (sp_degv s)) in *.
  destruct H as [Hn Hf E1 E2 E3 E4 Bu Bv _ _ _ _ CV [T1 T2] V].
  pose proof (sr_u _ _ _ (sn_fit _ _ _ Hn)) as Da. pose proof (sr_v _ _ _ (sn_fit _ _ _ Hn)) as Db.
  pose proof (sr_u _ _ _ (sn_fit _ _ _ Hs)) as Ds. pose proof (sr_v _ _ _ (sn_fit _ _ _ Hs)) as Dt.
  split; rewrite ?Da, ?Db, ?Nat2Z.id; auto.
  - exact (snice_ready a p q Hn).
  - fold p q. intros x y Hx Hy.
    exists (sval s p q x y). split.
    + apply sn_eval; [exact Hs| |]; [apply (part_plain _ _ _ u0 u1)|apply (part_plain _ _ _ v0 v1)]; lra || assumption.
    + destruct Hf as [->|[F1 F2]].
      * apply sn_eval; [exact Hs| |]; [apply (part_plain _ _ _ u0 u1)|apply (part_plain _ _ _ v0 v1)]; lra || assumption.
      * rewrite (sn_eval a p q x y Hn).
        -- f_equal. apply V; eapply part_rng; eauto; apply (sn_fit _ _ _ Hs).
        -- rewrite F1. split; [|discriminate]. rewrite E1, E2. now apply part_in in Hx.
        -- rewrite F2. split; [|discriminate]. rewrite E3, E4. now apply part_in in Hy.
Qed.

Lemma tabulate_Throw0 {A} n (f : Z -> res A) e : (0 < n)%Z -> f 0%Z = Throw e -> tabulate n f = Throw e.
Proof.
  intros Hn E. unfold tabulate. destruct (Z.to_nat n) eqn:En; [lia|]. cbn [seq mapM]. change (Z.of_nat 0) with 0%Z. rewrite E. reflexivity.
Qed.

(** ** Main results *)
Section Main.
  Context {d : nat} (s : spatch R (vec R d)) (Hr : ready s).
  Let p := Z.to_nat (sp_degu s). Let q := Z.to_nat (sp_degv s).
  Let ulo := dir_lo p (sp_ku s). Let uhi := dir_hi p (sp_ku s).
  Let vlo := dir_lo q (sp_kv s). Let vhi := dir_hi q (sp_kv s).

  Lemma spatch_split_u u : (1 <= p)%nat -> ulo < u < uhi -> apart_from (sp_ku s) u ->
    exists a b, sp_split_u s u = Ok [a; b] /\ (sp_peru a = false /\ sp_perv a = false) /\ (sp_peru b = false /\ sp_perv b = false) /\
      part_of s a ulo u vlo vhi /\ part_of s b u uhi vlo vhi.
  Proof.
    intros Hp Hu Ha. destruct (rect_split_u s s p q [] [] ulo uhi vlo vhi u (rect_refl s p q (ready_snice s Hr)) Hp Hu Ha) as (a & b & E & Fa & Fb & Ra & Rb).
    exists a, b. split; [exact E|]. split; [exact Fa|]. split; [exact Fb|]. split; eapply rect_part; eauto.
  Qed.
  Lemma spatch_split_v v : (1 <= q)%nat -> vlo < v < vhi -> apart_from (sp_kv s) v ->
    exists a b, sp_split_v s v = Ok [a; b] /\ (sp_peru a = false /\ sp_perv a = false) /\ (sp_peru b = false /\ sp_perv b = false) /\
      part_of s a ulo uhi vlo v /\ part_of s b ulo uhi v vhi.
  Proof.
    intros Hp Hu Ha. destruct (rect_split_v s s p q [] [] ulo uhi vlo vhi v (rect_refl s p q (ready_snice s Hr)) Hp Hu Ha) as (a & b & E & Fa & Fb & Ra & Rb).
    exists a, b. split; [exact E|]. split; [exact Fa|]. split; [exact Fb|]. split; eapply rect_part; eauto.
  Qed.

  Lemma dom_u : sp_ulo s = Ok ulo /\ sp_uhi s = Ok uhi /\ sp_vlo s = Ok vlo /\ sp_vhi s = Ok vhi.
  Proof.
    pose proof (sn_fit _ _ _ (ready_snice s Hr)) as Hf. fold p q in Hf.
    repeat split; [eapply sp_ulo_Ok|eapply sp_uhi_Ok|eapply sp_vlo_Ok|eapply sp_vhi_Ok]; exact Hf.
  Qed.

  Lemma spatch_split u v : (1 <= p)%nat -> (1 <= q)%nat -> ulo < u < uhi -> apart_from (sp_ku s) u ->
    vlo < v < vhi -> apart_from (sp_kv s) v ->
    exists a b c e, sp_split s u v = Ok [a; b; c; e] /\
      part_of s a ulo u vlo v /\ part_of s b ulo u v vhi /\ part_of s c u uhi vlo v /\ part_of s e u uhi v vhi.
  Proof.
    intros Hp Hq Hu Hau Hv Hav. destruct dom_u as (D1 & D2 & D3 & D4). unfold sp_split. rewrite D1, D2, D3, D4, !bind_Ok.
    rewrite !in_dom_in by lra. cbn [andb negb]. rewrite !endp_in by assumption. cbn [andb].
    destruct (rect_split_u s s p q [] [] ulo uhi vlo vhi u (rect_refl s p q (ready_snice s Hr)) Hp Hu Hau) as (a & b & E & _ & _ & Ra & Rb).
    rewrite E, bind_Ok. change (get [a; b] 0) with (Ok a). change (get [a; b] 1) with (Ok b). rewrite !bind_Ok.
    destruct (rect_split_v s a p q _ _ _ _ _ _ v Ra Hq Hv Hav) as (a0 & a1 & Ea & _ & _ & Ra0 & Ra1).
    destruct (rect_split_v s b p q _ _ _ _ _ _ v Rb Hq Hv Hav) as (b0 & b1 & Eb & _ & _ & Rb0 & Rb1).
    rewrite Ea, Eb, !bind_Ok. exists a0, a1, b0, b1. split; [reflexivity|].
    repeat split; try (eapply po_ready, rect_part; eauto); try (eapply po_degu, rect_part; eauto); eapply rect_part; eauto.
  Qed.

  Lemma spatch_split_ends u v :
    ((u = ulo \/ u = uhi) -> sp_split_u s u = Ok [s]) /\
    ((v = vlo \/ v = vhi) -> sp_split_v s v = Ok [s]) /\
    ((u = ulo \/ u = uhi) -> (v = vlo \/ v = vhi) -> sp_split s u v = Ok [s]) /\
    ((u = ulo \/ u = uhi) -> vlo < v < vhi -> sp_split s u v = sp_split_v s v) /\
    (ulo < u < uhi -> (v = vlo \/ v = vhi) -> sp_split s u v = sp_split_u s u).
  Proof.
    destruct dom_u as (D1 & D2 & D3 & D4).
    assert (Du : ulo < uhi) by exact (vd_domain _ _ (rd_valid _ _ (rdy_u s Hr))).
    assert (Dv : vlo < vhi) by exact (vd_domain _ _ (rd_valid _ _ (rdy_v s Hr))).
    split; [|split; [|split; [|split]]].
    - intros Hu. unfold sp_split_u. rewrite D1, D2, !bind_Ok, endp_end by exact Hu. reflexivity.
    - intros Hv. unfold sp_split_v. rewrite D3, D4, !bind_Ok, in_dom_in by lra. cbn [negb]. rewrite endp_end by exact Hv. reflexivity.
    - intros Hu Hv. unfold sp_split. rewrite D1, D2, D3, D4, !bind_Ok, !in_dom_in by lra. cbn [andb negb]. rewrite !endp_end by assumption. reflexivity.
    - intros Hu Hv. unfold sp_split. rewrite D1, D2, D3, D4, !bind_Ok, !in_dom_in by lra. cbn [andb negb]. rewrite (endp_end ulo uhi) by assumption.
      rewrite endp_in by exact Hv. reflexivity.
    - intros Hu Hv. unfold sp_split. rewrite D1, D2, D3, D4, !bind_Ok, !in_dom_in by lra. cbn [andb negb]. rewrite endp_in by exact Hu.
      rewrite (endp_end vlo vhi) by assumption. reflexivity.
  Qed.

  (** A step of subpatch: cut at [t] unless it is an end. *)
  Lemma spatch_subpatch u0 u1 v0 v1 : (1 <= p)%nat -> (1 <= q)%nat ->
    ulo <= u0 -> u0 + / IZR (10 ^ 16) < u1 -> u1 <= uhi -> apart_from (sp_ku s) u0 -> apart_from (sp_ku s) u1 ->
    vlo <= v0 -> v0 + / IZR (10 ^ 16) < v1 -> v1 <= vhi -> apart_from (sp_kv s) v0 -> apart_from (sp_kv s) v1 ->
    exists a, sp_subpatch s u0 u1 v0 v1 = Ok a /\ part_of s a u0 u1 v0 v1.
  Proof.
    intros Hp Hq Hu0 Hu Hu1 Au0 Au1 Hv0 Hv Hv1 Av0 Av1.
    assert (Et : 0 < / IZR (10 ^ 16)) by (apply Rinv_0_lt_compat, IZR_lt; reflexivity).
    assert (FarU : forall L, (forall w, In w L -> w = u0) -> apart_from (L ++ sp_ku s) u1).
    { intros L HL w Hw. apply in_app_or in Hw. destruct Hw as [Hw|Hw]; [|now apply Au1].
      rewrite (HL w Hw). right. rewrite Rabs_left; lra. }
    assert (FarV : forall L, (forall w, In w L -> w = v0) -> apart_from (L ++ sp_kv s) v1).
    { intros L HL w Hw. apply in_app_or in Hw. destruct Hw as [Hw|Hw]; [|now apply Av1].
      rewrite (HL w Hw). right. rewrite Rabs_left; lra. }
    destruct dom_u as (D1 & D2 & D3 & D4). unfold sp_subpatch. rewrite D1, D2, D3, D4, !bind_Ok.
    cbn [slt R_ops]. rewrite !Rltb_false by lra. rewrite !in_dom_in by lra. cbn [negb orb].
    assert (S1 : exists a Lu, (if is_endpoint_1 ulo uhi u0 then Ok s else do l <- sp_split_u s u0; get l 1) = Ok a /\
       rect s a p q Lu [] u0 uhi vlo vhi /\ (forall w, In w Lu -> w = u0)).
    { destruct (Req_EM_T u0 ulo) as [E|N].
      - rewrite endp_end by auto. exists s, []. split; [reflexivity|]. split; [rewrite E; exact (rect_refl s p q (ready_snice s Hr))|intros w []].
      - rewrite endp_in by lra.
        destruct (rect_split_u s s p q [] [] ulo uhi vlo vhi u0 (rect_refl s p q (ready_snice s Hr)) Hp ltac:(lra) Au0) as (a & b & E & _ & _ & _ & Rb).
        rewrite E, bind_Ok. exists b, [u0]. split; [reflexivity|]. split; [exact Rb|]. intros w [->|[]]; reflexivity. }
    destruct S1 as (a & Lu & E1 & Ra & HLu). rewrite E1, bind_Ok.
    assert (S2 : exists b Lu', (if is_endpoint_1 ulo uhi u1 then Ok a else do l <- sp_split_u a u1; get l 0) = Ok b /\
       rect s b p q Lu' [] u0 u1 vlo vhi).
    { destruct (Req_EM_T u1 uhi) as [E|N].
      - rewrite endp_end by auto. exists a, Lu. split; [reflexivity|]. rewrite E. exact Ra.
      - rewrite endp_in by lra.
        destruct (rect_split_u s a p q Lu [] u0 uhi vlo vhi u1 Ra Hp ltac:(lra) (FarU Lu HLu)) as (b & c & E & _ & _ & Rb & _).
        rewrite E, bind_Ok. exists b, (u1 :: Lu). split; [reflexivity|exact Rb]. }
    destruct S2 as (b & Lu' & E2 & Rb). rewrite E2, bind_Ok.
    assert (S3 : exists c Lv, (if is_endpoint_1 vlo vhi v0 then Ok b else do l <- sp_split_v b v0; get l 1) = Ok c /\
       rect s c p q Lu' Lv u0 u1 v0 vhi /\ (forall w, In w Lv -> w = v0)).
    { destruct (Req_EM_T v0 vlo) as [E|N].
      - rewrite endp_end by auto. exists b, []. split; [reflexivity|]. split; [rewrite E; exact Rb|intros w []].
      - rewrite endp_in by lra.
        destruct (rect_split_v s b p q Lu' [] u0 u1 vlo vhi v0 Rb Hq ltac:(lra) Av0) as (x & y & E & _ & _ & _ & Ry).
        rewrite E, bind_Ok. exists y, [v0]. split; [reflexivity|]. split; [exact Ry|]. intros w [->|[]]; reflexivity. }
    destruct S3 as (c & Lv & E3 & Rc & HLv). rewrite E3, bind_Ok.
    destruct (Req_EM_T v1 vhi) as [E|N].
    - rewrite endp_end by auto. exists c. split; [reflexivity|]. apply (rect_part s c Lu' Lv u0 u1 v0 v1 Hr). rewrite E. exact Rc.
    - rewrite endp_in by lra.
      destruct (rect_split_v s c p q Lu' Lv u0 u1 v0 vhi v1 Rc Hq ltac:(lra) (FarV Lv HLv)) as (x & y & E & _ & _ & Rx & _).
      rewrite E, bind_Ok. exists x. split; [reflexivity|]. exact (rect_part s x Lu' (v1 :: Lv) u0 u1 v0 v1 Hr Rx).
  Qed.

  (** Equal bounds: split at [u], then the second cut finds [u] at the end of the piece and is skipped. *)
  Lemma spatch_subpatch_equal u : (1 <= p)%nat -> ulo < u < uhi -> apart_from (sp_ku s) u ->
    exists a, sp_subpatch s u u vlo vhi = Ok a /\ part_of s a u uhi vlo vhi.
  Proof.
    intros Hp Hu Ha. destruct dom_u as (D1 & D2 & D3 & D4). unfold sp_subpatch. rewrite D1, D2, D3, D4, !bind_Ok.
    assert (Dv : vlo < vhi) by exact (vd_domain _ _ (rd_valid _ _ (rdy_v s Hr))).
    cbn [slt R_ops]. rewrite !Rltb_false by lra. rewrite !in_dom_in by lra. cbn [negb orb].
    rewrite endp_in by exact Hu. rewrite !(endp_end vlo vhi) by auto.
    destruct (rect_split_u s s p q [] [] ulo uhi vlo vhi u (rect_refl s p q (ready_snice s Hr)) Hp Hu Ha) as (a & b & E & _ & _ & _ & Rb).
    rewrite E, !bind_Ok. change (get [a; b] 1) with (Ok b). rewrite !bind_Ok.
    assert (Eb : sp_split_u b u = Ok [b]).
    { unfold sp_split_u. pose proof (sn_fit _ _ _ (rc_nice _ _ _ _ _ _ _ _ _ _ Rb)) as Fb.
      rewrite (sp_ulo_Ok b p q Fb), (sp_uhi_Ok b p q Fb), !bind_Ok, endp_end; [reflexivity|].
      left. symmetry. exact (rc_ulo _ _ _ _ _ _ _ _ _ _ Rb). }
    rewrite Eb, bind_Ok. change (get [b] 0) with (Ok b). rewrite !bind_Ok.
    exists b. split; [reflexivity|]. eapply rect_part; eauto.
  Qed.

  (** Outside the domain.  split_u lacks the [throw], but splitting the first iso curve throws. *)
  Lemma outside_dom (lo hi t : R) : t < lo - / IZR (2 ^ 52) \/ hi + / IZR (2 ^ 52) < t -> lo < hi ->
    in_domain_1 lo hi t = false /\ is_endpoint_1 lo hi t = false.
  Proof.
    intros H Hd. rewrite <- seps_R in H. pose proof seps_pos as He. unfold in_domain_1, is_endpoint_1. cbn [sle ssub sadd seq_ R_ops].
    rewrite !Reqb_false by lra. split; [|reflexivity].
    apply andb_false_iff. destruct H as [H|H]; [left|right]; apply Rleb_false; lra.
  Qed.

  Lemma spatch_split_outside u v :
    let out_u := u < ulo - / IZR (2 ^ 52) \/ uhi + / IZR (2 ^ 52) < u in
    let out_v := v < vlo - / IZR (2 ^ 52) \/ vhi + / IZR (2 ^ 52) < v in
    (out_u -> sp_split_u s u = Throw invalid_setting_error) /\
    (out_v -> sp_split_v s v = Throw invalid_setting_error) /\
    (out_u \/ out_v -> sp_split s u v = Throw invalid_setting_error).
  Proof.
    intros out_u out_v. destruct dom_u as (D1 & D2 & D3 & D4).
    assert (Du : ulo < uhi) by exact (vd_domain _ _ (rd_valid _ _ (rdy_u s Hr))).
    assert (Dv : vlo < vhi) by exact (vd_domain _ _ (rd_valid _ _ (rdy_v s Hr))).
    split; [|split].
    - intros H. destruct (outside_dom ulo uhi u H Du) as [_ E]. unfold sp_split_u. rewrite D1, D2, !bind_Ok, E.
      pose proof (ready_snice s Hr) as [Hf Hi [Vu _ _] [Vv _ _] _]. fold p q in Hf, Hi, Vu, Vv. rewrite (sp_nv_Ok s p q Hf), bind_Ok.
      destruct (sp_cached s p q Hf Hi) as [Cu _]. rewrite Cu.
      destruct (dir_len _ _ Vv) as [L1 L2]. destruct (dir_len _ _ Vu) as [L3 L4].
      rewrite (tabulate_Throw0 _ _ invalid_setting_error); [reflexivity|lia|].
      rewrite get_mklist by lia. rewrite bind_Ok. set (c := {| bs_pts := _ |}).
      assert (Lc : length (bs_pts c) = dir_count p (sp_ku s)) by apply len_scol.
      assert (Ed : bspline_degree (bs_pts c) (bs_knots c) = p) by (unfold bspline_degree; rewrite Lc; cbn [c bs_knots]; lia).
      apply bspline_split_outside.
      + destruct Vu as [H1 H2 H3]. split; unfold lower_of, upper_of; rewrite ?Ed, ?Lc; cbn [c bs_knots]; auto; lia.
      + unfold lower_of, upper_of. rewrite Ed, Lc. exact H.
    - intros H. destruct (outside_dom vlo vhi v H Dv) as [E _]. unfold sp_split_v. rewrite D3, D4, !bind_Ok, E. reflexivity.
    - intros H. unfold sp_split. rewrite D1, D2, D3, D4, !bind_Ok.
      destruct H as [H|H]; [destruct (outside_dom ulo uhi u H Du) as [E _]|destruct (outside_dom vlo vhi v H Dv) as [E _]];
        rewrite E, ?andb_false_r; reflexivity.
  Qed.

  Lemma spatch_subpatch_bad u0 u1 v0 v1 : let e := / IZR (2 ^ 52) in
    (u1 < u0 \/ v1 < v0 \/ u0 < ulo - e \/ uhi + e < u0 \/ u1 < ulo - e \/ uhi + e < u1 \/
     v0 < vlo - e \/ vhi + e < v0 \/ v1 < vlo - e \/ vhi + e < v1) ->
    sp_subpatch s u0 u1 v0 v1 = Throw invalid_setting_error.
  Proof.
    intros e H. destruct dom_u as (D1 & D2 & D3 & D4).
    assert (Du : ulo < uhi) by exact (vd_domain _ _ (rd_valid _ _ (rdy_u s Hr))).
    assert (Dv : vlo < vhi) by exact (vd_domain _ _ (rd_valid _ _ (rdy_v s Hr))).
    unfold sp_subpatch. rewrite D1, D2, D3, D4, !bind_Ok. cbn [slt R_ops].
    destruct (Rltb u1 u0) eqn:B1; [reflexivity|].
    destruct (negb (in_domain_1 ulo uhi u0) || negb (in_domain_1 ulo uhi u1)) eqn:B2; [reflexivity|].
    destruct (Rltb v1 v0) eqn:B3; [reflexivity|].
    destruct (negb (in_domain_1 vlo vhi v0) || negb (in_domain_1 vlo vhi v1)) eqn:B4; [reflexivity|]. exfalso.
    apply orb_false_iff in B2. apply orb_false_iff in B4. rewrite !negb_false_iff in *. destruct B2 as [B2 B2'], B4 as [B4 B4'].
    assert (K : forall lo hi t, lo < hi -> in_domain_1 lo hi t = true -> ~ (t < lo - e \/ hi + e < t)).
    { intros lo hi t Hd Ht Ho. destruct (outside_dom lo hi t Ho Hd) as [X _]. congruence. }
    pose proof (K _ _ _ Du B2). pose proof (K _ _ _ Du B2'). pose proof (K _ _ _ Dv B4). pose proof (K _ _ _ Dv B4').
    destruct (Rltb_spec u1 u0); [discriminate|]. destruct (Rltb_spec v1 v0); [discriminate|].
    destruct H as [H|[H|H]]; [lra|lra|]. tauto.
  Qed.
End Main.
