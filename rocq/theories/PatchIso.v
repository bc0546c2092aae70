(** Iso curves of patches are the patch with one parameter fixed. *)
From Coq Require Import Reals Lra Lia ZArith List Bool.
From Verif Require Import Monad MonadFacts LoopFacts Scalar ScalarFacts Spec SpecFacts Polar SpecPatch SpecPatch2 SpecPatchRational
  ModelCurve CurveFacts ModelBezier ModelBSpline ModelRational RationalFacts RationalThms RationalThms3 ModelPatchBase ModelPatch ModelPatchRational
  TensorFacts PatchFacts BezierPatchThms BezierPatchSplit BSplinePatchThms BSplinePatchThms2 BSplinePatchSplit
  PatchRationalThms PatchRationalThms2 PatchHull.
Import ListNotations.
Local Open Scope R_scope.

Section BP.
  Context {d : nat} (s : bpatch (vec R d)) (n m : nat) (H : bprep s n m).
  Lemma bp_iso_u_gen v : exists v', wraps (bp_perv s) 0 1 v v' /\
    let c := {| bz_pts := mklist (Z.of_nat (S n)) (fun i => lin (S m) (fun j => bzW0 m j v') (brow s m i)); bz_periodic := bp_peru s |} in
    bp_iso_curve_u s v = Ok c /\
    forall u, bzt_evaluate (bp_tu s) c u = bp_evaluate s u v /\ bz_evaluate c u = bp_evaluate s u v.
  Proof.
    destruct (bzt_lin (bp_perv s) v) as (v' & Wv & Ev & Lv). exists v'. split; [exact Wv|]. intros c. split.
    - unfold bp_iso_curve_u. rewrite (bp_nu_Ok s n m H), bind_Ok, (check_rows_Ok _ _ _ (br_tu _ _ _ H)), bind_Ok, (iso_v_Ok s n m H), bind_Ok.
      rewrite (tabulate_Ok _ _ (fun i => lin (S m) (fun j => bzW0 m j v') (brow s m i))); [reflexivity|lia|].
      intros i Hi. rewrite get_mklist by assumption. rewrite bind_Ok.
      apply (Lv d (bp_tv s) m (brow s m i) (br_tv _ _ _ H) (len_brow s m i)).
    - intros u. destruct (bp_eval_all s n m H u v) as (u1 & v1 & _ & _ & Eu1 & Ev1 & E & _).
      assert (v1 = v') by congruence. subst v1.
      destruct (bzt_lin (bp_peru s) u) as (u' & Wu & Eu & Lu). assert (u1 = u') by congruence. subst u1.
      rewrite E. assert (Lc : length (bz_pts c) = S n) by (unfold c; cbn [bz_pts]; rewrite length_mklist, Nat2Z.id; reflexivity).
      assert (EL : lin (S n) (fun i => bzW0 n i u') (bz_pts c) = tensor_sum (S n) (S m) (fun i => bzW0 n i u') (fun j => bzW0 m j v') (bp_grid s)).
      { unfold c, brow. cbn [bz_pts]. apply lin_of_rows. }
      split.
      + destruct (Lu d (bp_tu s) n (bz_pts c) (br_tu _ _ _ H) Lc) as (A & _). rewrite EL in A. exact A.
      + destruct (Lu d (-1)%Z n (bz_pts c)) as (A & _); [split; [left; reflexivity|discriminate]|exact Lc|]. rewrite EL in A. exact A.
  Qed.
  Lemma bp_iso_v_gen u : exists u', wraps (bp_peru s) 0 1 u u' /\
    let c := {| bz_pts := mklist (Z.of_nat (S m)) (fun j => lin (S n) (fun i => bzW0 n i u') (bcol s n m j)); bz_periodic := bp_perv s |} in
    bp_iso_curve_v s u = Ok c /\
    forall v, bzt_evaluate (bp_tv s) c v = bp_evaluate s u v /\ bz_evaluate c v = bp_evaluate s u v.
  Proof.
    destruct (bzt_lin (bp_peru s) u) as (u' & Wu & Eu & Lu). exists u'. split; [exact Wu|]. intros c. split.
    - unfold bp_iso_curve_v. rewrite (bp_nv_Ok s n m H), bind_Ok, (check_rows_Ok _ _ _ (br_tv _ _ _ H)), bind_Ok, (iso_u_Ok s n m H), bind_Ok.
      rewrite (tabulate_Ok _ _ (fun j => lin (S n) (fun i => bzW0 n i u') (bcol s n m j))); [reflexivity|lia|].
      intros i Hi. rewrite get_mklist by assumption. rewrite bind_Ok.
      apply (Lu d (bp_tu s) n (bcol s n m i) (br_tu _ _ _ H) (len_bcol s n m i)).
    - intros v. destruct (bp_eval_all s n m H u v) as (u1 & v1 & _ & _ & Eu1 & Ev1 & E & _).
      assert (u1 = u') by congruence. subst u1.
      destruct (bzt_lin (bp_perv s) v) as (v' & Wv & Ev & Lv). assert (v1 = v') by congruence. subst v1.
      rewrite E. assert (Lc : length (bz_pts c) = S m) by (unfold c; cbn [bz_pts]; rewrite length_mklist, Nat2Z.id; reflexivity).
      assert (EL : lin (S m) (fun i => bzW0 m i v') (bz_pts c) = tensor_sum (S n) (S m) (fun i => bzW0 n i u') (fun j => bzW0 m j v') (bp_grid s)).
      { unfold c, bcol. cbn [bz_pts]. apply lin_of_cols. }
      split.
      + destruct (Lv d (bp_tv s) m (bz_pts c) (br_tv _ _ _ H) Lc) as (A & _). rewrite EL in A. exact A.
      + destruct (Lv d (-1)%Z m (bz_pts c)) as (A & _); [split; [left; reflexivity|discriminate]|exact Lc|]. rewrite EL in A. exact A.
  Qed.
End BP.

Lemma bprep_of d (s : bpatch (vec R d)) : bp_initialize s = Ok s ->
  (bp_tu s = -1 \/ bp_tu s = bp_degu s)%Z -> (bp_tv s = -1 \/ bp_tv s = bp_degv s)%Z ->
  (bp_peru s = true -> bp_tu s <> 1%Z) -> (bp_perv s = true -> bp_tv s <> 1%Z) ->
  bprep s (Z.to_nat (bp_degu s)) (Z.to_nat (bp_degv s)).
Proof.
  intros Hi T1 T2 P1 P2.
  assert (A : (0 <= bp_degu s /\ 0 <= bp_degv s)%Z).
  { unfold bp_initialize, checked_degree in Hi.
    destruct (Z.leb_spec 0 (bp_degu s)) as [H1|]; [|discriminate]. cbn [assert_ bind] in Hi.
    destruct (Z.leb_spec 0 (bp_degv s)) as [H2|]; [|discriminate]. auto. }
  apply bp_initialize_rep; [exact Hi| |]; (split; [lia|assumption]).
Qed.

Lemma bpatch_iso d (s : bpatch (vec R d)) :
  bp_initialize s = Ok s ->
  (bp_tu s = -1 \/ bp_tu s = bp_degu s)%Z -> (bp_tv s = -1 \/ bp_tv s = bp_degv s)%Z ->
  (bp_peru s = true -> bp_tu s <> 1%Z) -> (bp_perv s = true -> bp_tv s <> 1%Z) ->
  (forall v, exists c, bp_iso_curve_u s v = Ok c /\ bz_periodic c = bp_peru s /\ bz_degree c = bp_degu s /\
     forall u, bzt_evaluate (bp_tu s) c u = bp_evaluate s u v) /\
  (forall u, exists c, bp_iso_curve_v s u = Ok c /\ bz_periodic c = bp_perv s /\ bz_degree c = bp_degv s /\
     forall v, bzt_evaluate (bp_tv s) c v = bp_evaluate s u v).
Proof.
  intros Hi T1 T2 P1 P2. pose proof (bprep_of d s Hi T1 T2 P1 P2) as H. pose proof (br_u _ _ _ H). pose proof (br_v _ _ _ H). split.
  - intros v. destruct (bp_iso_u_gen s _ _ H v) as (v' & _ & E & V). eexists. split; [exact E|]. split; [reflexivity|].
    split; [|intros u; apply V]. unfold bz_degree, zlen. cbn [bz_pts]. rewrite length_mklist. lia.
  - intros u. destruct (bp_iso_v_gen s _ _ H u) as (u' & _ & E & V). eexists. split; [exact E|]. split; [reflexivity|].
    split; [|intros v; apply V]. unfold bz_degree, zlen. cbn [bz_pts]. rewrite length_mklist. lia.
Qed.

(** ** B-spline patches *)
Section SP.
  Context {d : nat} (s : spatch R (vec R d)) (p q : nat) (H : sfit s p q) (Hini : sp_initialize s = Ok s).
  Hypotheses (Au : knots_apart (/ IZR (10 ^ 16)) (sp_ku s)) (Av : knots_apart (/ IZR (10 ^ 16)) (sp_kv s)).
  Let n := dir_count p (sp_ku s).
  Let m := dir_count q (sp_kv s).
  Lemma sp_iso_u_gen v : dir_param (sp_perv s) q (sp_kv s) v ->
    exists v', wraps (sp_perv s) (dir_lo q (sp_kv s)) (dir_hi q (sp_kv s)) v v' /\
    let c := {| bs_pts := mklist (Z.of_nat n) (fun i => lin m (bspline_basis m (sp_kv s) v') (srow s q i)); bs_knots := sp_ku s;
      bs_periodic := sp_peru s |} in
    sp_iso_curve_u s v = Ok c /\ forall u, dir_param (sp_peru s) p (sp_ku s) u -> bs_evaluate c u = sp_evaluate s u v.
  Proof.
    intros Dv. destruct (dunw_Ok q (sp_kv s) (sr_kv _ _ _ H) (sp_perv s) v) as (v' & Wv & Ev).
    exists v'. split; [exact Wv|]. destruct (wraps_param _ _ _ _ _ Dv Wv) as [Rv Sv]. intros c.
    pose proof (fun pts Hl => dir_eval_at q (sp_kv s) (sr_kv _ _ _ H) d pts (sp_perv s) v v' Av Hl Ev Rv Sv) as Hw.
    split.
    - apply (sp_iso_curve_u_lin s p q H Hini v _ Hw).
    - intros u Du. destruct (dunw_Ok p (sp_ku s) (sr_ku _ _ _ H) (sp_peru s) u) as (u' & Wu & Eu).
      destruct (wraps_param _ _ _ _ _ Du Wu) as [Ru Su].
      pose proof (fun pts Hl => dir_eval_at p (sp_ku s) (sr_ku _ _ _ H) d pts (sp_peru s) u u' Au Hl Eu Ru Su) as Hu.
      rewrite (sp_eval_lin s p q H Hini u v _ _ Hu Hw). unfold c. rewrite Hu by (rewrite length_mklist, Nat2Z.id; reflexivity).
      f_equal. unfold srow. apply lin_of_rows.
  Qed.
  Lemma sp_iso_v_gen u : dir_param (sp_peru s) p (sp_ku s) u ->
    exists u', wraps (sp_peru s) (dir_lo p (sp_ku s)) (dir_hi p (sp_ku s)) u u' /\
    let c := {| bs_pts := mklist (Z.of_nat m) (fun j => lin n (bspline_basis n (sp_ku s) u') (scol s p q j)); bs_knots := sp_kv s;
      bs_periodic := sp_perv s |} in
    sp_iso_curve_v s u = Ok c /\ forall v, dir_param (sp_perv s) q (sp_kv s) v -> bs_evaluate c v = sp_evaluate s u v.
  Proof.
    intros Du. destruct (dunw_Ok p (sp_ku s) (sr_ku _ _ _ H) (sp_peru s) u) as (u' & Wu & Eu).
    exists u'. split; [exact Wu|]. destruct (wraps_param _ _ _ _ _ Du Wu) as [Ru Su]. intros c.
    pose proof (fun pts Hl => dir_eval_at p (sp_ku s) (sr_ku _ _ _ H) d pts (sp_peru s) u u' Au Hl Eu Ru Su) as Hu.
    split.
    - apply (sp_iso_curve_v_lin s p q H Hini u _ Hu).
    - intros v Dv. destruct (dunw_Ok q (sp_kv s) (sr_kv _ _ _ H) (sp_perv s) v) as (v' & Wv & Ev).
      destruct (wraps_param _ _ _ _ _ Dv Wv) as [Rv Sv].
      pose proof (fun pts Hl => dir_eval_at q (sp_kv s) (sr_kv _ _ _ H) d pts (sp_perv s) v v' Av Hl Ev Rv Sv) as Hw.
      rewrite (sp_eval_lin s p q H Hini u v _ _ Hu Hw). unfold c. rewrite Hw by (rewrite length_mklist, Nat2Z.id; reflexivity).
      f_equal. unfold scol. apply lin_of_cols.
  Qed.
End SP.

Lemma spatch_iso d (s : spatch R (vec R d)) :
  let p := Z.to_nat (sp_degu s) in let q := Z.to_nat (sp_degv s) in
  sp_initialize s = Ok s -> valid_dir p (sp_ku s) -> valid_dir q (sp_kv s) ->
  knots_apart (/ IZR (10 ^ 16)) (sp_ku s) -> knots_apart (/ IZR (10 ^ 16)) (sp_kv s) ->
  (forall v, dir_param (sp_perv s) q (sp_kv s) v ->
     exists c, sp_iso_curve_u s v = Ok c /\ bs_knots c = sp_ku s /\ bs_periodic c = sp_peru s /\
       forall u, dir_param (sp_peru s) p (sp_ku s) u -> bs_evaluate c u = sp_evaluate s u v) /\
  (forall u, dir_param (sp_peru s) p (sp_ku s) u ->
     exists c, sp_iso_curve_v s u = Ok c /\ bs_knots c = sp_kv s /\ bs_periodic c = sp_perv s /\
       forall v, dir_param (sp_perv s) q (sp_kv s) v -> bs_evaluate c v = sp_evaluate s u v).
Proof.
  intros p q Hi Vu Vv Au Av. pose proof (sfit_init s Hi Vu Vv) as H. fold p q in H. split.
  - intros v Dv. destruct (sp_iso_u_gen s p q H Hi Au Av v Dv) as (v' & _ & E & V). eexists. split; [exact E|].
    split; [reflexivity|]. split; [reflexivity|exact V].
  - intros u Du. destruct (sp_iso_v_gen s p q H Hi Au Av u Du) as (u' & _ & E & V). eexists. split; [exact E|].
    split; [reflexivity|]. split; [reflexivity|exact V].
Qed.

(** ** Rational patches *)
Lemma lin_posw {d} n b (pts : list (vec R (S d))) : simplex n b -> length pts = n -> Forall posw pts -> posw (lin n b pts).
Proof.
  intros [B0 B1] Hl HF. unfold posw, lin. rewrite (linmap_psum _ _ _ (vlast_lin d)).
  destruct (pos_lower (map (vlast d) pts)) as (e & He & HE); [now apply Forall_map|].
  apply Rlt_le_trans with e; [exact He|]. replace e with (rsum n (fun i => e * b i)) by (rewrite rsum_scal, B1; ring).
  apply rsum_le. intros i Hi. rewrite (lm_mul _ (vlast_lin d)). rewrite Rmult_comm. apply Rmult_le_compat_l; [now apply B0|].
  rewrite Forall_map, Forall_forall in HE. apply HE, nth_In. lia.
Qed.
Lemma bzW0_simplex m v : 0 <= v <= 1 -> simplex (S m) (fun j => bzW0 m j v).
Proof.
  intros Hv. destruct (bezier_simplex m v Hv) as [S0 S1]. unfold bezier_basis in *. replace (S m - 1)%nat with m in * by lia. split.
  - intros i Hi. rewrite bzW0_bernstein by lia. now apply S0.
  - rewrite <- S1. apply rsum_ext. intros i Hi. apply bzW0_bernstein. lia.
Qed.

Lemma rpatch_iso d (s : rbpatch R d) : rp_ready s -> Forall (fun w => 0 < w) (rp_weights s) ->
  (forall v, (rp_perv s = true \/ 0 <= v <= 1) ->
     exists c, rp_iso_curve_u s v = Ok c /\ rb_periodic c = rp_peru s /\ Forall (fun w => 0 < w) (rb_weights c) /\
       forall u, rb_evaluate c u = rp_evaluate s u v) /\
  (forall u, (rp_peru s = true \/ 0 <= u <= 1) ->
     exists c, rp_iso_curve_v s u = Ok c /\ rb_periodic c = rp_perv s /\ Forall (fun w => 0 < w) (rb_weights c) /\
       forall v, rb_evaluate c v = rp_evaluate s u v).
Proof.
  intros Hr Hw. destruct (rp_hom_ready s Hr) as (Hi & T1 & T2 & P1 & P2 & D1 & D2 & F1 & F2 & G & L1 & L2).
  pose proof (rp_init_validate s (rr_init _ Hr)) as Hval.
  pose proof (bprep_of _ _ Hi T1 T2 P1 P2) as H. rewrite D1, D2 in H.
  assert (Pos : Forall posw (bp_grid (rp_hom s))) by (rewrite G; now apply posw_rows).
  pose proof (br_g _ _ _ H) as Hg. split.
  - intros v Hv. destruct (bp_iso_u_gen _ _ _ H v) as (v' & Wv & E & V).
    match type of E with _ = Ok ?c => set (hc := c) in * end.
    assert (Pc : Forall posw (bz_pts hc)).
    { cbn [hc bz_pts]. unfold mklist. apply Forall_map, Forall_forall. intros k Hk. apply in_seq in Hk.
      apply lin_posw; [apply bzW0_simplex; rewrite F2 in Wv; eapply wraps_01; eauto|apply len_brow|].
      eapply brow_Forall; [exact Hg|lia|exact Pos]. }
    destruct (rset_hom_ok hc Pc) as (c & Ec & Fc & Hc & Perc & _ & Wc).
    exists c. split; [unfold rp_iso_curve_u; rewrite E; exact Ec|]. split; [rewrite Perc; exact F1|]. split; [exact Wc|].
    intros u. unfold rb_evaluate, rp_evaluate. rewrite Hval, (rb_fresh_validate c Fc), Hc. cbn [bind].
    destruct (V u) as [_ ->]. reflexivity.
  - intros u Hu. destruct (bp_iso_v_gen _ _ _ H u) as (u' & Wu & E & V).
    match type of E with _ = Ok ?c => set (hc := c) in * end.
    assert (Pc : Forall posw (bz_pts hc)).
    { cbn [hc bz_pts]. unfold mklist. apply Forall_map, Forall_forall. intros k Hk. apply in_seq in Hk.
      apply lin_posw; [apply bzW0_simplex; rewrite F1 in Wu; eapply wraps_01; eauto|apply len_bcol|].
      eapply bcol_Forall; [exact Hg|lia|exact Pos]. }
    destruct (rset_hom_ok hc Pc) as (c & Ec & Fc & Hc & Perc & _ & Wc).
    exists c. split; [unfold rp_iso_curve_v; rewrite E; exact Ec|]. split; [rewrite Perc; exact F2|]. split; [exact Wc|].
    intros v. unfold rb_evaluate, rp_evaluate. rewrite Hval, (rb_fresh_validate c Fc), Hc. cbn [bind].
    destruct (V v) as [_ ->]. reflexivity.
Qed.

Lemma nupatch_iso d (s : nupatch R d) : np_valid s -> Forall (fun w => 0 < w) (np_weights s) ->
  let p := Z.to_nat (np_degu s) in let q := Z.to_nat (np_degv s) in
  (forall v, dir_param (np_perv s) q (np_kv s) v ->
     exists c, np_iso_curve_u s v = Ok c /\ nb_knots c = np_ku s /\ nb_periodic c = np_peru s /\ Forall (fun w => 0 < w) (nb_weights c) /\
       forall u, dir_param (np_peru s) p (np_ku s) u -> nb_evaluate c u = np_evaluate s u v) /\
  (forall u, dir_param (np_peru s) p (np_ku s) u ->
     exists c, np_iso_curve_v s u = Ok c /\ nb_knots c = np_kv s /\ nb_periodic c = np_perv s /\ Forall (fun w => 0 < w) (nb_weights c) /\
       forall v, dir_param (np_perv s) q (np_kv s) v -> nb_evaluate c v = np_evaluate s u v).
Proof.
  intros [Hi Vu Vv Au Av] Hw p q. apply np_init_sync in Hi. pose proof (np_sync_validate s Hi) as Hval.
  pose proof Hi as [H1 H2 H3 H4 H5 H6 H7 H8 H9 H10 H11 H12].
  assert (H : sfit (np_hom s) p q).
  { pose proof (sfit_init (np_hom s) H12) as K. rewrite H4, H5, H7, H8 in K. exact (K Vu Vv). }
  assert (Pos : Forall posw (sp_grid (np_hom s))) by (rewrite H6; now apply posw_rows).
  assert (Au' : knots_apart (/ IZR (10 ^ 16)) (sp_ku (np_hom s))) by (rewrite H7; exact Au).
  assert (Av' : knots_apart (/ IZR (10 ^ 16)) (sp_kv (np_hom s))) by (rewrite H8; exact Av).
  pose proof (dir_len _ _ Vu) as [Lu1 Lu2]. pose proof (dir_len _ _ Vv) as [Lv1 Lv2]. fold p in Lu1, Lu2. fold q in Lv1, Lv2. split.
  - intros v Dv. destruct (sp_iso_u_gen _ p q H H12 Au' Av' v) as (v' & Wv & E & V); [rewrite H8, H10; exact Dv|].
    match type of E with _ = Ok ?c => set (hc := c) in * end.
    assert (Lc : length (bs_pts hc) = dir_count p (np_ku s)) by (cbn [hc bs_pts]; rewrite length_mklist, Nat2Z.id, H7; reflexivity).
    assert (Pc : Forall posw (bs_pts hc)).
    { cbn [hc bs_pts]. unfold mklist. apply Forall_map, Forall_forall. intros k Hk. apply in_seq in Hk.
      apply lin_posw; [|apply len_srow|eapply srow_Forall; [exact H|lia|exact Pos]].
      rewrite H8, H10 in *. destruct (wraps_param _ _ _ _ _ Dv Wv) as [Bv Sv]. now apply dir_simplex. }
    destruct (nset_hom_ok hc Pc) as (c & Ec & Fc & Hc & Kc & Perc & Nc & Wc); [rewrite Lc; cbn [hc bs_knots]; rewrite H7; lia|].
    exists c. split; [unfold np_iso_curve_u; rewrite E; exact Ec|]. split; [rewrite Kc; exact H7|]. split; [rewrite Perc; exact H9|]. split; [exact Wc|].
    intros u Du. unfold nb_evaluate, np_evaluate. rewrite Hval, (nb_fresh_validate c Fc), Hc by (rewrite Nc, Kc, Lc; cbn [hc bs_knots]; rewrite H7; lia).
    cbn [bind]. rewrite (V u); [reflexivity|]. rewrite H7, H9. exact Du.
  - intros u Du. destruct (sp_iso_v_gen _ p q H H12 Au' Av' u) as (u' & Wu & E & V); [rewrite H7, H9; exact Du|].
    match type of E with _ = Ok ?c => set (hc := c) in * end.
    assert (Lc : length (bs_pts hc) = dir_count q (np_kv s)) by (cbn [hc bs_pts]; rewrite length_mklist, Nat2Z.id, H8; reflexivity).
    assert (Pc : Forall posw (bs_pts hc)).
    { cbn [hc bs_pts]. unfold mklist. apply Forall_map, Forall_forall. intros k Hk. apply in_seq in Hk.
      apply lin_posw; [|apply len_scol|eapply scol_Forall; [exact H|lia|exact Pos]].
      rewrite H7, H9 in *. destruct (wraps_param _ _ _ _ _ Du Wu) as [Bu Su]. now apply dir_simplex. }
    destruct (nset_hom_ok hc Pc) as (c & Ec & Fc & Hc & Kc & Perc & Nc & Wc); [rewrite Lc; cbn [hc bs_knots]; rewrite H8; lia|].
    exists c. split; [unfold np_iso_curve_v; rewrite E; exact Ec|]. split; [rewrite Kc; exact H8|]. split; [rewrite Perc; exact H10|]. split; [exact Wc|].
    intros v Dv. unfold nb_evaluate, np_evaluate. rewrite Hval, (nb_fresh_validate c Fc), Hc by (rewrite Nc, Kc, Lc; cbn [hc bs_knots]; rewrite H8; lia).
    cbn [bind]. rewrite (V v); [reflexivity|]. rewrite H8, H10. exact Dv.
Qed.
