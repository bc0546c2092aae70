From Coq Require Import List ZArith Reals Lra Lia Bool.
From Verif Require Import Monad MonadFacts Scalar ModelCurve ModelBezier ModelBSpline ModelRational ModelPatchBase ModelPatch ModelPatchRational.
From Verif Require Import LineThms ModelMsh SpecMsh MshThms.
Import ListNotations.
Local Open Scope Z_scope.

Section Init.
  Context {T P : Type} {SO : ScalarOps T} {V : PointOps T P}.

  Lemma checked_ok d : 0 <= d -> checked_degree d = Ok d.
  Proof. intros H. unfold checked_degree. now replace (0 <=? d) with true by (symmetry; apply Z.leb_le; lia). Qed.
  Lemma checked_inv d e : checked_degree d = Ok e -> 0 <= d /\ e = d.
  Proof. unfold checked_degree. destruct (Z.leb_spec 0 d); cbn; [|discriminate]. intros E. apply Ok_inj in E. subst e. split; [assumption|reflexivity]. Qed.

  Lemma bp_init_ok (s : bpatch P) : 0 <= bp_degu s -> 0 <= bp_degv s -> zlen (bp_grid s) = (bp_degu s + 1) * (bp_degv s + 1) -> bp_initialize s = Ok s.
  Proof.
    intros Hu Hv Hg. unfold bp_initialize. rewrite !checked_ok by assumption. cbn [bind].
    replace (bp_degu s <? 0) with false by (symmetry; apply Z.ltb_ge; lia). replace (bp_degv s <? 0) with false by (symmetry; apply Z.ltb_ge; lia).
    rewrite Hg, Z.eqb_refl. reflexivity.
  Qed.
  Lemma bp_init_inv (s s' : bpatch P) : bp_initialize s = Ok s' -> 0 <= bp_degu s /\ 0 <= bp_degv s /\ zlen (bp_grid s) = (bp_degu s + 1) * (bp_degv s + 1) /\ s' = s.
  Proof.
    unfold bp_initialize. destruct (checked_degree (bp_degu s)) as [du| | |] eqn:Eu; cbn [bind]; try discriminate. destruct (checked_degree (bp_degv s)) as [dv| | |] eqn:Ev; cbn [bind]; try discriminate.
    apply checked_inv in Eu. apply checked_inv in Ev. destruct Eu as (Hu & ->), Ev as (Hv & ->). destruct ((bp_degu s <? 0) || (bp_degv s <? 0)); [discriminate|].
    destruct (zlen (bp_grid s) =? (bp_degu s + 1) * (bp_degv s + 1)) eqn:E; cbn [negb]; [|discriminate]. apply Z.eqb_eq in E. intros H. apply Ok_inj in H. subst s'. auto.
  Qed.

  Lemma tabulate_exists {A} n (f : Z -> res A) : 0 <= n -> (forall i, 0 <= i < n -> exists a, f i = Ok a) -> exists l, tabulate n f = Ok l.
  Proof.
    intros Hn H. unfold tabulate.
    assert (G : forall l, (forall k, In k l -> 0 <= Z.of_nat k < n) -> exists r, mapM (fun k => f (Z.of_nat k)) l = Ok r).
    { induction l as [|k l IH]; intros Hl; [now exists []|]. destruct (H (Z.of_nat k)) as (a & Ea); [apply Hl; now left|].
      destruct IH as (r & Er); [intros; apply Hl; now right|]. exists (a :: r). cbn. now rewrite Ea, Er. }
    apply G. intros k Hk. apply in_seq in Hk. lia.
  Qed.

  Definition sp_fields (s s' : spatch T P) : Prop :=
    sp_tu s' = sp_tu s /\ sp_tv s' = sp_tv s /\ sp_degu s' = sp_degu s /\ sp_degv s' = sp_degv s /\ sp_grid s' = sp_grid s /\ sp_ku s' = sp_ku s /\
    sp_kv s' = sp_kv s /\ sp_peru s' = sp_peru s /\ sp_perv s' = sp_perv s.
  Lemma sp_isou_ext (s s' : spatch T P) : sp_fields s s' -> sp_iso_curves_u s' = sp_iso_curves_u s /\ sp_iso_curves_v s' = sp_iso_curves_v s.
  Proof.
    intros (E1 & E2 & E3 & E4 & E5 & E6 & E7 & E8 & E9). unfold sp_iso_curves_u, sp_iso_curves_v, sp_nu, sp_nv. rewrite E3, E4, E5, E6, E7, E8, E9. split; reflexivity.
  Qed.
  Lemma sp_init_ok (s : spatch T P) : 0 <= sp_degu s -> 0 <= sp_degv s -> 0 <= zlen (sp_ku s) - sp_degu s - 1 -> 0 <= zlen (sp_kv s) - sp_degv s - 1 ->
    zlen (sp_grid s) = (zlen (sp_ku s) - sp_degu s - 1) * (zlen (sp_kv s) - sp_degv s - 1) ->
    exists s', sp_initialize s = Ok s' /\ sp_fields s s' /\ sp_initialize s' = Ok s'.
  Proof.
    intros Hu Hv Hnu Hnv Hg.
    assert (G : forall s0 : spatch T P, sp_fields s s0 -> sp_initialize s0 = sp_initialize s).
    { intros s0 (E1 & E2 & E3 & E4 & E5 & E6 & E7 & E8 & E9). pose proof (sp_isou_ext s s0) as I. destruct I as (I1 & I2); [repeat split; assumption|].
      unfold sp_initialize. rewrite I1, I2, E1, E2, E3, E4, E5, E6, E7, E8, E9. reflexivity. }
    assert (exists s', sp_initialize s = Ok s' /\ sp_fields s s') as (s' & E & F).
    { unfold sp_initialize. rewrite !checked_ok by assumption. cbn [bind].
      replace (sp_degu s <? 0) with false by (symmetry; apply Z.ltb_ge; lia). replace (sp_degv s <? 0) with false by (symmetry; apply Z.ltb_ge; lia). cbn [orb].
      rewrite Hg, Z.eqb_refl. cbn [negb].
      assert (exists iu, sp_iso_curves_u s = Ok iu) as (iu & ->).
      { unfold sp_iso_curves_u, sp_nu, sp_nv. rewrite !checked_ok by assumption. cbn [bind]. apply tabulate_exists; [lia|]. intros j Hj.
        destruct (tabulate_exists (zlen (sp_ku s) - sp_degu s - 1) (fun ui => grid_get (sp_grid s) (zlen (sp_kv s) - sp_degv s - 1) ui j)) as (l & ->); [lia| |eexists; reflexivity].
        intros i Hi. unfold grid_get, linear_index. apply get_in_range. rewrite Hg. nia. }
      assert (exists iv, sp_iso_curves_v s = Ok iv) as (iv & ->).
      { unfold sp_iso_curves_v, sp_nu, sp_nv. rewrite !checked_ok by assumption. cbn [bind]. apply tabulate_exists; [lia|]. intros i Hi.
        destruct (tabulate_exists (zlen (sp_kv s) - sp_degv s - 1) (fun vj => grid_get (sp_grid s) (zlen (sp_kv s) - sp_degv s - 1) i vj)) as (l & ->); [lia| |eexists; reflexivity].
        intros j Hj. unfold grid_get, linear_index. apply get_in_range. rewrite Hg. nia. }
      cbn [bind]. eexists. split; [reflexivity|]. repeat split. }
    exists s'. split; [exact E|]. split; [exact F|]. rewrite (G s' F). exact E.
  Qed.
  Lemma sp_init_inv (s s' : spatch T P) : sp_initialize s = Ok s' -> 0 <= sp_degu s /\ 0 <= sp_degv s /\
    zlen (sp_grid s) = (zlen (sp_ku s) - sp_degu s - 1) * (zlen (sp_kv s) - sp_degv s - 1) /\ sp_fields s s'.
  Proof.
    unfold sp_initialize. destruct (checked_degree (sp_degu s)) as [du| | |] eqn:Eu; cbn [bind]; try discriminate. destruct (checked_degree (sp_degv s)) as [dv| | |] eqn:Ev; cbn [bind]; try discriminate.
    apply checked_inv in Eu. apply checked_inv in Ev. destruct Eu as (Hu & ->), Ev as (Hv & ->). destruct ((sp_degu s <? 0) || (sp_degv s <? 0)); [discriminate|].
    destruct (zlen (sp_grid s) =? _) eqn:E; cbn [negb]; [|discriminate]. apply Z.eqb_eq in E.
    destruct (sp_iso_curves_u s) as [iu| | |]; cbn [bind]; try discriminate. destruct (sp_iso_curves_v s) as [iv| | |]; cbn [bind]; try discriminate.
    intros H. apply Ok_inj in H. subst s'. repeat split; assumption.
  Qed.
End Init.

Section Patches.
  Context {T : Type} {SO : ScalarOps T}.
  Context {d : nat} (Hd : d = 2%nat \/ d = 3%nat).

  Lemma record_grid (grid : list (vec T d)) ws weighted nu nv (f : Z -> Z -> res (list T)) :
    0 <= nu -> 0 <= nv -> zlen grid = nu * nv ->
    (weighted = true -> zlen ws = zlen grid) ->
    (forall i j p, 0 <= i < nu -> 0 <= j < nv -> get grid (i * nv + j) = Ok p ->
       f i j = (do w <- (if weighted then do w <- get ws (i * nv + j); Ok [w] else Ok []); Ok (point_data p ++ w)%list)) ->
    exists rows, tabulate nu (fun i => tabulate nv (fun j => f i j)) = Ok rows /\
      concat (concat rows) = concat (mklist (zlen (map in_space grid)) (entry (map in_space grid) ws weighted)).
  Proof.
    intros Hu Hv Hg Hw Hf. set (g := entry (map in_space grid) ws weighted).
    exists (mklist nu (fun i => mklist nv (fun j => g (i * nv + j)))). split.
    - apply tabulate_Ok; [exact Hu|]. intros i Hi. apply tabulate_Ok; [exact Hv|]. intros j Hj.
      destruct (get_in_range grid (i * nv + j)) as (p & Ep); [nia|]. rewrite (Hf i j p Hi Hj Ep). unfold g, entry. rewrite get_map, Ep. unfold res_map. cbn [bind].
      rewrite point_data_ok by exact Hd. destruct weighted; [|reflexivity]. destruct (get_in_range ws (i * nv + j)) as (w & ->); [rewrite Hw by reflexivity; nia|]. reflexivity.
    - rewrite concat_rows by assumption. rewrite zlen_map, Hg. reflexivity.
  Qed.

  Lemma sz (a b : Z) : 0 <= a < 2 ^ 31 -> 0 <= b < 2 ^ 31 -> 0 <= a * b < 2 ^ 64.
  Proof. intros. split; [nia|]. apply Z.le_lt_trans with (2 ^ 31 * 2 ^ 31); [nia|reflexivity]. Qed.
  Lemma sz1 (a b : Z) : 0 <= a < 2 ^ 31 -> 0 <= b < 2 ^ 31 -> 0 <= (a + 1) * (b + 1) < 2 ^ 64.
  Proof. intros. split; [nia|]. apply Z.le_lt_trans with (2 ^ 31 * 2 ^ 31); [nia|reflexivity]. Qed.
  Lemma small31 a : 0 <= a < 2 ^ 31 -> 0 <= a < 2 ^ 64.
  Proof. intros. lia. Qed.

  Lemma patch_round_trip (s : patch T d) tag : saved_patch s -> exists r s', patch_record s tag = Ok r /\ load_patch r = Ok s' /\ carries_patch s s'.
  Proof.
    intros Hs. destruct s as [s|s|s|s|du dv]; cbn [saved_patch] in Hs.
    - (* Bezier *)
      destruct Hs as (Hi & Hu2 & Hv2). apply bp_init_inv in Hi. destruct Hi as (Hu & Hv & Hg & _).
      unfold patch_record. cbn [patch_degree_u patch_degree_v patch_nu patch_nv patch_num_weights_u patch_num_weights_v patch_knots_u patch_knots_v].
      unfold bp_nu, bp_nv. rewrite !checked_ok by assumption. cbn [bind]. change (zlen (@nil T)) with 0. change (0 =? 0) with true. change (0 <? 0) with false. cbn [andb].
      edestruct (record_grid (bp_grid s) [] false (bp_degu s + 1) (bp_degv s + 1)) as (rows & -> & Ec); [lia|lia|exact Hg|discriminate| |].
      { intros i j p Hi Hj Ep. unfold patch_point, patch_grid, grid_get, linear_index. cbn [patch_nv]. unfold bp_nv. rewrite checked_ok by assumption. cbn [bind]. rewrite Ep. reflexivity. }
      cbn [bind]. change (tabulate 0 (get (@nil T))) with (Ok (@nil T)). cbn [bind]. rewrite Ec, !app_nil_r.
      eexists. exists (PBezier (bp_set_degrees (bp_set_grid (bp_new (-1) (-1)) (map in_space (bp_grid s))) (bp_degu s) (bp_degv s))). split; [reflexivity|].
      assert (I : bp_initialize (bp_set_degrees (bp_set_grid (bp_new (-1) (-1)) (map in_space (bp_grid s))) (bp_degu s) (bp_degv s)) =
        Ok (bp_set_degrees (bp_set_grid (bp_new (-1) (-1)) (map in_space (bp_grid s))) (bp_degu s) (bp_degv s))).
      { apply bp_init_ok; cbn [bp_set_degrees bp_set_grid bp_new bp_degu bp_degv bp_grid]; try assumption. rewrite zlen_map. exact Hg. }
      split; [|cbn [carries_patch bp_set_degrees bp_set_grid bp_new bp_degu bp_degv bp_grid bp_peru bp_perv]; repeat split; exact I].
      unfold load_patch. cbn [mp_type]. change (to_size PATCH_BEZIER =? PATCH_BEZIER) with true. cbn iota. unfold load_Bezier_patch.
      cbn [mp_num_points mp_degree_u mp_degree_v mp_num_u_knots mp_num_v_knots mp_with_weights mp_data]. change (to_size 0 =? 0) with true. cbn [negb assert_ bind].
      rewrite (to_size_small (bp_degu s)), (to_size_small (bp_degv s)), Z.eqb_refl by lia. cbn [assert_ bind]. rewrite !to_int_small by lia.
      rewrite to_size_small by (apply sz1; lia). rewrite <- Hg, <- (zlen_map in_space).
      replace (concat _) with (block_data (map in_space (bp_grid s)) [] [] false) by apply app_nil_r.
      rewrite block_points by discriminate. cbn [bind]. rewrite I. reflexivity.
    - (* rational Bezier *)
      destruct Hs as (Hi & Hu2 & Hv2). unfold rp_initialize, homogenize in Hi. destruct (zlen (rp_grid s) =? zlen (rp_weights s)) eqn:EL; [|discriminate]. apply Z.eqb_eq in EL. cbn [bind] in Hi.
      destruct (checked_degree (rp_degu s)) as [du| | |] eqn:Eu; cbn [bind] in Hi; try discriminate. destruct (checked_degree (rp_degv s)) as [dv| | |] eqn:Ev; cbn [bind] in Hi; try discriminate.
      apply checked_inv in Eu. apply checked_inv in Ev. destruct Eu as (Hu & ->), Ev as (Hv & ->).
      destruct (bp_initialize _) as [h| | |] eqn:Eh in Hi; cbn [bind] in Hi; try discriminate. apply Ok_inj in Hi. apply bp_init_inv in Eh.
      cbn [bp_set_periodic bp_set_degrees bp_set_grid bp_degu bp_degv bp_grid] in Eh. destruct Eh as (_ & _ & Hg & Eh).
      unfold zlen in Hg at 1. rewrite map_length, combine_length in Hg. assert (Hg' : zlen (rp_grid s) = (rp_degu s + 1) * (rp_degv s + 1)) by (unfold zlen in *; lia). clear Hg.
      assert (Eh2 : rp_hom s = h) by (rewrite <- Hi; reflexivity). assert (Hhu : bp_degu (rp_hom s) = rp_degu s) by (rewrite Eh2, Eh; reflexivity). assert (Hhv : bp_degv (rp_hom s) = rp_degv s) by (rewrite Eh2, Eh; reflexivity).
      clear Hi Eh Eh2 h.
      unfold patch_record. cbn [patch_degree_u patch_degree_v patch_nu patch_nv patch_num_weights_u patch_num_weights_v patch_knots_u patch_knots_v].
      unfold bp_nu, bp_nv. rewrite Hhu, Hhv, !checked_ok by assumption. cbn [bind]. change (zlen (@nil T)) with 0. change (0 =? 0) with true. cbn [andb].
      replace (rp_degu s + 1 =? 0) with false by (symmetry; apply Z.eqb_neq; lia). replace (0 <? rp_degu s + 1) with true by (symmetry; apply Z.ltb_lt; lia). cbn [andb].
      edestruct (record_grid (rp_grid s) (rp_weights s) true (rp_degu s + 1) (rp_degv s + 1)) as (rows & -> & Ec); [lia|lia|exact Hg'|intros _; lia| |].
      { intros i j p Hi Hj Ep. unfold patch_point, patch_weight, patch_grid, grid_get, linear_index. cbn [patch_nv]. unfold bp_nv. rewrite Hhv, checked_ok by assumption. cbn [bind]. rewrite Ep. reflexivity. }
      cbn [bind]. change (tabulate 0 (get (@nil T))) with (Ok (@nil T)). cbn [bind]. rewrite Ec, !app_nil_r.
      set (base := rp_set_degrees (rp_set_weights (rp_set_grid (rp_new (-1) (-1)) (map in_space (rp_grid s))) (rp_weights s)) (rp_degu s) (rp_degv s)).
      assert (I : exists s', rp_initialize base = Ok s' /\ carries_patch (PRational s) (PRational s')).
      { set (hp := map (fun x => vsnoc 3 (snd x *: fst x)%P (snd x)) (combine (map in_space (rp_grid s)) (rp_weights s))).
        assert (Hl : zlen hp = (rp_degu s + 1) * (rp_degv s + 1)) by (unfold hp, zlen in *; rewrite map_length, combine_length, map_length; lia).
        assert (G : forall h0, rp_initialize (rp_set_hom base h0) = Ok (rp_set_hom base (bp_set_periodic (bp_set_degrees (bp_set_grid h0 hp) (rp_degu s) (rp_degv s)) false false))).
        { intros h0. unfold rp_initialize, homogenize. cbn [base rp_set_hom rp_set_degrees rp_set_weights rp_set_grid rp_new rp_grid rp_weights rp_degu rp_degv rp_peru rp_perv rp_hom].
          rewrite zlen_map, EL, Z.eqb_refl. cbn [bind]. rewrite !checked_ok by assumption. cbn [bind]. fold hp. rewrite bp_init_ok; [reflexivity| | |]; cbn; try assumption. }
        eexists. split; [exact (G (bp_new (-1) (-1)))|]. repeat split. etransitivity; [exact (G _)|]. reflexivity. }
      destruct I as (s' & I & C). eexists. exists (PRational s'). split; [reflexivity|]. split; [|exact C].
      unfold load_patch. cbn [mp_type]. change (to_size PATCH_RATIONAL_BEZIER =? PATCH_BEZIER) with false. change (to_size PATCH_RATIONAL_BEZIER =? PATCH_BSPLINE) with false.
      change (to_size PATCH_RATIONAL_BEZIER =? PATCH_RATIONAL_BEZIER) with true. cbn iota. unfold load_rational_Bezier_patch.
      cbn [mp_num_points mp_degree_u mp_degree_v mp_num_u_knots mp_num_v_knots mp_with_weights mp_data]. change (to_size 0 =? 0) with true. cbn [negb assert_ bind].
      rewrite (to_size_small (rp_degu s)), (to_size_small (rp_degv s)), Z.eqb_refl by lia. cbn [assert_ bind]. rewrite !to_int_small by lia.
      rewrite to_size_small by (apply sz1; lia). rewrite <- Hg', <- (zlen_map in_space).
      replace (concat _) with (block_data (map in_space (rp_grid s)) (rp_weights s) [] true) by apply app_nil_r.
      rewrite block_points, block_weights by (rewrite ?zlen_map; auto; lia). cbn [bind]. fold base. rewrite I. reflexivity.
    - (* B-spline *)
      destruct Hs as (Hi & Hu2 & Hv2 & (Hku & Hku2) & (Hkv & Hkv2)). apply sp_init_inv in Hi. destruct Hi as (Hu & Hv & Hg & _).
      unfold patch_record. cbn [patch_degree_u patch_degree_v patch_nu patch_nv patch_num_weights_u patch_num_weights_v patch_knots_u patch_knots_v].
      unfold sp_nu, sp_nv. rewrite !checked_ok by assumption. cbn [bind]. change (0 =? 0) with true. change (0 <? 0) with false. cbn [andb].
      replace (zlen (sp_ku s) =? 0) with false by (symmetry; apply Z.eqb_neq; lia). cbn [andb].
      edestruct (record_grid (sp_grid s) [] false (zlen (sp_ku s) - sp_degu s - 1) (zlen (sp_kv s) - sp_degv s - 1)) as (rows & -> & Ec); [lia|lia|exact Hg|discriminate| |].
      { intros i j p Hi Hj Ep. unfold patch_point, patch_grid, grid_get, linear_index. cbn [patch_nv]. unfold sp_nv. rewrite checked_ok by assumption. cbn [bind]. rewrite Ep. reflexivity. }
      cbn [bind]. rewrite !tabulate_get. cbn [bind]. rewrite Ec.
      destruct (sp_init_ok (sp_make (-1) (-1) (sp_degu s) (sp_degv s) (map in_space (sp_grid s)) (sp_ku s) (sp_kv s) false false)) as (s' & I & F & I2);
        cbn [sp_make sp_degu sp_degv sp_ku sp_kv sp_grid]; try lia; [rewrite zlen_map; exact Hg|].
      eexists. exists (PBSpline s'). split; [reflexivity|]. split.
      2:{ destruct F as (E1 & E2 & E3 & E4 & E5 & E6 & E7 & E8 & E9). cbn [sp_make sp_degu sp_degv sp_ku sp_kv sp_grid sp_peru sp_perv sp_tu sp_tv] in *. cbn [carries_patch]. repeat split; assumption. }
      unfold load_patch. cbn [mp_type]. change (to_size PATCH_BSPLINE =? PATCH_BEZIER) with false. change (to_size PATCH_BSPLINE =? PATCH_BSPLINE) with true. cbn iota. unfold load_BSpline_patch.
      cbn [mp_num_points mp_degree_u mp_degree_v mp_num_u_knots mp_num_v_knots mp_with_weights mp_data]. cbn [negb].
      rewrite (to_size_small (sp_degu s)), (to_size_small (sp_degv s)), (to_size_small (zlen (sp_ku s))), (to_size_small (zlen (sp_kv s))), Z.eqb_refl by lia. cbn [assert_ bind]. rewrite !to_int_small by lia.
      rewrite to_size_small by (apply sz; lia). rewrite <- Hg, <- (zlen_map in_space).
      fold (block_data (map in_space (sp_grid s)) [] (sp_ku s ++ sp_kv s) false).
      rewrite block_points by discriminate. cbn [bind].
      rewrite (block_knots (map in_space (sp_grid s)) [] (sp_ku s ++ sp_kv s) false ltac:(discriminate) _ (sp_ku s) (sp_kv s)) by reflexivity. cbn [bind].
      rewrite (block_knots2 (map in_space (sp_grid s)) [] (sp_ku s ++ sp_kv s) false ltac:(discriminate) _ (sp_ku s) (sp_kv s)) by reflexivity. cbn [bind].
      rewrite I. reflexivity.
    - (* NURBS *)
      destruct Hs as (Hi & Hu2 & Hv2 & (Hku & Hku2) & (Hkv & Hkv2)). unfold np_initialize, homogenize in Hi.
      destruct (zlen (np_weights s) =? zlen (np_grid s)) eqn:EL; cbn [negb] in Hi; [|discriminate]. apply Z.eqb_eq in EL. rewrite <- EL, Z.eqb_refl in Hi. cbn [bind] in Hi.
      destruct (checked_degree (np_degu s)) as [du| | |] eqn:Eu; cbn [bind] in Hi; try discriminate. destruct (checked_degree (np_degv s)) as [dv| | |] eqn:Ev; cbn [bind] in Hi; try discriminate.
      apply checked_inv in Eu. apply checked_inv in Ev. destruct Eu as (Hu & ->), Ev as (Hv & ->).
      destruct (sp_initialize _) as [h| | |] eqn:Eh in Hi; cbn [bind] in Hi; try discriminate. apply Ok_inj in Hi. apply sp_init_inv in Eh.
      cbn [sp_with sp_degu sp_degv sp_grid sp_ku sp_kv] in Eh. destruct Eh as (_ & _ & Hg & (_ & _ & E3 & E4 & _ & E6 & E7 & _ & _)). cbn [sp_with sp_degu sp_degv sp_ku sp_kv] in E3, E4, E6, E7.
      unfold zlen in Hg at 1. rewrite map_length, combine_length in Hg. assert (Hg' : zlen (np_grid s) = (zlen (np_ku s) - np_degu s - 1) * (zlen (np_kv s) - np_degv s - 1)) by (unfold zlen in *; lia). clear Hg.
      assert (Eh2 : np_hom s = h) by (rewrite <- Hi; reflexivity). rewrite <- Eh2 in E3, E4, E6, E7. clear Hi Eh2 h.
      unfold patch_record. cbn [patch_degree_u patch_degree_v patch_nu patch_nv patch_num_weights_u patch_num_weights_v patch_knots_u patch_knots_v].
      unfold sp_nu, sp_nv. rewrite E3, E4, E6, E7, !checked_ok by assumption. cbn [bind].
      replace (zlen (np_ku s) =? 0) with false by (symmetry; apply Z.eqb_neq; lia). cbn [andb].
      replace (zlen (np_ku s) - np_degu s - 1 =? 0) with false by (symmetry; apply Z.eqb_neq; lia). replace (0 <? zlen (np_ku s) - np_degu s - 1) with true by (symmetry; apply Z.ltb_lt; lia). cbn [andb].
      edestruct (record_grid (np_grid s) (np_weights s) true (zlen (np_ku s) - np_degu s - 1) (zlen (np_kv s) - np_degv s - 1)) as (rows & -> & Ec); [lia|lia|exact Hg'|intros _; lia| |].
      { intros i j p Hi Hj Ep. unfold patch_point, patch_weight, patch_grid, grid_get, linear_index. cbn [patch_nv]. unfold sp_nv. rewrite E4, E7, checked_ok by assumption. cbn [bind]. rewrite Ep. reflexivity. }
      cbn [bind]. rewrite !tabulate_get. cbn [bind]. rewrite Ec.
      set (base := np_make (-1) (-1) (np_degu s) (np_degv s) (map in_space (np_grid s)) (np_weights s) (np_ku s) (np_kv s) false false).
      assert (I : exists s', np_initialize base = Ok s' /\ carries_patch (PNurbs s) (PNurbs s')).
      { set (hp := map (fun x => vsnoc 3 (snd x *: fst x)%P (snd x)) (combine (map in_space (np_grid s)) (np_weights s))).
        destruct (sp_init_ok (sp_with (sp_make (-1) (-1) (-1) (-1) [] [] [] false false) (np_degu s) (np_degv s) hp (np_ku s) (np_kv s) false false)) as (h & I & F & I2);
          cbn [sp_with sp_degu sp_degv sp_ku sp_kv sp_grid]; try lia; [unfold hp, zlen in *; rewrite map_length, combine_length, map_length; lia|].
        assert (G : forall s0 : nupatch T 3, np_grid s0 = map in_space (np_grid s) -> np_weights s0 = np_weights s -> np_degu s0 = np_degu s -> np_degv s0 = np_degv s -> np_ku s0 = np_ku s -> np_kv s0 = np_kv s ->
          np_peru s0 = false -> np_perv s0 = false -> forall h0, sp_initialize (sp_with (np_hom s0) (np_degu s) (np_degv s) hp (np_ku s) (np_kv s) false false) = Ok h0 ->
          np_initialize s0 = Ok {| np_tu := np_tu s0; np_tv := np_tv s0; np_degu := np_degu s0; np_degv := np_degv s0; np_grid := np_grid s0;
            np_weights := np_weights s0; np_ku := np_ku s0; np_kv := np_kv s0; np_peru := np_peru s0; np_perv := np_perv s0; np_hom := h0 |}).
        { intros s0 F1 F2 F3 F4 F5 F6 F7 F8 h0 Eh. unfold np_initialize, homogenize. rewrite F1, F2, zlen_map, EL, Z.eqb_refl. cbn [negb bind]. rewrite F3, F4, !checked_ok by assumption. cbn [bind]. fold hp. rewrite F5, F6, F7, F8, Eh. reflexivity. }
        eexists. split; [apply G; try reflexivity; exact I|]. cbn [carries_patch np_grid np_weights np_ku np_kv np_degu np_degv np_peru np_perv]. repeat split.
        etransitivity; [eapply G; try reflexivity|reflexivity]. cbn [np_hom]. rewrite <- I2. f_equal. destruct F as (K1 & K2 & K3 & K4 & K5 & K6 & K7 & K8 & K9). cbn [sp_with sp_tu sp_tv sp_degu sp_degv sp_grid sp_ku sp_kv sp_peru sp_perv] in *.
        unfold sp_with. destruct h; cbn in *; subst; reflexivity. }
      destruct I as (s' & I & C). eexists. exists (PNurbs s'). split; [reflexivity|]. split; [|exact C].
      unfold load_patch. cbn [mp_type]. change (to_size PATCH_NURBS =? PATCH_BEZIER) with false. change (to_size PATCH_NURBS =? PATCH_BSPLINE) with false.
      change (to_size PATCH_NURBS =? PATCH_RATIONAL_BEZIER) with false. change (to_size PATCH_NURBS =? PATCH_NURBS) with true. cbn iota. unfold load_NURBS_patch.
      cbn [mp_num_points mp_degree_u mp_degree_v mp_num_u_knots mp_num_v_knots mp_with_weights mp_data]. cbn [negb].
      rewrite (to_size_small (np_degu s)), (to_size_small (np_degv s)), (to_size_small (zlen (np_ku s))), (to_size_small (zlen (np_kv s))), Z.eqb_refl by lia. cbn [assert_ bind]. rewrite !to_int_small by lia.
      rewrite to_size_small by (apply sz; lia). rewrite <- Hg', <- (zlen_map in_space).
      fold (block_data (map in_space (np_grid s)) (np_weights s) (np_ku s ++ np_kv s) true).
      rewrite block_points, block_weights by (rewrite ?zlen_map; auto; lia). cbn [bind].
      rewrite (block_knots (map in_space (np_grid s)) (np_weights s) (np_ku s ++ np_kv s) true ltac:(rewrite zlen_map; auto) _ (np_ku s) (np_kv s)) by reflexivity. cbn [bind].
      rewrite (block_knots2 (map in_space (np_grid s)) (np_weights s) (np_ku s ++ np_kv s) true ltac:(rewrite zlen_map; auto) _ (np_ku s) (np_kv s)) by reflexivity. cbn [bind].
      fold base. rewrite I. reflexivity.
    - destruct Hs.
  Qed.
End Patches.
