From Coq Require Import List ZArith Reals Lra Lia Bool.
From Verif Require Import Monad MonadFacts Scalar ScalarFacts Spec ModelCurve ModelBezier ModelBSpline ModelRational ModelPatchBase ModelPatch ModelPatchRational.
From Verif Require Import BezierThms BezierPatchThms LineThms ModelMsh SpecMsh ModelExport ExportThms MshThms MshThms2 MshThms3 MshMesh.
Import ListNotations.
Local Open Scope Z_scope.

Section Data.
  Context {d : nat} (Hd : d = 2%nat \/ d = 3%nat).

  (** * Success of sampled saving *)
  Lemma curves_sampled_ok (cs : list (curve R d * curve_ops R (vec R d))) : forall (s : msh_spec R) tag, Forall sampled_curve_ok cs -> exists s', save_curves s cs true tag = Ok s'.
  Proof.
    induction cs as [|[c ops] cs IH]; intros s tag F; [exists s; reflexivity|]. inversion F as [|? ? (Hc & He) F']; subst. cbn [fst snd] in *. cbn [save_curves]. unfold add_curve.
    destruct (curve_round_trip Hd c tag Hc) as (r & -> & _). cbn [bind]. change 100 with (Z.of_nat 100).
    match goal with |- context [add_curve_sampled ?s _ _ _] => destruct (curve_sampled_ok Hd s ops 100 tag ltac:(lia) He) as (s2 & ->) end. cbn [bind]. apply IH. exact F'.
  Qed.

  Lemma patches_sampled_ok (ps : list (patch R d * (patch_ops R (vec R d) * (Z * Z)))) : forall (s : msh_spec R) tag, Forall sampled_patch_ok ps -> exists s', save_patches s ps true tag = Ok s'.
  Proof.
    induction ps as [|[c [ops [ru rv]]] ps IH]; intros s tag F; [exists s; reflexivity|]. inversion F as [|? ? (Hc & Hu & Hv & He) F']; subst. cbn [fst snd] in *. cbn [save_patches]. unfold add_patch.
    destruct (patch_round_trip Hd c tag Hc) as (r & _ & -> & _). cbn [bind].
    replace (to_size ru * 2) with (Z.of_nat (2 * Z.to_nat ru)) by (unfold to_size; rewrite Z.mod_small; lia).
    replace (to_size rv * 2) with (Z.of_nat (2 * Z.to_nat rv)) by (unfold to_size; rewrite Z.mod_small; lia).
    match goal with |- context [add_patch_sampled ?s _ _ _ _] => destruct (patch_sampled_ok Hd s ops (2 * Z.to_nat ru) (2 * Z.to_nat rv) tag ltac:(lia) ltac:(lia) He) as (s2 & ->) end.
    cbn [bind]. apply IH. exact F'.
  Qed.
  Lemma msh_sampled_ok (cs : list (curve R d * curve_ops R (vec R d))) ps : Forall sampled_curve_ok cs -> Forall sampled_patch_ok ps ->
    exists spec : msh_spec R, save_msh cs ps true = Ok spec.
  Proof.
    intros Hc Hp. unfold save_msh. destruct (curves_sampled_ok cs empty_spec 1 Hc) as (s & ->). cbn [bind]. apply patches_sampled_ok. exact Hp.
  Qed.

  Lemma recommended (s : patch R d) : saved_patch s -> exists nu nv, patch_recommended_u s = Ok nu /\ patch_recommended_v s = Ok nv /\ 2 <= nu /\ 2 <= nv.
  Proof.
    clear Hd. unfold patch_recommended_u, patch_recommended_v. destruct s as [s|s|s|s|]; cbn [saved_patch patch_nu patch_nv]; try contradiction.
    - intros (H & Hu & Hv). apply bp_init_inv in H. destruct H as (Hu0 & Hv0 & _). unfold bp_nu, bp_nv. rewrite !checked_ok by lia. cbn [bind]. eexists _, _. split; [reflexivity|]. split; [reflexivity|]. lia.
    - intros (H & Hu & Hv). unfold rp_initialize in H. destruct (homogenize _ _) as [hp| | |]; cbn [bind] in H; try discriminate.
      destruct (checked_degree (rp_degu s)) as [du| | |] eqn:Eu; cbn [bind] in H; try discriminate. destruct (checked_degree (rp_degv s)) as [dv| | |] eqn:Ev; cbn [bind] in H; try discriminate.
      apply checked_inv in Eu. apply checked_inv in Ev. destruct Eu as (Hu0 & ->), Ev as (Hv0 & ->).
      destruct (bp_initialize _) as [h| | |] eqn:Eh; cbn [bind] in H; try discriminate. apply bp_init_inv in Eh. destruct Eh as (_ & _ & _ & Eh). apply Ok_inj in H.
      assert (Hh : rp_hom s = h) by (rewrite <- H; reflexivity). rewrite Hh, Eh. unfold bp_nu, bp_nv. cbn [bp_set_periodic bp_set_degrees bp_degu bp_degv]. rewrite !checked_ok by lia. cbn [bind].
      eexists _, _. split; [reflexivity|]. split; [reflexivity|]. lia.
    - intros (H & Hu & Hv & Ku & Kv). apply sp_init_inv in H. destruct H as (Hu0 & Hv0 & _). unfold sp_nu, sp_nv. rewrite !checked_ok by lia. cbn [bind]. eexists _, _. split; [reflexivity|]. split; [reflexivity|]. lia.
    - intros (H & Hu & Hv & Ku & Kv). unfold np_initialize in H. destruct (negb _) in H; [discriminate|]. destruct (homogenize _ _) as [hp| | |]; cbn [bind] in H; try discriminate.
      destruct (checked_degree (np_degu s)) as [du| | |] eqn:Eu; cbn [bind] in H; try discriminate. destruct (checked_degree (np_degv s)) as [dv| | |] eqn:Ev; cbn [bind] in H; try discriminate.
      apply checked_inv in Eu. apply checked_inv in Ev. destruct Eu as (Hu0 & ->), Ev as (Hv0 & ->).
      destruct (sp_initialize _) as [h| | |] eqn:Eh; cbn [bind] in H; try discriminate. apply sp_init_inv in Eh. destruct Eh as (_ & _ & _ & _ & _ & F3 & F4 & _ & F6 & F7 & _). unfold sp_with in F3, F4, F6, F7. cbn [sp_degu sp_degv sp_ku sp_kv] in F3, F4, F6, F7. apply Ok_inj in H.
      assert (Hh : np_hom s = h) by (rewrite <- H; reflexivity). rewrite Hh. unfold sp_nu, sp_nv. rewrite F3, F4, F6, F7. rewrite !checked_ok by lia. cbn [bind].
      eexists _, _. split; [reflexivity|]. split; [reflexivity|]. lia.
  Qed.

  (** * The smallest node number *)
  Lemma add_curve_min (s s' : msh_spec R) (c : curve R d) tag : add_curve s c tag = Ok s' -> ms_min_node s' = ms_min_node s /\ ms_element_data s' = ms_element_data s.
  Proof. unfold add_curve. destruct (curve_record _ _); cbn [bind]; try discriminate. intros H. apply Ok_inj in H. subst. split; reflexivity. Qed.
  Lemma add_patch_min (s s' : msh_spec R) (c : patch R d) tag : add_patch s c tag = Ok s' -> ms_min_node s' = ms_min_node s /\ ms_element_data s' = ms_element_data s.
  Proof. unfold add_patch. destruct (patch_record _ _); cbn [bind]; try discriminate. intros H. apply Ok_inj in H. subst. split; reflexivity. Qed.
  Lemma curve_sampled_min (s s' : msh_spec R) (ops : curve_ops R (vec R d)) n tag : add_curve_sampled s ops n tag = Ok s' -> ms_min_node s' = to_size tag /\
    ms_element_data s' = add_entries (match ms_element_data s with [] => [{| ed_patch := false; ed_num := 0; ed_entries := [] |}] | l => l end) n (ms_max_element s) tag.
  Proof. unfold add_curve_sampled. destruct (tabulate _ _); cbn [bind]; try discriminate. intros H. apply Ok_inj in H. subst. split; reflexivity. Qed.
  Lemma patch_sampled_min (s s' : msh_spec R) (ops : patch_ops R (vec R d)) nu nv tag : add_patch_sampled s ops nu nv tag = Ok s' -> ms_min_node s' = 1 /\
    ms_element_data s' = add_entries (if (length (ms_element_data s) <=? 1)%nat then (ms_element_data s ++ [{| ed_patch := true; ed_num := 0; ed_entries := [] |}])%list else ms_element_data s) (nu * nv) (ms_max_element s) tag.
  Proof. unfold add_patch_sampled. destruct (tabulate _ _); cbn [bind]; try discriminate. intros H. apply Ok_inj in H. subst. split; reflexivity. Qed.

  Lemma curves_min cs : forall (s s' : msh_spec R) tag, cs <> [] -> save_curves (d := d) s cs true tag = Ok s' -> ms_min_node s' = to_size (tag + zlen cs - 1).
  Proof.
    induction cs as [|[c ops] cs IH]; intros s s' tag Hne H; [contradiction|]. cbn [save_curves] in H.
    destruct (add_curve _ _ _) as [s1| | |] eqn:E1; cbn [bind] in H; try discriminate. destruct (add_curve_sampled _ _ _ _) as [s2| | |] eqn:E2; cbn [bind] in H; try discriminate.
    apply curve_sampled_min in E2. destruct E2 as (E2 & _). destruct cs as [|c' cs'].
    - cbn in H. apply Ok_inj in H. subst. rewrite E2. f_equal. cbn. lia.
    - rewrite (IH _ _ _ ltac:(discriminate) H). f_equal. unfold zlen. cbn [length]. lia.
  Qed.
  Lemma patches_min ps : forall (s s' : msh_spec R) tag, ps <> [] -> save_patches (d := d) s ps true tag = Ok s' -> ms_min_node s' = 1.
  Proof.
    induction ps as [|[c [ops [ru rv]]] ps IH]; intros s s' tag Hne H; [contradiction|]. cbn [save_patches] in H.
    destruct (add_patch _ _ _) as [s1| | |] eqn:E1; cbn [bind] in H; try discriminate. destruct (add_patch_sampled _ _ _ _ _) as [s2| | |] eqn:E2; cbn [bind] in H; try discriminate.
    apply patch_sampled_min in E2. destruct E2 as (E2 & _). destruct ps as [|c' ps'].
    - cbn in H. apply Ok_inj in H. subst. exact E2.
    - exact (IH _ _ _ ltac:(discriminate) H).
  Qed.
  Lemma min_node (cs : list (curve R d * curve_ops R (vec R d))) ps spec : save_msh cs ps true = Ok spec ->
    (ps <> [] -> ms_min_node spec = 1) /\ (ps = [] -> cs <> [] -> zlen cs < 2 ^ 64 -> ms_min_node spec = zlen cs).
  Proof.
    unfold save_msh. destruct (save_curves _ _ _ _) as [s1| | |] eqn:E; cbn [bind]; try discriminate. intros H. split.
    - intros Hp. exact (patches_min _ _ _ _ Hp H).
    - intros -> Hc Hl. cbn in H. apply Ok_inj in H. subst s1. rewrite (curves_min _ _ _ _ Hc E). unfold to_size. rewrite Z.mod_small; unfold zlen in *; lia.
  Qed.

  (** * The blocks of entity data *)
  Lemma entries_one e n off tag : exists e', add_entries [e] n off tag = [e'] /\ ed_patch e' = ed_patch e.
  Proof. eexists. split; reflexivity. Qed.
  Lemma entries_two e e1 n off tag : exists e', add_entries [e; e1] n off tag = [e; e'] /\ ed_patch e' = ed_patch e1.
  Proof. eexists. split; reflexivity. Qed.
  Lemma curves_data cs : forall (s s' : msh_spec R) tag, save_curves (d := d) s cs true tag = Ok s' ->
    (ms_element_data s = [] /\ cs <> [] \/ exists e, ms_element_data s = [e] /\ ed_patch e = false) -> exists e, ms_element_data s' = [e] /\ ed_patch e = false.
  Proof.
    induction cs as [|[c ops] cs IH]; intros s s' tag H D; cbn [save_curves] in H.
    - apply Ok_inj in H. subst. destruct D as [(_ & D)|D]; [contradiction|exact D].
    - destruct (add_curve _ _ _) as [s1| | |] eqn:E1; cbn [bind] in H; try discriminate. apply add_curve_min in E1. destruct E1 as (_ & E1).
      destruct (add_curve_sampled _ _ _ _) as [s2| | |] eqn:E2; cbn [bind] in H; try discriminate. apply curve_sampled_min in E2. destruct E2 as (_ & E2). rewrite E1 in E2.
      refine (IH _ _ _ H _). right. rewrite E2. destruct D as [(-> & _)|(e & -> & De)]; [eexists; split; reflexivity|]. eexists. split; [reflexivity|exact De].
  Qed.
  Lemma patches_data ps : forall (s s' : msh_spec R) e tag, save_patches (d := d) s ps true tag = Ok s' ->
    (ms_element_data s = [e] /\ ps <> [] \/ exists e', ms_element_data s = [e; e'] /\ ed_patch e' = true) -> exists e', ms_element_data s' = [e; e'] /\ ed_patch e' = true.
  Proof.
    induction ps as [|[c [ops [ru rv]]] ps IH]; intros s s' e tag H D; cbn [save_patches] in H.
    - apply Ok_inj in H. subst. destruct D as [(_ & D)|D]; [contradiction|exact D].
    - destruct (add_patch _ _ _) as [s1| | |] eqn:E1; cbn [bind] in H; try discriminate. apply add_patch_min in E1. destruct E1 as (_ & E1).
      destruct (add_patch_sampled _ _ _ _ _) as [s2| | |] eqn:E2; cbn [bind] in H; try discriminate. apply patch_sampled_min in E2. destruct E2 as (_ & E2). rewrite E1 in E2.
      refine (IH _ _ _ _ H _). right. rewrite E2. destruct D as [(-> & _)|(e' & -> & De)]; eexists; split; [reflexivity|reflexivity|reflexivity|exact De].
  Qed.
  Lemma patches_only ps : forall (s s' : msh_spec R) tag, save_patches (d := d) s ps true tag = Ok s' -> ms_element_data s = [] -> (2 <= length ps)%nat ->
    exists e e', ms_element_data s' = [e; e'] /\ ed_patch e = true /\ ed_patch e' = true.
  Proof.
    destruct ps as [|[c [ops [ru rv]]] ps]; intros s s' tag H D L; [cbn in L; lia|]. cbn [save_patches] in H. cbn [length] in L.
    destruct (add_patch _ _ _) as [s1| | |] eqn:E1; cbn [bind] in H; try discriminate. apply add_patch_min in E1. destruct E1 as (_ & E1).
    destruct (add_patch_sampled _ _ _ _ _) as [s2| | |] eqn:E2; cbn [bind] in H; try discriminate. apply patch_sampled_min in E2. destruct E2 as (_ & E2). rewrite E1, D in E2. cbn [length Nat.leb app] in E2.
    match type of E2 with _ = add_entries [?e] ?n ?o ?t => destruct (entries_one e n o t) as (e1 & Ee & De1) end. rewrite Ee in E2. cbn [ed_patch] in De1.
    assert (Hps : ps <> []) by (intros ->; cbn in L; lia).
    destruct (patches_data _ _ _ _ _ H (or_introl (conj E2 Hps))) as (e' & E & De). exists e1, e'. split; [exact E|]. split; [exact De1|exact De].
  Qed.

  (** One block for the curves and one for the patches, when there are both. *)
  Lemma entity_blocks (cs : list (curve R d * curve_ops R (vec R d))) (ps : list (patch R d * (patch_ops R (vec R d) * (Z * Z)))) spec :
    Forall (fun p => 0 < fst (snd (snd p)) < 2 ^ 31 /\ 0 < snd (snd (snd p)) < 2 ^ 31) ps -> cs <> [] -> ps <> [] ->
    save_msh cs ps true = Ok spec ->
    exists bc bp, numbered spec (bc ++ bp) /\ length bc = length cs /\ length bp = length ps /\
      ms_element_data spec = [{| ed_patch := false; ed_num := zlen (concat (map part_entries bc)); ed_entries := concat (map part_entries bc) |};
                              {| ed_patch := true; ed_num := zlen (concat (map part_entries bp)); ed_entries := concat (map part_entries bp) |}].
  Proof.
    intros F Hc Hp. unfold save_msh. destruct (save_curves _ _ _ _) as [s1| | |] eqn:E; cbn [bind]; try discriminate. intros H.
    destruct (curves_mesh Hd cs _ _ _ _ numbered_empty E) as (bc & E1 & L1 & _). destruct (patches_mesh Hd ps _ _ _ _ F E1 H) as (bp & E2 & L2 & _).
    exists bc, bp. split; [exact E2|]. split; [exact L1|]. split; [exact L2|].
    destruct (curves_data _ _ _ _ E (or_introl (conj eq_refl Hc))) as (e & D1 & De). destruct (patches_data _ _ _ _ _ H (or_introl (conj D1 Hp))) as (e' & D2 & De').
    destruct E1 as (_ & _ & _ & _ & _ & _ & _ & _ & _ & _ & _ & X1 & _). destruct E2 as (_ & _ & _ & _ & _ & _ & _ & _ & _ & _ & _ & X2 & X3).
    rewrite D1 in X1. rewrite D2 in X2, X3 |- *. cbn [map concat app] in X1, X2. rewrite app_nil_r in X1, X2. rewrite map_app, concat_app, X1 in X2. apply app_inv_head in X2.
    inversion X3 as [|? ? Y1 X4]; subst. inversion X4 as [|? ? Y2 _]; subst. destruct e as [a b c], e' as [a' b' c']. cbn in *. subst. reflexivity.
  Qed.

  (** * What is lost *)
  Lemma loaded_curve_plain (r : msh_curve R) c : load_curve r = Ok c -> plain_curve c.
  Proof.
    unfold load_curve. destruct (_ =? _); [|destruct (_ =? _); [|destruct (_ =? _); [|destruct (_ =? _); [|discriminate]]]].
    - unfold load_Bezier_curve. repeat (match goal with |- context [bind (assert_ ?b)] => destruct b; cbn [assert_ bind]; try discriminate end).
      destruct (extract_control_points _ _ _); cbn [bind]; try discriminate. intros H. apply Ok_inj in H. subst. reflexivity.
    - unfold load_BSpline_curve. repeat (match goal with |- context [bind (assert_ ?b)] => destruct b; cbn [assert_ bind]; try discriminate end).
      destruct (extract_control_points _ _ _); cbn [bind]; try discriminate. destruct (extract_knots _ _ _); cbn [bind]; try discriminate. intros H. apply Ok_inj in H. subst. reflexivity.
    - unfold load_rational_Bezier_curve. repeat (match goal with |- context [bind (assert_ ?b)] => destruct b; cbn [assert_ bind]; try discriminate end).
      destruct (extract_control_points _ _ _); cbn [bind]; try discriminate. destruct (extract_weights _ _); cbn [bind]; try discriminate.
      unfold rb_initialize. destruct (homogenize _ _); cbn [bind]; try discriminate. intros H. apply Ok_inj in H. subst. reflexivity.
    - unfold load_NURBS_curve. repeat (match goal with |- context [bind (assert_ ?b)] => destruct b; cbn [assert_ bind]; try discriminate end).
      destruct (extract_control_points _ _ _); cbn [bind]; try discriminate. destruct (extract_knots _ _ _); cbn [bind]; try discriminate. destruct (extract_weights _ _); cbn [bind]; try discriminate.
      unfold nb_initialize. destruct (homogenize _ _); cbn [bind]; try discriminate. intros H. apply Ok_inj in H. subst. reflexivity.
  Qed.

  Lemma other_load ty tag (r : msh_curve R) : 5 <= ty <= 7 -> curve_record (COther ty : curve R d) tag = Ok r -> load_curve r = Throw invalid_setting_error.
  Proof.
    intros Ht. unfold curve_record. destruct (_ && _); [discriminate|]. cbn. intros H. apply Ok_inj in H. subst r. unfold load_curve. cbn [mc_type].
    unfold to_size. rewrite Z.mod_small by lia. unfold CURVE_BEZIER, CURVE_BSPLINE, CURVE_RATIONAL_BEZIER, CURVE_NURBS.
    repeat (match goal with |- context [ty =? ?k] => destruct (Z.eqb_spec ty k); [lia|] end). reflexivity.
  Qed.
  Lemma other_save ty tag : exists r : msh_curve R, curve_record (COther ty : curve R d) tag = Ok r.
  Proof. unfold curve_record. destruct Hd as [-> | ->]; eexists; reflexivity. Qed.
  Lemma other_patch du dv tag : 0 <= du < 2 ^ 31 -> 0 <= dv < 2 ^ 31 -> exists r : msh_patch R, patch_record (POther du dv : patch R d) tag = Ok r /\ load_patch r = Undef.
  Proof.
    intros Hu Hv. unfold patch_record. cbn [patch_degree_u patch_degree_v patch_nu patch_nv patch_num_weights_u patch_num_weights_v patch_knots_u patch_knots_v].
    rewrite !checked_ok by lia. cbn [bind]. eexists. split; [reflexivity|]. 
    assert (Eu : to_size du = du) by (apply Z.mod_small; lia). assert (Ev : to_size dv = dv) by (apply Z.mod_small; lia).
    assert (Em : to_size ((du + 1) * (dv + 1)) = (du + 1) * (dv + 1)) by (apply Z.mod_small; nia).
    unfold load_patch. cbn [mp_type]. match goal with |- context [to_size ?x =? PATCH_BEZIER] => change (to_size x =? PATCH_BEZIER) with true end. cbv iota.
    unfold load_Bezier_patch. cbn [mp_num_points mp_degree_u mp_degree_v]. rewrite Eu, Ev, Em. change (to_size (0 * 0)) with 0.
    destruct (Z.eqb_spec 0 ((du + 1) * (dv + 1))); [nia|]. reflexivity.
  Qed.

  Lemma other_file (cs : list (curve R d * curve_ops R (vec R d))) ps b (spec : msh_spec R) :
    Forall (fun c => saved_curve c \/ exists ty, c = COther ty /\ 5 <= ty <= 7) (map fst cs) -> ~ Forall saved_curve (map fst cs) ->
    save_msh cs ps b = Ok spec -> load_msh spec = Throw invalid_setting_error.
  Proof.
    intros Hc Hn. unfold save_msh. destruct (save_curves empty_spec cs b 1) as [sp| | |] eqn:E1; cbn [bind]; try discriminate. intros E2.
    apply save_curves_records in E1. apply save_patches_records in E2. destruct E1 as (rs & R1 & R2 & R3), E2 as (qs & Q1 & Q2 & Q3). rewrite R1 in Q2. cbn in Q2.
    unfold load_msh. rewrite Q2. replace (mapM load_curve rs) with (@Throw (list (curve R 3)) invalid_setting_error); [reflexivity|]. symmetry.
    clear - Hd Hc Hn R3. induction R3 as [|c r l rs (tag & Hr) _ IH]; [exfalso; apply Hn; constructor|]. inversion Hc as [|? ? H1 H2]; subst. cbn [mapM].
    destruct H1 as [H1|(ty & -> & Ht)].
    - destruct (curve_round_trip Hd c tag H1) as (r' & Er & c' & El & _). rewrite Hr in Er. apply Ok_inj in Er. subst r'. rewrite El. cbn [bind]. rewrite IH; [reflexivity|exact H2|].
      intros F. apply Hn. constructor; assumption.
    - rewrite (other_load ty tag r Ht Hr). reflexivity.
  Qed.

  (** No samples in a direction: every parameter is 0 / 0. *)
  Lemma zero_samples (s : patch R d) ops rv ps : saved_patch s \/ (exists du dv, s = POther du dv /\ 0 <= du < 2 ^ 31 /\ 0 <= dv < 2 ^ 31) ->
    save_msh ([] : list (curve R d * curve_ops R (vec R d))) ((s, (ops, (0, rv))) :: ps) true = NonFinite.
  Proof.
    intros Hs. unfold save_msh. cbn [save_curves bind save_patches]. unfold add_patch.
    assert (exists r, patch_record s 1 = Ok r) as (r & ->).
    { destruct Hs as [Hs|(du & dv & -> & Hu & Hv)]; [destruct (patch_round_trip Hd s 1 Hs) as (r & _ & E & _)|destruct (other_patch du dv 1 Hu Hv) as (r & E & _)]; exists r; exact E. }
    cbn [bind]. unfold add_patch_sampled. change (to_size 0 * 2) with 0. change (0 + 1) with 1. unfold tabulate at 1. change (Z.to_nat 1) with 1%nat. cbn [seq mapM].
    rewrite sample_zero. reflexivity.
  Qed.
End Data.

(** * Concrete objects *)
Definition seg (a b : R) : bezier (vec R 2) := mk_bezier [(a, (0%R, tt)); (b, (1%R, tt))].
Definition seg_saved (a b : R) : curve R 2 * curve_ops R (vec R 2) := (CBezier (seg a b), bz_ops (seg a b)).
Lemma seg_ok a b : sampled_curve_ok (seg_saved a b).
Proof.
  split; [cbn; unfold zlen; cbn; lia|]. intros i _. cbn [seg_saved snd bz_ops c_eval c_lower c_upper]. unfold seg.
  rewrite bezier_bernstein by discriminate. eexists. reflexivity.
Qed.
Definition quad (h : R) : bpatch (vec R 3) :=
  {| bp_tu := -1; bp_tv := -1; bp_degu := 1; bp_degv := 1;
     bp_grid := [(0, (0, (h, tt))); (0, (1, (h, tt))); (1, (0, (h, tt))); (1, (1, (2 * h, tt)))]%R; bp_peru := false; bp_perv := false |}.
Definition quad_saved (h : R) : patch R 3 * (patch_ops R (vec R 3) * (Z * Z)) := (PBezier (quad h), (bp_ops (quad h), (3, 3))).
Lemma quad_ok h : sampled_patch_ok (quad_saved h).
Proof.
  split; [cbn; repeat split; lia|]. split; [cbn; lia|]. split; [cbn; lia|]. intros i j _ _. cbn [quad_saved fst snd bp_ops s_eval].
  match goal with |- exists q, bp_evaluate ?s ?u ?v = _ => destruct (bpatch_evaluate 3 s u v) as (u' & v' & _ & _ & E) end; try reflexivity; try (left; reflexivity); try (cbn; discriminate).
  eexists. exact E.
Qed.

Lemma min_node_wrong : exists (cs : list (curve R 2 * curve_ops R (vec R 2))) spec, Forall sampled_curve_ok cs /\ save_msh cs [] true = Ok spec /\
  ms_min_node spec = 2 /\ exists b, In b (ms_node_blocks spec) /\ In 1 (kb_tags b).
Proof.
  pose proof (or_introl eq_refl : 2%nat = 2%nat \/ 2%nat = 3%nat) as Hd.
  assert (F : Forall sampled_curve_ok [seg_saved 0 1; seg_saved 2 5]) by (repeat constructor; apply seg_ok).
  destruct (msh_sampled_ok Hd _ [] F (Forall_nil _)) as (spec & E). eexists _, spec. split; [exact F|]. split; [exact E|]. split.
  - destruct (min_node Hd _ _ _ E) as (_ & H). apply H; [reflexivity|discriminate|cbn; lia].
  - destruct (msh_mesh Hd _ _ _ (Forall_nil _) E) as (bc & bp & N & L1 & L2 & H1 & _). destruct bp; [|discriminate]. rewrite app_nil_r in N.
    destruct bc as [|b0 bc]; [discriminate|]. destruct N as (N1 & _ & _ & _ & _ & N6 & _). exists (part_nodes b0). rewrite N1. split; [now left|].
    specialize (H1 0%nat _ b0 eq_refl eq_refl). destruct H1 as (_ & _ & _ & _ & Hlen & _).
    cbn [map concat] in N6. destruct (kb_tags (part_nodes b0)) as [|x l]; [discriminate|]. left.
    cbn [app] in N6. unfold consecutive in N6. destruct (Z.to_nat (ms_num_nodes spec)); [discriminate|]. cbn [seq map] in N6. injection N6 as -> _. reflexivity.
Qed.
Lemma entity_wrong : exists (ps : list (patch R 3 * (patch_ops R (vec R 3) * (Z * Z)))) spec, Forall sampled_patch_ok ps /\
  save_msh ([] : list (curve R 3 * curve_ops R (vec R 3))) ps true = Ok spec /\ map ed_patch (ms_element_data spec) = [true; true].
Proof.
  pose proof (or_intror eq_refl : 3%nat = 2%nat \/ 3%nat = 3%nat) as Hd.
  assert (F : Forall sampled_patch_ok [quad_saved 0; quad_saved 1]) by (repeat constructor; apply quad_ok).
  destruct (msh_sampled_ok Hd [] _ (Forall_nil _) F) as (spec & E). eexists _, spec. split; [exact F|]. split; [exact E|].
  unfold save_msh in E. cbn [save_curves bind] in E. destruct (patches_only Hd _ _ _ _ E eq_refl ltac:(cbn; lia)) as (e & e' & -> & H1 & H2). cbn. rewrite H1, H2. reflexivity.
Qed.
Lemma entity_actual {d} (Hd : d = 2%nat \/ d = 3%nat) (ps : list (patch R d * (patch_ops R (vec R d) * (Z * Z)))) spec : (2 <= length ps)%nat ->
  save_msh ([] : list (curve R d * curve_ops R (vec R d))) ps true = Ok spec -> map ed_patch (ms_element_data spec) = [true; true].
Proof.
  intros L E. unfold save_msh in E. cbn [save_curves bind] in E. destruct (patches_only Hd _ _ _ _ E eq_refl L) as (e & e' & -> & H1 & H2). cbn. rewrite H1, H2. reflexivity.
Qed.

(** A closed periodic Bezier curve. *)
Definition loop : bezier (vec R 3) :=
  {| bz_pts := [(0, (0, (0, tt))); (1, (0, (0, tt))); (0, (1, (0, tt))); (0, (0, (0, tt)))]%R; bz_periodic := true |}.
Lemma periodic_lost : exists (c : curve R 3) (ops : curve_ops R (vec R 3)) spec c', saved_curve c /\ c = CBezier loop /\
  save_msh [(c, ops)] [] false = Ok spec /\ load_msh spec = Ok ([CBezier c'], []) /\ bz_pts c' = bz_pts loop /\ bz_periodic c' = false.
Proof.
  pose proof (or_intror eq_refl : 3%nat = 2%nat \/ 3%nat = 3%nat) as Hd.
  assert (F : Forall saved_curve (map fst [(CBezier loop, bz_ops loop)])) by (repeat constructor; cbn; unfold zlen; cbn; lia).
  destruct (msh_save_ok Hd [(CBezier loop, bz_ops loop)] [] F (Forall_nil _)) as (spec & E).
  destruct (msh_round_trip Hd _ [] _ _ F (Forall_nil _) E) as (cs' & ps' & L & C1 & C2). cbn [map fst] in C1, C2. inversion C2; subst. inversion C1 as [|? c' ? l Hc Hl]; subst. inversion Hl; subst.
  destruct c' as [c'|c'|c'|c'|]; cbn [carries_curve] in Hc; try contradiction. destruct Hc as (Hp & Hq).
  exists (CBezier loop), (bz_ops loop), spec, c'. split; [now inversion F|]. split; [reflexivity|]. split; [exact E|]. split; [exact L|]. split; [rewrite Hp; reflexivity|exact Hq].
Qed.
Lemma loaded_not_periodic (spec : msh_spec R) cs ps : load_msh spec = Ok (cs, ps) -> Forall plain_curve cs /\ Forall plain_patch ps.
Proof.
  unfold load_msh. destruct (mapM load_curve _) as [a| | |] eqn:Ea; cbn [bind]; try discriminate. destruct (mapM load_patch _) as [q| | |] eqn:Eq; cbn [bind]; try discriminate.
  intros H. apply Ok_inj in H. injection H as <- <-. apply mapM_map in Ea. apply mapM_map in Eq. split.
  - clear - Ea. induction Ea; constructor; [eapply loaded_curve_plain; eassumption|assumption].
  - clear - Eq. induction Eq; constructor; [eapply loaded_plain; eassumption|assumption].
Qed.
(** A line is saved, and the file cannot be loaded. *)
Lemma line_unreadable {d} (Hd : d = 2%nat \/ d = 3%nat) ty (ops : curve_ops R (vec R d)) : 5 <= ty <= 7 ->
  exists spec, save_msh [(COther ty, ops)] [] false = Ok spec /\ load_msh spec = Throw invalid_setting_error.
Proof.
  intros Ht. assert (exists spec, save_msh [(COther ty, ops)] [] false = Ok spec) as (spec & E).
  { unfold save_msh. cbn [save_curves]. unfold add_curve. destruct (other_save Hd ty 1) as (r & ->). cbn [bind]. eexists. reflexivity. }
  exists spec. split; [exact E|]. eapply (other_file Hd); [| |exact E].
  - cbn [map fst]. constructor; [right; exists ty; split; [reflexivity|exact Ht]|constructor].
  - cbn [map fst]. intros F. inversion F as [|? ? H _]; subst. exact H.
Qed.
Lemma closed_form_unreadable {d} (Hd : d = 2%nat \/ d = 3%nat) du dv ops (r : Z * Z) : 0 <= du < 2 ^ 31 -> 0 <= dv < 2 ^ 31 ->
  exists spec, save_msh ([] : list (curve R d * curve_ops R (vec R d))) [(POther du dv, (ops, r))] false = Ok spec /\ load_msh spec = Undef.
Proof.
  intros Hu Hv. unfold save_msh. cbn [save_curves bind save_patches]. destruct r as (ru, rv). unfold add_patch. destruct (other_patch Hd du dv 1 Hu Hv) as (r & -> & El). cbn [bind].
  eexists. split; [reflexivity|]. unfold load_msh. cbn [ms_curves ms_patches empty_spec app mapM bind]. rewrite El. reflexivity.
Qed.
Lemma profile_no_points {d} (Hd : d = 2%nat \/ d = 3%nat) ty ops : save_msh ([] : list (curve R d * curve_ops R (vec R d)))
  [(POther 2 2, (ops, (swept_recommended (COther ty : curve R d), 3)))] true = NonFinite.
Proof. apply (zero_samples Hd). right. exists 2, 2. split; [reflexivity|]. lia. Qed.
