From Coq Require Import List ZArith Reals Lra Lia Bool.
From Verif Require Import Monad MonadFacts Scalar ScalarFacts ModelCurve ModelBezier ModelBSpline ModelRational ModelPatchBase ModelPatch ModelPatchRational.
From Verif Require Import LineThms ModelMsh SpecMsh MshThms MshThms2 ModelExport ExportThms.
Import ListNotations.
Local Open Scope Z_scope.

(** * Round trip of lists *)
Section Lists.
  Context {T : Type} {SO : ScalarOps T} {d : nat} (Hd : d = 2%nat \/ d = 3%nat).
  Definition is_record (c : curve T d) (r : msh_curve T) : Prop := exists tag, curve_record c tag = Ok r.
  Definition is_precord (s : patch T d) (r : msh_patch T) : Prop := exists tag, patch_record s tag = Ok r.

  Lemma sampled_keeps (spec spec' : msh_spec T) (c : curve_ops T (vec T d)) N tag : add_curve_sampled spec c N tag = Ok spec' ->
    ms_curves spec' = ms_curves spec /\ ms_patches spec' = ms_patches spec.
  Proof.
    unfold add_curve_sampled. destruct (tabulate _ _); cbn [bind]; try discriminate. intros H. apply Ok_inj in H. subst. split; reflexivity.
  Qed.
  Lemma psampled_keeps (spec spec' : msh_spec T) (c : patch_ops T (vec T d)) nu nv tag : add_patch_sampled spec c nu nv tag = Ok spec' ->
    ms_curves spec' = ms_curves spec /\ ms_patches spec' = ms_patches spec.
  Proof.
    unfold add_patch_sampled. destruct (tabulate _ _); cbn [bind]; try discriminate. intros H. apply Ok_inj in H. subst. split; reflexivity.
  Qed.
  Lemma save_curves_records cs : forall (spec spec' : msh_spec T) b tag, save_curves spec cs b tag = Ok spec' ->
    exists rs, ms_curves spec' = (ms_curves spec ++ rs)%list /\ ms_patches spec' = ms_patches spec /\ Forall2 is_record (map fst cs) rs.
  Proof.
    induction cs as [|[c ops] cs IH]; intros spec spec' b tag; cbn [save_curves].
    - intros H. apply Ok_inj in H. subst. exists []. rewrite app_nil_r. repeat split. constructor.
    - unfold add_curve. destruct (curve_record c tag) as [r| | |] eqn:Er; cbn [bind]; try discriminate.
      match goal with |- context [if b then add_curve_sampled ?s _ _ _ else _] => set (sp := s) end.
      destruct (if b then add_curve_sampled sp ops 100 tag else Ok sp) as [sp2| | |] eqn:E2; cbn [bind]; try discriminate. intros H.
      assert (K : ms_curves sp2 = ms_curves sp /\ ms_patches sp2 = ms_patches sp).
      { destruct b; [exact (sampled_keeps _ _ _ _ _ E2)|]. apply Ok_inj in E2. subst. split; reflexivity. }
      destruct K as (K1 & K2). destruct (IH _ _ _ _ H) as (rs & R1 & R2 & R3). exists (r :: rs). rewrite R1, R2, K1, K2. cbn [sp ms_curves ms_patches map fst].
      rewrite <- app_assoc. repeat split. constructor; [exists tag; exact Er|exact R3].
  Qed.
  Lemma save_patches_records ps : forall (spec spec' : msh_spec T) b tag, save_patches spec ps b tag = Ok spec' ->
    exists rs, ms_patches spec' = (ms_patches spec ++ rs)%list /\ ms_curves spec' = ms_curves spec /\ Forall2 is_precord (map fst ps) rs.
  Proof.
    induction ps as [|[s [ops [ru rv]]] ps IH]; intros spec spec' b tag; cbn [save_patches].
    - intros H. apply Ok_inj in H. subst. exists []. rewrite app_nil_r. repeat split. constructor.
    - unfold add_patch. destruct (patch_record s tag) as [r| | |] eqn:Er; cbn [bind]; try discriminate.
      match goal with |- context [if b then add_patch_sampled ?s _ _ _ _ else _] => set (sp := s) end.
      destruct (if b then add_patch_sampled sp ops (to_size ru * 2) (to_size rv * 2) tag else Ok sp) as [sp2| | |] eqn:E2; cbn [bind]; try discriminate. intros H.
      assert (K : ms_curves sp2 = ms_curves sp /\ ms_patches sp2 = ms_patches sp).
      { destruct b; [exact (psampled_keeps _ _ _ _ _ _ E2)|]. apply Ok_inj in E2. subst. split; reflexivity. }
      destruct K as (K1 & K2). destruct (IH _ _ _ _ H) as (rs & R1 & R2 & R3). exists (r :: rs). rewrite R1, R2, K1, K2. cbn [sp ms_curves ms_patches map fst].
      rewrite <- app_assoc. repeat split. constructor; [exists tag; exact Er|exact R3].
  Qed.
  Lemma load_list {A B C} (rec : A -> B -> Prop) (load : B -> res C) (rel : A -> C -> Prop) l rs : Forall2 rec l rs ->
    (forall a b, In a l -> rec a b -> exists c, load b = Ok c /\ rel a c) -> exists cs, mapM load rs = Ok cs /\ Forall2 rel l cs.
  Proof.
    induction 1 as [|a b l rs Hab H IH]; intros Hl; [exists []; split; [reflexivity|constructor]|].
    destruct (Hl a b) as (c & Ec & Rc); [now left|assumption|]. destruct IH as (cs & Es & Rs); [intros; apply Hl; [now right|assumption]|].
    exists (c :: cs). split; [cbn; now rewrite Ec, Es|constructor; assumption].
  Qed.
  Lemma msh_round_trip (cs : list (curve T d * curve_ops T (vec T d))) ps b (spec : msh_spec T) :
    Forall saved_curve (map fst cs) -> Forall saved_patch (map fst ps) -> save_msh cs ps b = Ok spec ->
    exists cs' ps', load_msh spec = Ok (cs', ps') /\ Forall2 carries_curve (map fst cs) cs' /\ Forall2 carries_patch (map fst ps) ps'.
  Proof.
    intros Hc Hp. unfold save_msh. destruct (save_curves empty_spec cs b 1) as [sp| | |] eqn:E1; cbn [bind]; try discriminate. intros E2.
    apply save_curves_records in E1. apply save_patches_records in E2. destruct E1 as (rs & R1 & R2 & R3), E2 as (qs & Q1 & Q2 & Q3). rewrite R2 in Q1. rewrite R1 in Q2. cbn in Q1, Q2.
    rewrite Forall_forall in Hc, Hp.
    destruct (load_list _ load_curve carries_curve _ _ R3) as (cs' & C1 & C2).
    { intros c r Hin (tag & Er). destruct (curve_round_trip Hd c tag (Hc c Hin)) as (r' & Er' & c' & L). assert (r' = r) by (apply Ok_inj; congruence). subst. now exists c'. }
    destruct (load_list _ load_patch carries_patch _ _ Q3) as (ps' & P1 & P2).
    { intros s r Hin (tag & Er). destruct (patch_round_trip Hd s tag (Hp s Hin)) as (r' & s' & Er' & L). assert (r' = r) by (apply Ok_inj; congruence). subst. now exists s'. }
    exists cs', ps'. split; [|split; assumption]. unfold load_msh. rewrite Q1, Q2, C1. cbn [bind]. rewrite P1. reflexivity.
  Qed.
  Lemma msh_save_ok (cs : list (curve T d * curve_ops T (vec T d))) ps :
    Forall saved_curve (map fst cs) -> Forall saved_patch (map fst ps) -> exists spec : msh_spec T, save_msh cs ps false = Ok spec.
  Proof.
    intros Hc Hp. unfold save_msh.
    assert (A : forall cs spec tag, Forall saved_curve (map fst cs) -> exists spec', save_curves (d := d) spec cs false tag = Ok spec').
    { clear - Hd. intros cs0. induction cs0 as [|[c ops] cs IH]; intros spec tag H; [now exists spec|]. cbn [map fst] in H. inversion H; subst. cbn [save_curves]. unfold add_curve.
      destruct (curve_round_trip Hd c tag) as (r & -> & _); [assumption|]. cbn [bind]. apply IH. assumption. }
    assert (B : forall ps spec tag, Forall saved_patch (map fst ps) -> exists spec', save_patches (d := d) spec ps false tag = Ok spec').
    { clear - Hd. intros ps0. induction ps0 as [|[s [ops [ru rv]]] ps IH]; intros spec tag H; [now exists spec|]. cbn [map fst] in H. inversion H; subst. cbn [save_patches]. unfold add_patch.
      destruct (patch_round_trip Hd s tag) as (r & s' & -> & _); [assumption|]. cbn [bind]. apply IH. assumption. }
    destruct (A cs empty_spec 1 Hc) as (sp & ->). cbn [bind]. apply B. exact Hp.
  Qed.
End Lists.

(** * Plain objects of space come back unchanged *)
Section Identity.
  Context {T : Type} {SO : ScalarOps T}.
  Lemma curve_identity (c c' : curve T 3) : saved_curve c -> plain_curve c -> carries_curve c c' -> c' = c.
  Proof.
    destruct c as [c|c|c|c|ty], c' as [c'|c'|c'|c'|ty']; cbn [saved_curve plain_curve carries_curve]; intros S P C; try contradiction; rewrite in_space_map in C.
    - destruct c, c'; cbn in *. destruct C as (-> & ->). now subst.
    - destruct C as (E1 & E2 & E3 & E4). destruct S as (_ & S & _). f_equal. apply Ok_inj. rewrite <- S, <- E4. unfold rb_initialize. rewrite E1, E2, E3, P. reflexivity.
    - destruct c, c'; cbn in *. destruct C as (-> & -> & ->). now subst.
    - destruct C as (E1 & E2 & E3 & E4 & E5). destruct S as (_ & S & _). f_equal. apply Ok_inj. rewrite <- S, <- E5. unfold nb_initialize. rewrite E1, E2, E3, E4, P. reflexivity.
  Qed.

  Lemma bp_hom_eq (s s' : bpatch (vec T 4)) : bp_initialize s = Ok s' -> s' = s.
  Proof. intros H. apply bp_init_inv in H. tauto. Qed.
  Lemma rp_init_form (s s' : rbpatch T 3) : rp_initialize s = Ok s' -> exists hp, homogenize (rp_grid s) (rp_weights s) = Ok hp /\
    s' = rp_set_hom s (bp_set_periodic (bp_set_degrees (bp_set_grid (rp_hom s) hp) (rp_degu s) (rp_degv s)) (rp_peru s) (rp_perv s)).
  Proof.
    unfold rp_initialize. destruct (homogenize _ _) as [hp| | |]; cbn [bind]; try discriminate.
    destruct (checked_degree (rp_degu s)) as [du| | |] eqn:Eu; cbn [bind]; try discriminate. destruct (checked_degree (rp_degv s)) as [dv| | |] eqn:Ev; cbn [bind]; try discriminate.
    apply checked_inv in Eu. apply checked_inv in Ev. destruct Eu as (_ & ->), Ev as (_ & ->).
    destruct (bp_initialize _) as [h| | |] eqn:Eh; cbn [bind]; try discriminate. intros H. apply Ok_inj in H. apply bp_hom_eq in Eh. subst. now exists hp.
  Qed.
  Lemma np_init_form (s s' : nupatch T 3) : np_initialize s = Ok s' -> exists hp h, homogenize (np_grid s) (np_weights s) = Ok hp /\
    sp_initialize (sp_with (np_hom s) (np_degu s) (np_degv s) hp (np_ku s) (np_kv s) (np_peru s) (np_perv s)) = Ok h /\
    s' = {| np_tu := np_tu s; np_tv := np_tv s; np_degu := np_degu s; np_degv := np_degv s; np_grid := np_grid s;
            np_weights := np_weights s; np_ku := np_ku s; np_kv := np_kv s; np_peru := np_peru s;
            np_perv := np_perv s; np_hom := h |}.
  Proof.
    unfold np_initialize. destruct (negb _); [discriminate|]. destruct (homogenize _ _) as [hp| | |]; cbn [bind]; try discriminate.
    destruct (checked_degree (np_degu s)) as [du| | |] eqn:Eu; cbn [bind]; try discriminate. destruct (checked_degree (np_degv s)) as [dv| | |] eqn:Ev; cbn [bind]; try discriminate.
    apply checked_inv in Eu. apply checked_inv in Ev. destruct Eu as (_ & ->), Ev as (_ & ->).
    destruct (sp_initialize _) as [h| | |] eqn:Eh; cbn [bind]; try discriminate. intros H. apply Ok_inj in H. subst. exists hp, h. repeat split. exact Eh.
  Qed.
  Lemma sp_init_same {P} {V : PointOps T P} (s s0 : spatch T P) : sp_fields s s0 -> sp_initialize s0 = sp_initialize s.
  Proof.
    intros (E1 & E2 & E3 & E4 & E5 & E6 & E7 & E8 & E9). pose proof (sp_isou_ext s s0) as I. destruct I as (I1 & I2); [repeat split; assumption|].
    unfold sp_initialize. rewrite I1, I2, E1, E2, E3, E4, E5, E6, E7, E8, E9. reflexivity.
  Qed.

  Lemma loaded_plain (r : msh_patch T) s : load_patch r = Ok s -> plain_patch s.
  Proof.
    unfold load_patch. destruct (_ =? _); [|destruct (_ =? _); [|destruct (_ =? _); [|destruct (_ =? _); [|discriminate]]]].
    - unfold load_Bezier_patch. repeat (match goal with |- context [bind (assert_ ?b)] => destruct b; cbn [assert_ bind]; try discriminate end).
      destruct (extract_control_points _ _ _); cbn [bind]; try discriminate. destruct (bp_initialize _) as [h| | |] eqn:E; cbn [bind]; try discriminate.
      intros H. apply Ok_inj in H. subst. apply bp_init_inv in E. destruct E as (_ & _ & _ & ->). repeat split.
    - unfold load_BSpline_patch. repeat (match goal with |- context [bind (assert_ ?b)] => destruct b; cbn [assert_ bind]; try discriminate end).
      destruct (extract_control_points _ _ _); cbn [bind]; try discriminate. do 2 (destruct (extract_knots _ _ _); cbn [bind]; try discriminate). destruct (sp_initialize _) as [h| | |] eqn:E; cbn [bind]; try discriminate.
      intros H. apply Ok_inj in H. subst. apply sp_init_inv in E. destruct E as (_ & _ & _ & F). destruct F as (F1 & F2 & F3 & F4 & F5 & F6 & F7 & F8 & F9). cbn in *. repeat split; assumption.
    - unfold load_rational_Bezier_patch. repeat (match goal with |- context [bind (assert_ ?b)] => destruct b; cbn [assert_ bind]; try discriminate end).
      destruct (extract_control_points _ _ _); cbn [bind]; try discriminate. destruct (extract_weights _ _); cbn [bind]; try discriminate. destruct (rp_initialize _) as [h| | |] eqn:E; cbn [bind]; try discriminate.
      intros H. apply Ok_inj in H. subst. apply rp_init_form in E. destruct E as (hp & _ & ->). repeat split.
    - unfold load_NURBS_patch. repeat (match goal with |- context [bind (assert_ ?b)] => destruct b; cbn [assert_ bind]; try discriminate end).
      destruct (extract_control_points _ _ _); cbn [bind]; try discriminate. destruct (extract_weights _ _); cbn [bind]; try discriminate. do 2 (destruct (extract_knots _ _ _); cbn [bind]; try discriminate). destruct (np_initialize _) as [h| | |] eqn:E; cbn [bind]; try discriminate.
      intros H. apply Ok_inj in H. subst. apply np_init_form in E. destruct E as (hp & h0 & _ & E & ->). apply sp_init_inv in E. destruct E as (_ & _ & _ & F). destruct F as (F1 & F2 & _). cbn in *. repeat split; assumption.
  Qed.

  Lemma patch_identity (s s' : patch T 3) : saved_patch s -> plain_patch s -> plain_patch s' -> carries_patch s s' -> s' = s.
  Proof.
    destruct s as [s|s|s|s|du dv], s' as [s'|s'|s'|s'|du' dv']; cbn [saved_patch plain_patch carries_patch]; intros S P P' C; try contradiction; rewrite in_space_map in C.
    - destruct s, s'; cbn in *. destruct C as (-> & -> & -> & -> & -> & _), P as (-> & -> & -> & ->), P' as (_ & _ & -> & ->). reflexivity.
    - destruct S as (S & _). destruct C as (E1 & E2 & E3 & E4 & E5 & E6 & E7), P as (P1 & P2 & P3 & P4 & P5 & P6), P' as (_ & _ & P3' & P4' & P5' & P6').
      apply rp_init_form in S. apply rp_init_form in E7. destruct S as (hp & Eh & S), E7 as (hp' & Eh' & E7). assert (hp' = hp) by (apply Ok_inj; rewrite <- Eh, <- Eh', E1, E2; reflexivity). subst hp'. f_equal. rewrite S, E7.
      unfold rp_set_hom, bp_set_periodic, bp_set_degrees, bp_set_grid. cbn [bp_tu bp_tv bp_degu bp_degv bp_grid bp_peru bp_perv]. f_equal; congruence.
    - destruct S as (S & _). destruct C as (E1 & E2 & E3 & E4 & E5 & E6 & E7 & E8), P as (P1 & P2 & P3 & P4), P' as (_ & _ & P3' & P4'). f_equal. apply Ok_inj. rewrite <- S, <- E8. apply sp_init_same.
      unfold sp_fields. repeat split; congruence.
    - destruct S as (S & _). destruct C as (E1 & E2 & E3 & E4 & E5 & E6 & E7 & E8 & E9), P as (P1 & P2 & P3 & P4 & P5 & P6), P' as (_ & _ & P3' & P4' & P5' & P6').
      apply np_init_form in S. apply np_init_form in E9. destruct S as (hp & h & Eh & Ih & S), E9 as (hp' & h' & Eh' & Ih' & E9). assert (hp' = hp) by (apply Ok_inj; rewrite <- Eh, <- Eh', E1, E2; reflexivity). subst hp'.
      assert (h' = h). { apply Ok_inj. rewrite <- Ih, <- Ih'. apply sp_init_same. unfold sp_fields, sp_with. cbn [sp_tu sp_tv sp_degu sp_degv sp_grid sp_ku sp_kv sp_peru sp_perv]. repeat split; congruence. }
      subst h'. f_equal. rewrite S, E9, E1, E2, E3, E4, E5, E6, E7, E8, P1, P2, P3, P4, P3', P4'. reflexivity.
  Qed.

  Lemma msh_identity (cs : list (curve T 3 * curve_ops T (vec T 3))) ps b (spec : msh_spec T) :
    Forall saved_curve (map fst cs) -> Forall plain_curve (map fst cs) -> Forall saved_patch (map fst ps) -> Forall plain_patch (map fst ps) ->
    save_msh cs ps b = Ok spec -> load_msh spec = Ok (map fst cs, map fst ps).
  Proof.
    intros Hc Pc Hp Pp E. destruct (msh_round_trip (or_intror eq_refl) cs ps b spec Hc Hp E) as (cs' & ps' & L & C1 & C2). rewrite L. f_equal. f_equal.
    - clear - Hc Pc C1. revert cs' C1 Hc Pc. induction (map fst cs) as [|c l IH]; intros cs' C Hc Pc; inversion C; subst; [reflexivity|]. inversion Hc; inversion Pc; subst.
      f_equal; [now apply curve_identity|now apply IH].
    - unfold load_msh in L. destruct (mapM load_curve _); cbn [bind] in L; try discriminate. destruct (mapM load_patch _) as [q| | |] eqn:Eq; cbn [bind] in L; try discriminate.
      assert (q = ps') by (apply Ok_inj in L; congruence). subst q. apply mapM_map in Eq.
      assert (Q : Forall plain_patch ps'). { clear - Eq. induction Eq; constructor; [eapply loaded_plain; eassumption|assumption]. }
      clear - Hp Pp C2 Q. revert ps' C2 Q Hp Pp. induction (map fst ps) as [|c l IH]; intros ps' C Q Hp Pp; inversion C; subst; [reflexivity|]. inversion Hp; inversion Pp; inversion Q; subst.
      f_equal; [now apply patch_identity|now apply IH].
  Qed.
End Identity.
