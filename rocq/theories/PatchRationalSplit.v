(** Splits and subpatches of rational patches. *)
From Coq Require Import Reals Lra Lia ZArith List Bool.
From Verif Require Import Monad MonadFacts LoopFacts Scalar ScalarFacts Spec SpecFacts Polar SpecPatch SpecPatch2 SpecPatchRational
  ModelCurve CurveFacts ModelBezier ModelBSpline ModelRational RationalFacts RationalThms RationalThms3 ModelPatchBase ModelPatch ModelPatchRational
  TensorFacts PatchFacts BezierPatchThms BezierPatchSplit BSplinePatchThms BSplinePatchThms2 BSplinePatchSplit BSplinePatchSplit2
  PatchRationalThms PatchRationalThms2 PatchHull.
Import ListNotations.
Local Open Scope R_scope.

Lemma piece_comp {d} (s l a : bpatch (vec R d)) n m fu fv gu gv : is_piece s l n m fu fv -> is_piece l a n m gu gv ->
  is_piece s a n m (fun x => fu (gu x)) (fun y => fv (gv y)).
Proof.
  intros (A1 & A2 & A3 & A4 & A5 & A6 & A7 & A8 & A9) (B1 & B2 & B3 & B4 & B5 & B6 & B7 & B8 & B9).
  split; [congruence|]. split; [congruence|]. split; [congruence|]. split; [congruence|]. split; [exact B5|].
  split; [exact B6|]. split; [exact B7|]. split; [eapply conv_trans; eauto|]. intros x y. rewrite B9, A9. reflexivity.
Qed.
Lemma piece_refl {d} (s : bpatch (vec R d)) n m : bstat s n m -> bp_peru s = false -> bp_perv s = false ->
  is_piece s s n m (fun x => x) (fun y => y).
Proof. intros [H1 H2 H3 H4 H5] P1 P2. repeat split; try assumption; try congruence; try apply conv_refl. Qed.
Lemma piece_ext {d} (s a : bpatch (vec R d)) n m fu fv gu gv : is_piece s a n m fu fv ->
  (forall x, fu x = gu x) -> (forall x, fv x = gv x) -> is_piece s a n m gu gv.
Proof.
  intros (A1 & A2 & A3 & A4 & A5 & A6 & A7 & A8 & A9) Hu Hv. repeat (split; [assumption|]). intros x y. rewrite A9, Hu, Hv. reflexivity.
Qed.

Section RB.
  Context {d : nat}.
  Implicit Types s : rbpatch R d.

  Lemma pos_nonzero (ws : list R) : Forall (fun w => 0 < w) ws -> Forall (fun w => w <> 0) ws.
  Proof. apply Forall_impl. intros; lra. Qed.

  Lemma rst_stat s : rp_static s -> bstat (rp_hom s) (Z.to_nat (rp_degu s)) (Z.to_nat (rp_degv s)) /\ Forall posw (bp_grid (rp_hom s)).
  Proof.
    intros [Hi H1 H2 H3 H4 Hw]. pose proof (rp_hom_eq s Hi) as E. pose proof (rp_init_inv _ _ Hi) as (HL & Hu & Hv & Hg & _).
    split.
    - split; rewrite ?H1, ?H2; rewrite E; cbn [bp_degu bp_degv bp_grid]; try lia. unfold zlen. rewrite hrows_length by exact HL.
      unfold zlen in Hg. lia.
    - rewrite E. cbn [bp_grid]. apply posw_rows; assumption.
  Qed.

  Lemma flat_hom s s' : rp_static s -> rp_flat s s' -> rp_hom s' = flat (rp_hom s) /\ rp_validate s' = Ok tt.
  Proof.
    intros [Hi H1 H2 H3 H4 Hw] Hf. pose proof (rp_hom_eq s Hi) as E. pose proof (rp_init_inv _ _ Hi) as (HL & Hu & Hv & Hg & _).
    unfold rp_flat in Hf. rewrite rp_init_ok in Hf by (cbn [rp_set_periodic rp_grid rp_weights rp_degu rp_degv]; assumption).
    injection Hf as <-. split.
    - cbn [rp_set_hom rp_hom rp_set_periodic rp_tu rp_tv rp_degu rp_degv rp_grid rp_weights rp_peru rp_perv].
      rewrite E. unfold flat, bp_set_periodic. cbn [bp_tu bp_tv bp_degu bp_degv bp_grid]. reflexivity.
    - apply rp_init_validate. rewrite rp_init_ok; cbn; auto.
  Qed.

  Lemma rp_eval_hom s x y : rp_validate s = Ok tt -> rp_evaluate s x y = (do p <- bp_evaluate (rp_hom s) x y; h_point p).
  Proof. intros H. unfold rp_evaluate. rewrite H. reflexivity. Qed.

  (** The part made from a piece of the homogeneous patch. *)
  Lemma rp_part s s' h fu fv : rp_static s -> rp_flat s s' -> is_piece (rp_hom s) h (Z.to_nat (rp_degu s)) (Z.to_nat (rp_degv s)) fu fv ->
    exists a, rp_of_part s h = Ok a /\ rp_static a /\ forall x y, rp_evaluate a x y = rp_evaluate s' (fu x) (fv y).
  Proof.
    intros Hs Hf Hp. destruct (rst_stat s Hs) as [St Pos]. destruct (flat_hom s s' Hs Hf) as [Eh Vh].
    destruct (piece_stat _ _ _ _ _ _ St Hp) as (Sh & Fh & Vl).
    pose proof Hs as [Hi H1 H2 H3 H4 Hw]. pose proof (rp_init_inv _ _ Hi) as (HL & Hu & Hv & Hg & _).
    pose proof Hp as (A1 & A2 & A3 & A4 & A5 & A6 & A7 & A8 & A9). specialize (A8 posw posw_convex Pos).
    assert (HF : Forall (fun q => vlast d q <> 0) (bp_grid h)) by (eapply Forall_impl; [|exact A8]; unfold posw; intros; lra).
    destruct (dehom_total _ HF) as (g & Eg). pose proof (dehom_rows _ _ Eg) as (Lg & Rg & _).
    unfold rp_of_part, rp_set_homogeneous. rewrite Eg. cbn [bind].
    match goal with |- context [rp_validate ?x] => set (a := x) end.
    assert (Ia : rp_initialize a = Ok a).
    { rewrite rp_init_ok; cbn [a rp_set_hom rp_set_periodic rp_set_weights rp_set_grid rp_new rp_grid rp_weights rp_degu rp_degv].
      - f_equal. unfold a, rp_set_hom. cbn [rp_set_hom rp_set_periodic rp_set_weights rp_set_grid rp_new rp_tu rp_tv rp_degu rp_degv rp_grid rp_weights rp_peru rp_perv rp_hom].
        f_equal. rewrite Rg. destruct h. cbn in *. f_equal; congruence.
      - rewrite map_length. exact Lg.
      - lia.
      - lia.
      - unfold zlen in *. rewrite Lg. lia. }
    rewrite (rp_init_validate a Ia). cbn [bind]. exists a. split; [reflexivity|]. split.
    - split; [exact Ia|change (bp_tu h = rp_tu s); congruence|change (bp_tv h = rp_tv s); congruence|reflexivity|reflexivity|].
      cbn [a rp_set_hom rp_set_periodic rp_set_weights rp_set_grid rp_new rp_weights]. apply Forall_map. exact A8.
    - intros x y. rewrite (rp_eval_hom a x y (rp_init_validate a Ia)), (rp_eval_hom s' _ _ Vh), Eh.
      change (rp_hom a) with h. rewrite Vl. reflexivity.
  Qed.
  Lemma rp_part_self s : rp_static s -> rp_of_part s (rp_hom s) = Ok s.
  Proof.
    intros [Hi H1 H2 H3 H4 Hw]. pose proof (rp_hom_eq s Hi) as E. pose proof (rp_init_inv _ _ Hi) as (HL & _).
    pose proof (rp_init_validate s Hi) as Hval.
    unfold rp_of_part, rp_set_homogeneous. assert (Eg : bp_grid (rp_hom s) = hrows (rp_grid s) (rp_weights s)) by (rewrite E; reflexivity).
    rewrite Eg, dehom_hrows by (try exact HL; now apply pos_nonzero). rewrite bind_Ok, vlast_hrows by exact HL.
    assert (Ep : bp_peru (rp_hom s) = rp_peru s) by (rewrite E; reflexivity). assert (Eq : bp_perv (rp_hom s) = rp_perv s) by (rewrite E; reflexivity).
    rewrite Ep, Eq.
    match goal with |- context [rp_validate ?x] => assert (Ex : x = s) end.
    { unfold rp_set_hom, rp_set_periodic, rp_set_weights, rp_set_grid, rp_new.
      cbn [rp_tu rp_tv rp_degu rp_degv rp_grid rp_weights rp_peru rp_perv rp_hom]. rewrite H3, H4 at 2. rewrite H3, H4.
      destruct s; cbn in *; congruence. }
    cbv zeta. rewrite Ex, Hval. reflexivity.
  Qed.

  Section Split.
    Variables s s' : rbpatch R d.
    Hypotheses (Hs : rp_static s) (Hf : rp_flat s s').

    Lemma hom_deg : bp_degu (rp_hom s) = rp_degu s /\ bp_degv (rp_hom s) = rp_degv s.
    Proof. rewrite (rp_hom_eq s (rst_init _ Hs)). split; reflexivity. Qed.
    Lemma hom_u u : 0 < u < 1 -> exists a b, bp_split_u (rp_hom s) u = Ok [a; b] /\
      is_piece (rp_hom s) a (Z.to_nat (rp_degu s)) (Z.to_nat (rp_degv s)) (fun x => u * x) (fun y => y) /\
      is_piece (rp_hom s) b (Z.to_nat (rp_degu s)) (Z.to_nat (rp_degv s)) (fun x => u + (1 - u) * x) (fun y => y).
    Proof.
      intros Hu. destruct (rst_stat s Hs) as [[A1 A2 A3 A4 A5] _]. apply bp_split_u_gen; auto. right. congruence.
    Qed.
    Lemma hom_v v : 0 < v < 1 -> exists a b, bp_split_v (rp_hom s) v = Ok [a; b] /\
      is_piece (rp_hom s) a (Z.to_nat (rp_degu s)) (Z.to_nat (rp_degv s)) (fun x => x) (fun y => v * y) /\
      is_piece (rp_hom s) b (Z.to_nat (rp_degu s)) (Z.to_nat (rp_degv s)) (fun x => x) (fun y => v + (1 - v) * y).
    Proof.
      intros Hu. destruct (rst_stat s Hs) as [[A1 A2 A3 A4 A5] _]. apply bp_split_v_gen; auto. right. congruence.
    Qed.

    Lemma rpatch_split_u u : 0 < u < 1 -> exists a b, rp_split_u s u = Ok [a; b] /\ rp_static a /\ rp_static b /\
      forall x y, rp_evaluate a x y = rp_evaluate s' (u * x) y /\ rp_evaluate b x y = rp_evaluate s' (u + (1 - u) * x) y.
    Proof.
      intros Hu. destruct (hom_u u Hu) as (ha & hb & E & Ha & Hb).
      destruct (rp_part s s' ha _ _ Hs Hf Ha) as (a & Ea & Sa & Va). destruct (rp_part s s' hb _ _ Hs Hf Hb) as (b & Eb & Sb & Vb).
      exists a, b. split; [unfold rp_split_u; rewrite E; cbn [bind mapM]; rewrite Ea, Eb; reflexivity|].
      split; [exact Sa|]. split; [exact Sb|]. intros x y. split; [apply Va|apply Vb].
    Qed.
    Lemma rpatch_split_v v : 0 < v < 1 -> exists a b, rp_split_v s v = Ok [a; b] /\ rp_static a /\ rp_static b /\
      forall x y, rp_evaluate a x y = rp_evaluate s' x (v * y) /\ rp_evaluate b x y = rp_evaluate s' x (v + (1 - v) * y).
    Proof.
      intros Hu. destruct (hom_v v Hu) as (ha & hb & E & Ha & Hb).
      destruct (rp_part s s' ha _ _ Hs Hf Ha) as (a & Ea & Sa & Va). destruct (rp_part s s' hb _ _ Hs Hf Hb) as (b & Eb & Sb & Vb).
      exists a, b. split; [unfold rp_split_v; rewrite E; cbn [bind mapM]; rewrite Ea, Eb; reflexivity|].
      split; [exact Sa|]. split; [exact Sb|]. intros x y. split; [apply Va|apply Vb].
    Qed.
    Lemma rpatch_split u v : 0 < u < 1 -> 0 < v < 1 -> exists a b c e, rp_split s u v = Ok [a; b; c; e] /\
      rp_static a /\ rp_static b /\ rp_static c /\ rp_static e /\
      forall x y, rp_evaluate a x y = rp_evaluate s' (u * x) (v * y) /\
        rp_evaluate b x y = rp_evaluate s' (u * x) (v + (1 - v) * y) /\
        rp_evaluate c x y = rp_evaluate s' (u + (1 - u) * x) (v * y) /\
        rp_evaluate e x y = rp_evaluate s' (u + (1 - u) * x) (v + (1 - v) * y).
    Proof.
      intros Hu Hv. destruct (rst_stat s Hs) as [St _].
      destruct (hom_u u Hu) as (hl & hg & E & Hl & Hg).
      destruct (piece_stat _ _ _ _ _ _ St Hl) as ([L1 L2 L3 L4 L5] & Fl & _). destruct (piece_stat _ _ _ _ _ _ St Hg) as ([G1 G2 G3 G4 G5] & Fg & _).
      destruct (bp_split_v_gen hl _ _ v L1 L2 L3) as (ha & hb & E1 & Ha & Hb); [right; congruence|exact Hv|].
      destruct (bp_split_v_gen hg _ _ v G1 G2 G3) as (hc & he & E2 & Hc & He); [right; congruence|exact Hv|].
      destruct (rp_part s s' ha _ _ Hs Hf (piece_comp _ _ _ _ _ _ _ _ _ Hl Ha)) as (a & Ea & Sa & Va).
      destruct (rp_part s s' hb _ _ Hs Hf (piece_comp _ _ _ _ _ _ _ _ _ Hl Hb)) as (b & Eb & Sb & Vb).
      destruct (rp_part s s' hc _ _ Hs Hf (piece_comp _ _ _ _ _ _ _ _ _ Hg Hc)) as (c & Ec & Sc & Vc).
      destruct (rp_part s s' he _ _ Hs Hf (piece_comp _ _ _ _ _ _ _ _ _ Hg He)) as (e & Ee & Se & Ve).
      exists a, b, c, e. split.
      { unfold rp_split, bp_split. rewrite !is_endpoint_false by assumption. cbn [andb]. rewrite E.
        rewrite bind_Ok. change (get [hl; hg] 0) with (Ok hl). change (get [hl; hg] 1) with (Ok hg). rewrite !bind_Ok.
        rewrite E1, !bind_Ok, E2, !bind_Ok. change (get [ha; hb] 0) with (Ok ha). change (get [ha; hb] 1) with (Ok hb).
        change (get [hc; he] 0) with (Ok hc). change (get [hc; he] 1) with (Ok he). rewrite !bind_Ok.
        cbn [mapM]. rewrite Ea, Eb, Ec, Ee. reflexivity. }
      do 4 (split; [assumption|]). intros x y. rewrite Va, Vb, Vc, Ve. repeat split.
    Qed.
    Lemma rpatch_split_border u v :
      (u = 0 \/ u = 1 -> rp_split_u s u = Ok [s] /\ (v = 0 \/ v = 1 -> rp_split s u v = Ok [s]) /\ (0 < v < 1 -> rp_split s u v = rp_split_v s v)) /\
      (v = 0 \/ v = 1 -> rp_split_v s v = Ok [s] /\ (0 < u < 1 -> rp_split s u v = rp_split_u s u)).
    Proof.
      destruct (bpatch_split_border _ (rp_hom s) u v) as (B1 & B2 & _ & _).
      unfold rp_split_u, rp_split_v, rp_split. split.
      - intros Hu. destruct (B1 Hu) as (C1 & C2 & C3). split; [|split].
        + rewrite C1. cbn [bind mapM]. rewrite (rp_part_self s Hs). reflexivity.
        + intros Hv. rewrite (C2 Hv). cbn [bind mapM]. rewrite (rp_part_self s Hs). reflexivity.
        + intros Hv. rewrite (C3 Hv). reflexivity.
      - intros Hv. destruct (B2 Hv) as (C1 & C2). split.
        + rewrite C1. cbn [bind mapM]. rewrite (rp_part_self s Hs). reflexivity.
        + intros Hu. rewrite (C2 Hu). reflexivity.
    Qed.
  End Split.

  (** subpatch of a non-periodic patch; the scaling error of BezierPatch::subpatch (C34) is inherited. *)
  Lemma sub_u (h : bpatch (vec R (S d))) n m u_min u_max : bstat h n m -> bp_peru h = false -> bp_perv h = false ->
    0 <= u_min < u_max -> u_max <= 1 ->
    exists b, (do a <- (if is_endpoint_1 s0 s1 u_min then Ok h else do l <- bp_split_u h u_min; get l 1);
             (if is_endpoint_1 s0 s1 u_max then Ok a else do l <- bp_split_u a u_max; get l 0)) = Ok b /\
      is_piece h b n m (fun x => u_min + (1 - u_min) * u_max * x) (fun y => y).
  Proof.
    intros H P1 P2 H0 H1.
    assert (exists a, (if is_endpoint_1 s0 s1 u_min then Ok h else do l <- bp_split_u h u_min; get l 1) = Ok a /\
      is_piece h a n m (fun x => u_min + (1 - u_min) * x) (fun y => y)) as (a & Ea & Pa).
    { destruct (Req_dec u_min 0) as [->|Hne].
      - rewrite is_endpoint_true by auto. exists h. split; [reflexivity|]. eapply piece_ext; [apply piece_refl; assumption| |]; intros; cbn; ring.
      - rewrite is_endpoint_false by lra. destruct H as [A1 A2 A3 A4 A5].
        destruct (bp_split_u_gen h n m u_min A1 A2 A3) as (l & g & E & _ & Hg); [right; congruence|lra|].
        rewrite E, bind_Ok. exists g. split; [reflexivity|exact Hg]. }
    destruct (piece_stat _ _ _ _ _ _ H Pa) as ([A1 A2 A3 A4 A5] & _ & _).
    rewrite Ea, bind_Ok. destruct (Req_dec u_max 1) as [->|Hne].
    - rewrite is_endpoint_true by auto. exists a. split; [reflexivity|]. eapply piece_ext; [exact Pa| |]; intros; cbn; ring.
    - rewrite is_endpoint_false by lra. destruct (bp_split_u_gen a n m u_max A1 A2 A3) as (l & g & E & Hl & _); [right; congruence|lra|].
      rewrite E, bind_Ok. exists l. split; [reflexivity|]. eapply piece_ext; [exact (piece_comp _ _ _ _ _ _ _ _ _ Pa Hl)| |]; intros; cbn; ring.
  Qed.
  Lemma sub_v (h : bpatch (vec R (S d))) n m v_min v_max : bstat h n m -> bp_peru h = false -> bp_perv h = false ->
    0 <= v_min < v_max -> v_max <= 1 ->
    exists b, (do a <- (if is_endpoint_1 s0 s1 v_min then Ok h else do l <- bp_split_v h v_min; get l 1);
             (if is_endpoint_1 s0 s1 v_max then Ok a else do l <- bp_split_v a v_max; get l 0)) = Ok b /\
      is_piece h b n m (fun x => x) (fun y => v_min + (1 - v_min) * v_max * y).
  Proof.
    intros H P1 P2 H0 H1.
    assert (exists a, (if is_endpoint_1 s0 s1 v_min then Ok h else do l <- bp_split_v h v_min; get l 1) = Ok a /\
      is_piece h a n m (fun x => x) (fun y => v_min + (1 - v_min) * y)) as (a & Ea & Pa).
    { destruct (Req_dec v_min 0) as [->|Hne].
      - rewrite is_endpoint_true by auto. exists h. split; [reflexivity|]. eapply piece_ext; [apply piece_refl; assumption| |]; intros; cbn; ring.
      - rewrite is_endpoint_false by lra. destruct H as [A1 A2 A3 A4 A5].
        destruct (bp_split_v_gen h n m v_min A1 A2 A3) as (l & g & E & _ & Hg); [right; congruence|lra|].
        rewrite E, bind_Ok. exists g. split; [reflexivity|exact Hg]. }
    destruct (piece_stat _ _ _ _ _ _ H Pa) as ([A1 A2 A3 A4 A5] & _ & _).
    rewrite Ea, bind_Ok. destruct (Req_dec v_max 1) as [->|Hne].
    - rewrite is_endpoint_true by auto. exists a. split; [reflexivity|]. eapply piece_ext; [exact Pa| |]; intros; cbn; ring.
    - rewrite is_endpoint_false by lra. destruct (bp_split_v_gen a n m v_max A1 A2 A3) as (l & g & E & Hl & _); [right; congruence|lra|].
      rewrite E, bind_Ok. exists l. split; [reflexivity|]. eapply piece_ext; [exact (piece_comp _ _ _ _ _ _ _ _ _ Pa Hl)| |]; intros; cbn; ring.
  Qed.

  Lemma rpatch_subpatch_actual s u0 u1 v0 v1 : rp_static s -> rp_peru s = false -> rp_perv s = false ->
    0 <= u0 < u1 -> u1 <= 1 -> 0 <= v0 < v1 -> v1 <= 1 ->
    exists a, rp_subpatch s u0 u1 v0 v1 = Ok a /\ rp_static a /\
      forall x y, rp_evaluate a x y = rp_evaluate s (u0 + (1 - u0) * u1 * x) (v0 + (1 - v0) * v1 * y).
  Proof.
    intros Hs P1 P2 Hu Hu1 Hv Hv1. destruct (rst_stat s Hs) as [St _].
    pose proof (rp_hom_eq s (rst_init _ Hs)) as Eh.
    assert (Q1 : bp_peru (rp_hom s) = false) by (rewrite Eh; exact P1). assert (Q2 : bp_perv (rp_hom s) = false) by (rewrite Eh; exact P2).
    destruct (sub_u (rp_hom s) _ _ u0 u1 St Q1 Q2 Hu Hu1) as (b & E & Pb).
    destruct (piece_stat _ _ _ _ _ _ St Pb) as (Sb & Fb & _).
    destruct (sub_v b _ _ v0 v1 Sb) as (c & E' & Pc); try assumption; [apply Pb|apply Pb|].
    assert (Hf : rp_flat s s).
    { unfold rp_flat. replace (rp_set_periodic s false false) with s; [apply Hs|]. destruct s; cbn in *; subst; reflexivity. }
    destruct (rp_part s s c _ _ Hs Hf (piece_comp _ _ _ _ _ _ _ _ _ Pb Pc)) as (a & Ea & Sa & Va).
    exists a. split; [|split; [exact Sa|intros x y; apply Va]].
    unfold rp_subpatch, bp_subpatch. cbn [slt R_ops]. rewrite !Rltb_false by lra. rewrite !in_domain_01 by lra. cbn [negb orb].
    destruct (if is_endpoint_1 s0 s1 u0 then Ok (rp_hom s) else do l <- bp_split_u (rp_hom s) u0; get l 1) as [z| | |] eqn:Ez; cbn [bind] in E |- *; try discriminate.
    rewrite E. cbn [bind]. rewrite E'. cbn [bind]. exact Ea.
  Qed.

  (** A dynamic degree: set_homogeneous is called on a patch whose degrees are still -1. *)
  Lemma rp_part_dynamic s (h : bpatch (vec R (S d))) : rp_tu s = (-1)%Z \/ rp_tv s = (-1)%Z -> Forall posw (bp_grid h) -> rp_of_part s h = Undef.
  Proof.
    intros Ht Pos. assert (HF : Forall (fun q => vlast d q <> 0) (bp_grid h)) by (eapply Forall_impl; [|exact Pos]; unfold posw; intros; lra).
    destruct (dehom_total _ HF) as (g & Eg). pose proof (dehom_rows _ _ Eg) as (Lg & Rg & _).
    unfold rp_of_part, rp_set_homogeneous. rewrite Eg. cbn [bind]. unfold rp_validate.
    cbn [rp_set_hom rp_set_periodic rp_set_weights rp_set_grid rp_new rp_grid rp_weights rp_degu rp_degv rp_hom].
    unfold zlen. rewrite map_length, Lg, !Z.eqb_refl. cbn [negb orb].
    destruct Ht as [-> | ->]; [reflexivity|]. unfold checked_degree at 1. destruct (0 <=? rp_tu s)%Z; reflexivity.
  Qed.
  Lemma rpatch_split_dynamic s u : rp_initialize s = Ok s -> bp_tu (rp_hom s) = rp_tu s ->
    (rp_tu s = -1)%Z -> Forall (fun w => 0 < w) (rp_weights s) -> 0 <= u <= 1 -> rp_split_u s u = Undef.
  Proof.
    intros Hi H1 Ht Hw Hu. pose proof (rp_hom_eq s Hi) as E. pose proof (rp_init_inv _ _ Hi) as (HL & Du & Dv & Hg & _).
    assert (Pos : Forall posw (bp_grid (rp_hom s))) by (rewrite E; cbn [bp_grid]; apply posw_rows; assumption).
    unfold rp_split_u. destruct (bpatch_split_border _ (rp_hom s) u 0) as (B1 & _).
    assert (Hc : u = 0 \/ u = 1 \/ 0 < u < 1) by lra. destruct Hc as [Hc|[Hc|Hc]].
    - destruct B1 as [-> _]; [now left|]. cbn [bind mapM]. rewrite rp_part_dynamic by auto. reflexivity.
    - destruct B1 as [-> _]; [now right|]. cbn [bind mapM]. rewrite rp_part_dynamic by auto. reflexivity.
    - destruct (bp_split_u_gen (rp_hom s) (Z.to_nat (rp_degu s)) (Z.to_nat (rp_degv s)) u) as (a & b & Es & Ha & Hb).
      + rewrite E. cbn [bp_degu]. lia.
      + rewrite E. cbn [bp_degv]. lia.
      + rewrite E. cbn [bp_grid]. unfold zlen in *. rewrite hrows_length by exact HL. lia.
      + lia.
      + exact Hc.
      + rewrite Es. cbn [bind mapM]. rewrite rp_part_dynamic; [reflexivity|auto|].
        destruct Ha as (_ & _ & _ & _ & _ & _ & _ & A8 & _). exact (A8 posw posw_convex Pos).
  Qed.
End RB.

Section NB.
  Context {d : nat}.
  Implicit Types s : nupatch R d.
  Lemma np_ready_hom s : np_ready s -> ready (np_hom s) /\ Forall posw (sp_grid (np_hom s)).
  Proof.
    intros [Hi Vu Vv Hu Hv Ht Hw]. apply np_init_sync in Hi. pose proof Hi as [H1 H2 H3 H4 H5 H6 H7 H8 H9 H10 H11 H12].
    split; [|rewrite H6; now apply posw_rows]. split; [exact H12|rewrite H4, H7; exact Vu|rewrite H5, H8; exact Vv|].
    rewrite H4, H5, Hu, Hv. exact Ht.
  Qed.
  Lemma np_ready_valid s : np_ready s -> np_valid s.
  Proof. intros [Hi [Vu Au _] [Vv Av _] _ _ _ _]. split; assumption. Qed.

  Lemma part_dir_param per p knots lo hi x : regular_dir p knots -> dir_lo p knots <= lo -> hi <= dir_hi p knots ->
    part_param per p knots lo hi x -> dir_param per p knots x.
  Proof.
    intros [V A S] H1 H2 [H3 H4]. split; [|left; exact S]. right. destruct H4 as [H4|[-> _]]; lra.
  Qed.

  Lemma np_part s h u0 u1 v0 v1 : np_ready s ->
    dir_lo (Z.to_nat (np_degu s)) (np_ku s) <= u0 -> u1 <= dir_hi (Z.to_nat (np_degu s)) (np_ku s) ->
    dir_lo (Z.to_nat (np_degv s)) (np_kv s) <= v0 -> v1 <= dir_hi (Z.to_nat (np_degv s)) (np_kv s) ->
    part_of (np_hom s) h u0 u1 v0 v1 ->
    exists a, np_set_homogeneous (np_tu s) (np_tv s) h = Ok a /\ np_part_of s a u0 u1 v0 v1.
  Proof.
    intros Hs B1 B2 B3 B4 [[Ri Ru Rv Rt] Pdu Pdv P1 P2 P3 P4 [Pt1 Pt2] Ph Pv].
    destruct (np_ready_hom s Hs) as [_ Pos].
    pose proof Hs as [Hi Vu Vv Hu Hv Ht Hw]. apply np_init_sync in Hi. pose proof Hi as [H1 H2 H3 H4 H5 H6 H7 H8 H9 H10 H11 H12].
    specialize (Ph posw posw_convex Pos).
    assert (HF : Forall (fun q => vlast d q <> 0) (sp_grid h)) by (eapply Forall_impl; [|exact Ph]; unfold posw; intros; lra).
    destruct (dehom_total _ HF) as (g & Eg). pose proof (dehom_rows _ _ Eg) as (Lg & Rg & _).
    pose proof (sp_init_fields _ _ Ri) as (_ & _ & _ & _ & _ & _ & _ & _ & _ & D1 & D2 & Zl).
    unfold np_set_homogeneous. rewrite Eg. cbn [bind]. unfold checked_degree.
    destruct (Z.leb_spec 0 (sp_degu h)); [|lia]. destruct (Z.leb_spec 0 (sp_degv h)); [|lia]. cbn [assert_ bind].
    match goal with |- context [np_validate ?x] => set (a := x) end.
    assert (Sa : np_sync a).
    { split; cbn [a np_grid np_weights np_degu np_degv np_hom np_ku np_kv np_peru np_perv]; try reflexivity; try assumption.
      - rewrite map_length. exact Lg.
      - symmetry. exact Rg.
      - unfold zlen in *. rewrite Lg. exact Zl. }
    rewrite (np_sync_validate a Sa). cbn [bind]. exists a. split; [reflexivity|].
    assert (Ia : np_initialize a = Ok a) by now apply np_sync_init.
    assert (Wa : Forall (fun w => 0 < w) (np_weights a)) by (cbn [a np_weights]; apply Forall_map; exact Ph).
    split; cbn [a np_degu np_degv np_ku np_kv]; try assumption; try congruence.
    - split; try assumption; cbn [a np_degu np_degv np_ku np_kv np_tu np_tv np_hom]; try assumption; try congruence.
    - intros x y Hx Hy. pose proof (part_dir_param _ _ _ _ _ _ Vu B1 B2 Hx) as Dx. pose proof (part_dir_param _ _ _ _ _ _ Vv B3 B4 Hy) as Dy.
      destruct (nupatch_convex d s x y (np_ready_valid s Hs) Hw Dx Dy) as (w & Ew & _). exists w. split; [exact Ew|].
      rewrite <- H4, <- H7, <- H9 in Hx. rewrite <- H5, <- H8, <- H10 in Hy. destruct (Pv x y Hx Hy) as (z & Z1 & Z2).
      rewrite <- Ew. unfold np_evaluate. rewrite (np_sync_validate a Sa), (np_sync_validate s Hi). cbn [bind].
      change (np_hom a) with h. rewrite Z1, Z2. reflexivity.
  Qed.
  Lemma np_part_self s : np_ready s -> np_set_homogeneous (np_tu s) (np_tv s) (np_hom s) = Ok s.
  Proof.
    intros [Hi Vu Vv Hu Hv Ht Hw]. apply np_init_sync in Hi. pose proof (np_sync_validate s Hi) as Hval. pose proof Hi as [H1 H2 H3 H4 H5 H6 H7 H8 H9 H10 H11 H12].
    unfold np_set_homogeneous. rewrite H6, dehom_hrows by (try exact H1; now apply pos_nonzero). rewrite bind_Ok. unfold checked_degree.
    rewrite H4, H5. destruct (Z.leb_spec 0 (np_degu s)); [|lia]. destruct (Z.leb_spec 0 (np_degv s)); [|lia]. cbn [assert_ bind].
    rewrite vlast_hrows by exact H1. rewrite H7, H8, H9, H10. cbv zeta.
    match goal with |- context [np_validate ?x] => assert (Ex : x = s) by (destruct s; reflexivity) end.
    rewrite Ex, Hval. reflexivity.
  Qed.

  Section S.
    Variable s : nupatch R d.
    Hypothesis Hs : np_ready s.
    Let p := Z.to_nat (np_degu s).
    Let q := Z.to_nat (np_degv s).
    Let ulo := dir_lo p (np_ku s). Let uhi := dir_hi p (np_ku s).
    Let vlo := dir_lo q (np_kv s). Let vhi := dir_hi q (np_kv s).

    Lemma hom_dirs : Z.to_nat (sp_degu (np_hom s)) = p /\ Z.to_nat (sp_degv (np_hom s)) = q /\
      sp_ku (np_hom s) = np_ku s /\ sp_kv (np_hom s) = np_kv s.
    Proof.
      destruct Hs as [Hi _ _ _ _ _ _]. apply np_init_sync in Hi. destruct Hi as [H1 H2 H3 H4 H5 H6 H7 H8 H9 H10 H11 H12].
      rewrite H4, H5. auto.
    Qed.
    Lemma doms : ulo < uhi /\ vlo < vhi.
    Proof. split; [exact (vd_domain _ _ (rd_valid _ _ (nr_u _ Hs)))|exact (vd_domain _ _ (rd_valid _ _ (nr_v _ Hs)))]. Qed.

    Lemma nupatch_split_u u : (1 <= p)%nat -> ulo < u < uhi -> apart_from (np_ku s) u ->
      exists a b, np_split_u s u = Ok [a; b] /\ np_part_of s a ulo u vlo vhi /\ np_part_of s b u uhi vlo vhi.
    Proof.
      intros Hp Hu Ha. destruct hom_dirs as (E1 & E2 & E3 & E4). destruct doms. destruct (np_ready_hom s Hs) as [Hr _].
      pose proof (spatch_split_u (np_hom s) Hr u) as H2. rewrite E1, E2, E3, E4 in H2. destruct (H2 Hp Hu Ha) as (ha & hb & E & _ & _ & Pa & Pb).
      fold ulo uhi vlo vhi in Pa, Pb.
      destruct (np_part s ha ulo u vlo vhi Hs) as (a & Ea & Ka); [apply Rle_refl|fold p uhi; lra|apply Rle_refl|apply Rle_refl|exact Pa|].
      destruct (np_part s hb u uhi vlo vhi Hs) as (b & Eb & Kb); [fold p ulo; lra|apply Rle_refl|apply Rle_refl|apply Rle_refl|exact Pb|].
      exists a, b. split; [|split; assumption]. unfold np_split_u. rewrite E. cbn [bind mapM]. rewrite Ea, Eb. reflexivity.
    Qed.
    Lemma nupatch_split_v v : (1 <= q)%nat -> vlo < v < vhi -> apart_from (np_kv s) v ->
      exists a b, np_split_v s v = Ok [a; b] /\ np_part_of s a ulo uhi vlo v /\ np_part_of s b ulo uhi v vhi.
    Proof.
      intros Hp Hu Ha. destruct hom_dirs as (E1 & E2 & E3 & E4). destruct doms. destruct (np_ready_hom s Hs) as [Hr _].
      pose proof (spatch_split_v (np_hom s) Hr v) as H2. rewrite E1, E2, E3, E4 in H2. destruct (H2 Hp Hu Ha) as (ha & hb & E & _ & _ & Pa & Pb).
      fold ulo uhi vlo vhi in Pa, Pb.
      destruct (np_part s ha ulo uhi vlo v Hs) as (a & Ea & Ka); [apply Rle_refl|apply Rle_refl|apply Rle_refl|fold q vhi; lra|exact Pa|].
      destruct (np_part s hb ulo uhi v vhi Hs) as (b & Eb & Kb); [apply Rle_refl|apply Rle_refl|fold q vlo; lra|apply Rle_refl|exact Pb|].
      exists a, b. split; [|split; assumption]. unfold np_split_v. rewrite E. cbn [bind mapM]. rewrite Ea, Eb. reflexivity.
    Qed.
    Lemma nupatch_split u v : (1 <= p)%nat -> (1 <= q)%nat -> ulo < u < uhi -> apart_from (np_ku s) u ->
      vlo < v < vhi -> apart_from (np_kv s) v ->
      exists a b c e, np_split s u v = Ok [a; b; c; e] /\
        np_part_of s a ulo u vlo v /\ np_part_of s b ulo u v vhi /\ np_part_of s c u uhi vlo v /\ np_part_of s e u uhi v vhi.
    Proof.
      intros Hp Hq Hu Hau Hv Hav. destruct hom_dirs as (E1 & E2 & E3 & E4). destruct doms. destruct (np_ready_hom s Hs) as [Hr _].
      pose proof (spatch_split (np_hom s) Hr u v) as H2. rewrite E1, E2, E3, E4 in H2.
      destruct (H2 Hp Hq Hu Hau Hv Hav) as (ha & hb & hc & he & E & Pa & Pb & Pc & Pe).
      fold ulo uhi vlo vhi in Pa, Pb, Pc, Pe.
      destruct (np_part s ha ulo u vlo v Hs) as (a & Ea & Ka); [apply Rle_refl|fold p uhi; lra|apply Rle_refl|fold q vhi; lra|exact Pa|].
      destruct (np_part s hb ulo u v vhi Hs) as (b & Eb & Kb); [apply Rle_refl|fold p uhi; lra|fold q vlo; lra|apply Rle_refl|exact Pb|].
      destruct (np_part s hc u uhi vlo v Hs) as (c & Ec & Kc); [fold p ulo; lra|apply Rle_refl|apply Rle_refl|fold q vhi; lra|exact Pc|].
      destruct (np_part s he u uhi v vhi Hs) as (e & Ee & Ke); [fold p ulo; lra|apply Rle_refl|fold q vlo; lra|apply Rle_refl|exact Pe|].
      exists a, b, c, e. split; [|repeat split; (apply Ka || apply Kb || apply Kc || apply Ke)].
      unfold np_split. rewrite E. cbn [bind mapM]. rewrite Ea, Eb, Ec, Ee. reflexivity.
    Qed.
    Lemma nupatch_split_ends u v :
      ((u = ulo \/ u = uhi) -> np_split_u s u = Ok [s]) /\
      ((v = vlo \/ v = vhi) -> np_split_v s v = Ok [s]) /\
      ((u = ulo \/ u = uhi) -> (v = vlo \/ v = vhi) -> np_split s u v = Ok [s]) /\
      ((u = ulo \/ u = uhi) -> vlo < v < vhi -> np_split s u v = np_split_v s v) /\
      (ulo < u < uhi -> (v = vlo \/ v = vhi) -> np_split s u v = np_split_u s u).
    Proof.
      destruct hom_dirs as (E1 & E2 & E3 & E4). destruct (np_ready_hom s Hs) as [Hr _].
      pose proof (spatch_split_ends (np_hom s) Hr u v) as H2. rewrite E1, E2, E3, E4 in H2. fold ulo uhi vlo vhi in H2.
      destruct H2 as (S1 & S2 & S3 & S4 & S5). unfold np_split_u, np_split_v, np_split.
      split; [|split; [|split; [|split]]].
      - intros H. rewrite (S1 H). cbn [bind mapM]. rewrite (np_part_self s Hs). reflexivity.
      - intros H. rewrite (S2 H). cbn [bind mapM]. rewrite (np_part_self s Hs). reflexivity.
      - intros H H'. rewrite (S3 H H'). cbn [bind mapM]. rewrite (np_part_self s Hs). reflexivity.
      - intros H H'. rewrite (S4 H H'). reflexivity.
      - intros H H'. rewrite (S5 H H'). reflexivity.
    Qed.
    Lemma nupatch_subpatch u0 u1 v0 v1 : (1 <= p)%nat -> (1 <= q)%nat ->
      ulo <= u0 -> u0 + / IZR (10 ^ 16) < u1 -> u1 <= uhi -> apart_from (np_ku s) u0 -> apart_from (np_ku s) u1 ->
      vlo <= v0 -> v0 + / IZR (10 ^ 16) < v1 -> v1 <= vhi -> apart_from (np_kv s) v0 -> apart_from (np_kv s) v1 ->
      exists a, np_subpatch s u0 u1 v0 v1 = Ok a /\ np_part_of s a u0 u1 v0 v1.
    Proof.
      intros Hp Hq Hu0 Hu Hu1 Au0 Au1 Hv0 Hv Hv1 Av0 Av1. destruct hom_dirs as (E1 & E2 & E3 & E4). destruct (np_ready_hom s Hs) as [Hr _].
      pose proof (spatch_subpatch (np_hom s) Hr u0 u1 v0 v1) as H2. rewrite E1, E2, E3, E4 in H2.
      destruct (H2 Hp Hq Hu0 Hu Hu1 Au0 Au1 Hv0 Hv Hv1 Av0 Av1) as (ha & E & Pa).
      destruct (np_part s ha u0 u1 v0 v1 Hs Hu0 Hu1 Hv0 Hv1 Pa) as (a & Ea & Ka).
      exists a. split; [|exact Ka]. unfold np_subpatch. rewrite E. exact Ea.
    Qed.
  End S.
End NB.
