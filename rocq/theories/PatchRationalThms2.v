(** NURBS patches: evaluation, derivatives and setters; setters of rational Bezier patches. *)
From Coq Require Import Reals Lra Lia ZArith List Bool.
From Verif Require Import Monad MonadFacts LoopFacts Scalar ScalarFacts Spec SpecFacts Polar SpecPatch SpecPatch2 SpecPatchRational
  ModelCurve CurveFacts ModelBezier ModelBSpline ModelRational RationalFacts RationalThms ModelPatchBase ModelPatch ModelPatchRational
  TensorFacts PatchFacts BezierPatchThms BSplinePatchThms BSplinePatchThms2 PatchRationalThms.
Import ListNotations.
Local Open Scope R_scope.

Lemma sp_init_fields {d} (x y : spatch R (vec R d)) : sp_initialize x = Ok y ->
  sp_tu y = sp_tu x /\ sp_tv y = sp_tv x /\ sp_degu y = sp_degu x /\ sp_degv y = sp_degv x /\ sp_grid y = sp_grid x /\
  sp_ku y = sp_ku x /\ sp_kv y = sp_kv x /\ sp_peru y = sp_peru x /\ sp_perv y = sp_perv x /\ (0 <= sp_degu x)%Z /\ (0 <= sp_degv x)%Z /\
  zlen (sp_grid x) = ((zlen (sp_ku x) - sp_degu x - 1) * (zlen (sp_kv x) - sp_degv x - 1))%Z.
Proof.
  unfold sp_initialize, checked_degree.
  destruct (Z.leb_spec 0 (sp_degu x)) as [Hu|]; [|discriminate]. cbn [assert_ bind].
  destruct (Z.leb_spec 0 (sp_degv x)) as [Hv|]; [|discriminate]. cbn [assert_ bind].
  destruct (_ || _)%bool; [discriminate|].
  destruct (Z.eqb_spec (zlen (sp_grid x)) ((zlen (sp_ku x) - sp_degu x - 1) * (zlen (sp_kv x) - sp_degv x - 1))) as [Eg|]; [|discriminate].
  cbn [negb]. destruct (sp_iso_curves_u x) as [iu| | |]; try discriminate. cbn [bind].
  destruct (sp_iso_curves_v x) as [iv| | |]; try discriminate. cbn [bind]. intros E. injection E as <-.
  repeat split; auto.
Qed.

(** sp_initialize ignores the cached curves. *)
Lemma sp_init_with {d} (a b : spatch R (vec R (S d))) du dv g ku kv pu pv : sp_tu a = sp_tu b -> sp_tv a = sp_tv b ->
  sp_initialize (sp_with a du dv g ku kv pu pv) = sp_initialize (sp_with b du dv g ku kv pu pv).
Proof. intros H1 H2. unfold sp_with. rewrite H1, H2. reflexivity. Qed.
Lemma sp_with_self {d} (h : spatch R (vec R (S d))) :
  sp_with h (sp_degu h) (sp_degv h) (sp_grid h) (sp_ku h) (sp_kv h) (sp_peru h) (sp_perv h) = h.
Proof. now destruct h. Qed.

Section NB.
  Context {d : nat}.
  Record np_sync (s : nupatch R d) : Prop := {
    ns_len : length (np_grid s) = length (np_weights s);
    ns_du : (0 <= np_degu s)%Z;
    ns_dv : (0 <= np_degv s)%Z;
    ns_hdu : sp_degu (np_hom s) = np_degu s;
    ns_hdv : sp_degv (np_hom s) = np_degv s;
    ns_g : sp_grid (np_hom s) = hrows (np_grid s) (np_weights s);
    ns_ku : sp_ku (np_hom s) = np_ku s;
    ns_kv : sp_kv (np_hom s) = np_kv s;
    ns_pu : sp_peru (np_hom s) = np_peru s;
    ns_pv : sp_perv (np_hom s) = np_perv s;
    ns_zlen : zlen (np_grid s) = ((zlen (np_ku s) - np_degu s - 1) * (zlen (np_kv s) - np_degv s - 1))%Z;
    ns_h : sp_initialize (np_hom s) = Ok (np_hom s);
  }.
  Lemma np_init_inv (s s' : nupatch R d) : np_initialize s = Ok s' ->
    np_sync s' /\ np_tu s' = np_tu s /\ np_tv s' = np_tv s /\ np_degu s' = np_degu s /\ np_degv s' = np_degv s /\
    np_grid s' = np_grid s /\ np_weights s' = np_weights s /\ np_ku s' = np_ku s /\ np_kv s' = np_kv s /\
    np_peru s' = np_peru s /\ np_perv s' = np_perv s /\ sp_tu (np_hom s') = sp_tu (np_hom s) /\ sp_tv (np_hom s') = sp_tv (np_hom s).
  Proof.
    unfold np_initialize. destruct (negb _); [discriminate|].
    destruct (homogenize (np_grid s) (np_weights s)) as [l| | |] eqn:Eh; try discriminate.
    apply homogenize_inv in Eh. destruct Eh as [HL ->]. cbn [bind]. unfold checked_degree.
    destruct (Z.leb_spec 0 (np_degu s)) as [Hu|]; [|discriminate]. cbn [assert_ bind].
    destruct (Z.leb_spec 0 (np_degv s)) as [Hv|]; [|discriminate]. cbn [assert_ bind].
    destruct (sp_initialize _) as [h| | |] eqn:Ei; try discriminate. cbn [bind]. intros E. injection E as <-.
    pose proof (sp_init_fields _ _ Ei) as (A1 & A2 & A3 & A4 & A5 & A6 & A7 & A8 & A9 & _ & _ & A12).
    cbn [sp_with sp_tu sp_tv sp_degu sp_degv sp_grid sp_ku sp_kv sp_peru sp_perv] in *.
    split; [|cbn; repeat split; auto]. split; cbn; auto.
    - unfold zlen in *. rewrite hrows_length in A12 by exact HL. exact A12.
    - rewrite <- (sp_with_self h) at 1. rewrite A3, A4, A5, A6, A7, A8, A9.
      rewrite (sp_init_with h (np_hom s)) by assumption. exact Ei.
  Qed.
  Lemma np_sync_init (s : nupatch R d) : np_sync s -> np_initialize s = Ok s.
  Proof.
    intros [H1 H2 H3 H4 H5 H6 H7 H8 H9 H10 H11 H12]. unfold np_initialize.
    unfold zlen at 1 2. rewrite H1, Z.eqb_refl. cbn [negb]. rewrite homogenize_ok by exact H1. cbn [bind].
    unfold checked_degree. destruct (Z.leb_spec 0 (np_degu s)); [|lia]. destruct (Z.leb_spec 0 (np_degv s)); [|lia]. cbn [assert_ bind].
    rewrite <- H4, <- H5, <- H6, <- H7, <- H8, <- H9, <- H10, sp_with_self, H12. cbn [bind]. rewrite H4, H5, H7, H8, H9, H10. now destruct s.
  Qed.
  Lemma np_sync_validate (s : nupatch R d) : np_sync s -> np_validate s = Ok tt.
  Proof.
    intros [H1 H2 H3 H4 H5 H6 H7 H8 H9 H10 H11 H12]. unfold np_validate. rewrite H6, H9, H10. unfold zlen.
    rewrite hrows_length by exact H1. rewrite H1, !Z.eqb_refl. cbn [negb orb]. unfold checked_degree.
    destruct (Z.leb_spec 0 (np_degu s)); [|lia]. destruct (Z.leb_spec 0 (np_degv s)); [|lia]. cbn [assert_ bind].
    destruct (Z.ltb_spec (np_degu s) 0); [lia|]. destruct (Z.ltb_spec (np_degv s) 0); [lia|]. cbn [orb].
    rewrite !eqb_reflx. reflexivity.
  Qed.
  Lemma np_init_sync (s : nupatch R d) : np_initialize s = Ok s -> np_sync s.
  Proof. intros H. now apply np_init_inv in H. Qed.

  Lemma np_count (s : nupatch R d) : np_sync s -> valid_dir (Z.to_nat (np_degu s)) (np_ku s) -> valid_dir (Z.to_nat (np_degv s)) (np_kv s) ->
    length (np_weights s) = (dir_count (Z.to_nat (np_degu s)) (np_ku s) * dir_count (Z.to_nat (np_degv s)) (np_kv s))%nat.
  Proof.
    intros H V1 V2. pose proof (ns_zlen _ H) as Z. pose proof (ns_len _ H) as L. pose proof (vd_len _ _ V1). pose proof (vd_len _ _ V2).
    pose proof (ns_du _ H). pose proof (ns_dv _ H). unfold dir_count. unfold zlen in Z. rewrite L in Z. nia.
  Qed.

  Lemma nupatch_evaluate (s : nupatch R d) u v :
    let p := Z.to_nat (np_degu s) in let q := Z.to_nat (np_degv s) in
    let n := dir_count p (np_ku s) in let m := dir_count q (np_kv s) in
    np_valid s -> dir_param (np_peru s) p (np_ku s) u -> dir_param (np_perv s) q (np_kv s) v ->
    exists u' v', wraps (np_peru s) (dir_lo p (np_ku s)) (dir_hi p (np_ku s)) u u' /\
      wraps (np_perv s) (dir_lo q (np_kv s)) (dir_hi q (np_kv s)) v v' /\
      let w := tensor_weight n m (bspline_basis n (np_ku s) u') (bspline_basis m (np_kv s) v') (np_weights s) in
      (w <> 0 -> np_evaluate s u v =
         Ok (tensor_mean n m (bspline_basis n (np_ku s) u') (bspline_basis m (np_kv s) v') (np_weights s) (np_grid s))) /\
      (w = 0 -> np_evaluate s u v = NonFinite).
  Proof.
    intros p q n m [Hi Vu Vv Au Av] Du Dv. apply np_init_sync in Hi. pose proof (np_sync_validate s Hi) as Hval.
    pose proof (np_count s Hi Vu Vv) as HL.
    pose proof Hi as [H1 H2 H3 H4 H5 H6 H7 H8 H9 H10 H11 H12].
    destruct (spatch_evaluate (S d) (np_hom s) u v H12) as (u' & v' & Wu & Wv & E); rewrite ?H4, ?H5, ?H7, ?H8, ?H9, ?H10; auto.
    rewrite H4, H7, H9 in Wu. rewrite H5, H8, H10 in Wv. rewrite H4, H5, H6, H7, H8 in E.
    exists u', v'. split; [exact Wu|]. split; [exact Wv|]. cbv zeta. unfold np_evaluate. rewrite Hval, E. cbn [bind].
    apply tensor_point; assumption.
  Qed.

  Lemma nupatch_derivatives (s : nupatch R d) k l :
    let p := Z.to_nat (np_degu s) in let q := Z.to_nat (np_degv s) in
    let n := dir_count p (np_ku s) in let m := dir_count q (np_kv s) in
    np_valid s -> (p <= k < n)%nat -> nth k (np_ku s) 0 < nth (k + 1) (np_ku s) 0 ->
    (q <= l < m)%nat -> nth l (np_kv s) 0 < nth (l + 1) (np_kv s) 0 ->
    exists f fu fv fuu fvv fuv : R -> R -> vec R d,
      forall u v u' v',
        dir_param (np_peru s) p (np_ku s) u -> wraps (np_peru s) (dir_lo p (np_ku s)) (dir_hi p (np_ku s)) u u' ->
        dir_param (np_perv s) q (np_kv s) v -> wraps (np_perv s) (dir_lo q (np_kv s)) (dir_hi q (np_kv s)) v v' ->
        span_set (np_ku s) (dir_hi p (np_ku s)) k u' -> span_set (np_kv s) (dir_hi q (np_kv s)) l v' ->
        let w := tensor_weight n m (bspline_basis n (np_ku s) u') (bspline_basis m (np_kv s) v') (np_weights s) in
        (w <> 0 -> partials f fu fv fuu fvv fuv u' v' /\
           np_evaluate s u v = Ok (f u' v') /\
           np_evaluate_derivative_u s u v = Ok (fu u' v') /\ np_evaluate_derivative_v s u v = Ok (fv u' v')) /\
        (/ IZR (2 ^ 52) < w ->
           np_evaluate_2nd_derivative_uu s u v = Ok (fuu u' v') /\ np_evaluate_2nd_derivative_vv s u v = Ok (fvv u' v') /\
           (no_full_knot p (np_ku s) -> no_full_knot q (np_kv s) -> np_evaluate_2nd_derivative_uv s u v = Ok (fuv u' v'))).
  Proof.
    intros p q n m [Hi Vu Vv Au Av] Hk Sk Hl Sl. apply np_init_sync in Hi. pose proof (np_sync_validate s Hi) as Hval.
    pose proof (np_count s Hi Vu Vv) as HL.
    pose proof Hi as [H1 H2 H3 H4 H5 H6 H7 H8 H9 H10 H11 H12].
    destruct (spatch_derivatives (S d) (np_hom s) k l H12) as (P & Pu & Pv & Puu & Pvv & Puv & HD & HE); rewrite ?H4, ?H5, ?H7, ?H8, ?H9, ?H10; auto.
    exists (fun x y => Q0 (P x y)), (fun x y => Q1 (P x y) (Pu x y)), (fun x y => Q1 (P x y) (Pv x y)),
      (fun x y => Q2 (P x y) (Pu x y) (Pu x y) (Puu x y)), (fun x y => Q2 (P x y) (Pv x y) (Pv x y) (Pvv x y)),
      (fun x y => Q2 (P x y) (Pu x y) (Pv x y) (Puv x y)).
    intros u v u' v' Du Wu Dv Wv Ku Kv. specialize (HE u v u' v'). rewrite H4, H5, H7, H8, H9, H10 in HE.
    destruct (HE Du Wu Dv Wv Ku Kv) as (E0 & E1 & E2 & E3 & E4 & E5). cbv zeta. set (w := tensor_weight _ _ _ _ _).
    assert (Hw : vlast d (P u' v') = w).
    { destruct (spatch_evaluate (S d) (np_hom s) u v H12) as (u2 & v2 & Wu2 & Wv2 & E); rewrite ?H4, ?H5, ?H7, ?H8, ?H9, ?H10; auto.
      rewrite H4, H7, H9 in Wu2. rewrite H5, H8, H10 in Wv2. rewrite H4, H5, H6, H7, H8 in E.
      rewrite (wraps_unique _ _ _ _ _ _ Wu2 Wu), (wraps_unique _ _ _ _ _ _ Wv2 Wv) in E.
      assert (EP : P u' v' = tensor_sum n m (bspline_basis n (np_ku s) u') (bspline_basis m (np_kv s) v') (hrows (np_grid s) (np_weights s))).
      { rewrite E in E0. injection E0 as E0. symmetry. exact E0. }
      rewrite EP. apply tensor_last; assumption. }
    rewrite <- Hw. split; intros H.
    - split; [apply quotient_partials; [exact H|apply HD]|].
      unfold np_evaluate, np_evaluate_derivative_u, np_evaluate_derivative_v. rewrite Hval, E0, E1, E2. cbn [bind].
      rewrite !code_deriv by exact H. split; [now apply code_point|]. split; reflexivity.
    - assert (Hn : vlast d (P u' v') <> 0) by (rewrite <- seps_R in H; pose proof seps_pos; lra).
      unfold np_evaluate_2nd_derivative_uu, np_evaluate_2nd_derivative_vv, np_evaluate_2nd_derivative_uv.
      rewrite Hval, E0, E1, E2, E3, E4. cbn [bind]. split; [|split].
      + apply code_2nd; [exact H|now apply code_first].
      + apply code_2nd; [exact H|now apply code_first].
      + intros N1 N2. rewrite (E5 N1 N2). cbn [bind]. apply code_mixed; [exact H|now apply code_first|now apply code_first].
  Qed.

  (** ** Setters: nothing happens before initialize. *)
  Lemma sp_eval_grid (h : spatch R (vec R (S d))) du dv g u v : du = sp_degu h -> dv = sp_degv h ->
    sp_evaluate (sp_with h du dv g (sp_ku h) (sp_kv h) (sp_peru h) (sp_perv h)) u v = sp_evaluate h u v.
  Proof. intros -> ->. reflexivity. Qed.
  Lemma np_point_inv (s s' : nupatch R d) i j a : np_set_control_point s i j a = Ok s' ->
    exists nv g w q hg, sp_nv (np_hom s) = Ok nv /\ set (np_grid s) (linear_index nv i j) a = Ok g /\
      get (np_weights s) (linear_index nv i j) = Ok w /\ get (sp_grid (np_hom s)) (linear_index nv i j) = Ok q /\
      set (sp_grid (np_hom s)) (linear_index nv i j) (vsnoc d (pmul w a) (vlast d q)) = Ok hg /\
      s' = {| np_tu := np_tu s; np_tv := np_tv s; np_degu := np_degu s; np_degv := np_degv s; np_grid := g;
          np_weights := np_weights s; np_ku := np_ku s; np_kv := np_kv s; np_peru := np_peru s; np_perv := np_perv s;
          np_hom := let h := np_hom s in sp_with h (sp_degu h) (sp_degv h) hg (sp_ku h) (sp_kv h) (sp_peru h) (sp_perv h) |}.
  Proof.
    unfold np_set_control_point. intros H. apply bind_inv in H. destruct H as (nv & E1 & H).
    apply bind_inv in H. destruct H as (g & E2 & H). apply bind_inv in H. destruct H as (q & E3 & H).
    apply bind_inv in H. destruct H as (w & E4 & H). apply bind_inv in H. destruct H as (h & E5 & H).
    unfold sp_set_control_point in E5. rewrite E1 in E5. cbn [bind] in E5.
    apply bind_inv in E5. destruct E5 as (hg & E5 & E6). injection E6 as <-. injection H as <-.
    exists nv, g, w, q, hg. repeat split; auto.
  Qed.
  Lemma np_weight_inv (s s' : nupatch R d) i j a : np_set_weight s i j a = Ok s' ->
    exists nv ws p q hg, sp_nv (np_hom s) = Ok nv /\ set (np_weights s) (linear_index nv i j) a = Ok ws /\
      get (np_grid s) (linear_index nv i j) = Ok p /\ get (sp_grid (np_hom s)) (linear_index nv i j) = Ok q /\
      set (sp_grid (np_hom s)) (linear_index nv i j) (vsnoc d (pmul a p) a) = Ok hg /\
      s' = {| np_tu := np_tu s; np_tv := np_tv s; np_degu := np_degu s; np_degv := np_degv s; np_grid := np_grid s;
          np_weights := ws; np_ku := np_ku s; np_kv := np_kv s; np_peru := np_peru s; np_perv := np_perv s;
          np_hom := let h := np_hom s in sp_with h (sp_degu h) (sp_degv h) hg (sp_ku h) (sp_kv h) (sp_peru h) (sp_perv h) |}.
  Proof.
    unfold np_set_weight. intros H. apply bind_inv in H. destruct H as (nv & E1 & H).
    apply bind_inv in H. destruct H as (ws & E2 & H). apply bind_inv in H. destruct H as (q & E3 & H).
    apply bind_inv in H. destruct H as (p & E4 & H). apply bind_inv in H. destruct H as (h & E5 & H).
    unfold sp_set_control_point in E5. rewrite E1 in E5. cbn [bind] in E5.
    apply bind_inv in E5. destruct E5 as (hg & E5 & E6). injection E6 as <-. injection H as <-.
    exists nv, ws, p, q, hg. repeat split; auto.
  Qed.
  Lemma set_zlen {A} (l l' : list A) i a : set l i a = Ok l' -> zlen l' = zlen l.
  Proof. intros H. apply set_inv' in H. destruct H as (k & _ & Hk & ->). unfold zlen. now rewrite replace_length. Qed.

  Lemma nupatch_point_stale (s s' : nupatch R d) i j a u v :
    np_set_control_point s i j a = Ok s' -> np_evaluate s' u v = np_evaluate s u v.
  Proof.
    intros H. apply np_point_inv in H. destruct H as (nv & g & w & q & hg & E1 & E2 & E3 & E4 & E5 & ->).
    apply set_zlen in E2. apply set_zlen in E5.
    unfold np_evaluate, np_validate. cbn [np_hom np_grid np_weights np_degu np_degv np_peru np_perv]. cbv zeta.
    cbn [sp_with sp_grid sp_peru sp_perv]. rewrite E2, E5. reflexivity.
  Qed.
  Lemma nupatch_weight_stale (s s' : nupatch R d) i j a u v :
    np_set_weight s i j a = Ok s' -> np_evaluate s' u v = np_evaluate s u v.
  Proof.
    intros H. apply np_weight_inv in H. destruct H as (nv & g & w & q & hg & E1 & E2 & E3 & E4 & E5 & ->).
    apply set_zlen in E2. apply set_zlen in E5.
    unfold np_evaluate, np_validate. cbn [np_hom np_grid np_weights np_degu np_degv np_peru np_perv]. cbv zeta.
    cbn [sp_with sp_grid sp_peru sp_perv]. rewrite E2, E5. reflexivity.
  Qed.
  Lemma sp_eval_kv (h : spatch R (vec R (S d))) kv u v : (sp_degv h <= sp_degu h)%Z ->
    sp_evaluate (sp_with h (sp_degu h) (sp_degv h) (sp_grid h) (sp_ku h) kv (sp_peru h) (sp_perv h)) u v = sp_evaluate h u v.
  Proof. intros H. unfold sp_evaluate. cbn [sp_with sp_degu sp_degv]. destruct (Z.ltb_spec (sp_degu h) (sp_degv h)); [lia|]. reflexivity. Qed.
  Lemma sp_eval_ku (h : spatch R (vec R (S d))) ku u v : (sp_degu h < sp_degv h)%Z ->
    sp_evaluate (sp_with h (sp_degu h) (sp_degv h) (sp_grid h) ku (sp_kv h) (sp_peru h) (sp_perv h)) u v = sp_evaluate h u v.
  Proof. intros H. unfold sp_evaluate. cbn [sp_with sp_degu sp_degv]. destruct (Z.ltb_spec (sp_degu h) (sp_degv h)); [|lia]. reflexivity. Qed.
  Lemma nupatch_knot_stale (s s' : nupatch R d) i a u v : np_initialize s = Ok s ->
    ((np_degv s <= np_degu s)%Z -> np_set_knot_v s i a = Ok s' -> np_evaluate s' u v = np_evaluate s u v) /\
    ((np_degu s < np_degv s)%Z -> np_set_knot_u s i a = Ok s' -> np_evaluate s' u v = np_evaluate s u v).
  Proof.
    intros Hi. apply np_init_sync in Hi. destruct Hi as [H1 H2 H3 H4 H5 H6 H7 H8 H9 H10 H11 H12].
    split; intros Hd H.
    - unfold np_set_knot_v in H. apply bind_inv in H. destruct H as (kv & E1 & H).
      apply bind_inv in H. destruct H as (hkv & E2 & H). injection H as <-.
      unfold np_evaluate. cbn [np_hom]. cbv zeta. rewrite sp_eval_kv by lia. reflexivity.
    - unfold np_set_knot_u in H. apply bind_inv in H. destruct H as (kv & E1 & H).
      apply bind_inv in H. destruct H as (hkv & E2 & H). injection H as <-.
      unfold np_evaluate. cbn [np_hom]. cbv zeta. rewrite sp_eval_ku by lia. reflexivity.
  Qed.

  Lemma np_nv_Ok (s : nupatch R d) : np_sync s -> valid_dir (Z.to_nat (np_degv s)) (np_kv s) ->
    sp_nv (np_hom s) = Ok (Z.of_nat (dir_count (Z.to_nat (np_degv s)) (np_kv s))).
  Proof.
    intros [H1 H2 H3 H4 H5 H6 H7 H8 H9 H10 H11 H12] V. pose proof (vd_len _ _ V). unfold sp_nv, checked_degree. rewrite H5, H8.
    destruct (Z.leb_spec 0 (np_degv s)); [|lia]. cbn [assert_ bind]. f_equal. unfold dir_count, zlen. lia.
  Qed.

  (** Re-initialising a patch with other control points and weights. *)
  Lemma np_reinit (s : nupatch R d) g ws h : np_valid s -> length g = length ws -> length ws = length (np_weights s) ->
    sp_tu h = sp_tu (np_hom s) -> sp_tv h = sp_tv (np_hom s) ->
    exists s'' : nupatch R d, np_initialize {| np_tu := np_tu s; np_tv := np_tv s; np_degu := np_degu s; np_degv := np_degv s; np_grid := g;
          np_weights := ws; np_ku := np_ku s; np_kv := np_kv s; np_peru := np_peru s; np_perv := np_perv s; np_hom := h |} = Ok s'' /\
      np_valid s'' /\ np_grid s'' = g /\ np_weights s'' = ws /\ np_degu s'' = np_degu s /\ np_degv s'' = np_degv s /\
      np_ku s'' = np_ku s /\ np_kv s'' = np_kv s /\ np_peru s'' = np_peru s /\ np_perv s'' = np_perv s.
  Proof.
    intros [Hi Vu Vv Au Av] L1 L2 T1 T2. apply np_init_sync in Hi. pose proof (np_count s Hi Vu Vv) as HL.
    pose proof Hi as [H1 H2 H3 H4 H5 H6 H7 H8 H9 H10 H11 H12].
    set (s1 := {| np_tu := np_tu s; np_tv := np_tv s; np_degu := np_degu s; np_degv := np_degv s; np_grid := g;
          np_weights := ws; np_ku := np_ku s; np_kv := np_kv s; np_peru := np_peru s; np_perv := np_perv s; np_hom := h |}).
    assert (E : exists s'', np_initialize s1 = Ok s'').
    { unfold np_initialize, s1. cbn [np_tu np_tv np_degu np_degv np_grid np_weights np_ku np_kv np_peru np_perv np_hom]. unfold zlen at 1 2. rewrite L1, Z.eqb_refl. cbn [negb].
      rewrite homogenize_ok by exact L1. cbn [bind]. unfold checked_degree.
      destruct (Z.leb_spec 0 (np_degu s)); [|lia]. destruct (Z.leb_spec 0 (np_degv s)); [|lia]. cbn [assert_ bind].
      match goal with |- context [sp_initialize ?x] => set (x0 := x) end.
      assert (HF : sfit x0 (Z.to_nat (np_degu s)) (Z.to_nat (np_degv s))).
      { split; cbn [x0 sp_with sp_degu sp_degv sp_ku sp_kv sp_grid]; [lia|lia|exact Vu|exact Vv|].
        unfold zlen. rewrite hrows_length by exact L1. rewrite L1, L2, HL. lia. }
      destruct (sp_init_gen x0 _ _ HF) as (h' & Eh & _). rewrite Eh. cbn [bind]. eexists; reflexivity. }
    destruct E as (s'' & E). exists s''. split; [exact E|]. pose proof (np_init_inv _ _ E) as (Sy & A1 & A2 & A3 & A4 & A5 & A6 & A7 & A8 & A9 & A10 & _ & _).
    cbn [s1 np_tu np_tv np_degu np_degv np_grid np_weights np_ku np_kv np_peru np_perv] in *.
    split; [|repeat split; assumption]. split; rewrite ?A3, ?A4, ?A7, ?A8; auto. now apply np_sync_init.
  Qed.

  Lemma nupatch_setters_init (s : nupatch R d) i j :
    let n := dir_count (Z.to_nat (np_degu s)) (np_ku s) in let m := dir_count (Z.to_nat (np_degv s)) (np_kv s) in
    np_valid s -> (i < n)%nat -> (j < m)%nat ->
    (forall a, exists s' s'' : nupatch R d, np_set_control_point s (Z.of_nat i) (Z.of_nat j) a = Ok s' /\ np_initialize s' = Ok s'' /\
       np_valid s'' /\ np_grid s'' = replace_nth (np_grid s) (i * m + j) a /\ np_weights s'' = np_weights s /\
       np_degu s'' = np_degu s /\ np_degv s'' = np_degv s /\ np_ku s'' = np_ku s /\ np_kv s'' = np_kv s /\
       np_peru s'' = np_peru s /\ np_perv s'' = np_perv s) /\
    (forall w, exists s' s'' : nupatch R d, np_set_weight s (Z.of_nat i) (Z.of_nat j) w = Ok s' /\ np_initialize s' = Ok s'' /\
       np_valid s'' /\ np_grid s'' = np_grid s /\ np_weights s'' = replace_nth (np_weights s) (i * m + j) w /\
       np_degu s'' = np_degu s /\ np_degv s'' = np_degv s /\ np_ku s'' = np_ku s /\ np_kv s'' = np_kv s /\
       np_peru s'' = np_peru s /\ np_perv s'' = np_perv s).
  Proof.
    intros n m Hv Hi Hj. pose proof Hv as [Hin Vu Vv Au Av]. apply np_init_sync in Hin.
    pose proof (np_count s Hin Vu Vv) as HL. fold n m in HL. pose proof (np_nv_Ok s Hin Vv) as En. fold m in En.
    pose proof Hin as [H1 H2 H3 H4 H5 H6 H7 H8 H9 H10 H11 H12].
    assert (Hx : (i * m + j < length (np_weights s))%nat) by nia.
    assert (EL : linear_index (Z.of_nat m) (Z.of_nat i) (Z.of_nat j) = Z.of_nat (i * m + j)) by (unfold linear_index; lia).
    assert (Hh : (i * m + j < length (sp_grid (np_hom s)))%nat) by (rewrite H6, hrows_length by exact H1; lia).
    split; intros a; eexists; unfold np_set_control_point, np_set_weight; rewrite En; cbn [bind]; unfold grid_get; rewrite EL.
    - rewrite set_ok by lia. cbn [bind]. rewrite (get_nth _ _ p0) by exact Hh. cbn [bind].
      rewrite (get_nth _ _ 0) by lia. cbn [bind]. unfold sp_set_control_point. rewrite En. cbn [bind]. rewrite EL, set_ok by exact Hh. cbn [bind].
      match goal with |- exists s'', Ok ?x = Ok _ /\ _ => set (s1 := x) end.
      destruct (np_reinit s (replace_nth (np_grid s) (i * m + j) a) (np_weights s) (np_hom s1) Hv) as (s'' & E & A);
        [rewrite replace_length; lia|reflexivity|reflexivity|reflexivity|].
      exists s''. split; [reflexivity|]. split; [exact E|]. exact A.
    - rewrite set_ok by lia. cbn [bind]. rewrite (get_nth _ _ p0) by exact Hh. cbn [bind].
      rewrite (get_nth _ _ p0) by lia. cbn [bind]. unfold sp_set_control_point. rewrite En. cbn [bind]. rewrite EL, set_ok by exact Hh. cbn [bind].
      match goal with |- exists s'', Ok ?x = Ok _ /\ _ => set (s1 := x) end.
      destruct (np_reinit s (np_grid s) (replace_nth (np_weights s) (i * m + j) a) (np_hom s1) Hv) as (s'' & E & A);
        [rewrite replace_length; lia|rewrite replace_length; lia|reflexivity|reflexivity|].
      exists s''. split; [reflexivity|]. split; [exact E|]. exact A.
  Qed.
End NB.

(** * Setters of rational Bezier patches *)
Section RBset.
  Context {d : nat}.
  Lemma nth_replace {A} (l : list A) i a x (z : A) : (i < length l)%nat -> nth x (replace_nth l i a) z = if Nat.eqb i x then a else nth x l z.
  Proof.
    intros H. rewrite <- upd_replace by exact H. revert i x H; induction l as [|y l IH]; intros [|i] [|x] H; simpl in *; try lia; try reflexivity.
    rewrite IH by lia. reflexivity.
  Qed.
  Lemma rp_nv_Ok (s : rbpatch R d) : rp_initialize s = Ok s -> bp_nv (rp_hom s) = Ok (Z.of_nat (S (Z.to_nat (rp_degv s)))).
  Proof.
    intros H. pose proof (rp_hom_eq s H) as E. apply rp_init_inv in H. destruct H as (_ & _ & Hv & _). unfold bp_nv, checked_degree.
    rewrite E. cbn [bp_degv]. destruct (Z.leb_spec 0 (rp_degv s)); [|lia]. cbn [assert_ bind]. f_equal. lia.
  Qed.
  Lemma rp_step_ok (s : rbpatch R d) k : rp_initialize s = Ok s ->
    let nu := S (Z.to_nat (rp_degu s)) in let nv := S (Z.to_nat (rp_degv s)) in
    (fst (rp_cell k) < nu)%nat -> (snd (rp_cell k) < nv)%nat ->
    exists s', rp_step s k = Ok s' /\ rp_initialize s' = Ok s' /\
      rp_tu s' = rp_tu s /\ rp_tv s' = rp_tv s /\ bp_tu (rp_hom s') = bp_tu (rp_hom s) /\ bp_tv (rp_hom s') = bp_tv (rp_hom s) /\
      rp_degu s' = rp_degu s /\ rp_degv s' = rp_degv s /\ rp_peru s' = rp_peru s /\ rp_perv s' = rp_perv s /\
      forall x y, (x < nu)%nat -> (y < nv)%nat ->
        nth (x * nv + y) (rp_grid s') p0 = point_after [k] x y (nth (x * nv + y) (rp_grid s) p0) /\
        nth (x * nv + y) (rp_weights s') 0 = weight_after [k] x y (nth (x * nv + y) (rp_weights s) 0).
  Proof.
    intros Hi nu nv Hx Hy. pose proof (rp_hom_eq s Hi) as Eh. pose proof (rp_nv_Ok s Hi) as En. fold nv in En.
    pose proof (rp_init_inv _ _ Hi) as (HL & Hu & Hv & Hg & _).
    assert (HN : length (rp_weights s) = (nu * nv)%nat) by (unfold zlen in Hg; rewrite HL in Hg; unfold nu, nv; nia).
    assert (EL : forall i j, linear_index (Z.of_nat nv) (Z.of_nat i) (Z.of_nat j) = Z.of_nat (i * nv + j)) by (intros; unfold linear_index; lia).
    assert (Hgl : length (bp_grid (rp_hom s)) = (nu * nv)%nat) by (rewrite Eh; cbn [bp_grid]; rewrite hrows_length by exact HL; lia).
    assert (Einj : forall i j x y, (j < nv)%nat -> (y < nv)%nat -> Nat.eqb (i * nv + j) (x * nv + y) = (Nat.eqb i x && Nat.eqb j y)%bool).
    { intros i j x y Hj Hy'. destruct (Nat.eqb_spec i x) as [->|N]; destruct (Nat.eqb_spec j y) as [->|M]; cbn [andb].
      - apply Nat.eqb_refl.
      - apply Nat.eqb_neq. lia.
      - apply Nat.eqb_neq. nia.
      - apply Nat.eqb_neq. intros E. apply N. nia. }
    destruct k as [i j p|i j w]; cbn [rp_cell fst snd] in Hx, Hy; cbn [rp_step]; set (c := (i * nv + j)%nat);
      assert (Hc : (c < nu * nv)%nat) by (unfold c; nia).
    - unfold rp_set_control_point. rewrite En. cbn [bind]. unfold grid_get. rewrite !EL. fold c. rewrite set_ok by lia. cbn [bind].
      rewrite (get_nth _ _ p0) by lia. cbn [bind]. rewrite (get_nth _ _ 0) by lia. cbn [bind].
      unfold bp_set_control_point. rewrite En. cbn [bind]. rewrite EL. fold c. rewrite set_ok by lia. cbn [bind].
      match goal with |- exists s', Ok ?x = Ok s' /\ _ => set (s1 := x) end.
      assert (ER : replace_nth (bp_grid (rp_hom s)) c (vsnoc d (pmul (nth c (rp_weights s) 0) p) (vlast d (nth c (bp_grid (rp_hom s)) p0)))
                   = hrows (replace_nth (rp_grid s) c p) (rp_weights s)).
      { rewrite Eh. cbn [bp_grid]. rewrite hrows_nth by lia. unfold hrow. rewrite vlast_vsnoc.
        transitivity (hrows (replace_nth (rp_grid s) c p) (replace_nth (rp_weights s) c (nth c (rp_weights s) 0))).
        - rewrite replace_hrows by lia. reflexivity.
        - rewrite replace_same by lia. reflexivity. }
      exists s1. split; [reflexivity|]. split.
      { rewrite rp_init_ok; cbn [s1 rp_set_hom rp_set_grid rp_grid rp_weights rp_degu rp_degv]; try assumption.
        - f_equal. unfold rp_set_hom. unfold s1, rp_set_hom, rp_set_grid. cbn [rp_tu rp_tv rp_degu rp_degv rp_grid rp_weights rp_peru rp_perv rp_hom].
          f_equal. rewrite ER. unfold bp_set_grid. rewrite Eh. cbn [bp_tu bp_tv bp_degu bp_degv bp_grid bp_peru bp_perv]. reflexivity.
        - rewrite replace_length by lia. exact HL.
        - unfold zlen. rewrite replace_length by lia. exact Hg. }
      do 8 (split; [reflexivity|]). intros x y Hx' Hy'. cbn [s1 rp_set_hom rp_set_grid rp_grid rp_weights point_after weight_after].
      rewrite nth_replace by lia. unfold c. rewrite Einj by lia. split; reflexivity.
    - unfold rp_set_weight. rewrite En. cbn [bind]. unfold grid_get. rewrite !EL. fold c. rewrite set_ok by lia. cbn [bind].
      rewrite (get_nth _ _ p0) by lia. cbn [bind]. rewrite (get_nth _ _ p0) by lia. cbn [bind].
      unfold bp_set_control_point. rewrite En. cbn [bind]. rewrite EL. fold c. rewrite set_ok by lia. cbn [bind].
      match goal with |- exists s', Ok ?x = Ok s' /\ _ => set (s1 := x) end.
      assert (ER : replace_nth (bp_grid (rp_hom s)) c (vsnoc d (pmul w (nth c (rp_grid s) p0)) w)
                   = hrows (rp_grid s) (replace_nth (rp_weights s) c w)).
      { rewrite Eh. cbn [bp_grid].
        transitivity (hrows (replace_nth (rp_grid s) c (nth c (rp_grid s) p0)) (replace_nth (rp_weights s) c w)).
        - rewrite replace_hrows by lia. reflexivity.
        - rewrite replace_same by lia. reflexivity. }
      exists s1. split; [reflexivity|]. split.
      { rewrite rp_init_ok; cbn [s1 rp_set_hom rp_set_weights rp_grid rp_weights rp_degu rp_degv]; try assumption.
        - f_equal. unfold rp_set_hom. unfold s1, rp_set_hom, rp_set_weights. cbn [rp_tu rp_tv rp_degu rp_degv rp_grid rp_weights rp_peru rp_perv rp_hom].
          f_equal. rewrite ER. unfold bp_set_grid. rewrite Eh. cbn [bp_tu bp_tv bp_degu bp_degv bp_grid bp_peru bp_perv]. reflexivity.
        - rewrite replace_length by lia. exact HL. }
      do 8 (split; [reflexivity|]). intros x y Hx' Hy'. cbn [s1 rp_set_hom rp_set_weights rp_grid rp_weights point_after weight_after].
      rewrite nth_replace by lia. unfold c. rewrite Einj by lia. split; reflexivity.
  Qed.

  Lemma point_after_cons k (ks : list (rp_call d)) x y p : point_after (k :: ks) x y p = point_after ks x y (point_after [k] x y p).
  Proof. destruct k; reflexivity. Qed.
  Lemma weight_after_cons k (ks : list (rp_call d)) x y p : weight_after (k :: ks) x y p = weight_after ks x y (weight_after [k] x y p).
  Proof. destruct k; reflexivity. Qed.

  Lemma rpatch_history (s : rbpatch R d) (ks : list (rp_call d)) : rp_ready s ->
    let nu := S (Z.to_nat (rp_degu s)) in let nv := S (Z.to_nat (rp_degv s)) in
    Forall (fun k => (fst (rp_cell k) < nu)%nat /\ (snd (rp_cell k) < nv)%nat) ks ->
    exists s', rp_run ks s = Ok s' /\ rp_ready s' /\
      rp_degu s' = rp_degu s /\ rp_degv s' = rp_degv s /\ rp_peru s' = rp_peru s /\ rp_perv s' = rp_perv s /\
      forall x y, (x < nu)%nat -> (y < nv)%nat ->
        nth (x * nv + y) (rp_grid s') p0 = point_after ks x y (nth (x * nv + y) (rp_grid s) p0) /\
        nth (x * nv + y) (rp_weights s') 0 = weight_after ks x y (nth (x * nv + y) (rp_weights s) 0).
  Proof.
    revert s; induction ks as [|k ks IH]; intros s Hr nu nv HF.
    - exists s. repeat split; auto; apply Hr.
    - inversion HF as [|? ? [H1 H2] HF']; subst. destruct Hr as [R1 R2 R3 R4 R5 R6 R7].
      destruct (rp_step_ok s k R1 H1 H2) as (s1 & E & I1 & A1 & A2 & A3 & A4 & A5 & A6 & A7 & A8 & A9).
      assert (Hr1 : rp_ready s1) by (split; rewrite ?A1, ?A2, ?A5, ?A6, ?A7, ?A8; auto; congruence).
      destruct (IH s1 Hr1) as (s' & E' & Hr' & B1 & B2 & B3 & B4 & B5).
      { rewrite A5, A6. exact HF'. }
      exists s'. split; [cbn [rp_run]; rewrite E; exact E'|]. split; [exact Hr'|].
      do 4 (split; [congruence|]). intros x y Hx Hy. specialize (B5 x y). rewrite A5, A6 in B5. destruct (B5 Hx Hy) as [B6 B7].
      destruct (A9 x y Hx Hy) as [A10 A11]. fold nv in A10, A11, B6, B7.
      rewrite point_after_cons, weight_after_cons. fold nv. rewrite <- A10, <- A11. split; assumption.
  Qed.

  Lemma rpatch_bulk_stale (s : rbpatch R d) g ws u v : rp_initialize s = Ok s ->
    length g = length (rp_grid s) -> length ws = length (rp_weights s) ->
    rp_evaluate (rp_set_weights (rp_set_grid s g) ws) u v = rp_evaluate s u v.
  Proof.
    intros Hi H1 H2. unfold rp_evaluate, rp_validate, zlen. cbn [rp_set_weights rp_set_grid rp_hom rp_grid rp_weights rp_degu rp_degv rp_peru rp_perv].
    rewrite H1, H2. reflexivity.
  Qed.
End RBset.
