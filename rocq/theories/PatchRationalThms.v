(** Rational patches: evaluation and derivatives. *)
From Coq Require Import Reals Lra Lia ZArith List Bool.
From Verif Require Import Monad MonadFacts LoopFacts Scalar ScalarFacts Spec SpecFacts Polar SpecPatch SpecPatch2 SpecPatchRational
  ModelCurve CurveFacts ModelBezier ModelBSpline ModelRational RationalFacts RationalThms ModelPatchBase ModelPatch ModelPatchRational
  TensorFacts PatchFacts BezierPatchThms BSplinePatchThms BSplinePatchThms2.
Import ListNotations.
Local Open Scope R_scope.

(** * The quotient rule in two variables *)
Section Quot.
  Context {d : nat}.
  Notation h := (vec R (S d)).
  Definition Q0 (p : h) : vec R d := pmul (/ vlast d p) (vhead d p).
  Definition Q1 (p a : h) : vec R d :=
    pmul (/ vlast d p) (psub (vhead d a) (pmul (/ vlast d p) (pmul (vlast d a) (vhead d p)))).
  (** derivative of Q1 p a when p' = b and a' = c *)
  Definition Q2 (p a b c : h) : vec R d :=
    pmul (/ vlast d p)
      (psub (psub (psub (vhead d c) (pmul (vlast d c) (Q0 p))) (pmul (vlast d a) (Q1 p b))) (pmul (vlast d b) (Q1 p a))).

  Lemma Q2_sym p a b c : Q2 p a b c = Q2 p b a c.
  Proof. unfold Q2. apply vec_ext. intros i Hi. rewrite !coord_mul, !coord_sub, !coord_mul by assumption. simpl smul; simpl ssub. ring. Qed.

  Lemma Q1_deriv (p a b c : R -> h) t : vlast d (p t) <> 0 -> vderiv p t (b t) -> vderiv a t (c t) ->
    vderiv (fun x => Q0 (p x)) t (Q1 (p t) (b t)) /\ vderiv (fun x => Q1 (p x) (a x)) t (Q2 (p t) (a t) (b t) (c t)).
  Proof.
    intros H D1 D2.
    assert (Dw : derivable_pt_lim (fun x => vlast d (p x)) t (vlast d (b t))).
    { eapply derivable_pt_lim_ext; [intros x; symmetry; apply vlast_coord|]. rewrite vlast_coord. apply D1. lia. }
    assert (Dw1 : derivable_pt_lim (fun x => vlast d (a x)) t (vlast d (c t))).
    { eapply derivable_pt_lim_ext; [intros x; symmetry; apply vlast_coord|]. rewrite vlast_coord. apply D2. lia. }
    split; intros i Hi.
    - specialize (D1 i ltac:(lia)).
      eapply derivable_pt_lim_ext with (f := fun x => coord (S d) i (p x) / vlast d (p x)).
      { intros x. unfold Q0. rewrite coord_mul, coord_vhead by assumption. unfold Rdiv. simpl smul. ring. }
      pose proof (derivable_pt_lim_div _ _ t _ _ D1 Dw H) as D. eapply derivable_pt_lim_val; [exact D|].
      unfold Q1. rewrite coord_mul, coord_sub, !coord_mul, !coord_vhead by assumption. cbn beta. unfold Rsqr. simpl smul. simpl ssub. field. exact H.
    - pose proof (D1 i ltac:(lia)) as Da. pose proof (D2 i ltac:(lia)) as Db.
      set (P := fun x => coord (S d) i (p x)) in *. set (A := fun x => coord (S d) i (a x)) in *.
      set (w := fun x => vlast d (p x)) in *. set (w1 := fun x => vlast d (a x)) in *.
      eapply derivable_pt_lim_ext with (f := fun x => (A x - w1 x * P x / w x) / w x).
      { intros x. unfold Q1. rewrite coord_mul, coord_sub, !coord_mul, !coord_vhead by assumption. unfold Rdiv, P, A, w, w1. simpl smul. simpl ssub. ring. }
      pose proof (derivable_pt_lim_mult w1 P t _ _ Dw1 Da) as Dm.
      pose proof (derivable_pt_lim_div _ w t _ _ Dm Dw H) as Dq.
      pose proof (derivable_pt_lim_minus A _ t _ _ Db Dq) as Ds.
      pose proof (derivable_pt_lim_div _ w t _ _ Ds Dw H) as D. eapply derivable_pt_lim_val; [exact D|].
      unfold Q2, Q1, Q0. rewrite !coord_mul, !coord_sub, !coord_mul, !coord_sub, !coord_mul, !coord_vhead by assumption.
      unfold div_fct, mult_fct, minus_fct, Rsqr.
      change (vlast d (p t)) with (w t). change (vlast d (a t)) with (w1 t).
      change (coord (S d) i (p t)) with (P t). change (coord (S d) i (a t)) with (A t). simpl smul. simpl ssub. field. exact H.
  Qed.

  Lemma quotient_partials (P Pu Pv Puu Pvv Puv : R -> R -> h) u v : vlast d (P u v) <> 0 ->
    partials P Pu Pv Puu Pvv Puv u v ->
    partials (fun x y => Q0 (P x y)) (fun x y => Q1 (P x y) (Pu x y)) (fun x y => Q1 (P x y) (Pv x y))
      (fun x y => Q2 (P x y) (Pu x y) (Pu x y) (Puu x y)) (fun x y => Q2 (P x y) (Pv x y) (Pv x y) (Pvv x y))
      (fun x y => Q2 (P x y) (Pu x y) (Pv x y) (Puv x y)) u v.
  Proof.
    intros H (D1 & D2 & D3 & D4 & D5 & D6).
    destruct (Q1_deriv (fun x => P x v) (fun x => Pu x v) (fun x => Pu x v) (fun x => Puu x v) u H D1 D3) as [A1 A2].
    destruct (Q1_deriv (fun y => P u y) (fun y => Pv u y) (fun y => Pv u y) (fun y => Pvv u y) v H D2 D4) as [B1 B2].
    destruct (Q1_deriv (fun y => P u y) (fun y => Pu u y) (fun y => Pv u y) (fun y => Puv u y) v H D2 D5) as [_ C1].
    destruct (Q1_deriv (fun x => P x v) (fun x => Pv x v) (fun x => Pu x v) (fun x => Puv x v) u H D1 D6) as [_ C2].
    split; [exact A1|]. split; [exact B1|]. split; [exact A2|]. split; [exact B2|]. split; [exact C1|]. rewrite Q2_sym. exact C2.
  Qed.

  (** The formulas of the code. *)
  Lemma code_point (p : h) : vlast d p <> 0 -> h_point p = Ok (Q0 p).
  Proof. apply h_point_ok. Qed.
  Lemma code_deriv (p a : h) : vlast d p <> 0 -> h_derivative p a = Ok (Q1 p a).
  Proof. intros H. unfold h_derivative. rewrite pdivs_ok by exact H. cbn [bind]. now rewrite pdivs_ok. Qed.
  Lemma code_first (p a : h) : vlast d p <> 0 -> np_first p a (Q0 p) = Ok (Q1 p a).
  Proof.
    intros H. unfold np_first. rewrite pdivs_ok by exact H. f_equal. unfold Q1, Q0. apply vec_ext. intros i Hi.
    rewrite !coord_mul, !coord_sub, !coord_mul by assumption. simpl smul; simpl ssub. ring.
  Qed.
  Lemma code_2nd (p a c : h) su : / IZR (2 ^ 52) < vlast d p -> su (Q0 p) = Ok (Q1 p a) ->
    hp_2nd p a c su = Ok (Q2 p a a c).
  Proof.
    intros H Hs. rewrite <- seps_R in H. pose proof seps_pos as Hp. assert (Hn : vlast d p <> 0) by lra.
    unfold hp_2nd. cbn [sle R_ops]. rewrite Rleb_false by lra. rewrite pdivs_ok by exact Hn. cbn [bind]. fold (Q0 p). rewrite Hs. cbn [bind].
    rewrite pdivs_ok by exact Hn. f_equal. unfold Q2. apply vec_ext. intros i Hi.
    rewrite !coord_mul, !coord_sub, !coord_mul by assumption. simpl smul; simpl ssub. unfold sofZ; simpl. ring.
  Qed.
  Lemma code_mixed (p a b c : h) su sv : / IZR (2 ^ 52) < vlast d p -> su (Q0 p) = Ok (Q1 p a) -> sv (Q0 p) = Ok (Q1 p b) ->
    hp_mixed p a b c su sv = Ok (Q2 p a b c).
  Proof.
    intros H Hs Ht. rewrite <- seps_R in H. pose proof seps_pos as Hp. assert (Hn : vlast d p <> 0) by lra.
    unfold hp_mixed. cbn [sle R_ops]. rewrite pdivs_ok by exact Hn. cbn [bind]. rewrite Rleb_false by lra. fold (Q0 p). rewrite Hs. cbn [bind].
    rewrite Ht. cbn [bind]. now rewrite pdivs_ok.
  Qed.
End Quot.

(** * Weighted sums *)
Section Weights.
  Context {d : nat}.
  Lemma tensor_last nu nv bu bv (g : list (vec R d)) ws : length g = length ws -> length ws = (nu * nv)%nat ->
    vlast d (tensor_sum nu nv bu bv (hrows g ws)) = tensor_weight nu nv bu bv ws.
  Proof.
    intros H1 H2. unfold tensor_sum, tensor_weight. rewrite (linmap_psum _ _ _ (vlast_lin d)). apply rsum_ext. intros i Hi.
    rewrite (linmap_psum _ _ _ (vlast_lin d)). apply rsum_ext. intros j Hj.
    rewrite hrows_nth by (try exact H1; nia). rewrite (lm_mul _ (vlast_lin d)). unfold hrow. rewrite vlast_vsnoc. reflexivity.
  Qed.
  Lemma tensor_head nu nv bu bv (g : list (vec R d)) ws : length g = length ws -> length ws = (nu * nv)%nat ->
    vhead d (tensor_sum nu nv bu bv (hrows g ws)) =
    psum nu (fun i => psum nv (fun j => pmul (bu i * bv j * nth (i * nv + j) ws 0) (nth (i * nv + j) g p0))).
  Proof.
    intros H1 H2. unfold tensor_sum. rewrite (linmap_psum _ _ _ (vhead_lin d)). apply psum_ext. intros i Hi.
    rewrite (linmap_psum _ _ _ (vhead_lin d)). apply psum_ext. intros j Hj.
    rewrite hrows_nth by (try exact H1; nia). rewrite (lm_mul _ (vhead_lin d)). unfold hrow. rewrite vhead_vsnoc.
    apply vec_ext. intros e He. rewrite !coord_mul by assumption. ring.
  Qed.
  Lemma tensor_point nu nv bu bv (g : list (vec R d)) ws : length g = length ws -> length ws = (nu * nv)%nat ->
    (tensor_weight nu nv bu bv ws <> 0 ->
       h_point (tensor_sum nu nv bu bv (hrows g ws)) = Ok (tensor_mean nu nv bu bv ws g)) /\
    (tensor_weight nu nv bu bv ws = 0 -> h_point (tensor_sum nu nv bu bv (hrows g ws)) = NonFinite).
  Proof.
    intros H1 H2. split; intros H.
    - rewrite h_point_ok by (rewrite tensor_last by assumption; exact H). rewrite tensor_last, tensor_head by assumption. reflexivity.
    - apply h_point_zero. now rewrite tensor_last.
  Qed.
End Weights.

Lemma wraps_unique per lo hi t a b : wraps per lo hi t a -> wraps per lo hi t b -> a = b.
Proof.
  destruct per; cbn; [|congruence]. intros [Ha [k Ek]] [Hb [l El]].
  assert (E : a - b = IZR (k - l) * (hi - lo)) by (rewrite minus_IZR; lra).
  assert (Hkl : (k - l = 0)%Z).
  { destruct (Z.lt_trichotomy (k - l) 0) as [H|[H|H]]; [|exact H|].
    - apply Z.lt_le_pred in H. apply IZR_le in H. change (IZR (Z.pred 0)) with (-1) in H. nra.
    - apply Zlt_le_succ in H. apply IZR_le in H. change (IZR (Z.succ 0)) with 1 in H. nra. }
  rewrite Hkl in E. lra.
Qed.

(** * RationalBezierPatch *)
Section RB.
  Context {d : nat}.
  Lemma rp_init_inv (s s' : rbpatch R d) : rp_initialize s = Ok s' ->
    length (rp_grid s) = length (rp_weights s) /\ (0 <= rp_degu s)%Z /\ (0 <= rp_degv s)%Z /\
    zlen (rp_grid s) = ((rp_degu s + 1) * (rp_degv s + 1))%Z /\
    s' = rp_set_hom s {| bp_tu := bp_tu (rp_hom s); bp_tv := bp_tv (rp_hom s); bp_degu := rp_degu s; bp_degv := rp_degv s;
                         bp_grid := hrows (rp_grid s) (rp_weights s); bp_peru := rp_peru s; bp_perv := rp_perv s |}.
  Proof.
    unfold rp_initialize. destruct (homogenize (rp_grid s) (rp_weights s)) as [l| | |] eqn:Eh; try discriminate.
    apply homogenize_inv in Eh. destruct Eh as [HL ->]. cbn [bind].
    unfold checked_degree. destruct (Z.leb_spec 0 (rp_degu s)) as [Hu|]; [|discriminate]. cbn [assert_ bind].
    destruct (Z.leb_spec 0 (rp_degv s)) as [Hv|]; [|discriminate]. cbn [assert_ bind].
    unfold bp_initialize, checked_degree. cbn [bp_set_periodic bp_set_degrees bp_set_grid bp_degu bp_degv bp_grid].
    destruct (Z.leb_spec 0 (rp_degu s)); [|lia]. destruct (Z.leb_spec 0 (rp_degv s)); [|lia]. cbn [assert_ bind].
    destruct (_ || _)%bool; [discriminate|].
    destruct (Z.eqb_spec (zlen (hrows (rp_grid s) (rp_weights s))) ((rp_degu s + 1) * (rp_degv s + 1))) as [Eg|]; [|discriminate].
    cbn [negb bind]. intros E. injection E as <-. unfold zlen in *. rewrite hrows_length in Eg by exact HL.
    repeat split; assumption.
  Qed.
  Lemma rp_init_ok (s : rbpatch R d) : length (rp_grid s) = length (rp_weights s) -> (0 <= rp_degu s)%Z -> (0 <= rp_degv s)%Z ->
    zlen (rp_grid s) = ((rp_degu s + 1) * (rp_degv s + 1))%Z ->
    rp_initialize s = Ok (rp_set_hom s
      {| bp_tu := bp_tu (rp_hom s); bp_tv := bp_tv (rp_hom s); bp_degu := rp_degu s; bp_degv := rp_degv s;
         bp_grid := hrows (rp_grid s) (rp_weights s); bp_peru := rp_peru s; bp_perv := rp_perv s |}).
  Proof.
    intros HL Hu Hv Hg. unfold rp_initialize. rewrite homogenize_ok by exact HL. cbn [bind]. unfold checked_degree.
    destruct (Z.leb_spec 0 (rp_degu s)); [|lia]. destruct (Z.leb_spec 0 (rp_degv s)); [|lia]. cbn [assert_ bind].
    unfold bp_initialize, checked_degree. cbn [bp_set_periodic bp_set_degrees bp_set_grid bp_degu bp_degv bp_grid].
    destruct (Z.leb_spec 0 (rp_degu s)); [|lia]. destruct (Z.leb_spec 0 (rp_degv s)); [|lia]. cbn [assert_ bind].
    destruct (Z.ltb_spec (rp_degu s) 0); [lia|]. destruct (Z.ltb_spec (rp_degv s) 0); [lia|]. cbn [orb].
    unfold zlen in *. rewrite hrows_length by exact HL. rewrite Hg, Z.eqb_refl. reflexivity.
  Qed.
  Lemma rp_hom_eq (s : rbpatch R d) : rp_initialize s = Ok s ->
    rp_hom s = {| bp_tu := bp_tu (rp_hom s); bp_tv := bp_tv (rp_hom s); bp_degu := rp_degu s; bp_degv := rp_degv s;
                  bp_grid := hrows (rp_grid s) (rp_weights s); bp_peru := rp_peru s; bp_perv := rp_perv s |}.
  Proof. intros H. apply rp_init_inv in H. destruct H as (_ & _ & _ & _ & E). apply (f_equal rp_hom) in E. exact E. Qed.
  Lemma rp_init_validate (s : rbpatch R d) : rp_initialize s = Ok s -> rp_validate s = Ok tt.
  Proof.
    intros H. pose proof (rp_hom_eq s H) as E. apply rp_init_inv in H. destruct H as (HL & Hu & Hv & Hg & _).
    unfold rp_validate. rewrite E. cbn [bp_grid bp_peru bp_perv]. unfold zlen. rewrite hrows_length by exact HL.
    rewrite HL, !Z.eqb_refl. cbn [negb orb]. unfold checked_degree.
    destruct (Z.leb_spec 0 (rp_degu s)); [|lia]. destruct (Z.leb_spec 0 (rp_degv s)); [|lia]. cbn [assert_ bind].
    destruct (Z.ltb_spec (rp_degu s) 0); [lia|]. destruct (Z.ltb_spec (rp_degv s) 0); [lia|]. cbn [orb].
    rewrite !eqb_reflx. reflexivity.
  Qed.
  Lemma rp_hom_ready (s : rbpatch R d) : rp_ready s -> let h := rp_hom s in
    bp_initialize h = Ok h /\ (bp_tu h = -1 \/ bp_tu h = bp_degu h)%Z /\ (bp_tv h = -1 \/ bp_tv h = bp_degv h)%Z /\
    (bp_peru h = true -> bp_tu h <> 1%Z) /\ (bp_perv h = true -> bp_tv h <> 1%Z) /\
    bp_degu h = rp_degu s /\ bp_degv h = rp_degv s /\ bp_peru h = rp_peru s /\ bp_perv h = rp_perv s /\
    bp_grid h = hrows (rp_grid s) (rp_weights s) /\ length (rp_grid s) = length (rp_weights s) /\
    length (rp_weights s) = (S (Z.to_nat (rp_degu s)) * S (Z.to_nat (rp_degv s)))%nat.
  Proof.
    intros [Hi H1 H2 H3 H4 H5 H6] h. pose proof (rp_hom_eq s Hi) as E. fold h in E, H1, H2.
    apply rp_init_inv in Hi. destruct Hi as (HL & Hu & Hv & Hg & _).
    assert (Ed1 : bp_degu h = rp_degu s) by (rewrite E; reflexivity). assert (Ed2 : bp_degv h = rp_degv s) by (rewrite E; reflexivity).
    assert (Ep1 : bp_peru h = rp_peru s) by (rewrite E; reflexivity). assert (Ep2 : bp_perv h = rp_perv s) by (rewrite E; reflexivity).
    assert (Eg : bp_grid h = hrows (rp_grid s) (rp_weights s)) by (rewrite E; reflexivity).
    rewrite H1, H2, Ed1, Ed2, Ep1, Ep2. unfold zlen in Hg.
    split; [|repeat (split; [first [assumption | reflexivity | lia]|]); nia].
    clear E. unfold bp_initialize, checked_degree. rewrite Ed1, Ed2, Eg.
    destruct (Z.leb_spec 0 (rp_degu s)); [|lia]. destruct (Z.leb_spec 0 (rp_degv s)); [|lia]. cbn [assert_ bind].
    destruct (Z.ltb_spec (rp_degu s) 0); [lia|]. destruct (Z.ltb_spec (rp_degv s) 0); [lia|]. cbn [orb].
    unfold zlen in *. rewrite hrows_length by exact HL. rewrite Hg, Z.eqb_refl. reflexivity.
  Qed.

  Lemma rpatch_evaluate (s : rbpatch R d) u v : rp_ready s ->
    let nu := S (Z.to_nat (rp_degu s)) in let nv := S (Z.to_nat (rp_degv s)) in
    exists u' v', wraps (rp_peru s) 0 1 u u' /\ wraps (rp_perv s) 0 1 v v' /\
      let w := tensor_weight nu nv (bezier_basis nu u') (bezier_basis nv v') (rp_weights s) in
      (w <> 0 -> rp_evaluate s u v =
         Ok (tensor_mean nu nv (bezier_basis nu u') (bezier_basis nv v') (rp_weights s) (rp_grid s))) /\
      (w = 0 -> rp_evaluate s u v = NonFinite).
  Proof.
    intros Hr nu nv. pose proof (rp_init_validate s (rr_init _ Hr)) as Hval.
    destruct (rp_hom_ready s Hr) as (Hi & T1 & T2 & P1 & P2 & D1 & D2 & F1 & F2 & G & L1 & L2).
    destruct (bpatch_evaluate (S d) (rp_hom s) u v Hi T1 T2 P1 P2) as (u' & v' & Wu & Wv & E).
    rewrite F1 in Wu. rewrite F2 in Wv. rewrite D1, D2, G in E. fold nu nv in E, L2.
    exists u', v'. split; [exact Wu|]. split; [exact Wv|]. cbv zeta. unfold rp_evaluate. rewrite Hval, E. cbn [bind].
    apply tensor_point; assumption.
  Qed.

  Lemma rpatch_derivatives (s : rbpatch R d) : rp_ready s ->
    let nu := S (Z.to_nat (rp_degu s)) in let nv := S (Z.to_nat (rp_degv s)) in
    exists f fu fv fuu fvv fuv : R -> R -> vec R d,
      forall u v, exists u' v', wraps (rp_peru s) 0 1 u u' /\ wraps (rp_perv s) 0 1 v v' /\
        let w := tensor_weight nu nv (bezier_basis nu u') (bezier_basis nv v') (rp_weights s) in
        (w <> 0 -> partials f fu fv fuu fvv fuv u' v' /\
           rp_evaluate s u v = Ok (f u' v') /\
           rp_evaluate_derivative_u s u v = Ok (fu u' v') /\ rp_evaluate_derivative_v s u v = Ok (fv u' v')) /\
        (/ IZR (2 ^ 52) < w ->
           rp_evaluate_2nd_derivative_uu s u v = Ok (fuu u' v') /\ rp_evaluate_2nd_derivative_vv s u v = Ok (fvv u' v') /\
           rp_evaluate_2nd_derivative_uv s u v = Ok (fuv u' v')).
  Proof.
    intros Hr nu nv. pose proof (rp_init_validate s (rr_init _ Hr)) as Hval.
    destruct (rp_hom_ready s Hr) as (Hi & T1 & T2 & P1 & P2 & D1 & D2 & F1 & F2 & G & L1 & L2).
    destruct (bpatch_derivatives (S d) (rp_hom s) Hi T1 T2 P1 P2) as (P & Pu & Pv & Puu & Pvv & Puv & HD & HE).
    exists (fun x y => Q0 (P x y)), (fun x y => Q1 (P x y) (Pu x y)), (fun x y => Q1 (P x y) (Pv x y)),
      (fun x y => Q2 (P x y) (Pu x y) (Pu x y) (Puu x y)), (fun x y => Q2 (P x y) (Pv x y) (Pv x y) (Pvv x y)),
      (fun x y => Q2 (P x y) (Pu x y) (Pv x y) (Puv x y)).
    intros u v. destruct (HE u v) as (u' & v' & Wu & Wv & E0 & E1 & E2 & E3 & E4 & E5).
    exists u', v'. rewrite F1 in Wu. rewrite F2 in Wv. split; [exact Wu|]. split; [exact Wv|]. cbv zeta.
    set (w := tensor_weight _ _ _ _ _).
    assert (Hw : vlast d (P u' v') = w).
    { destruct (bpatch_evaluate (S d) (rp_hom s) u v Hi T1 T2 P1 P2) as (u2 & v2 & Wu2 & Wv2 & E).
      rewrite F1 in Wu2. rewrite F2 in Wv2. rewrite D1, D2, G in E. fold nu nv in E, L2.
      rewrite (wraps_unique _ _ _ _ _ _ Wu2 Wu), (wraps_unique _ _ _ _ _ _ Wv2 Wv) in E.
      assert (EP : P u' v' = tensor_sum nu nv (bezier_basis nu u') (bezier_basis nv v') (hrows (rp_grid s) (rp_weights s))) by congruence.
      rewrite EP. apply tensor_last; assumption. }
    assert (K1 : vlast d (P u' v') <> 0 -> rp_evaluate_derivative_u s u v = Ok (Q1 (P u' v') (Pu u' v')) /\
                 rp_evaluate_derivative_v s u v = Ok (Q1 (P u' v') (Pv u' v'))).
    { intros H. unfold rp_evaluate_derivative_u, rp_evaluate_derivative_v. rewrite Hval, E0, E1, E2. cbn [bind].
      rewrite !code_deriv by exact H. split; reflexivity. }
    rewrite <- Hw. split; intros H.
    - split; [apply quotient_partials; [exact H|apply HD]|]. split; [|now apply K1].
      unfold rp_evaluate. rewrite Hval, E0. cbn [bind]. now apply code_point.
    - assert (Hn : vlast d (P u' v') <> 0) by (rewrite <- seps_R in H; pose proof seps_pos; lra).
      destruct (K1 Hn) as [K2 K3].
      unfold rp_evaluate_2nd_derivative_uu, rp_evaluate_2nd_derivative_vv, rp_evaluate_2nd_derivative_uv.
      rewrite Hval, E0, E1, E2, E3, E4, E5. cbn [bind]. split; [|split].
      + now apply code_2nd.
      + now apply code_2nd.
      + now apply code_mixed.
  Qed.
End RB.
