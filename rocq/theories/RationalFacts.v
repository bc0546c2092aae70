(** Facts about the rational curve model: homogeneous points, initialisation, consistency. *)
From Coq Require Import Reals Lra Lia ZArith List Bool.
From Verif Require Import Monad MonadFacts LoopFacts Scalar ScalarFacts Spec SpecFacts Polar ModelCurve CurveFacts ModelBezier
  BezierFacts BezierMath BezierThms BSplineMath ModelBSpline BSplineFacts BSplineThms BSplineThms2 BSplineThms3 ModelRational.
Import ListNotations.
Local Open Scope R_scope.

(** * Homogeneous points *)
Section HVec.
  Lemma coord_vhead d i (a : vec R (S d)) : (i < d)%nat -> coord d i (vhead d a) = coord (S d) i a.
  Proof.
    revert i a; induction d as [|d IH]; intros i a H; [lia|]. destruct i; [reflexivity|].
    cbn [vhead coord snd]. rewrite IH by lia. reflexivity.
  Qed.
  Lemma vlast_coord d (a : vec R (S d)) : vlast d a = coord (S d) d a.
  Proof. revert a; induction d as [|d IH]; intros a; [reflexivity|]. cbn [vlast]. rewrite IH. reflexivity. Qed.
  Lemma vhead_vsnoc d (v : vec R d) w : vhead d (vsnoc d v w) = v.
  Proof.
    induction d as [|d IH]; [now destruct v|]. destruct v as [x v]. cbn [vsnoc vhead fst snd]. now rewrite IH.
  Qed.
  Lemma vlast_vsnoc d (v : vec R d) w : vlast d (vsnoc d v w) = w.
  Proof. induction d as [|d IH]; [reflexivity|]. cbn [vsnoc vlast snd]. apply IH. Qed.
  Lemma vsnoc_eta d (a : vec R (S d)) : vsnoc d (vhead d a) (vlast d a) = a.
  Proof.
    induction d as [|d IH]; [destruct a as [x []]; reflexivity|]. destruct a as [x a]. cbn [vsnoc vhead vlast fst snd]. now rewrite IH.
  Qed.
  Lemma hvec_ext d (a b : vec R (S d)) : vhead d a = vhead d b -> vlast d a = vlast d b -> a = b.
  Proof. intros H1 H2. rewrite <- (vsnoc_eta d a), <- (vsnoc_eta d b). congruence. Qed.

  Lemma vhead_lin d : linmap (vhead d).
  Proof.
    split; intros; apply vec_ext; intros i Hi; rewrite ?coord_vhead by assumption.
    - rewrite !coord_0 by lia. reflexivity.
    - rewrite !coord_add by lia. rewrite !coord_vhead by assumption. reflexivity.
    - rewrite !coord_sub by lia. rewrite !coord_vhead by assumption. reflexivity.
    - rewrite !coord_mul by lia. rewrite !coord_vhead by assumption. reflexivity.
  Qed.
  Lemma vlast_lin d : linmap (vlast d : vec R (S d) -> R).
  Proof.
    split; intros; rewrite !vlast_coord.
    - apply coord_0. lia.
    - apply coord_add. lia.
    - apply coord_sub. lia.
    - apply coord_mul. lia.
  Qed.

  Lemma h_point_ok d (p : vec R (S d)) : vlast d p <> 0 -> h_point p = Ok (pmul (/ vlast d p) (vhead d p)).
  Proof.
    intros H. unfold h_point, pdivs. simpl seq_. cbn [s0 R_ops]. destruct (Reqb_spec (vlast d p) 0); [contradiction|].
    cbn [sdiv s1 R_ops]. unfold Rdiv. now rewrite Rmult_1_l.
  Qed.
  Lemma h_point_zero d (p : vec R (S d)) : vlast d p = 0 -> h_point p = NonFinite.
  Proof.
    intros H. unfold h_point, pdivs. simpl seq_. cbn [s0 R_ops]. destruct (Reqb_spec (vlast d p) 0); [reflexivity|contradiction].
  Qed.
  Lemma h_point_inv d (p : vec R (S d)) q : h_point p = Ok q -> vlast d p <> 0 /\ q = pmul (/ vlast d p) (vhead d p).
  Proof.
    intros H. destruct (Req_EM_T (vlast d p) 0) as [E|E]; [rewrite h_point_zero in H by exact E; discriminate|].
    split; [exact E|]. rewrite h_point_ok in H by exact E. congruence.
  Qed.
  Lemma pmul_inv_l d (x : R) (v : vec R d) : x <> 0 -> pmul x (pmul (/ x) v) = v.
  Proof. intros H. apply vec_ext. intros i Hi. rewrite !coord_mul by assumption. field. exact H. Qed.
  Lemma pmul_inv_r d (x : R) (v : vec R d) : x <> 0 -> pmul (/ x) (pmul x v) = v.
  Proof. intros H. apply vec_ext. intros i Hi. rewrite !coord_mul by assumption. field. exact H. Qed.
  Lemma h_point_scale d (k : R) (p : vec R (S d)) : k <> 0 -> h_point (pmul k p) = h_point p.
  Proof.
    intros Hk. pose proof (lm_mul _ (vlast_lin d) k p) as E. cbn [pmul scal_point_ops] in E.
    pose proof (lm_mul _ (vhead_lin d) k p) as E2.
    destruct (Req_EM_T (vlast d p) 0) as [E0|E0].
    - rewrite !h_point_zero; [reflexivity|exact E0|]. rewrite E, E0. simpl. ring.
    - rewrite (h_point_ok d p E0), h_point_ok by (rewrite E; simpl; nra). rewrite E, E2. f_equal.
      apply vec_ext. intros i Hi. rewrite !coord_mul by assumption. simpl smul. field. split; assumption.
  Qed.
End HVec.

(** * Homogenised control points *)
Section Hom.
  Context {d : nat}.
  Definition hrow (p : vec R d) (w : R) : vec R (S d) := vsnoc d (pmul w p) w.
  Definition hrows (pts : list (vec R d)) (ws : list R) : list (vec R (S d)) :=
    map (fun x => vsnoc d (pmul (snd x) (fst x)) (snd x)) (combine pts ws).

  Lemma homogenize_ok pts ws : length pts = length ws -> homogenize pts ws = Ok (hrows pts ws).
  Proof. intros H. unfold homogenize, zlen. rewrite H, Z.eqb_refl. reflexivity. Qed.
  Lemma homogenize_inv pts ws l : homogenize pts ws = Ok l -> length pts = length ws /\ l = hrows pts ws.
  Proof.
    unfold homogenize, zlen. destruct (Z.eqb_spec (Z.of_nat (length pts)) (Z.of_nat (length ws))); [|discriminate].
    intros E. injection E as <-. split; [lia|reflexivity].
  Qed.
  Lemma hrows_length pts ws : length pts = length ws -> length (hrows pts ws) = length pts.
  Proof. intros H. unfold hrows. rewrite map_length, combine_length. lia. Qed.
  Lemma hrows_nth pts ws i : length pts = length ws -> (i < length pts)%nat ->
    nth i (hrows pts ws) p0 = hrow (nth i pts p0) (nth i ws 0).
  Proof.
    intros H Hi. unfold hrows. set (g := fun x : vec R d * R => vsnoc d (pmul (snd x) (fst x)) (snd x)).
    rewrite (nth_indep _ p0 (g (p0, 0))) by (rewrite map_length, combine_length; lia).
    rewrite map_nth, combine_nth by exact H. reflexivity.
  Qed.

  (** The homogeneous curve is the weighted sum. *)
  Lemma hsum_head n (b : nat -> R) pts ws : length pts = n -> length ws = n ->
    vhead d (psum n (fun i => pmul (b i) (nth i (hrows pts ws) p0))) = psum n (fun i => pmul (b i * nth i ws 0) (nth i pts p0)).
  Proof.
    intros H1 H2. rewrite (linmap_psum _ _ _ (vhead_lin d)). apply psum_ext. intros i Hi.
    rewrite hrows_nth by lia. rewrite (lm_mul _ (vhead_lin d)). unfold hrow. rewrite vhead_vsnoc.
    apply vec_ext. intros e He. rewrite !coord_mul by assumption. ring.
  Qed.
  Lemma hsum_last n (b : nat -> R) pts ws : length pts = n -> length ws = n ->
    vlast d (psum n (fun i => pmul (b i) (nth i (hrows pts ws) p0))) = weight_sum n b ws.
  Proof.
    intros H1 H2. rewrite (linmap_psum _ _ _ (vlast_lin d)). apply rsum_ext. intros i Hi.
    rewrite hrows_nth by lia. rewrite (lm_mul _ (vlast_lin d)). unfold hrow. rewrite vlast_vsnoc. reflexivity.
  Qed.
  Lemma hsum_point n (b : nat -> R) pts ws : length pts = n -> length ws = n ->
    (weight_sum n b ws <> 0 ->
      h_point (psum n (fun i => pmul (b i) (nth i (hrows pts ws) p0))) = Ok (weighted_mean n b ws pts)) /\
    (weight_sum n b ws = 0 -> h_point (psum n (fun i => pmul (b i) (nth i (hrows pts ws) p0))) = NonFinite).
  Proof.
    intros H1 H2. split; intros H.
    - rewrite h_point_ok by (rewrite hsum_last by assumption; exact H). rewrite hsum_last, hsum_head by assumption. reflexivity.
    - apply h_point_zero. now rewrite hsum_last.
  Qed.

  (** Going back. *)
  Lemma dehom_rows (l : list (vec R (S d))) pts : dehomogenize l = Ok pts ->
    length pts = length l /\ hrows pts (map (vlast d) l) = l /\ Forall (fun q => vlast d q <> 0) l.
  Proof.
    unfold dehomogenize. revert pts; induction l as [|a l IH]; intros pts H; cbn [mapM] in H.
    - injection H as <-. repeat split; constructor.
    - destruct (h_point a) as [q| | |] eqn:Ea; try discriminate. cbn [bind] in H.
      destruct (mapM h_point l) as [qs| | |] eqn:Eq; try discriminate. cbn [bind] in H. injection H as <-.
      destruct (IH qs eq_refl) as (L & E & F). apply h_point_inv in Ea. destruct Ea as [Hw ->].
      split; [cbn [length]; lia|]. split; [|constructor; assumption].
      unfold hrows in *. cbn [map combine]. rewrite E. f_equal. cbn [fst snd]. rewrite pmul_inv_l by exact Hw. apply vsnoc_eta.
  Qed.
  Lemma dehom_total (l : list (vec R (S d))) : Forall (fun q => vlast d q <> 0) l -> exists pts, dehomogenize l = Ok pts.
  Proof.
    unfold dehomogenize. induction 1 as [|a l Ha Hl IH]; [exists []; reflexivity|].
    destruct IH as (pts & E). cbn [mapM]. rewrite (h_point_ok d a Ha). cbn [bind]. rewrite E. eexists; reflexivity.
  Qed.
  Lemma dehom_hrows pts ws : length pts = length ws -> Forall (fun w => w <> 0) ws ->
    dehomogenize (hrows pts ws) = Ok pts.
  Proof.
    unfold dehomogenize, hrows. revert ws; induction pts as [|p pts IH]; intros [|w ws] H F; try discriminate; [reflexivity|].
    inversion F as [|? ? Hw Hws]; subst. cbn [combine map mapM]. rewrite h_point_ok by (cbn [fst snd]; rewrite vlast_vsnoc; exact Hw).
    cbn [bind]. rewrite IH by (simpl in H; auto). cbn [bind fst snd]. rewrite vlast_vsnoc, vhead_vsnoc, pmul_inv_r by exact Hw. reflexivity.
  Qed.
  Lemma vlast_hrows (pts : list (vec R d)) ws : length pts = length ws -> map (vlast d) (hrows pts ws) = ws.
  Proof.
    unfold hrows. revert ws; induction pts as [|p pts IH]; intros [|w ws] H; try discriminate; [reflexivity|].
    cbn [combine map fst snd]. rewrite vlast_vsnoc. f_equal. apply IH. simpl in H. lia.
  Qed.

  (** Updating one row. *)
  Lemma upd_replace {A} (l : list A) i a : (i < length l)%nat -> upd_nat l i a = replace_nth l i a.
  Proof.
    unfold replace_nth. revert i; induction l as [|x l IH]; intros [|i] H; simpl in *; try lia; [reflexivity|].
    f_equal. apply IH. lia.
  Qed.
  Lemma upd_length {A} (l : list A) i (a : A) : length (upd_nat l i a) = length l.
  Proof. revert i; induction l as [|x l IH]; intros [|i]; simpl; auto. Qed.
  Lemma set_ok {A} (l : list A) i a : (i < length l)%nat -> set l (Z.of_nat i) a = Ok (replace_nth l i a).
  Proof.
    intros H. unfold set, zlen. destruct (Z.leb_spec 0 (Z.of_nat i)); [|lia].
    destruct (Z.ltb_spec (Z.of_nat i) (Z.of_nat (length l))); [|lia]. cbn [andb]. rewrite Nat2Z.id. now rewrite upd_replace.
  Qed.
  Lemma set_inv' {A} (l : list A) z a l' : set l z a = Ok l' ->
    exists i, z = Z.of_nat i /\ (i < length l)%nat /\ l' = replace_nth l i a.
  Proof.
    unfold set, zlen. destruct (Z.leb_spec 0 z); [|discriminate]. destruct (Z.ltb_spec z (Z.of_nat (length l))); [|discriminate].
    cbn [andb]. intros E. injection E as <-. exists (Z.to_nat z). split; [lia|]. split; [lia|]. apply upd_replace. lia.
  Qed.
  Lemma get_nth {A} (l : list A) i (a : A) : (i < length l)%nat -> get l (Z.of_nat i) = Ok (nth i l a).
  Proof.
    intros H. unfold get. destruct (Z.ltb_spec (Z.of_nat i) 0); [lia|]. rewrite Nat2Z.id.
    rewrite (nth_error_nth' l a H). reflexivity.
  Qed.
  Lemma replace_length {A} (l : list A) i (a : A) : (i < length l)%nat -> length (replace_nth l i a) = length l.
  Proof. intros H. rewrite <- upd_replace by exact H. apply upd_length. Qed.
  Lemma replace_hrows pts ws i p w : length pts = length ws -> (i < length pts)%nat ->
    hrows (replace_nth pts i p) (replace_nth ws i w) = replace_nth (hrows pts ws) i (hrow p w).
  Proof.
    intros H Hi. rewrite <- !upd_replace by (rewrite ?hrows_length; lia).
    unfold hrows. revert ws i H Hi; induction pts as [|q pts IH]; intros [|v ws] i H Hi; simpl in *; try lia.
    destruct i as [|i]; cbn [upd_nat combine map]; [reflexivity|]. f_equal. apply IH; lia.
  Qed.
  Lemma replace_same {A} (l : list A) i (a : A) : (i < length l)%nat -> replace_nth l i (nth i l a) = l.
  Proof.
    intros H. rewrite <- upd_replace by exact H. revert i H; induction l as [|x l IH]; intros [|i] H; simpl in *; try lia; [reflexivity|].
    f_equal. apply IH. lia.
  Qed.
End Hom.
