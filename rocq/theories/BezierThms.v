(** Lemmas behind the Bezier property theorems. *)
From Coq Require Import Reals Lra Lia ZArith List Permutation.
From Verif Require Import Monad MonadFacts Scalar ScalarFacts Spec SpecFacts Polar ModelCurve ModelBezier BezierFacts BezierMath CurveFacts.
Import ListNotations.
Local Open Scope R_scope.

Definition pt_at {P} {V : PointOps R P} (pts : list P) (i : Z) : P := nth (Z.to_nat i) pts p0.

Lemma arr_pts {P} {V : PointOps R P} (pts : list P) n : length pts = S n -> arr pts (Z.of_nat n + 1) (pt_at pts).
Proof.
  intros H. replace (Z.of_nat n + 1)%Z with (zlen pts) by (unfold zlen; lia). apply arr_nth.
Qed.

Lemma nonempty_length {A} (l : list A) : l <> [] -> exists n, length l = S n.
Proof. destruct l; [congruence|]. intros _. eexists; reflexivity. Qed.

(** * Evaluation *)
Lemma bezier_bernstein d (pts : list (vec R d)) t :
  pts <> [] -> bz_evaluate (mk_bezier pts) t = Ok (bernstein_curve pts t).
Proof.
  intros H. destruct (nonempty_length pts H) as [n Hn].
  rewrite (bz_evaluate_tri (mk_bezier pts) (Z.of_nat n) (pt_at pts) t); [|reflexivity|now apply arr_pts|lia].
  f_equal. rewrite Nat2Z.id. now apply tri_bz_curve, arr_pts.
Qed.

Lemma arr_bezier d (cv : bezier (vec R d)) n c t :
  bz_periodic cv = false -> arr (bz_pts cv) (Z.of_nat n + 1) c ->
  bz_evaluate cv t = Ok (tri albz c (repeat t n) (Z.of_nat n)).
Proof.
  intros Hp Hc. rewrite (bz_evaluate_tri cv (Z.of_nat n) c t Hp Hc) by lia. now rewrite Nat2Z.id.
Qed.

Lemma tri_pts_curve {d} (pts : list (vec R d)) n t : length pts = S n ->
  tri albz (pt_at pts) (repeat t n) (Z.of_nat n) = bernstein_curve pts t.
Proof. intros Hn. now apply tri_bz_curve, arr_pts. Qed.

Lemma tri_zero (c : Z -> R) n j : tri albz c (repeat 0 n) j = c (j - Z.of_nat n)%Z.
Proof.
  revert j; induction n as [|n IH]; intros j; cbn [repeat tri].
  - f_equal. simpl; lia.
  - rewrite !IH. unfold albz. simpl padd; simpl pmul.
    replace (j - 1 - Z.of_nat n)%Z with (j - Z.of_nat (S n))%Z by lia. ring.
Qed.
Lemma tri_one (c : Z -> R) n j : tri albz c (repeat 1 n) j = c j.
Proof.
  revert j; induction n as [|n IH]; intros j; cbn [repeat tri]; [reflexivity|].
  rewrite !IH. unfold albz. simpl padd; simpl pmul. ring.
Qed.

Lemma last_nth {A} (l : list A) (d : A) : last l d = nth (length l - 1) l d.
Proof.
  induction l as [|a l IH]; [reflexivity|].
  destruct l as [|b l]; [reflexivity|].
  change (last (a :: b :: l) d) with (last (b :: l) d). rewrite IH. simpl. now rewrite Nat.sub_0_r.
Qed.

Lemma bezier_endpoints d (pts : list (vec R d)) :
  pts <> [] ->
  bz_evaluate (mk_bezier pts) 0 = Ok (hd p0 pts) /\ bz_evaluate (mk_bezier pts) 1 = Ok (last pts p0).
Proof.
  intros H. destruct (nonempty_length pts H) as [n Hn]. rewrite !bezier_bernstein by assumption.
  rewrite <- !(tri_pts_curve pts n) by assumption. split; f_equal; apply vec_ext; intros i Hi; rewrite coord_tri by assumption.
  - rewrite tri_zero. unfold pt_at. replace (Z.of_nat n - Z.of_nat n)%Z with 0%Z by lia.
    destruct pts; [congruence|reflexivity].
  - rewrite tri_one. unfold pt_at. rewrite last_nth, Nat2Z.id, Hn. simpl. now rewrite Nat.sub_0_r.
Qed.

Lemma bezier_affine d d' (f : vec R d -> vec R d') (pts : list (vec R d)) t :
  (forall x a b, f (padd (pmul (1 - x) a) (pmul x b)) = padd (pmul (1 - x) (f a)) (pmul x (f b))) ->
  pts <> [] ->
  exists q, bz_evaluate (mk_bezier pts) t = Ok q /\ bz_evaluate (mk_bezier (map f pts)) t = Ok (f q).
Proof.
  intros Hf H. destruct (nonempty_length pts H) as [n Hn].
  exists (tri albz (pt_at pts) (repeat t n) (Z.of_nat n)). split.
  - apply arr_bezier; [reflexivity|now apply arr_pts].
  - rewrite (tri_affmap f _ _ _ _ Hf).
    apply arr_bezier; [reflexivity|]. simpl bz_pts.
    pose proof (arr_pts pts n Hn) as [HL HG]. split.
    + now rewrite zlen_map.
    + intros i Hi. rewrite get_map, HG by assumption. reflexivity.
Qed.

Lemma bezier_convex d (pts : list (vec R d)) t :
  pts <> [] -> 0 <= t <= 1 ->
  exists q, bz_evaluate (mk_bezier pts) t = Ok q /\ convex_comb pts q.
Proof.
  intros H Ht. exists (bernstein_curve pts t). split; [now apply bezier_bernstein|].
  destruct (nonempty_length pts H) as [n Hn].
  exists (fun i => bernstein n i t). rewrite Hn. split; [|split].
  - intros i _. now apply bernstein_nonneg.
  - apply bernstein_partition.
  - unfold bernstein_curve. rewrite Hn. simpl Nat.sub. rewrite Nat.sub_0_r. reflexivity.
Qed.

(** * Specialised classes *)
Ltac len_cases pts :=
  repeat (destruct pts as [|? pts]; [simpl in *; discriminate|]); destruct pts; [|simpl in *; discriminate].

Lemma nonper_unwrap {P} (pts : list P) (t : R) : bz_unwrap (mk_bezier pts) t = Ok t.
Proof. reflexivity. Qed.

Lemma bez_eval_gen d (pts : list (vec R d)) n t : length pts = S n ->
  bz_evaluate (mk_bezier pts) t = Ok (tri albz (pt_at pts) (repeat t n) (Z.of_nat n)).
Proof. intros Hn. apply arr_bezier; [reflexivity|now apply arr_pts]. Qed.

Lemma bez_d1_gen d (pts : list (vec R d)) n t : length pts = S (S n) ->
  bz_evaluate_derivative (mk_bezier pts) t =
  Ok (tri albz (fun i => pmul (IZR (Z.of_nat (S n))) (psub (pt_at pts (i + 1)) (pt_at pts i))) (repeat t n) (Z.of_nat n)).
Proof.
  intros Hn. rewrite (bz_evaluate_derivative_tri (mk_bezier pts) (Z.of_nat (S n)) (pt_at pts) t);
    [|reflexivity|now apply arr_pts|lia].
  replace (Z.of_nat (S n) - 1)%Z with (Z.of_nat n) by lia. now rewrite Nat2Z.id.
Qed.

Lemma bez_d2_gen d (pts : list (vec R d)) n t : length pts = S (S (S n)) ->
  let c1 := fun i => pmul (IZR (Z.of_nat (S (S n)))) (psub (pt_at pts (i + 1)) (pt_at pts i)) in
  bz_evaluate_2nd_derivative (mk_bezier pts) t =
  Ok (tri albz (fun i => pmul (IZR (Z.of_nat (S n))) (psub (c1 (i + 1)%Z) (c1 i))) (repeat t n) (Z.of_nat n)).
Proof.
  intros Hn c1. rewrite (bz_evaluate_2nd_derivative_tri (mk_bezier pts) (Z.of_nat (S (S n))) (pt_at pts) t);
    [|reflexivity|now apply arr_pts|lia].
  replace (Z.of_nat (S (S n)) - 2)%Z with (Z.of_nat n) by lia. rewrite Nat2Z.id.
  replace (Z.of_nat (S (S n)) - 1)%Z with (Z.of_nat (S n)) by lia. reflexivity.
Qed.

Ltac pos_nat := repeat match goal with |- context [Pos.to_nat ?p] =>
  let n := eval compute in (Pos.to_nat p) in change (Pos.to_nat p) with n end.
Ltac low_degree := cbn -[vec_ops]; unfold albz, pt_at; cbn -[vec_ops]; pos_nat; cbn -[vec_ops]; f_equal; vext; simpl IZR; ring.

Lemma bezier_deg0 d (pts : list (vec R d)) t : length pts = 1%nat ->
  bz0_evaluate (mk_bezier pts) t = bz_evaluate (mk_bezier pts) t /\
  bz0_evaluate_derivative (mk_bezier pts) t = bz_evaluate_derivative (mk_bezier pts) t /\
  bz0_evaluate_2nd_derivative (mk_bezier pts) t = bz_evaluate_2nd_derivative (mk_bezier pts) t /\
  bz0_elevate_degree (mk_bezier pts) = bz_elevate_degree (mk_bezier pts).
Proof.
  intros H. rewrite (bez_eval_gen d pts 0 t H). len_cases pts. repeat split.
Qed.

Lemma bezier_deg1 d (pts : list (vec R d)) t : length pts = 2%nat ->
  bz1_evaluate (mk_bezier pts) t = bz_evaluate (mk_bezier pts) t /\
  bz1_evaluate_derivative (mk_bezier pts) t = bz_evaluate_derivative (mk_bezier pts) t /\
  bz1_evaluate_2nd_derivative (mk_bezier pts) t = bz_evaluate_2nd_derivative (mk_bezier pts) t /\
  bz1_split (mk_bezier pts) t = bz_split (mk_bezier pts) t.
Proof.
  intros H. rewrite (bez_eval_gen d pts 1 t H), (bez_d1_gen d pts 0 t H). len_cases pts. repeat split; try low_degree.
Qed.

Lemma bezier_deg2 d (pts : list (vec R d)) t : length pts = 3%nat ->
  bz2_evaluate (mk_bezier pts) t = bz_evaluate (mk_bezier pts) t /\
  bz2_evaluate_derivative (mk_bezier pts) t = bz_evaluate_derivative (mk_bezier pts) t /\
  bz2_evaluate_2nd_derivative (mk_bezier pts) t = bz_evaluate_2nd_derivative (mk_bezier pts) t /\
  bz2_split (mk_bezier pts) t = bz_split (mk_bezier pts) t.
Proof.
  intros H. rewrite (bez_eval_gen d pts 2 t H), (bez_d1_gen d pts 1 t H), (bez_d2_gen d pts 0 t H).
  len_cases pts. repeat split; try low_degree.
Qed.

Lemma bezier_deg3 d (pts : list (vec R d)) t : length pts = 4%nat ->
  bz3_evaluate (mk_bezier pts) t = bz_evaluate (mk_bezier pts) t /\
  bz3_evaluate_derivative (mk_bezier pts) t = bz_evaluate_derivative (mk_bezier pts) t /\
  bz3_evaluate_2nd_derivative (mk_bezier pts) t = bz_evaluate_2nd_derivative (mk_bezier pts) t /\
  bz3_split (mk_bezier pts) t = bz_split (mk_bezier pts) t.
Proof.
  intros H. rewrite (bez_eval_gen d pts 3 t H), (bez_d1_gen d pts 2 t H), (bez_d2_gen d pts 1 t H).
  len_cases pts. repeat split; try low_degree.
Qed.

(** * Derivatives *)
Lemma tri_vderiv {d} (c : Z -> vec R d) n t :
  vderiv (fun x => tri albz c (repeat x (S n)) (Z.of_nat (S n))) t
    (tri albz (fun i => pmul (IZR (Z.of_nat (S n))) (psub (c (i + 1)%Z) (c i))) (repeat t n) (Z.of_nat n)).
Proof.
  intros i Hi. rewrite coord_tri by assumption.
  apply (derivable_pt_lim_ext (fun x => tri albz (fun k => coord d i (c k)) (repeat x (S n)) (Z.of_nat (S n)))).
  { intros x. now rewrite coord_tri. }
  rewrite (tri_ext albz albz _ (dbz (S n) (fun k => coord d i (c k)))); [apply bz_deriv|reflexivity|].
  intros j _. rewrite coord_mul, coord_sub by assumption. unfold dbz. now rewrite INR_IZR_INZ.
Qed.

Lemma vderiv_const {d} (v : vec R d) t : vderiv (fun _ => v) t p0.
Proof. intros i Hi. rewrite coord_0 by assumption. apply derivable_pt_lim_const. Qed.

Lemma bezier_derivatives d (pts : list (vec R d)) : pts <> [] ->
  exists f f' f'' : R -> vec R d,
    (forall t, bz_evaluate (mk_bezier pts) t = Ok (f t)) /\
    (forall t, bz_evaluate_derivative (mk_bezier pts) t = Ok (f' t)) /\
    (forall t, bz_evaluate_2nd_derivative (mk_bezier pts) t = Ok (f'' t)) /\
    (forall t, vderiv f t (f' t)) /\ (forall t, vderiv f' t (f'' t)).
Proof.
  intros H. destruct (nonempty_length pts H) as [n Hn].
  destruct n as [|[|n]].
  - exists (fun t => tri albz (pt_at pts) (repeat t 0) 0), (fun _ => p0), (fun _ => p0).
    split; [intros; now apply bez_eval_gen|]. len_cases pts.
    split; [reflexivity|]. split; [reflexivity|]. split; intros t; [|apply vderiv_const].
    apply (vderiv_const v).
  - exists (fun t => tri albz (pt_at pts) (repeat t 1) 1).
    eexists (fun t => tri albz _ (repeat t 0) 0). exists (fun _ => p0).
    split; [intros; now apply bez_eval_gen|].
    split; [intros; now apply (bez_d1_gen d pts 0)|].
    split. { len_cases pts. reflexivity. }
    split; intros t; [apply (tri_vderiv (pt_at pts) 0)|cbn [repeat tri]; apply vderiv_const].
  - eexists (fun t => tri albz _ (repeat t (S (S n))) _).
    eexists (fun t => tri albz _ (repeat t (S n)) _).
    eexists (fun t => tri albz _ (repeat t n) _).
    split; [intros; now apply bez_eval_gen|].
    split; [intros; now apply bez_d1_gen|].
    split; [intros; now apply bez_d2_gen|].
    split; intros t; apply tri_vderiv.
Qed.

(** * Splitting *)
Lemma length_of_arr {A} (l : list A) n f : arr l (Z.of_nat n + 1) f -> length l = S n.
Proof. intros H. apply arr_len in H. unfold zlen in H. lia. Qed.

Lemma bz_split_reparam d (c : Z -> vec R d) n t s :
  tri albz (fun i => tri albz c (repeat t (Z.to_nat i)) i) (repeat s n) (Z.of_nat n)
    = tri albz c (repeat (t * s) n) (Z.of_nat n) /\
  tri albz (fun i => tri albz c (repeat t (Z.to_nat (Z.of_nat n - i))) (Z.of_nat n)) (repeat s n) (Z.of_nat n)
    = tri albz c (repeat (t + (1 - t) * s) n) (Z.of_nat n).
Proof.
  split; apply vec_ext; intros i Hi; rewrite !coord_tri by assumption.
  - rewrite (bz_reparam n _ (bzG n (fun k => coord d i (c k))) 0 t s (bzG_polar _ _)).
    + unfold bzG. do 2 f_equal. ring.
    + intros j Hj. rewrite coord_tri by assumption. now apply bz_left_value.
  - rewrite (bz_reparam n _ (bzG n (fun k => coord d i (c k))) t 1 s (bzG_polar _ _)).
    + unfold bzG. do 2 f_equal. ring.
    + intros j Hj. rewrite coord_tri by assumption. now apply bz_right_value.
Qed.

Lemma bezier_split d (cv : bezier (vec R d)) t : bz_pts cv <> [] -> 0 < t < 1 ->
  exists l r : list (vec R d),
    bz_split cv t = Ok [mk_bezier l; mk_bezier r] /\
    length l = length (bz_pts cv) /\ length r = length (bz_pts cv) /\
    forall s, bernstein_curve l s = bernstein_curve (bz_pts cv) (t * s) /\
              bernstein_curve r s = bernstein_curve (bz_pts cv) (t + (1 - t) * s).
Proof.
  intros H Ht. destruct (nonempty_length _ H) as [n Hn].
  unfold bz_split, is_split_point_valid, bz_lower, bz_upper. simpl sle. cbn [s0 s1 R_ops].
  rewrite !Rleb_false by lra. cbn [orb negb].
  assert (Hd : bz_degree cv = Z.of_nat n) by (unfold bz_degree, zlen; lia). rewrite Hd.
  pose proof (arr_pts (bz_pts cv) n Hn) as Ha.
  destruct (bz_split_loop_correct (Z.of_nat n) t (bz_pts cv) _ _ Ha) as (c1 & c2 & E & H1 & H2); [lia|].
  rewrite E, bind_Ok. exists c1, c2. split; [reflexivity|].
  rewrite (length_of_arr _ _ _ H1), (length_of_arr _ _ _ H2), Hn. split; [reflexivity|]. split; [reflexivity|].
  intros s. rewrite <- (tri_bz_curve c1 n _ s H1), <- (tri_bz_curve c2 n _ s H2).
  rewrite <- !(tri_bz_curve (bz_pts cv) n _ _ Ha). apply bz_split_reparam.
Qed.

Lemma bezier_split_trivial d (cv : bezier (vec R d)) t : t <= 0 \/ 1 <= t -> bz_split cv t = Ok [cv].
Proof.
  intros Ht. unfold bz_split, is_split_point_valid, bz_lower, bz_upper. simpl sle. cbn [s0 s1 R_ops].
  destruct (Rleb_spec t 0); [reflexivity|]. destruct (Rleb_spec 1 t); [reflexivity|lra].
Qed.

(** * Subcurves *)
Lemma bezier_subcurve d (cv : bezier (vec R d)) t0 t1 : bz_pts cv <> [] -> 0 <= t0 <= t1 -> t1 <= 1 ->
  exists l : list (vec R d),
    bz_subcurve cv t0 t1 = Ok (mk_bezier l) /\ length l = length (bz_pts cv) /\
    forall s, bernstein_curve l s = bernstein_curve (bz_pts cv) (t0 + s * (t1 - t0)).
Proof.
  intros H Ht Ht1. destruct (nonempty_length _ H) as [n Hn].
  pose proof (arr_pts (bz_pts cv) n Hn) as Ha.
  destruct (bz_subcurve_correct cv t0 t1 (Z.of_nat n) _ Ha) as (l & E & Hl); [lia|lra|lra|].
  exists l. split; [exact E|]. rewrite (length_of_arr _ _ _ Hl), Hn. split; [reflexivity|].
  intros s. rewrite <- (tri_bz_curve l n _ s Hl), <- (tri_bz_curve (bz_pts cv) n _ _ Ha).
  apply vec_ext; intros i Hi; rewrite !coord_tri by assumption.
  rewrite (bz_reparam n _ (bzG n (fun k => coord d i (pt_at (bz_pts cv) k))) t0 t1 s (bzG_polar _ _)).
  - unfold bzG. do 2 f_equal. ring.
  - intros j Hj. rewrite coord_tri by assumption.
    replace (Z.to_nat (Z.of_nat n - j)) with (n - Z.to_nat j)%nat by lia.
    apply (po_sym n (bzG n (fun k => coord d i (pt_at (bz_pts cv) k))) (bzG_polar _ _)).
    + rewrite app_length, !repeat_length; lia.
    + apply Permutation_app_comm.
Qed.

Lemma bezier_subcurve_throws d (cv : bezier (vec R d)) t0 t1 : t1 < t0 \/ t0 < 0 \/ 1 < t1 ->
  bz_subcurve cv t0 t1 = Throw invalid_setting_error.
Proof.
  intros H. unfold bz_subcurve. simpl slt. cbn [s0 s1 R_ops].
  destruct (Rltb_spec t1 t0); [reflexivity|].
  destruct (Rltb_spec t0 0); [reflexivity|].
  destruct (Rltb_spec 1 t1).
  - rewrite !Bool.orb_true_r. reflexivity.
  - lra.
Qed.

Lemma bezier3_subcurve_value d (pts : list (vec R d)) t0 t1 : length pts = 4%nat ->
  0 < t0 < 1 -> t0 <= t1 < 1 ->
  exists l, bz3_subcurve (mk_bezier pts) t0 t1 = Ok (mk_bezier l) /\ length l = 4%nat /\
    forall s, bernstein_curve l s = bernstein_curve pts (t0 + (1 - t0) * (t1 * s)).
Proof.
  intros Hn H0 H1. assert (Hne : pts <> []) by (destruct pts; [discriminate|congruence]).
  unfold bz3_subcurve, bz_lower, bz_upper. simpl slt. simpl seq_.
  rewrite (Rltb_false t1 t0), (Reqb_false t0 0), (Reqb_false t1 1) by lra. cbn [andb].
  destruct (bezier_deg3 d pts t0 Hn) as (_ & _ & _ & E).
  destruct (bezier_split d (mk_bezier pts) t0 Hne H0) as (l & r & Es & Hl & Hr & Hv).
  rewrite E, Es, bind_Ok. change (get [mk_bezier l; mk_bezier r] 1) with (Ok (mk_bezier r)). rewrite bind_Ok.
  cbn [bz_pts mk_bezier] in *. rewrite Hn in *.
  assert (Hner : r <> []) by (destruct r; [discriminate|congruence]).
  destruct (bezier_deg3 d r t1 Hr) as (_ & _ & _ & E').
  destruct (bezier_split d (mk_bezier r) t1 Hner) as (l' & r' & Es' & Hl' & Hr' & Hv'); [lra|].
  rewrite E', Es', bind_Ok. exists l'. split; [reflexivity|]. cbn [bz_pts mk_bezier] in *. split; [congruence|].
  intros s. rewrite (proj1 (Hv' s)), (proj2 (Hv _)). reflexivity.
Qed.

Lemma bezier3_subcurve_ends d (pts : list (vec R d)) t0 t1 : length pts = 4%nat ->
  (t0 = 0 /\ 0 < t1 <= 1) \/ (0 <= t0 < 1 /\ t1 = 1) ->
  exists l, bz3_subcurve (mk_bezier pts) t0 t1 = Ok (mk_bezier l) /\ length l = 4%nat /\
    forall s, bernstein_curve l s = bernstein_curve pts (t0 + s * (t1 - t0)).
Proof.
  intros Hn Ht. assert (Hne : pts <> []) by (destruct pts; [discriminate|congruence]).
  unfold bz3_subcurve, bz_lower, bz_upper. simpl slt. simpl seq_.
  rewrite (Rltb_false t1 t0) by lra.
  destruct (Reqb_spec t0 0) as [E0|E0]; destruct (Reqb_spec t1 1) as [E1|E1]; cbn [andb].
  - exists pts. split; [reflexivity|]. split; [assumption|]. intros s. f_equal. subst. ring.
  - destruct (bezier_deg3 d pts t1 Hn) as (_ & _ & _ & E).
    destruct (bezier_split d (mk_bezier pts) t1 Hne) as (l & r & Es & Hl & Hr & Hv); [lra|].
    rewrite E, Es, bind_Ok. exists l. split; [reflexivity|]. cbn [bz_pts mk_bezier] in *. split; [congruence|].
    intros s. rewrite (proj1 (Hv s)). f_equal. subst. ring.
  - destruct (bezier_deg3 d pts t0 Hn) as (_ & _ & _ & E).
    destruct (bezier_split d (mk_bezier pts) t0 Hne) as (l & r & Es & Hl & Hr & Hv); [lra|].
    rewrite E, Es, bind_Ok. exists r. split; [reflexivity|]. cbn [bz_pts mk_bezier] in *. split; [congruence|].
    intros s. rewrite (proj2 (Hv s)). f_equal. subst. ring.
  - lra.
Qed.

(** * Degree elevation *)
Lemma bezier_elevate d (cv : bezier (vec R d)) : bz_pts cv <> [] ->
  exists l, bz_elevate_degree cv = Ok {| bz_pts := l; bz_periodic := bz_periodic cv |} /\
    length l = S (length (bz_pts cv)) /\
    forall t, bernstein_curve l t = bernstein_curve (bz_pts cv) t.
Proof.
  intros H. destruct (nonempty_length _ H) as [n Hn].
  pose proof (arr_pts (bz_pts cv) n Hn) as Ha.
  destruct (bz_elevate_correct cv (Z.of_nat n) _ Ha) as (l & E & Hl); [lia|].
  exists l. split; [exact E|].
  replace (Z.of_nat n + 2)%Z with (Z.of_nat (S n) + 1)%Z in Hl by lia.
  rewrite (length_of_arr _ _ _ Hl), Hn. split; [reflexivity|]. intros t.
  rewrite <- (tri_bz_curve l (S n) _ t Hl), <- (tri_bz_curve (bz_pts cv) n _ _ Ha).
  apply vec_ext; intros i Hi; rewrite !coord_tri by assumption.
  rewrite <- (bz_elevate_value n (fun k => coord d i (pt_at (bz_pts cv) k))). apply tri_ext; [reflexivity|]. intros j Hj. unfold elev.
  destruct (Z.eqb_spec j 0); [reflexivity|]. destruct (Z.eqb_spec j (Z.of_nat n + 1)); [reflexivity|].
  now rewrite coord_add, !coord_mul by assumption.
Qed.

Fixpoint repeat_res {A} (k : nat) (f : A -> res A) (a : A) : res A :=
  match k with O => Ok a | S k' => bind (f a) (repeat_res k' f) end.

Lemma bezier_elevate_iter d k (cv : bezier (vec R d)) : bz_pts cv <> [] ->
  exists l, repeat_res k bz_elevate_degree cv = Ok {| bz_pts := l; bz_periodic := bz_periodic cv |} /\
    length l = (k + length (bz_pts cv))%nat /\
    forall t, bernstein_curve l t = bernstein_curve (bz_pts cv) t.
Proof.
  revert cv; induction k as [|k IH]; intros cv H.
  - exists (bz_pts cv). split; [destruct cv; reflexivity|]. split; reflexivity.
  - destruct (bezier_elevate d cv H) as (l & E & Hl & Hv).
    cbn [repeat_res]. rewrite E, bind_Ok.
    destruct (IH {| bz_pts := l; bz_periodic := bz_periodic cv |}) as (l' & E' & Hl' & Hv').
    { simpl. destruct l; [discriminate|congruence]. }
    exists l'. split; [exact E'|]. simpl in *. split; [lia|]. intros t. now rewrite Hv', Hv.
Qed.

Ltac list_field := repeat match goal with |- (_ :: _) = (_ :: _) => apply f_equal2; [try reflexivity; vext; field|] end;
  reflexivity.

Lemma bz1_elevate_same d (cv : bezier (vec R d)) : length (bz_pts cv) = 2%nat -> bz1_elevate_degree cv = bz_elevate_degree cv.
Proof.
  intros H. destruct (bz_elevate_correct cv 1 _ (arr_pts (bz_pts cv) 1 H)) as (l & E & Hl); [lia|].
  rewrite E. apply arr_eq in Hl. subst l. destruct cv as [pts per]. cbn [bz_pts] in *. len_cases pts.
  unfold bz1_elevate_degree, pdivs, bz_pts, bz_periodic. simpl seq_. rewrite !Reqb_false by lra. 
  change (get [v; v0] 0) with (Ok v). change (get [v; v0] 1) with (Ok v0). cbn [bind].
  f_equal. f_equal. unfold mklist, pt_at. change (Z.to_nat (1 + 2)) with 3%nat. cbn -[vec_ops]. pos_nat. cbn -[vec_ops].
  list_field.
Qed.

Lemma bz2_elevate_same d (cv : bezier (vec R d)) : length (bz_pts cv) = 3%nat -> bz2_elevate_degree cv = bz_elevate_degree cv.
Proof.
  intros H. destruct (bz_elevate_correct cv 2 _ (arr_pts (bz_pts cv) 2 H)) as (l & E & Hl); [lia|].
  rewrite E. apply arr_eq in Hl. subst l. destruct cv as [pts per]. cbn [bz_pts] in *. len_cases pts.
  unfold bz2_elevate_degree, pdivs, bz_pts, bz_periodic. simpl seq_. rewrite !Reqb_false by lra.
  change (get [v; v0; v1] 0) with (Ok v). change (get [v; v0; v1] 1) with (Ok v0). change (get [v; v0; v1] 2) with (Ok v1). cbn [bind].
  f_equal. f_equal. unfold mklist, pt_at. change (Z.to_nat (2 + 2)) with 4%nat. cbn -[vec_ops]. pos_nat. cbn -[vec_ops].
  list_field.
Qed.

Lemma bz3_elevate_same d (cv : bezier (vec R d)) : length (bz_pts cv) = 4%nat -> bz3_elevate_degree cv = bz_elevate_degree cv.
Proof.
  intros H. destruct (bz_elevate_correct cv 3 _ (arr_pts (bz_pts cv) 3 H)) as (l & E & Hl); [lia|].
  rewrite E. apply arr_eq in Hl. subst l. destruct cv as [pts per]. cbn [bz_pts] in *. len_cases pts.
  unfold bz3_elevate_degree, pdivs, bz_pts, bz_periodic. simpl seq_. rewrite !Reqb_false by lra.
  change (get [v; v0; v1; v2] 0) with (Ok v). change (get [v; v0; v1; v2] 1) with (Ok v0).
  change (get [v; v0; v1; v2] 2) with (Ok v1). change (get [v; v0; v1; v2] 3) with (Ok v2). cbn [bind].
  f_equal. f_equal. unfold mklist, pt_at. change (Z.to_nat (3 + 2)) with 5%nat. cbn -[vec_ops]. pos_nat. cbn -[vec_ops].
  list_field.
Qed.

(** * Periodic curves *)
Definition per_bezier {P} (pts : list P) : bezier P := {| bz_pts := pts; bz_periodic := true |}.

Lemma per_unwrap {P} (pts : list P) (t : R) : bz_unwrap (per_bezier pts) t = unwrap_parameter true 0 1 t.
Proof. reflexivity. Qed.

Lemma bezier_periodic d (pts : list (vec R d)) t : 
  exists (u : R) (k : Z), u = t - IZR k /\ 0 <= u < 1 /\
    bz_evaluate (per_bezier pts) t = bz_evaluate (mk_bezier pts) u /\
    bz_evaluate_derivative (per_bezier pts) t = bz_evaluate_derivative (mk_bezier pts) u /\
    bz_evaluate_2nd_derivative (per_bezier pts) t = bz_evaluate_2nd_derivative (mk_bezier pts) u /\
    bz2_evaluate (per_bezier pts) t = bz2_evaluate (mk_bezier pts) u /\
    bz2_evaluate_derivative (per_bezier pts) t = bz2_evaluate_derivative (mk_bezier pts) u /\
    bz2_evaluate_2nd_derivative (per_bezier pts) t = bz2_evaluate_2nd_derivative (mk_bezier pts) u /\
    bz3_evaluate (per_bezier pts) t = bz3_evaluate (mk_bezier pts) u /\
    bz3_evaluate_derivative (per_bezier pts) t = bz3_evaluate_derivative (mk_bezier pts) u /\
    bz3_evaluate_2nd_derivative (per_bezier pts) t = bz3_evaluate_2nd_derivative (mk_bezier pts) u.
Proof.
  destruct (unwrap_correct 0 1 t ltac:(lra)) as (u & k & E & Hu & Hr).
  exists u, k. split; [rewrite Hu; ring|]. split; [assumption|].
  unfold bz_evaluate, bz_evaluate_derivative, bz_evaluate_2nd_derivative, bz2_evaluate, bz2_evaluate_derivative,
    bz2_evaluate_2nd_derivative, bz3_evaluate, bz3_evaluate_derivative, bz3_evaluate_2nd_derivative.
  rewrite per_unwrap, nonper_unwrap, E. repeat split.
Qed.

Lemma bezier_periodic_shift d (pts : list (vec R d)) t (m : Z) :
    bz_evaluate (per_bezier pts) (t + IZR m) = bz_evaluate (per_bezier pts) t /\
    bz_evaluate_derivative (per_bezier pts) (t + IZR m) = bz_evaluate_derivative (per_bezier pts) t /\
    bz_evaluate_2nd_derivative (per_bezier pts) (t + IZR m) = bz_evaluate_2nd_derivative (per_bezier pts) t.
Proof.
  unfold bz_evaluate, bz_evaluate_derivative, bz_evaluate_2nd_derivative. rewrite !per_unwrap.
  pose proof (unwrap_periodic 0 1 t m ltac:(lra)) as E.
  replace (t + IZR m * (1 - 0)) with (t + IZR m) in E by ring. rewrite E. repeat split.
Qed.

(** * Hodograph *)
Lemma is_closed_Ok {P} {V : PointOps R P} (ops : curve_ops R P) a b da db tol :
  c_eval ops (c_lower ops) = Ok a -> c_eval ops (c_upper ops) = Ok b ->
  c_d1 ops (c_lower ops) = Ok da -> c_d1 ops (c_upper ops) = Ok db ->
  exists r, is_closed ops 1 tol = Ok r.
Proof.
  intros Ea Eb Eda Edb. unfold is_closed. rewrite Ea, Eb, !bind_Ok. cbn [Z.leb Z.compare Pos.compare Pos.compare_cont].
  rewrite Eda, Edb, !bind_Ok. eexists; reflexivity.
Qed.

Lemma bz_hodograph_loop d (pts : list (vec R d)) n : length pts = S (S n) ->
  exists o, for_up 0 (zlen pts - 1) (fun i out =>
        bind (get pts (i + 1)%Z) (fun a => bind (get pts i) (fun b =>
        set out i (pmul (sofZ (zlen pts - 1)) (psub a b))))) (repeat p0 (Z.to_nat (zlen pts - 1))) = Ok o /\
    arr o (Z.of_nat n + 1) (fun i => pmul (IZR (Z.of_nat (S n))) (psub (pt_at pts (i + 1)) (pt_at pts i))).
Proof.
  intros Hn. pose proof (arr_pts pts (S n) Hn) as Ha.
  assert (HL : (zlen pts - 1)%Z = Z.of_nat (S n)) by (unfold zlen; lia). rewrite HL.
  replace (Z.of_nat n + 1)%Z with (Z.of_nat (S n)) by lia.
  destruct (for_up_inv (fun i0 s => exists f, arr s (Z.of_nat (S n)) f /\ forall i, (0 <= i < i0)%Z ->
     f i = pmul (IZR (Z.of_nat (S n))) (psub (pt_at pts (i + 1)) (pt_at pts i))) 0 (Z.of_nat (S n))
     (fun i out => bind (get pts (i + 1)%Z) (fun a => bind (get pts i) (fun b =>
        set out i (pmul (sofZ (Z.of_nat (S n))) (psub a b))))) (repeat p0 (Z.to_nat (Z.of_nat (S n)))))
    as (o & E & f & Hf & Ff).
  - lia.
  - destruct (arr_alloc (p0 : vec R d) (Z.of_nat (S n))) as (l & El & Hl); [lia|].
    unfold alloc in El. destruct (Z.leb_spec 0 (Z.of_nat (S n))); [|lia]. injection El as <-.
    eexists; split; [exact Hl|]. intros; lia.
  - intros i s Hi (f & Hf & Ff).
    rewrite (arr_get _ _ _ (i + 1) Ha), bind_Ok by lia. rewrite (arr_get _ _ _ i Ha), bind_Ok by lia.
    match goal with |- exists s', set _ _ ?v = _ /\ _ => destruct (arr_set s _ f i v Hf) as (s3 & E3 & H3); [lia|] end.
    exists s3. split; [exact E3|]. eexists; split; [exact H3|]. intros j Hj. unfold fupd.
    destruct (Z.eqb_spec j i) as [->|]; [reflexivity|]. apply Ff. lia.
  - exists o. split; [exact E|]. eapply arr_ext; [exact Hf|]. intros. now apply Ff.
Qed.

Lemma bezier_hodograph d (cv : bezier (vec R d)) : bz_pts cv <> [] ->
  exists h, bz_hodograph cv = Ok h /\
    length (bz_pts h) = Nat.max 1 (length (bz_pts cv) - 1) /\
    (bz_periodic cv = false -> bz_periodic h = false) /\
    forall t, (bz_periodic cv = false \/ 0 <= t < 1) -> bz_evaluate h t = bz_evaluate_derivative cv t.
Proof.
  intros H. destruct (nonempty_length _ H) as [n Hn]. destruct cv as [pts per]. cbn [bz_pts] in *.
  destruct n as [|n].
  - len_cases pts. exists (mk_bezier [p0]). repeat split.
    intros t Ht. cbn [bz_periodic] in Ht. unfold bz_evaluate_derivative.
    assert (Eu : exists u, bz_unwrap {| bz_pts := [v]; bz_periodic := per |} t = Ok u).
    { destruct per; [|eexists; reflexivity]. destruct Ht as [Ht|Ht]; [discriminate|].
      exists t. change (unwrap_parameter true 0 1 t = Ok t). apply unwrap_in. lra. }
    destruct Eu as (u & Eu). rewrite Eu. reflexivity.
  - unfold bz_hodograph. cbn [bz_pts bz_periodic].
    assert (HL : zlen pts = Z.of_nat (S (S n))) by (unfold zlen; lia).
    unfold alloc. destruct (Z.leb_spec 0 (zlen pts - 1)); [|lia]. rewrite bind_Ok.
    destruct (Z.eqb_spec (zlen pts) 1); [lia|].
    destruct (bz_hodograph_loop d pts n Hn) as (o & Eo & Ho). rewrite Eo, bind_Ok.
    assert (Ec : exists b, (if per then is_closed (bz_ops {| bz_pts := pts; bz_periodic := per |}) 1 seps else Ok false) = Ok b).
    { destruct per; [|eexists; reflexivity].
      destruct (bezier_periodic d pts 0) as (u0 & k0 & _ & _ & Ee0 & Ed0 & _).
      destruct (bezier_periodic d pts 1) as (u1 & k1 & _ & _ & Ee1 & Ed1 & _).
      rewrite bezier_bernstein in Ee0, Ee1 by assumption. rewrite (bez_d1_gen d pts n) in Ed0, Ed1 by assumption.
      eapply is_closed_Ok; [exact Ee0|exact Ee1|exact Ed0|exact Ed1]. }
    destruct Ec as (b & Ec). rewrite Ec, bind_Ok. eexists. split; [reflexivity|]. cbn [bz_pts bz_periodic].
    split; [rewrite (length_of_arr _ _ _ Ho), Hn; lia|]. split; [intros ->; reflexivity|].
    intros t Ht.
    assert (E1 : bz_evaluate {| bz_pts := o; bz_periodic := per && b |} t = bz_evaluate (mk_bezier o) t).
    { destruct (per && b)%bool eqn:Epb; [|reflexivity].
      apply Bool.andb_true_iff in Epb. destruct Epb as [-> ->]. destruct Ht as [Ht|Ht]; [discriminate|].
      unfold bz_evaluate. change (bz_unwrap {| bz_pts := o; bz_periodic := true |} t) with (unwrap_parameter true 0 1 t).
      rewrite unwrap_in by lra. reflexivity. }
    rewrite E1. rewrite (arr_bezier d (mk_bezier o) n _ t eq_refl Ho).
    rewrite <- (bez_d1_gen d pts n t Hn).
    destruct per; [|reflexivity]. destruct Ht as [Ht|Ht]; [discriminate|].
    unfold bz_evaluate_derivative. change (bz_unwrap {| bz_pts := pts; bz_periodic := true |} t) with (unwrap_parameter true 0 1 t).
    rewrite unwrap_in by lra. reflexivity.
Qed.
