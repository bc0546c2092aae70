(** Bezier lemmas in the exact form of the property theorems. *)
From Coq Require Import Reals Lra Lia ZArith List.
From Verif Require Import Monad MonadFacts Scalar ScalarFacts Spec SpecFacts ModelCurve ModelBezier BezierThms.
Import ListNotations.
Local Open Scope R_scope.

Lemma ne_len {A} (l l' : list A) : l <> [] -> length l' = length l -> l' <> [].
Proof. destruct l, l'; simpl; congruence. Qed.

Lemma ne_len_S {A} (l : list A) n : length l = S n -> l <> [].
Proof. destruct l; simpl; congruence. Qed.

Lemma bezier_split_eval d (pts : list (vec R d)) t : pts <> [] -> 0 < t < 1 ->
  exists l r : list (vec R d),
    bz_split (mk_bezier pts) t = Ok [mk_bezier l; mk_bezier r] /\
    length l = length pts /\ length r = length pts /\
    forall s, bz_evaluate (mk_bezier l) s = bz_evaluate (mk_bezier pts) (t * s) /\
              bz_evaluate (mk_bezier r) s = bz_evaluate (mk_bezier pts) (t + (1 - t) * s).
Proof.
  intros H Ht. destruct (bezier_split d (mk_bezier pts) t H Ht) as (l & r & E & Hl & Hr & Hv).
  exists l, r. cbn [bz_pts mk_bezier] in *. repeat (split; [assumption|]). intros s.
  rewrite !bezier_bernstein by (eauto using ne_len). rewrite (proj1 (Hv s)), (proj2 (Hv s)). now split.
Qed.

Lemma free_split d (pts : list (vec R d)) t : pts <> [] ->
  (0 < t < 1 -> split_bezier bz_split (mk_bezier pts) t = bz_split (mk_bezier pts) t) /\
  (t = 0 \/ t = 1 -> split_bezier bz_split (mk_bezier pts) t = Ok [mk_bezier pts]) /\
  (t < - / IZR (2 ^ 52) \/ 1 + / IZR (2 ^ 52) < t ->
     split_bezier bz_split (mk_bezier pts) t = Throw invalid_setting_error).
Proof.
  intros H. pose proof seps_pos as Hp. rewrite <- seps_R.
  unfold split_bezier, bz_in_domain, bz_lower, bz_upper. generalize dependent (seps : R). intros e Hp. simpl sle; simpl seq_; simpl ssub; simpl sadd; cbn [s0 s1 R_ops].
  split; [|split].
  - intros Ht. rewrite !Rleb_true, !Reqb_false by lra. cbn [andb negb].
    destruct (bezier_split d (mk_bezier pts) t H Ht) as (l & r & E & _). rewrite E. reflexivity.
  - intros Ht. rewrite !Rleb_true by lra. cbn [andb negb].
    destruct (Reqb_spec t 0); [reflexivity|]. rewrite Reqb_true by lra. reflexivity.
  - intros [Ht|Ht].
    + rewrite Rleb_false by lra. reflexivity.
    + rewrite (Rleb_false t) by lra. rewrite Bool.andb_false_r. reflexivity.
Qed.

Lemma free_split_ub d (pts : list (vec R d)) t :
  - / IZR (2 ^ 52) <= t < 0 \/ 1 < t <= 1 + / IZR (2 ^ 52) ->
  split_bezier bz_split (mk_bezier pts) t = Undef.
Proof.
  rewrite <- seps_R. pose proof seps_pos as Hp.
  unfold split_bezier, bz_in_domain, bz_lower, bz_upper. generalize dependent (seps : R). intros e Hp Ht. simpl sle; simpl seq_; simpl ssub; simpl sadd; cbn [s0 s1 R_ops].
  rewrite !Rleb_true, !Reqb_false by lra. cbn [andb negb].
  rewrite bezier_split_trivial by lra. reflexivity.
Qed.

Lemma eps_band : - / IZR (2 ^ 52) <= - / IZR (2 ^ 53) < 0.
Proof.
  replace (IZR (2 ^ 53)) with (2 * IZR (2 ^ 52)) by (rewrite <- mult_IZR; reflexivity).
  assert (0 < IZR (2 ^ 52)) by (apply IZR_lt; reflexivity).
  assert (0 < / IZR (2 ^ 52)) by now apply Rinv_0_lt_compat.
  rewrite Rinv_mult. lra.
Qed.

Lemma bezier_subcurve_eval d (pts : list (vec R d)) t0 t1 :
  pts <> [] -> 0 <= t0 <= t1 -> t1 <= 1 ->
  exists l : list (vec R d),
    bz_subcurve (mk_bezier pts) t0 t1 = Ok (mk_bezier l) /\ length l = length pts /\
    forall s, bz_evaluate (mk_bezier l) s = bz_evaluate (mk_bezier pts) (t0 + s * (t1 - t0)).
Proof.
  intros H H0 H1. destruct (bezier_subcurve d (mk_bezier pts) t0 t1 H H0 H1) as (l & E & Hl & Hv).
  exists l. cbn [bz_pts mk_bezier] in *. repeat (split; [assumption|]). intros s.
  rewrite !bezier_bernstein by (eauto using ne_len). now rewrite Hv.
Qed.

Lemma bezier3_subcurve_value_eval d (pts : list (vec R d)) t0 t1 :
  length pts = 4%nat -> 0 < t0 < 1 -> t0 <= t1 < 1 ->
  exists l, bz3_subcurve (mk_bezier pts) t0 t1 = Ok (mk_bezier l) /\ length l = 4%nat /\
    forall s, bz_evaluate (mk_bezier l) s = bz_evaluate (mk_bezier pts) (t0 + (1 - t0) * (t1 * s)).
Proof.
  intros H H0 H1. destruct (bezier3_subcurve_value d pts t0 t1 H H0 H1) as (l & E & Hl & Hv).
  exists l. repeat (split; [assumption|]). intros s.
  rewrite !bezier_bernstein by (eauto using ne_len_S). now rewrite Hv.
Qed.

Lemma bezier3_subcurve_ends_eval d (pts : list (vec R d)) t0 t1 : length pts = 4%nat ->
  (t0 = 0 /\ 0 < t1 <= 1) \/ (0 <= t0 < 1 /\ t1 = 1) ->
  exists l, bz3_subcurve (mk_bezier pts) t0 t1 = Ok (mk_bezier l) /\ length l = 4%nat /\
    forall s, bz_evaluate (mk_bezier l) s = bz_evaluate (mk_bezier pts) (t0 + s * (t1 - t0)).
Proof.
  intros H H0. destruct (bezier3_subcurve_ends d pts t0 t1 H H0) as (l & E & Hl & Hv).
  exists l. repeat (split; [assumption|]). intros s.
  rewrite !bezier_bernstein by (eauto using ne_len_S). now rewrite Hv.
Qed.

Definition v1 (x : R) : vec R 1 := (x, tt).

Lemma cubic_subcurve_wrong :
  exists (pts : list (vec R 1)) t0 t1 s, length pts = 4%nat /\ 0 <= t0 <= t1 /\ t1 <= 1 /\ 0 <= s <= 1 /\
    exists sub, bz3_subcurve (mk_bezier pts) t0 t1 = Ok sub /\
      bz3_evaluate sub s <> bz3_evaluate (mk_bezier pts) (t0 + s * (t1 - t0)).
Proof.
  exists [v1 0; v1 1; v1 2; v1 3], (1/4), (1/2), 1.
  split; [reflexivity|]. split; [lra|]. split; [lra|]. split; [lra|].
  set (pts := [v1 0; v1 1; v1 2; v1 3]).
  destruct (bezier3_subcurve_value_eval 1 pts (1/4) (1/2)) as (l & E & Hl & Hv); [reflexivity|lra|lra|].
  exists (mk_bezier l). split; [exact E|].
  rewrite (proj1 (bezier_deg3 1 l 1 Hl)), Hv.
  rewrite <- (proj1 (bezier_deg3 1 pts _ eq_refl)).
  unfold bz3_evaluate, pts. cbn [bz_unwrap bz_pts bz_periodic mk_bezier bind].
  change (get [v1 0; v1 1; v1 2; v1 3] 0) with (Ok (v1 0)). change (get [v1 0; v1 1; v1 2; v1 3] 1) with (Ok (v1 1)).
  change (get [v1 0; v1 1; v1 2; v1 3] 2) with (Ok (v1 2)). change (get [v1 0; v1 1; v1 2; v1 3] 3) with (Ok (v1 3)).
  cbn. intros Heq. injection Heq. lra.
Qed.

Lemma cubic_subcurve_ub d (pts : list (vec R d)) : length pts = 4%nat ->
  bz3_subcurve (mk_bezier pts) 1 1 = Undef /\ bz3_subcurve (mk_bezier pts) 0 0 = Ok (mk_bezier pts).
Proof.
  intros H. unfold bz3_subcurve, bz_lower, bz_upper. simpl slt; simpl seq_; cbn [s0 s1 R_ops].
  rewrite !Rltb_false by lra.
  rewrite (Reqb_false 1 0), (Reqb_true 1 1), (Reqb_true 0 0), (Reqb_false 0 1) by lra. cbn [andb].
  rewrite (proj2 (proj2 (proj2 (bezier_deg3 d pts 1 H)))), (proj2 (proj2 (proj2 (bezier_deg3 d pts 0 H)))).
  rewrite !bezier_split_trivial by lra. now split.
Qed.

Lemma bezier_elevate_eval d k (pts : list (vec R d)) : pts <> [] ->
  exists l, repeat_res k bz_elevate_degree (mk_bezier pts) = Ok (mk_bezier l) /\
    length l = (k + length pts)%nat /\
    forall t, bz_evaluate (mk_bezier l) t = bz_evaluate (mk_bezier pts) t.
Proof.
  intros H. destruct (bezier_elevate_iter d k (mk_bezier pts) H) as (l & E & Hl & Hv).
  exists l. cbn [bz_pts mk_bezier] in *. repeat (split; [assumption|]). intros t.
  assert (Hne : l <> []) by (destruct pts, l; simpl in *; [congruence|congruence|lia|congruence]).
  rewrite !bezier_bernstein by assumption. now rewrite Hv.
Qed.

Lemma elevate_specialised d (c : bezier (vec R d)) :
  (length (bz_pts c) = 1%nat -> bz0_elevate_degree c = bz_elevate_degree c) /\
  (length (bz_pts c) = 2%nat -> bz1_elevate_degree c = bz_elevate_degree c) /\
  (length (bz_pts c) = 3%nat -> bz2_elevate_degree c = bz_elevate_degree c) /\
  (length (bz_pts c) = 4%nat -> bz3_elevate_degree c = bz_elevate_degree c).
Proof.
  split; [|split; [apply bz1_elevate_same|split; [apply bz2_elevate_same|apply bz3_elevate_same]]].
  intros H. destruct c as [pts per]. cbn [bz_pts] in H. len_cases pts. reflexivity.
Qed.

Lemma linear_not_periodic :
  exists (pts : list (vec R 1)) t, length pts = 2%nat /\
    let c := {| bz_pts := pts; bz_periodic := true |} in
    bz1_evaluate c (t + 1) <> bz1_evaluate c t.
Proof.
  exists [v1 0; v1 1], 0. split; [reflexivity|]. cbn. intros E. injection E. lra.
Qed.
