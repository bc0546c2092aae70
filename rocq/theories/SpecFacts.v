(** Facts about the specification notions. *)
From Coq Require Import Reals Lra Lia ZArith List Psatz.
From Verif Require Import Monad MonadFacts Scalar ScalarFacts Spec.
Import ListNotations.
Local Open Scope R_scope.

Lemma psum_ext {P} {V : PointOps R P} n (f g : nat -> P) :
  (forall i, (i < n)%nat -> f i = g i) -> psum n f = psum n g.
Proof.
  induction n as [|n IH]; intros H; simpl; [reflexivity|].
  rewrite IH by (intros; apply H; lia). now rewrite H by lia.
Qed.

Lemma rsum_ext n (f g : nat -> R) : (forall i, (i < n)%nat -> f i = g i) -> rsum n f = rsum n g.
Proof. apply psum_ext. Qed.

Lemma linmap_psum {P P'} {V : PointOps R P} {V' : PointOps R P'} (f : P -> P') n g :
  linmap f -> f (psum n g) = psum n (fun i => f (g i)).
Proof.
  intros H. induction n as [|n IH]; simpl; [apply (lm_0 f H)|].
  rewrite (lm_add f H), IH. reflexivity.
Qed.

Lemma coord_psum {d} i n (g : nat -> vec R d) :
  (i < d)%nat -> coord d i (psum n g) = rsum n (fun j => coord d i (g j)).
Proof. intros H. apply linmap_psum. now apply coord_linmap. Qed.

Lemma rsum_S n f : rsum (S n) f = rsum n f + f n.
Proof. reflexivity. Qed.

Lemma rsum_shift n f : rsum (S n) f = f O + rsum n (fun i => f (S i)).
Proof.
  induction n as [|n IH]; [unfold rsum; simpl; ring|].
  rewrite rsum_S, IH, rsum_S. ring.
Qed.

Lemma rsum_plus n f g : rsum n (fun i => f i + g i) = rsum n f + rsum n g.
Proof. induction n as [|n IH]; [unfold rsum; simpl; ring|]. rewrite !rsum_S, IH. ring. Qed.

Lemma rsum_minus n f g : rsum n (fun i => f i - g i) = rsum n f - rsum n g.
Proof. induction n as [|n IH]; [unfold rsum; simpl; ring|]. rewrite !rsum_S, IH. ring. Qed.

Lemma rsum_scal n a f : rsum n (fun i => a * f i) = a * rsum n f.
Proof. induction n as [|n IH]; [unfold rsum; simpl; ring|]. rewrite !rsum_S, IH. ring. Qed.

Lemma rsum_0 n f : (forall i, (i < n)%nat -> f i = 0) -> rsum n f = 0.
Proof.
  intros H. induction n as [|n IH]; [reflexivity|].
  rewrite rsum_S, IH by (intros; apply H; lia). rewrite H by lia. ring.
Qed.

Lemma rsum_app n m f : rsum (n + m) f = rsum n f + rsum m (fun i => f (n + i)%nat).
Proof.
  induction m as [|m IH].
  - rewrite Nat.add_0_r. unfold rsum at 3; simpl. ring.
  - rewrite Nat.add_succ_r, !rsum_S, IH. ring.
Qed.

Lemma rsum_nonneg n f : (forall i, (i < n)%nat -> 0 <= f i) -> 0 <= rsum n f.
Proof.
  intros H. induction n as [|n IH]; [unfold rsum; simpl; lra|].
  rewrite rsum_S. assert (0 <= f n) by (apply H; lia).
  assert (0 <= rsum n f) by (apply IH; intros; apply H; lia). lra.
Qed.

Lemma rsum_const n a : rsum n (fun _ => a) = INR n * a.
Proof. induction n as [|n IH]; [unfold rsum; simpl; ring|]. rewrite rsum_S, IH, S_INR. ring. Qed.

Lemma rsum_swap n m f :
  rsum n (fun i => rsum m (fun j => f i j)) = rsum m (fun j => rsum n (fun i => f i j)).
Proof.
  induction n as [|n IH].
  - symmetry. apply rsum_0. intros; reflexivity.
  - rewrite rsum_S, IH, <- rsum_plus. reflexivity.
Qed.

(** A single non-zero term. *)
Lemma rsum_single n f k : (k < n)%nat -> (forall i, (i < n)%nat -> i <> k -> f i = 0) -> rsum n f = f k.
Proof.
  intros Hk H. induction n as [|n IH]; [lia|]. rewrite rsum_S.
  destruct (Nat.eq_dec k n) as [->|Hne].
  - rewrite rsum_0; [ring|]. intros i Hi. apply H; lia.
  - rewrite IH; [|lia|intros; apply H; lia]. rewrite (H n) by lia. ring.
Qed.

(** Binomial coefficients and Bernstein polynomials *)
Lemma C_n_0 n : C n 0 = 1.
Proof. unfold C. rewrite Nat.sub_0_r. simpl. field. apply INR_fact_neq_0. Qed.
Lemma C_n_n n : C n n = 1.
Proof. unfold C. rewrite Nat.sub_diag. simpl. field. apply INR_fact_neq_0. Qed.

Lemma C_nonneg n i : 0 <= C n i.
Proof.
  unfold C, Rdiv. apply Rmult_le_pos.
  - apply pos_INR.
  - left. apply Rinv_0_lt_compat.
    apply Rmult_lt_0_compat; apply lt_0_INR; apply lt_O_fact.
Qed.

Lemma bernstein_0 n t : bernstein (S n) 0 t = (1 - t) * bernstein n 0 t.
Proof. unfold bernstein. rewrite !C_n_0, !Nat.sub_0_r. simpl. ring. Qed.
Lemma bernstein_n n t : bernstein (S n) (S n) t = t * bernstein n n t.
Proof. unfold bernstein. rewrite !C_n_n, !Nat.sub_diag. simpl. ring. Qed.
Lemma bernstein_rec n i t : (i < n)%nat ->
  bernstein (S n) (S i) t = (1 - t) * bernstein n (S i) t + t * bernstein n i t.
Proof.
  intros H. unfold bernstein. rewrite <- pascal by lia.
  replace (S n - S i)%nat with (S (n - S i)) by lia.
  replace (n - i)%nat with (S (n - S i)) by lia.
  simpl. ring.
Qed.

(** The recursion in summed form: the de Casteljau step. *)
Lemma bernstein_sum_step n t (c : nat -> R) :
  rsum (S (S n)) (fun i => bernstein (S n) i t * c i)
  = (1 - t) * rsum (S n) (fun i => bernstein n i t * c i)
    + t * rsum (S n) (fun i => bernstein n i t * c (S i)).
Proof.
  rewrite rsum_shift. rewrite (rsum_S n). rewrite bernstein_0, bernstein_n.
  rewrite (rsum_shift n (fun i => bernstein n i t * c i)).
  rewrite (rsum_S n (fun i => bernstein n i t * c (S i))).
  rewrite (rsum_ext n _ (fun i => (1 - t) * (bernstein n (S i) t * c (S i))
                              + t * (bernstein n i t * c (S i)))).
  - rewrite rsum_plus, !rsum_scal. ring.
  - intros i Hi. rewrite bernstein_rec by lia. ring.
Qed.

Lemma bernstein_partition n t : rsum (S n) (fun i => bernstein n i t) = 1.
Proof.
  induction n as [|n IH].
  - unfold rsum, bernstein; simpl. rewrite C_n_0. ring.
  - rewrite (rsum_ext _ _ (fun i => bernstein (S n) i t * 1)) by (intros; ring).
    rewrite (bernstein_sum_step n t (fun _ => 1)).
    rewrite (rsum_ext (S n) _ (fun i => bernstein n i t)) by (intros; ring).
    rewrite IH. ring.
Qed.

Lemma bernstein_nonneg n i t : 0 <= t <= 1 -> 0 <= bernstein n i t.
Proof.
  intros H. unfold bernstein. apply Rmult_le_pos; [apply Rmult_le_pos|].
  - apply C_nonneg.
  - apply pow_le; lra.
  - apply pow_le; lra.
Qed.

(** Degree raising identities. *)
Lemma bernstein_raise0 n i t : (i <= n)%nat ->
  (1 - t) * bernstein n i t = (1 - INR i / INR (S n)) * bernstein (S n) i t.
Proof.
  intros H. unfold bernstein, C.
  replace (S n - i)%nat with (S (n - i)) by lia.
  rewrite !fact_simpl, !mult_INR. rewrite (S_INR (n - i)), minus_INR by lia. rewrite S_INR.
  assert (H1 : INR (fact i) <> 0) by apply INR_fact_neq_0.
  assert (H2 : INR (fact (n - i)) <> 0) by apply INR_fact_neq_0.
  assert (H3 : INR n + 1 <> 0) by (pose proof (pos_INR n); lra).
  assert (H4 : INR n - INR i + 1 <> 0).
  { apply le_INR in H. lra. }
  simpl pow. field. auto.
Qed.

Lemma bernstein_raise1 n i t : (i <= n)%nat ->
  t * bernstein n i t = (INR (S i) / INR (S n)) * bernstein (S n) (S i) t.
Proof.
  intros H. unfold bernstein, C.
  replace (S n - S i)%nat with (n - i)%nat by lia.
  rewrite !fact_simpl, !mult_INR. rewrite !S_INR.
  assert (H1 : INR (fact i) <> 0) by apply INR_fact_neq_0.
  assert (H2 : INR (fact (n - i)) <> 0) by apply INR_fact_neq_0.
  assert (H3 : INR n + 1 <> 0) by (pose proof (pos_INR n); lra).
  assert (H4 : INR i + 1 <> 0) by (pose proof (pos_INR i); lra).
  simpl pow. field. auto.
Qed.

(** Derivatives of functions that agree. *)
Lemma derivable_pt_lim_ext f g t l :
  (forall x, f x = g x) -> derivable_pt_lim f t l -> derivable_pt_lim g t l.
Proof.
  intros E H eps Heps. destruct (H eps Heps) as [del Hdel]. exists del.
  intros h Hh Hd. rewrite <- !E. now apply Hdel.
Qed.

Lemma derivable_pt_lim_ext_loc f g t l r :
  0 < r -> (forall x, Rabs (x - t) < r -> f x = g x) -> derivable_pt_lim f t l -> derivable_pt_lim g t l.
Proof.
  intros Hr E H eps Heps. destruct (H eps Heps) as [del Hdel].
  assert (Hm : 0 < Rmin del r) by (apply Rmin_glb_lt; [apply cond_pos|exact Hr]).
  exists (mkposreal _ Hm). simpl. intros h Hh Hd.
  rewrite <- !E.
  - apply Hdel; [exact Hh|]. apply Rlt_le_trans with (1 := Hd). apply Rmin_l.
  - unfold Rminus. rewrite Rplus_opp_r, Rabs_R0. exact Hr.
  - replace (t + h - t) with h by ring. apply Rlt_le_trans with (1 := Hd). apply Rmin_r.
Qed.

Lemma deriv_within_of_deriv D f t l : derivable_pt_lim f t l -> deriv_within D f t l.
Proof.
  intros H eps Heps. destruct (H eps Heps) as [del Hdel]. exists del.
  split; [apply cond_pos|]. intros h Hh Hd _. now apply Hdel.
Qed.

Lemma deriv_within_ext (D : R -> Prop) f g t l :
  f t = g t -> (forall x, D x -> f x = g x) -> deriv_within D f t l -> deriv_within D g t l.
Proof.
  intros E0 E H eps Heps. destruct (H eps Heps) as (del & Hp & Hdel). exists del.
  split; [exact Hp|]. intros h Hh Hd HD. rewrite <- E0, <- E by exact HD. now apply Hdel.
Qed.
