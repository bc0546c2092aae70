(** Bezier simplices: interpolation at the control points, final forms of the theorems. *)
From Coq Require Import Reals Lra Lia List Arith Permutation Sorted Psatz.
From Verif Require Import Monad MonadFacts Scalar ScalarFacts Spec SpecFacts SpecGeom SpecSimplex ModelSimplex SimplexThms.
Import ListNotations.
Local Open Scope R_scope.

(** ** Products of linear forms are combinations of Bernstein polynomials *)
Definition span (n d : nat) (f : list R -> R) : Prop :=
  exists x : list nat -> R, forall b, length b = (n + 1)%nat -> f b = sumL (fun a => x a * bern_weight d a b) (idx n d).
Lemma span_plus n d f g : span n d f -> span n d g -> span n d (fun b => f b + g b).
Proof. intros [x Hx] [y Hy]. exists (fun a => x a + y a). intros b Lb. rewrite Hx, Hy, <- sumL_plus by exact Lb. apply sumL_ext. intros; ring. Qed.
Lemma span_scal n d c f : span n d f -> span n d (fun b => c * f b).
Proof. intros [x Hx]. exists (fun a => c * x a). intros b Lb. rewrite Hx, <- sumL_scal by exact Lb. apply sumL_ext. intros; ring. Qed.
Lemma span_ext n d f g : (forall b, length b = (n + 1)%nat -> f b = g b) -> span n d f -> span n d g.
Proof. intros E [x Hx]. exists x. intros b Lb. rewrite <- E, Hx by exact Lb. reflexivity. Qed.
Lemma span_0 n d : span n d (fun _ => 0).
Proof. exists (fun _ => 0). intros b Lb. symmetry. apply sumL_0. intros; ring. Qed.
Lemma span_1 n : span n 0 (fun _ => 1).
Proof. exists (fun _ => 1). intros b Lb. rewrite sumL_scal, weights_sum by exact Lb. cbn. ring. Qed.
(** Bernstein coefficients of b_k f(b): entry c is x(c lowered at k) c_k / (d+1). *)
Fixpoint lower (a : list nat) (k : nat) : list nat := match a, k with [], _ => [] | x :: a', O => (x - 1)%nat :: a' | x :: a', S k' => x :: lower a' k' end.
Lemma lower_raise a : forall k, lower (raise a k) k = a.
Proof. induction a; intros [|k]; cbn [raise lower]; [reflexivity|reflexivity|f_equal; lia|f_equal; apply IHa]. Qed.
Lemma span_coord n d k f : (k < n + 1)%nat -> span n d f -> span n (S d) (fun b => nth k b 0 * f b).
Proof.
  intros Hk [x Hx]. exists (fun c => INR (nth k c 0%nat) / INR (S d) * x (lower c k)). intros b Lb. rewrite Hx by exact Lb. rewrite <- sumL_scal.
  transitivity (sumL (fun a => (fun c => INR (nth k c 0%nat) / INR (S d) * x (lower c k) * bern_weight (S d) c b) (raise a k)) (idx n d)).
  - apply sumL_ext. intros a Ha. cbv beta. pose proof (idx_len _ _ _ Ha) as La. rewrite raise_nth, lower_raise by lia. pose proof (weight_raise d a b k ltac:(lia) ltac:(lia)) as W.
    assert (HS : INR (S d) <> 0) by (apply not_0_INR; lia). apply (Rmult_eq_reg_l (INR (S d))); [|exact HS].
    transitivity (x a * (INR (S d) * (nth k b 0 * bern_weight d a b))); [ring|]. rewrite <- W. field. exact HS.
  - rewrite (casteljau_step n d k (fun c => INR (nth k c 0%nat) / INR (S d) * x (lower c k) * bern_weight (S d) c b) Hk). apply sumL_ext. intros c _.
    destruct (Nat.eqb_spec (nth k c 0%nat) 0) as [->|]; [|reflexivity]. cbn [INR]. unfold Rdiv. ring.
Qed.
Lemma span_linear n d (c : nat -> R) f : span n d f -> span n (S d) (fun b => rsum (n + 1) (fun k => c k * nth k b 0) * f b).
Proof.
  intros Hf. assert (G : forall j, (j <= n + 1)%nat -> span n (S d) (fun b => rsum j (fun k => c k * nth k b 0) * f b)).
  { induction j; intros Hj; [apply (span_ext n (S d) (fun _ => 0)); [intros; unfold rsum; cbn; ring|apply span_0]|].
    apply (span_ext n (S d) (fun b => rsum j (fun k => c k * nth k b 0) * f b + c j * (nth j b 0 * f b))).
    - intros b _. rewrite rsum_S. ring.
    - apply span_plus; [apply IHj; lia|]. apply span_scal. apply span_coord; [lia|exact Hf]. }
  apply G. lia.
Qed.

(** ** Lagrange polynomials of the lattice *)
Fixpoint fall (D x y : R) (k : nat) : R := match k with O => 1 | S k' => fall D x y k' * (D * x - INR k' * y) end.
Fixpoint lagr (D y : R) (a : list nat) (b : list R) : R := match a, b with k :: a', x :: b' => fall D x y k * lagr D y a' b' | _, _ => 1 end.
Lemma rsum_unit n j x : (j < n)%nat -> rsum n (fun k => (if Nat.eq_dec k j then x else 0)) = x.
Proof. intros H. rewrite (rsum_single n _ j H); [destruct (Nat.eq_dec j j); [reflexivity|congruence]|]. intros i _ Hi. destruct (Nat.eq_dec i j); [contradiction|reflexivity]. Qed.
Lemma span_fall n d D j k f : (j < n + 1)%nat -> span n d f -> span n (d + k) (fun b => fall D (nth j b 0) (sumR b) k * f b).
Proof.
  intros Hj Hf. induction k; [rewrite Nat.add_0_r; eapply span_ext; [|exact Hf]; intros; cbn; ring|]. rewrite Nat.add_succ_r.
  eapply span_ext; [|apply (span_linear n (d + k) (fun i => (if Nat.eq_dec i j then D else 0) - INR k)); exact IHk].
  intros b Lb. cbn [fall]. rewrite (rsum_ext _ _ (fun i => (if Nat.eq_dec i j then D * nth j b 0 else 0) - INR k * nth i b 0)) by (intros i _; destruct (Nat.eq_dec i j) as [->|]; ring).
  rewrite rsum_minus, rsum_unit, rsum_scal by exact Hj. rewrite <- Lb, rsum_nth_sumR. ring.
Qed.
Lemma lagr_skipn D y a : forall j b, (j < length a)%nat -> length a = length b ->
  lagr D y (skipn j a) (skipn j b) = fall D (nth j b 0) y (nth j a 0%nat) * lagr D y (skipn (S j) a) (skipn (S j) b).
Proof.
  induction a as [|k a IH]; intros j [|x b] H L; cbn [length] in *; try lia. destruct j; [reflexivity|]. cbn [skipn nth]. rewrite IH by lia. reflexivity.
Qed.
Lemma list_sum_skipn a j : (j < length a)%nat -> list_sum (skipn j a) = (nth j a 0 + list_sum (skipn (S j) a))%nat.
Proof. revert j. induction a as [|k a IH]; intros [|j] H; cbn [length] in *; try lia; [reflexivity|]. cbn [skipn nth]. apply IH. lia. Qed.
Lemma span_lagr n D a : length a = (n + 1)%nat -> span n (list_sum a) (fun b => lagr D (sumR b) a b).
Proof.
  intros La. assert (G : forall i, (i <= n + 1)%nat -> span n (list_sum (skipn (n + 1 - i) a)) (fun b => lagr D (sumR b) (skipn (n + 1 - i) a) (skipn (n + 1 - i) b))).
  { induction i; intros Hi.
    - rewrite Nat.sub_0_r, <- La, skipn_all. apply (span_ext n 0 (fun _ => 1)); [|apply span_1]. intros b _. reflexivity.
    - set (j := (n + 1 - S i)%nat). assert (E : (n + 1 - i)%nat = S j) by (unfold j; lia). rewrite E in IHi. rewrite list_sum_skipn by (unfold j; lia). rewrite Nat.add_comm.
      eapply span_ext; [|apply (span_fall n _ D j (nth j a 0%nat)); [unfold j; lia|apply IHi; lia]]. intros b Lb. cbv beta. symmetry. apply lagr_skipn; [unfold j; lia|lia]. }
  specialize (G (n + 1)%nat (le_n _)). rewrite Nat.sub_diag in G. exact G.
Qed.
Definition lattice (d : nat) (a : list nat) : list R := map (fun k => if (d =? 0)%nat then 0 else INR k / INR d) a.
Lemma lattice_length d a : length (lattice d a) = length a.
Proof. apply map_length. Qed.
Lemma lattice_sum d a : (0 < d)%nat -> list_sum a = d -> sumR (lattice d a) = 1.
Proof.
  intros Hd Hs. assert (HD : INR d <> 0) by (apply not_0_INR; lia). unfold lattice. destruct (Nat.eqb_spec d 0); [lia|].
  assert (E : sumR (map (fun k => INR k / INR d) a) = INR (list_sum a) / INR d).
  { clear - HD. induction a as [|k a IH]; [cbn; unfold Rdiv; ring|]. cbn [map sumR]. rewrite IH. change (list_sum (k :: a)) with (k + list_sum a)%nat. rewrite plus_INR. field. exact HD. }
  rewrite E, Hs. field. exact HD.
Qed.
Lemma fall_zero D x p : D * x = INR p -> forall k, (p < k)%nat -> fall D x 1 k = 0.
Proof. intros E. induction k; intros H; [lia|]. cbn [fall]. rewrite E. destruct (Nat.eq_dec p k) as [->|]; [ring|]. rewrite IHk by lia. ring. Qed.
Lemma fall_pos D x p : D * x = INR p -> forall k, (k <= p)%nat -> 0 < fall D x 1 k.
Proof. intros E. induction k; intros H; cbn [fall]; [lra|]. apply Rmult_lt_0_compat; [apply IHk; lia|]. rewrite E. assert (INR k < INR p) by (apply lt_INR; lia). lra. Qed.
Lemma lagr_zero d a : (0 < d)%nat -> forall c j, length a = length c -> (j < length a)%nat -> (nth j c 0 < nth j a 0)%nat -> lagr (INR d) 1 a (lattice d c) = 0.
Proof.
  intros Hd. assert (HD : INR d <> 0) by (apply not_0_INR; lia). unfold lattice. destruct (Nat.eqb_spec d 0) as [|_]; [lia|].
  induction a as [|k a IH]; intros [|p c] [|j] L Hj H; cbn [length] in *; try lia; cbn [map lagr nth] in *.
  - rewrite (fall_zero _ _ p) by (assumption || (field; exact HD)). ring.
  - rewrite (IH c j) by lia. ring.
Qed.
Lemma lagr_pos d a : (0 < d)%nat -> 0 < lagr (INR d) 1 a (lattice d a).
Proof.
  intros Hd. assert (HD : INR d <> 0) by (apply not_0_INR; lia). unfold lattice. destruct (Nat.eqb_spec d 0) as [|_]; [lia|].
  induction a as [|k a IH]; cbn [map lagr]; [lra|]. apply Rmult_lt_0_compat; [|exact IH]. apply (fall_pos _ _ k); [field; exact HD|lia].
Qed.
Lemma smaller_entry a : forall c, length a = length c -> list_sum a = list_sum c -> a <> c -> exists j, (j < length a)%nat /\ (nth j c 0 < nth j a 0)%nat.
Proof.
  assert (G : forall a c, length a = length c -> (list_sum c <= list_sum a)%nat -> a <> c -> exists j, (j < length a)%nat /\ (nth j c 0 < nth j a 0)%nat).
  { clear. induction a as [|x a IH]; intros [|y c] L S N; cbn [length] in *; try lia; [congruence|]. change (y + list_sum c <= x + list_sum a)%nat in S. destruct (lt_dec y x) as [H|H]; [exists 0%nat; split; [lia|exact H]|].
    destruct (IH c) as (j & Hj & H'); [lia|lia| |exists (Datatypes.S j); split; [lia|exact H']]. intros ->. apply N. f_equal. lia. }
  intros c L S N. apply G; [exact L|lia|exact N].
Qed.
Lemma lattice_weight n d a : In a (idx n d) -> exists x : list nat -> R, forall c, In c (idx n d) ->
  sumL (fun e => bern_weight d e (lattice d c) * x e) (idx n d) = if leq a c then 1 else 0.
Proof.
  intros Ha. destruct (Nat.eq_dec d 0) as [->|Hd].
  - assert (E : idx n 0 = [repeat 0%nat (n + 1)]) by (clear; induction n; [reflexivity|]; cbn [idx Nat.add seq flat_map]; rewrite IHn; reflexivity).
    exists (fun _ => 1). intros c Hc. pose proof (idx_len _ _ _ Hc) as Lc. transitivity (sumL (fun e => bern_weight 0 e (lattice 0 c)) (idx n 0)); [apply sumL_ext; intros; ring|].
    rewrite weights_sum by (rewrite lattice_length; exact Lc). rewrite E in Ha, Hc. destruct Ha as [<-|[]], Hc as [<-|[]]. destruct (leq _ _); [reflexivity|congruence].
  - assert (Hd' : (0 < d)%nat) by lia. apply idx_in in Ha. destruct Ha as [La Sa]. destruct (span_lagr n (INR d) a La) as [x Hx]. rewrite Sa in Hx.
    pose proof (lagr_pos d a Hd') as HP. exists (fun e => x e / lagr (INR d) 1 a (lattice d a)). intros c Hc. apply idx_in in Hc. destruct Hc as [Lc Sc].
    specialize (Hx (lattice d c)). rewrite lattice_length, (lattice_sum d c Hd' Sc) in Hx. specialize (Hx Lc).
    transitivity (/ lagr (INR d) 1 a (lattice d a) * sumL (fun e => x e * bern_weight d e (lattice d c)) (idx n d)); [rewrite <- sumL_scal; apply sumL_ext; intros; unfold Rdiv; ring|].
    rewrite <- Hx. destruct (leq a c) as [<-|N]; [field; lra|]. destruct (smaller_entry a c) as (j & Hj & H); [lia|lia|exact N|]. rewrite (lagr_zero d a Hd' c j) by (assumption || lia). ring.
Qed.
Lemma forall2_choice {A B} (P : A -> B -> Prop) l : (forall a, In a l -> exists b, P a b) -> exists bs, Forall2 P l bs.
Proof.
  intros H. induction l; [exists []; constructor|]. destruct (H a) as [b Hb]; [left; reflexivity|]. destruct IHl as [bs Hbs]; [intros; apply H; right; assumption|]. exists (b :: bs). constructor; assumption.
Qed.
Lemma forall2_length {A B} (P : A -> B -> Prop) l bs : Forall2 P l bs -> length l = length bs.
Proof. intros H. induction H; cbn [length]; congruence. Qed.
Lemma forall2_nth {A B} (P : A -> B -> Prop) l bs x y : Forall2 P l bs -> forall i, (i < length l)%nat -> P (nth i l x) (nth i bs y).
Proof. intros H. induction H; intros [|i] Hi; cbn [length] in *; try lia; [assumption|]. apply IHForall2. lia. Qed.

(** ** The matrix *)
Definition coeffs (n d : nat) : list (list R) := map (fun c => map (fun a => bern_weight d a (lattice d c)) (idx n d)) (idx n d).
Lemma coeff_matrix_ok n d : sx_coeff_matrix n d = Ok (coeffs n d).
Proof.
  unfold sx_coeff_matrix. rewrite multi_indices_ok. cbn [bind]. apply mapM_ok. intros c Hc. unfold sx_coeff_point.
  rewrite (mapM_ok _ (fun k => if (d =? 0)%nat then 0 else INR k / INR d)).
  - cbn [bind]. fold (lattice d c). apply mapM_ok. intros a Ha. apply bernstein_ok; [eapply idx_len; exact Ha|rewrite lattice_length; eapply idx_len; exact Hc|eapply idx_le; exact Ha].
  - intros k _. destruct (Nat.eqb_spec d 0); [reflexivity|]. rewrite !sofZ_INR. apply ddiv_R. apply not_0_INR. assumption.
Qed.
Lemma entry_map {A B} (f : A -> B -> R) l l' i j (x : A) (y : B) : (i < length l)%nat -> (j < length l')%nat -> entry (map (fun a => map (f a) l') l) i j = f (nth i l x) (nth j l' y).
Proof.
  intros Hi Hj. unfold entry. rewrite (nth_indep _ [] (map (f x) l')) by (rewrite map_length; exact Hi). rewrite (map_nth (fun a => map (f a) l')).
  rewrite (nth_indep _ 0 (f (nth i l x) y)) by (rewrite map_length; exact Hj). apply map_nth.
Qed.
Lemma invertible n d : exists N, right_inverse (length (idx n d)) (coeffs n d) N.
Proof.
  set (k := length (idx n d)).
  destruct (forall2_choice (fun a x => forall c, In c (idx n d) -> sumL (fun e => bern_weight d e (lattice d c) * x e) (idx n d) = if leq a c then 1 else 0) (idx n d) (lattice_weight n d)) as [xs Hxs].
  assert (Lx : length xs = k) by (symmetry; eapply forall2_length; exact Hxs).
  exists (map (fun a => map (fun x => x a) xs) (idx n d)). split; [split|].
  - apply map_length.
  - intros r Hr. apply in_map_iff in Hr. destruct Hr as (a & <- & _). rewrite map_length. exact Lx.
  - intros i j Hi Hj. pose proof (forall2_nth _ _ _ [] (fun _ => 0) Hxs j Hj (nth i (idx n d) []) (nth_In _ _ Hi)) as E. cbv beta in E.
    transitivity (sumL (fun e => bern_weight d e (lattice d (nth i (idx n d) [])) * nth j xs (fun _ => 0) e) (idx n d)).
    + rewrite <- (rsum_map_nth _ _ []). fold k. apply rsum_ext. intros l Hl. unfold coeffs.
      rewrite (entry_map (fun c a => bern_weight d a (lattice d c)) (idx n d) (idx n d) i l [] []) by assumption.
      rewrite (entry_map (fun a x => x a) (idx n d) xs l j [] (fun _ => 0)) by (assumption || lia). reflexivity.
    + rewrite E. destruct (leq (nth j (idx n d) []) (nth i (idx n d) [])) as [H|H], (Nat.eq_dec i j) as [H'|H']; try reflexivity; exfalso.
      * apply H'. symmetry. apply (proj1 (NoDup_nth (idx n d) []) (idx_nodup n d)); assumption.
      * apply H. rewrite H'. reflexivity.
Qed.

(** ** fit *)
Lemma times_points_nth {m} (N : list (list R)) (pts : list (vec R m)) k i : square k N -> length pts = k -> (i < k)%nat ->
  nth i (matrix_times_points N pts) p0 = psum k (fun j => pmul (entry N i j) (nth j pts p0)).
Proof.
  intros [L Lr] Lp Hi. unfold matrix_times_points.
  set (f := fun row : list R => fold_left padd (map (fun c : R * vec R m => pmul (fst c) (snd c)) (combine row pts)) p0).
  rewrite (nth_indep _ p0 (f [])) by (rewrite map_length; lia). rewrite (map_nth f). unfold f.
  assert (Lrow : length (nth i N []) = k) by (apply Lr; apply nth_In; lia). unfold entry. set (row := nth i N []) in *. clearbody row. clear f Hi L Lr.
  apply vec_ext. intros q Hq. rewrite coord_psum' by exact Hq.
  assert (G : forall (row : list R) (pts : list (vec R m)) acc, length row = length pts -> coord m q (fold_left padd (map (fun c => pmul (fst c) (snd c)) (combine row pts)) acc) =
    coord m q acc + rsum (length pts) (fun j => nth j row 0 * coord m q (nth j pts p0))).
  { clear - Hq. induction row as [|x row IH]; intros [|p pts] acc L; cbn [length] in *; try lia; cbn [combine map fold_left]; [unfold rsum; cbn; ring|].
    rewrite IH by lia. rewrite coord_add, coord_mul by exact Hq. rewrite rsum_shift. cbn [nth fst snd]. ring. }
  rewrite G by lia. rewrite coord_0 by exact Hq. rewrite Lp, Rplus_0_l. apply rsum_ext. intros j _. rewrite coord_mul by exact Hq. reflexivity.
Qed.
Lemma control_lattice n d : sx_control_points n d = Ok (map (lattice d) (idx n d)).
Proof.
  destruct (Nat.eq_dec d 0) as [->|Hd].
  - assert (E : idx n 0 = [repeat 0%nat (n + 1)]) by (clear; induction n; [reflexivity|]; cbn [idx Nat.add seq flat_map]; rewrite IHn; reflexivity).
    unfold sx_control_points. cbn [Nat.eqb]. rewrite num_ok, E. cbn [length repeat map]. f_equal. f_equal. unfold lattice. cbn [Nat.eqb]. generalize (n + 1)%nat. intros q. induction q; [reflexivity|]. cbn [repeat map]. rewrite <- IHq. reflexivity.
  - unfold sx_control_points. destruct (Nat.eqb_spec d 0) as [|_]; [contradiction|]. rewrite multi_indices_ok. cbn [bind]. apply mapM_ok. intros a _. unfold lattice. destruct (Nat.eqb_spec d 0); [contradiction|].
    apply mapM_ok. intros k _. rewrite !sofZ_INR. apply ddiv_R. apply not_0_INR. assumption.
Qed.
Lemma ordinates_function {m} n d (os : list (vec R m)) : length os = length (idx n d) -> exists o, os = map o (idx n d).
Proof.
  intros L. assert (G : forall l : list (list nat), NoDup l -> forall os : list (vec R m), length os = length l -> exists o, os = map o l).
  { clear. intros l H. induction H as [|a l Ha N IH]; intros [|p os] L; cbn [length] in L; try lia; [exists (fun _ => p0); reflexivity|].
    destruct (IH os) as [o ->]; [lia|]. exists (fun c => if leq a c then p else o c). cbn [map]. f_equal; [destruct (leq a a); [reflexivity|congruence]|].
    apply map_ext_in. intros c Hc. destruct (leq a c) as [->|]; [contradiction|reflexivity]. }
  apply G; [apply idx_nodup|exact L].
Qed.
Lemma fit_thm {m} (inverse : list (list R) -> list (list R)) (s : simplex (vec R m)) samples M : (0 < sx_cols s)%nat ->
  sx_coeff_matrix (sx_dim s) (sx_degree s) = Ok M -> right_inverse (length M) M (inverse M) -> length samples = length M ->
  exists s' pts, sx_fit inverse s samples = Ok s' /\ sx_dim s' = sx_dim s /\ sx_degree s' = sx_degree s /\ sx_control_points (sx_dim s) (sx_degree s) = Ok pts /\ length pts = length samples /\
    forall i, (i < length samples)%nat -> sx_evaluate s' (nth i pts []) = Ok (nth i samples p0).
Proof.
  intros Hc EM [SN HN] Ls. rewrite coeff_matrix_ok in EM. injection EM as <-. set (n := sx_dim s) in *. set (d := sx_degree s) in *. set (k := length (idx n d)).
  assert (LM : length (coeffs n d) = k) by (unfold coeffs; apply map_length). rewrite LM in *. set (N := inverse (coeffs n d)) in *.
  set (os := matrix_times_points N samples). assert (Lo : length os = k) by (unfold os, matrix_times_points; rewrite map_length; apply SN).
  destruct (ordinates_function n d os Lo) as [o Eo].
  exists {| sx_dim := n; sx_degree := d; sx_cols := sx_cols s; sx_ordinates := os |}, (map (lattice d) (idx n d)).
  split; [unfold sx_fit; fold n d; rewrite coeff_matrix_ok; reflexivity|]. split; [reflexivity|]. split; [reflexivity|]. split; [apply control_lattice|]. split; [rewrite map_length; symmetry; exact Ls|].
  intros i Hi. rewrite Ls in Hi. set (s' := {| sx_dim := n; sx_degree := d; sx_cols := sx_cols s; sx_ordinates := os |}).
  rewrite (nth_indep _ [] (lattice d [])) by (rewrite map_length; exact Hi). rewrite map_nth. set (c := nth i (idx n d) []). assert (Hcc : In c (idx n d)) by (apply nth_In; exact Hi).
  rewrite (evaluate_ok s' o Hc Eo) by (rewrite lattice_length; eapply idx_len; exact Hcc). f_equal. unfold value. cbn [sx_dim sx_degree s'].
  apply vec_ext. intros q Hq. rewrite coord_psumL by exact Hq. rewrite <- (rsum_map_nth _ _ []). fold k.
  transitivity (rsum k (fun l => rsum k (fun j => entry (coeffs n d) i l * entry N l j * coord m q (nth j samples p0)))).
  - apply rsum_ext. intros l Hl. rewrite coord_mul by exact Hq. assert (E : o (nth l (idx n d) []) = nth l os p0).
    { rewrite Eo. rewrite (nth_indep _ p0 (o [])) by (rewrite map_length; exact Hl). rewrite map_nth. reflexivity. }
    rewrite E. unfold os. rewrite (times_points_nth N samples k l SN Ls Hl). rewrite coord_psum' by exact Hq. rewrite <- rsum_scal. apply rsum_ext. intros j Hj. rewrite coord_mul by exact Hq.
    unfold coeffs. rewrite (entry_map (fun c a => bern_weight d a (lattice d c)) (idx n d) (idx n d) i l [] []) by assumption. fold c. ring.
  - rewrite rsum_swap. rewrite (rsum_single k _ i Hi).
    + transitivity (rsum k (fun l => coord m q (nth i samples p0) * (entry (coeffs n d) i l * entry N l i))); [apply rsum_ext; intros; ring|]. rewrite rsum_scal, HN by assumption.
      destruct (Nat.eq_dec i i); [ring|congruence].
    + intros j Hj Hij. transitivity (rsum k (fun l => coord m q (nth j samples p0) * (entry (coeffs n d) i l * entry N l j))); [apply rsum_ext; intros; ring|]. rewrite rsum_scal, HN by assumption.
      destruct (Nat.eq_dec i j); [congruence|ring].
Qed.
Lemma invertible_thm n d : exists M N, sx_coeff_matrix n d = Ok M /\ square (length M) M /\ right_inverse (length M) M N.
Proof.
  destruct (invertible n d) as [N HN]. exists (coeffs n d), N. split; [apply coeff_matrix_ok|].
  assert (LM : length (coeffs n d) = length (idx n d)) by (unfold coeffs; apply map_length). rewrite LM. split; [split; [exact LM|]|exact HN].
  intros r Hr. apply in_map_iff in Hr. destruct Hr as (c & <- & _). apply map_length.
Qed.

(** ** Final forms *)
Lemma evaluate_thm m (s : simplex (vec R m)) o l b : (0 < sx_cols s)%nat -> multi_indices (sx_dim s) (sx_degree s) = Ok l -> sx_ordinates s = map o l -> length b = (sx_dim s + 1)%nat ->
  exists q, sx_evaluate s b = Ok q /\ q = casteljau (sx_dim s) (sx_degree s) o b /\
    forall l', enumerates (sx_dim s) (sx_degree s) l' -> q = psumL (fun a => pmul (bern_weight (sx_degree s) a b) (o a)) l'.
Proof.
  intros Hc El Ho Lb. rewrite multi_indices_ok in El. injection El as <-. exists (value s o b). split; [apply evaluate_ok; assumption|]. split; [symmetry; apply casteljau_ok; exact Lb|].
  intros l' Hl. apply value_enum. exact Hl.
Qed.
Lemma ordinates_thm m n d (os : list (vec R m)) l : multi_indices n d = Ok l -> length os = length l -> exists o, os = map o l.
Proof. intros El L. rewrite multi_indices_ok in El. injection El as <-. apply ordinates_function. exact L. Qed.
Lemma evaluate_hull m (s : simplex (vec R m)) b : (0 < sx_cols s)%nat -> length (sx_ordinates s) = num_control_points (sx_dim s) (sx_degree s) -> length b = (sx_dim s + 1)%nat ->
  sumR b = 1 -> (forall x, In x b -> 0 <= x) -> exists q, sx_evaluate s b = Ok q /\ convex_comb (sx_ordinates s) q.
Proof.
  intros Hc Ho Lb S1 Hb. rewrite num_ok in Ho. destruct (ordinates_function _ _ _ Ho) as [o Eo]. exists (value s o b). split; [apply evaluate_ok; assumption|].
  exists (fun i => bern_weight (sx_degree s) (nth i (idx (sx_dim s) (sx_degree s)) []) b). split; [|split].
  - intros i _. apply weight_nonneg. exact Hb.
  - rewrite Ho. rewrite (rsum_map_nth (fun a => bern_weight (sx_degree s) a b)). rewrite weights_sum by exact Lb. rewrite S1. apply pow1.
  - rewrite Ho. apply vec_ext. intros q Hq. unfold value. rewrite coord_psumL, coord_psum' by exact Hq. rewrite <- (rsum_map_nth _ _ []). apply rsum_ext. intros i Hi. rewrite !coord_mul by exact Hq.
    rewrite Eo. rewrite (nth_indep (map o _) p0 (o [])) by (rewrite map_length; exact Hi). rewrite map_nth. reflexivity.
Qed.
Lemma elevate_thm m (s : simplex (vec R m)) : (0 < sx_cols s)%nat -> length (sx_ordinates s) = num_control_points (sx_dim s) (sx_degree s) ->
  exists s', sx_elevate_degree s = Ok s' /\ sx_dim s' = sx_dim s /\ sx_degree s' = (sx_degree s + 1)%nat /\
    forall b, length b = (sx_dim s + 1)%nat -> sumR b = 1 -> exists q, sx_evaluate s b = Ok q /\ sx_evaluate s' b = Ok q.
Proof.
  intros Hc Ho. rewrite num_ok in Ho. destruct (ordinates_function _ _ _ Ho) as [o Eo]. destruct (elevate_ok s o Hc Eo) as (s' & o' & E & En & Ed & Ec & Eo' & H).
  exists s'. split; [exact E|]. split; [exact En|]. split; [exact Ed|]. intros b Lb S1. exists (value s o b). split; [apply evaluate_ok; assumption|].
  rewrite (evaluate_ok s' o'); [|lia|rewrite En, Ed; exact Eo'|rewrite En; exact Lb]. f_equal. rewrite H, S1 by exact Lb. apply vec_ext. intros i Hi. rewrite coord_mul by exact Hi. ring.
Qed.
Lemma derivative_thm m (s : simplex (vec R m)) b dir : (0 < sx_cols s)%nat -> length (sx_ordinates s) = num_control_points (sx_dim s) (sx_degree s) ->
  length b = (sx_dim s + 1)%nat -> length dir = (sx_dim s + 1)%nat ->
  exists f q, (forall t, sx_evaluate s (move b dir t) = Ok (f t)) /\ sx_evaluate_directional_derivative s b dir = Ok q /\ vderiv f 0 q.
Proof.
  intros Hc Ho Lb Ld. rewrite num_ok in Ho. destruct (ordinates_function _ _ _ Ho) as [o Eo]. destruct (derivative_ok s o Hc Eo b dir Lb Ld) as (q & E & H).
  exists (fun t => value s o (move b dir t)), q. split; [|split; [exact E|exact H]]. intros t. apply evaluate_ok; [exact Hc|exact Eo|].
  assert (G : forall b dir, length b = length dir -> length (move b dir t) = length b) by (clear; induction b; intros [|y dir] L; try discriminate; [reflexivity|]; cbn; f_equal; apply IHb; cbn in L; lia).
  rewrite G by lia. exact Lb.
Qed.
Lemma unset_thm m (s : simplex (vec R m)) b dir : length (sx_ordinates s) <> num_control_points (sx_dim s) (sx_degree s) \/ sx_cols s = 0%nat ->
  sx_evaluate s b = Throw runtime_error /\ sx_evaluate_directional_derivative s b dir = Throw runtime_error.
Proof.
  intros H. unfold sx_evaluate, sx_evaluate_directional_derivative. cbv zeta.
  assert (E : negb (length (sx_ordinates s) =? num_control_points (sx_dim s) (sx_degree s))%nat || (sx_cols s =? 0)%nat = true).
  { destruct H as [H|H]; [destruct (Nat.eqb_spec (length (sx_ordinates s)) (num_control_points (sx_dim s) (sx_degree s))); [contradiction|reflexivity]|]. rewrite H. apply Bool.orb_true_r. }
  rewrite E. split; reflexivity.
Qed.
(** At the vertices the value is the corner ordinate. *)
Lemma control_points_refuted : exists p : list R, sx_control_points 2 0 = Ok [p] /\ sumR p = 0.
Proof. exists [0; 0; 0]. split; [reflexivity|]. cbn. lra. Qed.
Lemma weight_thm n d a (b : list R) : multi_index n d a -> length b = (n + 1)%nat -> evaluate_bernstein n d a b = Ok (bern_weight d a b).
Proof. intros Ha Lb. apply idx_in in Ha. apply bernstein_ok; [eapply idx_len; exact Ha|exact Lb|eapply idx_le; exact Ha]. Qed.
