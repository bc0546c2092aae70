(** Bernstein curves as explicit polynomials: the tools for the identities of AutoThms.v and AutoRationalThms.v. *)
From Coq Require Import Reals Lra Lia ZArith List.
From Verif Require Import Monad Scalar ScalarFacts Spec SpecFacts BezierMath BezierFacts BezierThms RationalThms Polar.
Import ListNotations.
Local Open Scope R_scope.

(** Binomial coefficients by Pascal's rule. *)
Fixpoint binz (n i : nat) : Z :=
  match n, i with
  | _, O => 1%Z
  | O, S _ => 0%Z
  | S n', S i' => (binz n' i' + binz n' (S i'))%Z
  end.

Lemma binz_big n : forall i, (n < i)%nat -> binz n i = 0%Z.
Proof. induction n; intros [|i] H; cbn [binz]; try lia. rewrite !IHn by lia. reflexivity. Qed.
Lemma binz_diag n : binz n n = 1%Z.
Proof. induction n; [reflexivity|]. cbn [binz]. rewrite IHn, binz_big by lia. reflexivity. Qed.
Lemma C_binz n : forall i, (i <= n)%nat -> C n i = IZR (binz n i).
Proof.
  induction n; intros [|i] H; try apply C_n_0; [lia|].
  destruct (Nat.eq_dec i n) as [-> |Hn].
  - rewrite binz_diag. unfold C. rewrite Nat.sub_diag. change (INR (fact 0)) with 1. field. apply INR_fact_neq_0.
  - cbn [binz]. rewrite plus_IZR, <- !IHn by lia. symmetry. apply pascal. lia.
Qed.

(** Sum of B_i^n(t) l_i written out, starting with index i *)
Fixpoint bsum_from (n i : nat) (l : list R) (t : R) : R :=
  match l with [] => 0 | a :: l' => IZR (binz n i) * t ^ i * (1 - t) ^ (n - i) * a + bsum_from n (S i) l' t end.
Definition bsum (l : list R) (t : R) : R := bsum_from (length l - 1) 0 l t.

Fixpoint dlist (k : R) (l : list R) : list R :=
  match l with a :: ((b :: _) as l') => k * (b - a) :: dlist k l' | _ => [] end.
Definition hodo (l : list R) : list R := dlist (IZR (Z.of_nat (length l - 1))) l.

Lemma bsum_from_rsum n l : forall i t, (i + length l <= S n)%nat ->
  bsum_from n i l t = rsum (length l) (fun k => bernstein n (i + k) t * nth k l 0).
Proof.
  induction l as [|a l IH]; intros i t H; [reflexivity|]. cbn [length] in *. rewrite rsum_shift. cbn [bsum_from nth].
  rewrite Nat.add_0_r. unfold bernstein at 1. rewrite C_binz by lia. f_equal.
  rewrite IH by lia. apply rsum_ext. intros k Hk. rewrite Nat.add_succ_r. reflexivity.
Qed.

Lemma bsum_coord d k (pts : list (vec R d)) t : (k < d)%nat -> pts <> [] ->
  coord d k (bernstein_curve pts t) = bsum (map (coord d k) pts) t.
Proof.
  intros Hk Hne. unfold bsum. assert (0 < length pts)%nat by (destruct pts; [congruence|cbn; lia]). rewrite bsum_from_rsum by (rewrite map_length; lia).
  rewrite map_length. unfold bernstein_curve. rewrite coord_psum by assumption. apply rsum_ext. intros i Hi.
  rewrite coord_mul by assumption. cbn [Nat.add]. f_equal.
  rewrite <- (coord_0 (d := d) k Hk), map_nth. reflexivity.
Qed.

Lemma dlist_length k l : length (dlist k l) = (length l - 1)%nat.
Proof. induction l as [|a [|b l] IH]; try reflexivity. cbn [dlist length] in *. rewrite IH. lia. Qed.
Lemma dlist_nth k l : forall i, (S i < length l)%nat -> nth i (dlist k l) 0 = k * (nth (S i) l 0 - nth i l 0).
Proof.
  induction l as [|a [|b l] IH]; intros i H; cbn [length] in *; try lia. cbn [dlist]. destruct i as [|i]; [reflexivity|].
  exact (IH i ltac:(cbn [length]; lia)).
Qed.

Lemma bsum_tri l n t : length l = S n ->
  bsum l t = tri albz (fun i => nth (Z.to_nat i) l 0) (repeat t n) (Z.of_nat n).
Proof.
  intros H. unfold bsum. rewrite bsum_from_rsum by lia. rewrite H. cbn [Nat.sub]. rewrite Nat.sub_0_r.
  rewrite tri_bernstein. apply rsum_ext. intros i Hi. cbn [Nat.add]. f_equal. f_equal. lia.
Qed.

Lemma bsum_deriv l t : (2 <= length l)%nat -> derivable_pt_lim (bsum l) t (bsum (hodo l) t).
Proof.
  intros H. destruct (length l) as [|[|n]] eqn:E; try lia.
  rewrite (bsum_tri (hodo l) n) by (unfold hodo; rewrite dlist_length; lia).
  eapply (derivable_pt_lim_ext (fun x => tri albz (fun i => nth (Z.to_nat i) l 0) (repeat x (S n)) (Z.of_nat (S n)))).
  { intros x. symmetry. now apply bsum_tri. }
  eapply RationalThms.derivable_pt_lim_val; [apply bz_deriv|].
  apply tri_ext; [reflexivity|]. intros i Hi. rewrite repeat_length in Hi. unfold dbz, hodo. rewrite dlist_nth by lia.
  rewrite E, INR_IZR_INZ. cbn [Nat.sub]. f_equal. f_equal. f_equal. lia.
Qed.

(** Derivatives of a planar Bernstein curve. *)
Definition planar (X Y : list R) (t : R) : vec R 2 := (bsum X t, (bsum Y t, tt)).
Lemma planar_curve (pts : list (vec R 2)) t : pts <> [] ->
  bernstein_curve pts t = planar (map (coord 2 0) pts) (map (coord 2 1) pts) t.
Proof.
  intros H. apply vec_ext. intros [|[|i]] Hi; try lia.
  - rewrite bsum_coord by (assumption || lia). reflexivity.
  - rewrite bsum_coord by (assumption || lia). reflexivity.
Qed.
Lemma planar_deriv X Y t : (2 <= length X)%nat -> (2 <= length Y)%nat -> vderiv (planar X Y) t (planar (hodo X) (hodo Y) t).
Proof. intros HX HY [|[|i]] Hi; try lia; cbn; now apply bsum_deriv. Qed.
Lemma hodo_length l : length (hodo l) = (length l - 1)%nat.
Proof. apply dlist_length. Qed.

Lemma curve_planar_derivs (pts : list (vec R 2)) : (3 <= length pts)%nat ->
  let X := map (coord 2 0) pts in let Y := map (coord 2 1) pts in
  (forall t, vderiv (bernstein_curve pts) t (planar (hodo X) (hodo Y) t)) /\
  (forall t, vderiv (planar (hodo X) (hodo Y)) t (planar (hodo (hodo X)) (hodo (hodo Y)) t)).
Proof.
  intros H X Y. assert (Hne : pts <> []) by (destruct pts; cbn in H; [lia|congruence]).
  assert (LX : length X = length pts) by apply map_length. assert (LY : length Y = length pts) by apply map_length.
  split; intros t.
  - pose proof (planar_deriv X Y t ltac:(lia) ltac:(lia)) as D. intros i Hi. specialize (D i Hi).
    eapply derivable_pt_lim_ext; [|exact D]. intros x. rewrite planar_curve by assumption. reflexivity.
  - apply planar_deriv; rewrite hodo_length; lia.
Qed.

