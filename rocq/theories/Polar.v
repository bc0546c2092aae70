(** Theory of the de Boor / de Casteljau triangle as a symmetric multiaffine form. *)
From Coq Require Import Reals Lra Lia ZArith List Permutation.
From Verif Require Import Monad Scalar ScalarFacts.
Import ListNotations.
Local Open Scope R_scope.

(** Triangle with general interpolation ratios [al level index x]. The head of the list is the
    argument of the last level. *)
Fixpoint tri {P} {V : PointOps R P} (al : nat -> Z -> R -> R) (c : Z -> P) (xs : list R) (j : Z) : P :=
  match xs with
  | [] => c j
  | x :: xs' =>
      let a := al (length xs) j x in
      padd (pmul (1 - a) (tri al c xs' (j - 1))) (pmul a (tri al c xs' j))
  end.

(** Convex predicates, and triangles all of whose weights are in [0,1]. *)
Definition convexP {P} {V : PointOps R P} (Q : P -> Prop) : Prop :=
  forall a x y, 0 <= a <= 1 -> Q x -> Q y -> Q (padd (pmul (1 - a) x) (pmul a y)).
Definition conv_pres {P} {V : PointOps R P} (l l' : list P) : Prop :=
  forall Q : P -> Prop, convexP Q -> Forall Q l -> Forall Q l'.

Lemma conv_refl {P} {V : PointOps R P} (l : list P) : conv_pres l l.
Proof. intros Q _ H; exact H. Qed.
Lemma conv_trans {P} {V : PointOps R P} (a b c : list P) : conv_pres a b -> conv_pres b c -> conv_pres a c.
Proof. intros H1 H2 Q HQ H. apply H2; [exact HQ|]. now apply H1. Qed.

Lemma tri_convex {P} {V : PointOps R P} (Q : P -> Prop) al (c : Z -> P) x m J : convexP Q ->
  (forall j, (J - Z.of_nat m <= j <= J)%Z -> Q (c j)) ->
  (forall r j, (1 <= r <= m)%nat -> (J - Z.of_nat (m - r) <= j <= J)%Z -> 0 <= al r j x <= 1) ->
  Q (tri al c (repeat x m) J).
Proof.
  intros HQ. revert J. induction m as [|m IH]; intros J Hc Ha.
  - simpl. apply Hc. lia.
  - cbn [repeat tri length]. rewrite repeat_length. apply HQ.
    + apply Ha; lia.
    + apply IH; [intros j Hj; apply Hc; lia|]. intros r j Hr Hj. apply Ha; lia.
    + apply IH; [intros j Hj; apply Hc; lia|]. intros r j Hr Hj. apply Ha; lia.
Qed.

Lemma tri_affmap {P P'} {V : PointOps R P} {V' : PointOps R P'} (f : P -> P') al c xs j :
  affmap f -> f (tri al c xs j) = tri al (fun i => f (c i)) xs j.
Proof.
  intros Hf. revert j; induction xs as [|x xs IH]; intros j; simpl; [reflexivity|].
  rewrite Hf. now rewrite !IH.
Qed.

Lemma tri_ext {P} {V : PointOps R P} al al' (c c' : Z -> P) xs j :
  (forall r i x, (1 <= r <= length xs)%nat -> (j - Z.of_nat (length xs) + Z.of_nat r <= i <= j)%Z ->
     al r i x = al' r i x) ->
  (forall i, (j - Z.of_nat (length xs) <= i <= j)%Z -> c i = c' i) ->
  tri al c xs j = tri al' c' xs j.
Proof.
  revert j; induction xs as [|x xs IH]; intros j Ha Hc.
  - simpl. apply Hc. simpl; lia.
  - cbn [tri length]. rewrite (Ha (S (length xs)) j x) by (cbn [length]; lia).
    rewrite (IH (j - 1)%Z), (IH j); [reflexivity| | | |]; cbn [length] in *; intros.
    + apply Ha; lia.
    + apply Hc; lia.
    + apply Ha; lia.
    + apply Hc; lia.
Qed.

(** Symmetric and multiaffine functions of [p] arguments. *)
Record polar (p : nat) (G : list R -> R) : Prop := {
  po_sym : forall l l', length l = p -> Permutation l l' -> G l = G l';
  po_aff : forall a x y l, S (length l) = p ->
     G (((1 - a) * x + a * y) :: l) = (1 - a) * G (x :: l) + a * G (y :: l);
}.

(** [seg U a n] = [U a; U (a+1); ...; U (a+n-1)]. *)
Fixpoint seg (U : Z -> R) (a : Z) (n : nat) : list R :=
  match n with
  | O => []
  | S n' => U a :: seg U (a + 1) n'
  end.

Lemma seg_length U a n : length (seg U a n) = n.
Proof. revert a; induction n; intros; simpl; auto. Qed.

Lemma seg_app U a n m : seg U a (n + m) = seg U a n ++ seg U (a + Z.of_nat n) m.
Proof.
  revert a; induction n as [|n IH]; intros a.
  - simpl. f_equal. lia.
  - cbn [seg Nat.add app]. rewrite IH. do 3 f_equal. lia.
Qed.

Lemma seg_snoc U a n : seg U a (S n) = seg U a n ++ [U (a + Z.of_nat n)%Z].
Proof. replace (S n) with (n + 1)%nat by lia. rewrite seg_app. reflexivity. Qed.

Lemma seg_ext U U' a n :
  (forall i, (a <= i < a + Z.of_nat n)%Z -> U i = U' i) -> seg U a n = seg U' a n.
Proof.
  revert a; induction n as [|n IH]; intros a H; simpl; [reflexivity|].
  rewrite H by lia. f_equal. apply IH. intros; apply H; lia.
Qed.

Lemma seg_shift U U' a b n :
  (forall i, (0 <= i < Z.of_nat n)%Z -> U (a + i)%Z = U' (b + i)%Z) -> seg U a n = seg U' b n.
Proof.
  revert a b; induction n as [|n IH]; intros a b H; simpl; [reflexivity|].
  specialize (H 0%Z) as H0. rewrite !Z.add_0_r in H0. rewrite H0 by lia. f_equal.
  apply IH. intros i Hi. rewrite <- !Z.add_assoc. apply H. lia.
Qed.

Lemma seg_const U a n x :
  (forall i, (a <= i < a + Z.of_nat n)%Z -> U i = x) -> seg U a n = repeat x n.
Proof.
  revert a; induction n as [|n IH]; intros a H; simpl; [reflexivity|].
  rewrite H by lia. f_equal. apply IH. intros; apply H; lia.
Qed.

Section BSplineTri.
  Variable U : Z -> R.
  Variable p : nat.

  (** Interpolation ratio of the degree [p] de Boor triangle at level [r], index [j]. *)
  Definition alU (r : nat) (j : Z) (x : R) : R :=
    (x - U j) / (U (j + Z.of_nat p + 1 - Z.of_nat r)%Z - U j).

  Definition sepk (k : Z) : Prop :=
    forall i i', (k - Z.of_nat p + 1 <= i <= k)%Z -> (k + 1 <= i' <= k + Z.of_nat p)%Z -> U i <> U i'.

  Lemma alU_aff r j a x y : alU r j ((1 - a) * x + a * y) = (1 - a) * alU r j x + a * alU r j y.
  Proof. unfold alU, Rdiv. ring. Qed.

  Variable k : Z.
  Hypothesis Hsep : sepk k.
  Variable c : Z -> R.
  Notation T := (tri alU c).

  Lemma tri_swap x y xs j :
    (length (x :: y :: xs) <= p)%nat ->
    (k - Z.of_nat p + Z.of_nat (length (x :: y :: xs)) <= j <= k)%Z ->
    T (x :: y :: xs) j = T (y :: x :: xs) j.
  Proof.
    intros Hl Hj. cbn [length] in *. cbn [tri length]. unfold alU.
    replace (j + Z.of_nat p + 1 - Z.of_nat (S (S (length xs))))%Z
      with (j + Z.of_nat p - 1 - Z.of_nat (length xs))%Z by lia.
    replace (j - 1 + Z.of_nat p + 1 - Z.of_nat (S (length xs)))%Z
      with (j + Z.of_nat p - 1 - Z.of_nat (length xs))%Z by lia.
    replace (j + Z.of_nat p + 1 - Z.of_nat (S (length xs)))%Z
      with (j + Z.of_nat p - Z.of_nat (length xs))%Z by lia.
    assert (H1 : U j <> U (j + Z.of_nat p - 1 - Z.of_nat (length xs))%Z) by (apply Hsep; lia).
    assert (H2 : U j <> U (j + Z.of_nat p - Z.of_nat (length xs))%Z) by (apply Hsep; lia).
    assert (H3 : U (j - 1)%Z <> U (j + Z.of_nat p - 1 - Z.of_nat (length xs))%Z) by (apply Hsep; lia).
    set (A := U j) in *.
    set (B := U (j + Z.of_nat p - 1 - Z.of_nat (length xs))%Z) in *.
    set (D := U (j + Z.of_nat p - Z.of_nat (length xs))%Z) in *.
    set (E := U (j - 1)%Z) in *.
    simpl. field. repeat split; lra.
  Qed.

  Lemma tri_perm l l' : Permutation l l' -> (length l <= p)%nat -> forall j,
    (k - Z.of_nat p + Z.of_nat (length l) <= j <= k)%Z -> T l j = T l' j.
  Proof.
    intros HP. induction HP as [|x l l' HP IH|x y l|l l' l'' HP1 IH1 HP2 IH2]; intros Hl j Hj.
    - reflexivity.
    - cbn [tri length] in *. rewrite (Permutation_length HP) in *.
      rewrite (IH ltac:(lia) (j - 1)%Z), (IH ltac:(lia) j) by lia. reflexivity.
    - apply tri_swap; assumption.
    - rewrite IH1 by assumption. apply IH2; rewrite <- (Permutation_length HP1); assumption.
  Qed.

  Lemma tri_head_aff a x y l j :
    T (((1 - a) * x + a * y) :: l) j = (1 - a) * T (x :: l) j + a * T (y :: l) j.
  Proof. cbn [tri length]. rewrite alU_aff. simpl. ring. Qed.

  Lemma tri_polar : polar p (fun l => T l k).
  Proof.
    split.
    - intros l l' Hl HP. apply tri_perm; auto; lia.
    - intros a x y l _. apply tri_head_aff.
  Qed.

  (** Reproduction: a triangle started from the values of a polar form at consecutive knots
      computes the polar form. *)
  Lemma tri_reproduce (G : list R -> R) xs j :
    polar p G ->
    (forall i, (k - Z.of_nat p <= i <= k)%Z -> c i = G (seg U (i + 1) p)) ->
    (length xs <= p)%nat ->
    (k - Z.of_nat p + Z.of_nat (length xs) <= j <= k)%Z ->
    T xs j = G (xs ++ seg U (j + 1) (p - length xs)).
  Proof.
    intros HG Hc. revert j. induction xs as [|x xs IH]; intros j Hl Hj.
    - cbn [tri length app] in *. rewrite Nat.sub_0_r. apply Hc. lia.
    - cbn [length] in *. cbn [tri length].
      rewrite (IH (j - 1)%Z), (IH j) by lia.
      remember (p - S (length xs))%nat as m eqn:Em.
      replace (p - length xs)%nat with (S m) by lia.
      replace (j - 1 + 1)%Z with j by lia.
      rewrite (seg_snoc U (j + 1) m).
      cbn [seg].
      assert (HA : G (xs ++ U j :: seg U (j + 1) m) = G (U j :: xs ++ seg U (j + 1) m)).
      { apply (po_sym p G HG).
        - rewrite app_length; simpl; rewrite seg_length; lia.
        - symmetry. apply Permutation_middle. }
      set (u' := U (j + 1 + Z.of_nat m)%Z).
      assert (HB : G (xs ++ seg U (j + 1) m ++ [u']) = G (u' :: xs ++ seg U (j + 1) m)).
      { apply (po_sym p G HG).
        - rewrite !app_length; simpl; rewrite seg_length; lia.
        - rewrite app_assoc. symmetry. apply Permutation_cons_append. }
      rewrite HA, HB.
      set (a := alU (S (length xs)) j x).
      simpl padd; simpl pmul.
      rewrite <- (po_aff p G HG) by (rewrite app_length, seg_length; lia).
      simpl app. f_equal. f_equal. unfold a, alU.
      replace (j + Z.of_nat p + 1 - Z.of_nat (S (length xs)))%Z with (j + 1 + Z.of_nat m)%Z by lia.
      fold u'. assert (U j <> u') by (unfold u'; apply Hsep; lia).
      field. lra.
  Qed.

  (** The control points are the values of the form at consecutive knots. *)
  Lemma tri_knots_right i n : 
    (k - Z.of_nat p <= i <= k)%Z -> (Z.of_nat n <= i + Z.of_nat p - k)%Z -> (n <= p)%nat ->
    (i - Z.of_nat n >= k - Z.of_nat p)%Z ->
    T (seg U (i + Z.of_nat p + 1 - Z.of_nat n) n) i = c i.
  Proof.
    intros Hi. induction n as [|n IH]; intros Hn Hp Hi2; [reflexivity|].
    cbn [seg tri length]. rewrite seg_length.
    assert (Ha : alU (S n) i (U (i + Z.of_nat p + 1 - Z.of_nat (S n))%Z) = 1).
    { unfold alU. apply Rinv_r.
      assert (U i <> U (i + Z.of_nat p + 1 - Z.of_nat (S n))%Z) by (apply Hsep; lia).
      lra. }
    rewrite Ha.
    replace (i + Z.of_nat p + 1 - Z.of_nat (S n) + 1)%Z with (i + Z.of_nat p + 1 - Z.of_nat n)%Z by lia.
    rewrite IH by lia. simpl. ring.
  Qed.

  Lemma tri_knots_left i n :
    (k - Z.of_nat p <= i <= k)%Z -> (i + Z.of_nat n <= k)%Z ->
    forall ys, T ys i = c i -> T (rev (seg U (i + 1) n) ++ ys) (i + Z.of_nat n) = c i.
  Proof.
    intros Hi Hn ys Hys. induction n as [|n IH].
    - simpl. rewrite Z.add_0_r. exact Hys.
    - rewrite seg_snoc, rev_app_distr. cbn [rev app tri].
      replace (i + Z.of_nat (S n))%Z with (i + 1 + Z.of_nat n)%Z by lia.
      assert (Ha : forall r, alU r (i + 1 + Z.of_nat n) (U (i + 1 + Z.of_nat n)%Z) = 0).
      { intros r. unfold alU, Rdiv. ring. }
      rewrite Ha. replace (i + 1 + Z.of_nat n - 1)%Z with (i + Z.of_nat n)%Z by lia.
      rewrite IH by lia. simpl. ring.
  Qed.

  Lemma tri_at_knots i : (k - Z.of_nat p <= i <= k)%Z -> T (seg U (i + 1) p) k = c i.
  Proof.
    intros Hi.
    set (n := Z.to_nat (k - i)). set (q := Z.to_nat (i + Z.of_nat p - k)).
    assert (Hp : p = (n + q)%nat) by lia.
    assert (HP : Permutation (seg U (i + 1) p) (rev (seg U (i + 1) n) ++ seg U (k + 1) q)).
    { rewrite Hp, seg_app. replace (i + 1 + Z.of_nat n)%Z with (k + 1)%Z by lia.
      apply Permutation_app_tail. apply Permutation_rev. }
    rewrite (tri_perm _ _ HP) by (rewrite seg_length; lia).
    replace k with (i + Z.of_nat n)%Z at 2 by lia.
    apply tri_knots_left; [lia|lia|].
    replace (k + 1)%Z with (i + Z.of_nat p + 1 - Z.of_nat q)%Z by lia.
    apply tri_knots_right; lia.
  Qed.
End BSplineTri.

(** Uniqueness of polar forms with given values at consecutive knots. *)
Lemma polar_unique U p k (G H : list R -> R) xs :
  sepk U p k -> polar p G -> polar p H ->
  (forall i, (k - Z.of_nat p <= i <= k)%Z -> G (seg U (i + 1) p) = H (seg U (i + 1) p)) ->
  length xs = p -> G xs = H xs.
Proof.
  intros Hs HG HH E Hl.
  pose proof (tri_reproduce U p k Hs (fun i => G (seg U (i + 1) p)) G xs k HG) as R1.
  pose proof (tri_reproduce U p k Hs (fun i => G (seg U (i + 1) p)) H xs k HH) as R2.
  rewrite Hl, Nat.sub_diag in *. cbn [seg] in *. rewrite app_nil_r in *.
  rewrite <- R1, <- R2; auto; lia.
Qed.

(** * Consequences of multiaffinity *)
Section PolarFacts.
  Variable p : nat.
  Variable G : list R -> R.
  Hypothesis HG : polar p G.

  Lemma polar_cons_shape x l : S (length l) = p -> G (x :: l) = (1 - x) * G (0 :: l) + x * G (1 :: l).
  Proof.
    intros Hl. rewrite <- (po_aff p G HG) by assumption. f_equal. f_equal. ring.
  Qed.

  (** Difference quotient in the first argument does not depend on the two points. *)
  Lemma polar_diff a b l : S (length l) = p -> G (b :: l) - G (a :: l) = (b - a) * (G (1 :: l) - G (0 :: l)).
  Proof. intros Hl. rewrite (polar_cons_shape a l Hl), (polar_cons_shape b l Hl). ring. Qed.

  (** Affine change of parameter. *)
  Lemma polar_reparam a b : polar p (fun l => G (map (fun x => (1 - x) * a + x * b) l)).
  Proof.
    split.
    - intros l l' Hl HP. apply (po_sym p G HG); [now rewrite map_length|]. now apply Permutation_map.
    - intros t x y l Hl. cbn [map].
      rewrite <- (po_aff p G HG) by (now rewrite map_length). f_equal. f_equal. ring.
  Qed.
End PolarFacts.

(** Derived polar form. *)
Lemma polar_deriv p G : polar (S p) G ->
  polar p (fun l => INR (S p) * (G (1 :: l) - G (0 :: l))).
Proof.
  intros HG. split.
  - intros l l' Hl HP.
    rewrite (po_sym (S p) G HG (1 :: l) (1 :: l')), (po_sym (S p) G HG (0 :: l) (0 :: l'));
      simpl; auto; try lia.
  - intros a x y l Hl.
    assert (Hsw : forall u v, G (u :: v :: l) = G (v :: u :: l)).
    { intros u v. apply (po_sym (S p) G HG); [simpl; lia|]. apply perm_swap. }
    rewrite !(Hsw 1), !(Hsw 0). rewrite !(po_aff (S p) G HG) by (simpl; lia). ring.
Qed.

(** Derivative of a polar form along the diagonal. *)
Lemma polar_diag_deriv_gen n : forall m (G : list R -> R) ys t,
  polar (n + m) G -> length ys = m ->
  derivable_pt_lim (fun x => G (repeat x n ++ ys)) t
    (INR n * match n with O => 0 | S n' => G (1 :: repeat t n' ++ ys) - G (0 :: repeat t n' ++ ys) end).
Proof.
  induction n as [|n IH]; intros m G ys t HG Hy.
  - simpl. replace (0 * 0) with 0 by ring. apply derivable_pt_lim_const.
  - (* G (x :: repeat x n ++ ys) = A x + x * (D x) *)
    assert (Hswap : forall u x, G (u :: repeat x n ++ ys) = G (repeat x n ++ u :: ys)).
    { intros u x. apply (po_sym _ G HG).
      - simpl. rewrite app_length, repeat_length. lia.
      - apply Permutation_middle. }
    assert (HGu : polar (n + S m) G) by (replace (n + S m)%nat with (S n + m)%nat by lia; exact HG).
    pose proof (IH (S m) G (0 :: ys) t HGu ltac:(simpl; lia)) as H0.
    pose proof (IH (S m) G (1 :: ys) t HGu ltac:(simpl; lia)) as H1.
    set (d0 := INR n * _) in H0. set (d1 := INR n * _) in H1.
    assert (HE : forall x, G (repeat x (S n) ++ ys)
                = (1 - x) * G (repeat x n ++ 0 :: ys) + x * G (repeat x n ++ 1 :: ys)).
    { intros x. simpl repeat. cbn [app]. rewrite <- !Hswap.
      apply (polar_cons_shape (S n + m) G HG). rewrite app_length, repeat_length. simpl; lia. }
    assert (HD : derivable_pt_lim (fun x => (1 - x) * G (repeat x n ++ 0 :: ys) + x * G (repeat x n ++ 1 :: ys)) t
        ((0 - 1) * G (repeat t n ++ 0 :: ys) + (1 - t) * d0 + (1 * G (repeat t n ++ 1 :: ys) + t * d1))).
    { apply (derivable_pt_lim_plus (fun x => (1 - x) * G (repeat x n ++ 0 :: ys))
                                   (fun x => x * G (repeat x n ++ 1 :: ys))).
      - apply (derivable_pt_lim_mult (fun x => 1 - x) (fun x => G (repeat x n ++ 0 :: ys))).
        + apply (derivable_pt_lim_minus (fun _ => 1) (fun x => x)).
          * apply derivable_pt_lim_const.
          * apply derivable_pt_lim_id.
        + exact H0.
      - apply (derivable_pt_lim_mult (fun x => x) (fun x => G (repeat x n ++ 1 :: ys))).
        + apply derivable_pt_lim_id.
        + exact H1. }
    assert (HV : (0 - 1) * G (repeat t n ++ 0 :: ys) + (1 - t) * d0 + (1 * G (repeat t n ++ 1 :: ys) + t * d1)
       = INR (S n) * (G (1 :: repeat t n ++ ys) - G (0 :: repeat t n ++ ys))).
    { rewrite !Hswap. rewrite S_INR. unfold d0, d1. destruct n as [|n']; [simpl; ring|].
      (* both derivatives are the mixed difference; recombine *)
      set (L := repeat t n').
      assert (Hx : forall e, G (e :: L ++ 0 :: ys) = G (0 :: L ++ e :: ys) ).
      { intros e. apply (po_sym _ G HG).
        - simpl. rewrite app_length. unfold L. rewrite repeat_length. simpl. lia.
        - rewrite <- !Permutation_middle. apply perm_swap. }
      assert (Hx1 : forall e, G (e :: L ++ 1 :: ys) = G (1 :: L ++ e :: ys) ).
      { intros e. apply (po_sym _ G HG).
        - simpl. rewrite app_length. unfold L. rewrite repeat_length. simpl. lia.
        - rewrite <- !Permutation_middle. apply perm_swap. }
      assert (Hsh : forall e, G (repeat t (S n') ++ e :: ys) = (1 - t) * G (0 :: L ++ e :: ys) + t * G (1 :: L ++ e :: ys)).
      { intros e. simpl repeat. cbn [app]. fold L. apply (polar_cons_shape _ G HG).
        unfold L. rewrite app_length, repeat_length. simpl. lia. }
      rewrite (Hsh 0), (Hsh 1). rewrite (Hx 1). ring. }
    rewrite HV in HD.
    (* transport along extensional equality of the functions *)
    unfold derivable_pt_lim in *. intros eps Heps. destruct (HD eps Heps) as [del Hdel].
    exists del. intros h Hh Hhd. rewrite !HE. apply Hdel; assumption.
Qed.

Lemma polar_diag_deriv p G t : polar (S p) G ->
  derivable_pt_lim (fun x => G (repeat x (S p))) t
    (INR (S p) * (G (1 :: repeat t p) - G (0 :: repeat t p))).
Proof.
  intros HG.
  pose proof (polar_diag_deriv_gen (S p) 0 G [] t) as H.
  rewrite Nat.add_0_r in H. specialize (H HG eq_refl).
  cbn beta iota in H. rewrite !app_nil_r in H.
  unfold derivable_pt_lim in *. intros eps Heps. destruct (H eps Heps) as [del Hdel].
  exists del. intros h Hh Hhd. specialize (Hdel h Hh Hhd). rewrite !app_nil_r in Hdel. exact Hdel.
Qed.
