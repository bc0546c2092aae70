(** Facts about the real instance of scalars and about points over the reals. *)
From Coq Require Import Reals Lra QArith Psatz.
From Verif Require Import Monad Scalar.
Local Open Scope R_scope.

Lemma Rleb_spec x y : BoolSpec (x <= y) (y < x) (Rleb x y).
Proof. unfold Rleb; destruct (Rle_dec x y); constructor; lra. Qed.
Lemma Rltb_spec x y : BoolSpec (x < y) (y <= x) (Rltb x y).
Proof. unfold Rltb; destruct (Rlt_dec x y); constructor; lra. Qed.
Lemma Reqb_spec x y : BoolSpec (x = y) (x <> y) (Reqb x y).
Proof. unfold Reqb; destruct (Req_EM_T x y); constructor; assumption. Qed.

Lemma Rleb_true x y : x <= y -> Rleb x y = true.
Proof. intros; destruct (Rleb_spec x y); [reflexivity|lra]. Qed.
Lemma Rleb_false x y : y < x -> Rleb x y = false.
Proof. intros; destruct (Rleb_spec x y); [lra|reflexivity]. Qed.
Lemma Rltb_true x y : x < y -> Rltb x y = true.
Proof. intros; destruct (Rltb_spec x y); [reflexivity|lra]. Qed.
Lemma Rltb_false x y : y <= x -> Rltb x y = false.
Proof. intros; destruct (Rltb_spec x y); [lra|reflexivity]. Qed.
Lemma Reqb_true x y : x = y -> Reqb x y = true.
Proof. intros; destruct (Reqb_spec x y); [reflexivity|lra]. Qed.
Lemma Reqb_false x y : x <> y -> Reqb x y = false.
Proof. intros; destruct (Reqb_spec x y); [lra|reflexivity]. Qed.

Lemma ddiv_R (a b : R) : b <> 0 -> ddiv a b = Ok (a / b).
Proof. intros H. unfold ddiv; simpl. now rewrite Reqb_false. Qed.

Lemma seps_R : seps = / IZR (2 ^ 52) :> R.
Proof. unfold seps; simpl. unfold Rdiv. now rewrite Rmult_1_l. Qed.

Lemma seps_pos : 0 < (seps : R).
Proof. rewrite seps_R. apply Rinv_0_lt_compat. apply IZR_lt. reflexivity. Qed.

Lemma smax_R (a b : R) : smax a b = Rmax a b.
Proof.
  unfold smax; simpl. destruct (Rltb_spec a b).
  - rewrite Rmax_right; lra.
  - rewrite Rmax_left; lra.
Qed.
Lemma smin_R (a b : R) : smin a b = Rmin a b.
Proof.
  unfold smin; simpl. destruct (Rltb_spec b a).
  - rewrite Rmin_right; lra.
  - rewrite Rmin_left; lra.
Qed.
Lemma sabs_R (a : R) : sabs a = Rabs a.
Proof.
  unfold sabs; simpl. destruct (Rltb_spec a 0).
  - rewrite Rabs_left; lra.
  - rewrite Rabs_right; lra.
Qed.

(** floor *)
Lemma sfloor_R (x : R) : IZR (sfloor x) <= x < IZR (sfloor x) + 1.
Proof.
  simpl. destruct (archimed x) as [H1 H2]. rewrite minus_IZR. lra.
Qed.

Lemma sfloor_R_uniq (x : R) n : IZR n <= x < IZR n + 1 -> sfloor x = n.
Proof.
  intros [H1 H2]. destruct (sfloor_R x) as [H3 H4].
  assert (sfloor x < n + 1)%Z by (apply lt_IZR; rewrite plus_IZR; lra).
  assert (n < sfloor x + 1)%Z by (apply lt_IZR; rewrite plus_IZR; lra).
  lia.
Qed.

(** * Laws of points over R *)
Class PointLaws (P : Type) {V : PointOps R P} := {
  pl_comm : forall a b : P, padd a b = padd b a;
  pl_assoc : forall a b c : P, padd a (padd b c) = padd (padd a b) c;
  pl_0 : forall a : P, padd p0 a = a;
  pl_mul1 : forall a : P, pmul 1 a = a;
  pl_mul0 : forall a : P, pmul 0 a = p0;
  pl_mulp0 : forall x : R, pmul x p0 = (p0 : P);
  pl_mulD : forall (x : R) (a b : P), pmul x (padd a b) = padd (pmul x a) (pmul x b);
  pl_addM : forall (x y : R) (a : P), pmul (x + y) a = padd (pmul x a) (pmul y a);
  pl_mulA : forall (x y : R) (a : P), pmul x (pmul y a) = pmul (x * y) a;
  pl_sub : forall a b : P, psub a b = padd a (pmul (-1) b);
}.

(** Linear maps between point spaces. *)
Record linmap {P P' : Type} {V : PointOps R P} {V' : PointOps R P'} (f : P -> P') : Prop := {
  lm_0 : f p0 = p0;
  lm_add : forall a b, f (padd a b) = padd (f a) (f b);
  lm_sub : forall a b, f (psub a b) = psub (f a) (f b);
  lm_mul : forall x a, f (pmul x a) = pmul x (f a);
}.

(** Affine maps: they preserve affine combinations. *)
Definition affmap {P P' : Type} {V : PointOps R P} {V' : PointOps R P'} (f : P -> P') : Prop :=
  forall (x : R) a b, f (padd (pmul (1 - x) a) (pmul x b)) = padd (pmul (1 - x) (f a)) (pmul x (f b)).

Lemma linmap_affmap {P P' : Type} {V : PointOps R P} {V' : PointOps R P'} (f : P -> P') :
  linmap f -> affmap f.
Proof. intros [H0 Ha Hs Hm] x a b. now rewrite Ha, !Hm. Qed.

(** * Coordinates *)
Section Coord.
  Context {d : nat}.
  Implicit Types a b : vec R d.

  Lemma coord_vmap2 (f : R -> R -> R) i (a b : vec R d) :
    (i < d)%nat -> coord d i (vmap2 d f a b) = f (coord d i a) (coord d i b).
  Proof.
    revert i a b; induction d as [|d' IH]; intros i a b H; [lia|].
    destruct i; simpl; [reflexivity|]. apply IH. lia.
  Qed.

  Lemma coord_vmap (f : R -> R) i (a : vec R d) :
    (i < d)%nat -> coord d i (vmap d f a) = f (coord d i a).
  Proof.
    revert i a; induction d as [|d' IH]; intros i a H; [lia|].
    destruct i; simpl; [reflexivity|]. apply IH. lia.
  Qed.

  Lemma coord_vconst (x : R) i : (i < d)%nat -> coord d i (vconst d x) = x.
  Proof.
    revert i; induction d as [|d' IH]; intros i H; [lia|].
    destruct i; simpl; [reflexivity|]. apply IH. lia.
  Qed.

  Lemma coord_add i a b : (i < d)%nat -> coord d i (padd a b) = coord d i a + coord d i b.
  Proof. apply coord_vmap2. Qed.
  Lemma coord_sub i a b : (i < d)%nat -> coord d i (psub a b) = coord d i a - coord d i b.
  Proof. apply coord_vmap2. Qed.
  Lemma coord_mul i (x : R) a : (i < d)%nat -> coord d i (pmul x a) = x * coord d i a.
  Proof. apply coord_vmap. Qed.
  Lemma coord_0 i : (i < d)%nat -> coord d i (p0 : vec R d) = 0.
  Proof. apply coord_vconst. Qed.

  Lemma vec_ext a b : (forall i, (i < d)%nat -> coord d i a = coord d i b) -> a = b.
  Proof.
    revert a b; induction d as [|d' IH]; intros a b H.
    - destruct a, b; reflexivity.
    - destruct a as [x a], b as [y b]. f_equal.
      + apply (H O). lia.
      + apply IH. intros i Hi. apply (H (S i)). lia.
  Qed.

  Lemma coord_linmap i : (i < d)%nat -> linmap (coord d i).
  Proof.
    intros H. split.
    - now apply coord_0.
    - intros; now apply coord_add.
    - intros; now apply coord_sub.
    - intros; now apply coord_mul.
  Qed.
End Coord.

Ltac vext := apply vec_ext; intros ?ci ?Hci;
  repeat (rewrite ?coord_add, ?coord_sub, ?coord_mul, ?coord_0 by assumption).
Ltac vring := vext; ring.

Global Instance vec_laws d : PointLaws (vec R d).
Proof. split; intros; vext; try ring. Qed.

Global Instance R_laws : PointLaws R.
Proof. split; intros; simpl; ring. Qed.

(** Inner product *)
Lemma vdot_nonneg (d : nat) (a : vec R d) : 0 <= vdot d a a.
Proof.
  revert a; induction d as [|d' IH]; intros a; simpl; [lra|].
  specialize (IH (snd a)). nra.
Qed.

Section Dot.
  Context {d : nat}.
  Implicit Types a b c : vec R d.

  Lemma vdot_comm a b : pdot a b = pdot b a.
  Proof.
    simpl. revert a b; induction d as [|d' IH]; intros a b; simpl; [reflexivity|].
    rewrite IH. ring.
  Qed.
  Lemma vdot_add_l a b c : pdot (padd a b) c = pdot a c + pdot b c.
  Proof.
    simpl. revert a b c; induction d as [|d' IH]; intros a b c; simpl; [ring|].
    rewrite IH. ring.
  Qed.
  Lemma vdot_sub_l a b c : pdot (psub a b) c = pdot a c - pdot b c.
  Proof.
    simpl. revert a b c; induction d as [|d' IH]; intros a b c; simpl; [ring|].
    rewrite IH. ring.
  Qed.
  Lemma vdot_mul_l (x : R) a c : pdot (pmul x a) c = x * pdot a c.
  Proof.
    simpl. revert a c; induction d as [|d' IH]; intros a c; simpl; [ring|].
    rewrite IH. ring.
  Qed.
  Lemma vdot_0_l a : pdot (p0 : vec R d) a = 0.
  Proof.
    simpl. revert a; induction d as [|d' IH]; intros a; simpl; [ring|].
    rewrite IH. ring.
  Qed.
  Lemma vdot_add_r a b c : pdot c (padd a b) = pdot c a + pdot c b.
  Proof. rewrite vdot_comm, vdot_add_l. now rewrite (vdot_comm a), (vdot_comm b). Qed.
  Lemma vdot_sub_r a b c : pdot c (psub a b) = pdot c a - pdot c b.
  Proof. rewrite vdot_comm, vdot_sub_l. now rewrite (vdot_comm a), (vdot_comm b). Qed.
  Lemma vdot_mul_r (x : R) a c : pdot c (pmul x a) = x * pdot c a.
  Proof. rewrite vdot_comm, vdot_mul_l. now rewrite (vdot_comm a). Qed.
  Lemma vdot_0_r a : pdot a (p0 : vec R d) = 0.
  Proof. now rewrite vdot_comm, vdot_0_l. Qed.
  Lemma vdot_pos a : 0 <= pdot a a.
  Proof.
    simpl. revert a; induction d as [|d' IH]; intros a; simpl; [lra|].
    specialize (IH (snd a)). nra.
  Qed.
  Lemma vdot_zero a : pdot a a = 0 -> a = p0.
  Proof.
    simpl. revert a; induction d as [|d' IH]; intros a H; simpl in *; [now destruct a|].
    pose proof (vdot_nonneg d' (snd a)) as Hp.
    destruct a as [x v]; simpl in *.
    assert (x = 0) by nra. subst x. f_equal. apply IH. nra.
  Qed.
End Dot.
