(** Grids of control points: two dimensional arrays stored row by row. *)
From Coq Require Import Reals Lra Lia List ZArith Bool.
From Verif Require Import Monad MonadFacts LoopFacts Scalar ScalarFacts Spec SpecFacts SpecPatch TensorFacts.
From Verif Require Import ModelCurve CurveFacts ModelBezier BezierThms ModelBSpline ModelPatchBase ModelPatch.
Import ListNotations.
Local Open Scope Z_scope.

Definition garr {A} (g : list A) (nu nv : Z) (G : Z -> Z -> A) : Prop :=
  zlen g = nu * nv /\ forall i j, 0 <= i < nu -> 0 <= j < nv -> get g (i * nv + j) = Ok (G i j).

Lemma lin_index_range i j nu nv : 0 <= i < nu -> 0 <= j < nv -> 0 <= i * nv + j < nu * nv.
Proof. nia. Qed.

Lemma lin_index_inj i j i' j' nv : 0 <= j < nv -> 0 <= j' < nv -> i * nv + j = i' * nv + j' -> i = i' /\ j = j'.
Proof. intros H H' E. assert (i = i') by nia. subst. lia. Qed.

Lemma garr_ext {A} (g : list A) nu nv G G' : garr g nu nv G ->
  (forall i j, 0 <= i < nu -> 0 <= j < nv -> G i j = G' i j) -> garr g nu nv G'.
Proof. intros [H1 H2] E. split; [exact H1|]. intros i j Hi Hj. rewrite H2, E; auto. Qed.

Lemma garr_set {A} (g : list A) nu nv G i j a : garr g nu nv G -> 0 <= i < nu -> 0 <= j < nv ->
  exists g', set g (i * nv + j) a = Ok g' /\
    garr g' nu nv (fun i' j' => if (i' =? i) && (j' =? j) then a else G i' j').
Proof.
  intros [H1 H2] Hi Hj. pose proof (lin_index_range i j nu nv Hi Hj) as Hr.
  destruct g as [|x g0]; [cbn in H1; nia|]. set (g := x :: g0) in *.
  pose proof (arr_nth g x) as Ha. rewrite H1 in Ha.
  destruct (arr_set g (nu * nv) _ (i * nv + j) a Ha Hr) as (g' & E & Hg'). exists g'. split; [exact E|].
  split; [apply (arr_len _ _ _ Hg')|]. intros i' j' Hi' Hj'.
  pose proof (lin_index_range i' j' nu nv Hi' Hj') as Hr'.
  rewrite (arr_get _ _ _ _ Hg' Hr'). unfold fupd.
  destruct (Z.eqb_spec (i' * nv + j') (i * nv + j)) as [Ee|Ne].
  - destruct (lin_index_inj _ _ _ _ _ Hj' Hj Ee) as [-> ->]. rewrite !Z.eqb_refl. reflexivity.
  - specialize (H2 i' j' Hi' Hj'). rewrite (get_nth _ _ x) in H2 by lia. rewrite H2.
    destruct (Z.eqb_spec i' i) as [->|]; destruct (Z.eqb_spec j' j) as [->|]; cbn [andb]; try reflexivity. lia.
Qed.

Lemma garr_alloc {A} (d : A) nu nv : 0 <= nu -> 0 <= nv ->
  exists g, alloc d (nu * nv) = Ok g /\ garr g nu nv (fun _ _ => d).
Proof.
  intros Hu Hv. destruct (arr_alloc d (nu * nv)) as (g & E & Hg); [nia|]. exists g. split; [exact E|].
  split; [apply (arr_len _ _ _ Hg)|]. intros i j Hi Hj. apply (arr_get _ _ _ _ Hg). now apply lin_index_range.
Qed.

Lemma garr_of {P} {V : PointOps R P} (g : list P) nu nv : zlen g = nu * nv ->
  garr g nu nv (fun i j => nth (Z.to_nat (i * nv + j)) g p0).
Proof.
  intros H. split; [exact H|]. intros i j Hi Hj. pose proof (lin_index_range i j nu nv Hi Hj).
  apply get_nth. lia.
Qed.

Lemma garr_nth {P} {V : PointOps R P} (g : list P) nu nv G (i j m : nat) : garr g nu nv G -> nv = Z.of_nat m ->
  (Z.of_nat i < nu) -> (j < m)%nat -> nth (i * m + j) g p0 = G (Z.of_nat i) (Z.of_nat j).
Proof.
  intros [H1 H2] -> Hi Hj. specialize (H2 (Z.of_nat i) (Z.of_nat j) ltac:(lia) ltac:(lia)).
  pose proof (lin_index_range (Z.of_nat i) (Z.of_nat j) nu (Z.of_nat m) ltac:(lia) ltac:(lia)).
  rewrite (get_nth _ _ p0) in H2 by lia. injection H2 as <-. f_equal. lia.
Qed.

Lemma fill_grid_Ok {T P} {SO : ScalarOps T} {V : PointOps T P} nu nv (f : Z -> Z -> res P) F : 0 <= nu -> 0 <= nv ->
  (forall i j, 0 <= i < nu -> 0 <= j < nv -> f i j = Ok (F i j)) ->
  exists g, fill_grid nu nv f = Ok g /\ garr g nu nv F.
Proof.
  intros Hu Hv Hf. unfold fill_grid. destruct (garr_alloc (p0 : P) nu nv Hu Hv) as (g0 & E0 & H0). rewrite E0, bind_Ok.
  destruct (for_up_inv (fun i g => garr g nu nv (fun i' j' => if i' <? i then F i' j' else p0)) 0 nu
    (fun i g => for_up 0 nv (fun j g => do a <- f i j; set g (i * nv + j) a) g) g0 Hu) as (g & E & Hg).
  - eapply garr_ext; [exact H0|]. intros i j Hi Hj. cbv beta. destruct (Z.ltb_spec i 0); [lia|reflexivity].
  - intros i g Hi Hg.
    destruct (for_up_inv (fun j g => garr g nu nv (fun i' j' => if (i' <? i) || ((i' =? i) && (j' <? j)) then F i' j' else p0))
      0 nv (fun j g => do a <- f i j; set g (i * nv + j) a) g Hv) as (g' & E & Hg').
    + eapply garr_ext; [exact Hg|]. intros i' j' Hi' Hj'. cbv beta.
      destruct (Z.ltb_spec j' 0); [lia|]. rewrite andb_false_r, orb_false_r. reflexivity.
    + intros j g' Hj Hg'. rewrite Hf by lia. rewrite bind_Ok.
      destruct (garr_set g' nu nv _ i j (F i j) Hg' Hi Hj) as (g'' & E & Hg''). exists g''. split; [exact E|].
      eapply garr_ext; [exact Hg''|]. intros i' j' Hi' Hj'. cbv beta.
      destruct (Z.eqb_spec i' i) as [->|], (Z.eqb_spec j' j) as [->|]; zbool; try reflexivity; lia.
    + exists g'. split; [exact E|]. eapply garr_ext; [exact Hg'|]. intros i' j' Hi' Hj'. cbv beta.
      zbool; try reflexivity; lia.
  - exists g. split; [exact E|]. eapply garr_ext; [exact Hg|]. intros i j Hi Hj. cbv beta. zbool; try reflexivity; lia.
Qed.

Lemma copy_col_Ok {T P} {SO : ScalarOps T} {V : PointOps T P} nu nv vj pts (g : list P) G f :
  0 <= vj < nv -> 0 <= nu -> arr pts nu f -> garr g nu nv G ->
  exists g', copy_rows nu (fun ui => linear_index nv ui vj) pts g = Ok g' /\
    garr g' nu nv (fun i j => if j =? vj then f i else G i j).
Proof.
  intros Hj Hu Hp Hg. unfold copy_rows, linear_index.
  destruct (for_up_inv (fun k g => garr g nu nv (fun i j => if (j =? vj) && (i <? k) then f i else G i j)) 0 nu
    (fun k g => do a <- get pts k; set g (k * nv + vj) a) g Hu) as (g' & E & Hg').
  - eapply garr_ext; [exact Hg|]. intros i j Hi Hj'. cbv beta. zbool; try reflexivity; lia.
  - intros k g' Hk Hg'. rewrite (arr_get _ _ _ _ Hp Hk), bind_Ok.
    destruct (garr_set g' nu nv _ k vj (f k) Hg' Hk Hj) as (g'' & E & Hg''). exists g''. split; [exact E|].
    eapply garr_ext; [exact Hg''|]. intros i j Hi Hj'. cbv beta.
    destruct (Z.eqb_spec i k) as [->|], (Z.eqb_spec j vj) as [->|]; zbool; try reflexivity; lia.
  - exists g'. split; [exact E|]. eapply garr_ext; [exact Hg'|]. intros i j Hi Hj'. cbv beta. zbool; try reflexivity; lia.
Qed.

Lemma copy_row_Ok {T P} {SO : ScalarOps T} {V : PointOps T P} nu nv ui pts (g : list P) G f :
  0 <= ui < nu -> 0 <= nv -> arr pts nv f -> garr g nu nv G ->
  exists g', copy_rows nv (fun vj => ui * nv + vj) pts g = Ok g' /\
    garr g' nu nv (fun i j => if i =? ui then f j else G i j).
Proof.
  intros Hi Hv Hp Hg. unfold copy_rows.
  destruct (for_up_inv (fun k g => garr g nu nv (fun i j => if (i =? ui) && (j <? k) then f j else G i j)) 0 nv
    (fun k g => do a <- get pts k; set g (ui * nv + k) a) g Hv) as (g' & E & Hg').
  - eapply garr_ext; [exact Hg|]. intros i j Hi' Hj'. cbv beta. zbool; try reflexivity; lia.
  - intros k g' Hk Hg'. rewrite (arr_get _ _ _ _ Hp Hk), bind_Ok.
    destruct (garr_set g' nu nv _ ui k (f k) Hg' Hi Hk) as (g'' & E & Hg''). exists g''. split; [exact E|].
    eapply garr_ext; [exact Hg''|]. intros i j Hi' Hj'. cbv beta.
    destruct (Z.eqb_spec j k) as [->|], (Z.eqb_spec i ui) as [->|]; zbool; try reflexivity; lia.
  - exists g'. split; [exact E|]. eapply garr_ext; [exact Hg'|]. intros i j Hi' Hj'. cbv beta. zbool; try reflexivity; lia.
Qed.

(** ** Combinations of the columns and rows of a grid *)
Local Open Scope R_scope.

Definition grow {P} {V : PointOps R P} (g : list P) (nv : nat) (i : nat) : list P :=
  mklist (Z.of_nat nv) (fun j => nth (Z.to_nat (Z.of_nat i * Z.of_nat nv + j)) g p0).
Definition gcol {P} {V : PointOps R P} (g : list P) (nu nv : nat) (j : nat) : list P :=
  mklist (Z.of_nat nu) (fun i => nth (Z.to_nat (i * Z.of_nat nv + Z.of_nat j)) g p0).

Lemma nth_mklist_nat {A} n (f : Z -> A) k d : (k < n)%nat -> nth k (mklist (Z.of_nat n) f) d = f (Z.of_nat k).
Proof.
  intros H. assert (Hk : (0 <= Z.of_nat k < Z.of_nat n)%Z) by lia.
  pose proof (get_mklist (Z.of_nat n) f (Z.of_nat k) Hk) as E.
  rewrite (get_nth _ _ d) in E by (rewrite zlen_mklist; lia). rewrite Nat2Z.id in E. congruence.
Qed.

Lemma lin_mklist {d} n b (f : Z -> vec R d) : lin n b (mklist (Z.of_nat n) f) = psum n (fun i => pmul (b i) (f (Z.of_nat i))).
Proof. unfold lin. apply psum_ext. intros i Hi. now rewrite nth_mklist_nat. Qed.

Lemma lin_of_rows {d} n m bu bv (g : list (vec R d)) :
  lin n bu (mklist (Z.of_nat n) (fun i => lin m bv (mklist (Z.of_nat m) (fun j => nth (Z.to_nat (i * Z.of_nat m + j)) g p0))))
  = tensor_sum n m bu bv g.
Proof.
  rewrite lin_mklist. rewrite <- tensor_rows. apply psum_ext. intros i Hi. f_equal. rewrite lin_mklist.
  apply psum_ext. intros j Hj. f_equal. f_equal. lia.
Qed.

Lemma lin_of_cols {d} n m bu bv (g : list (vec R d)) :
  lin m bv (mklist (Z.of_nat m) (fun j => lin n bu (mklist (Z.of_nat n) (fun i => nth (Z.to_nat (i * Z.of_nat m + j)) g p0))))
  = tensor_sum n m bu bv g.
Proof.
  rewrite lin_mklist. rewrite <- tensor_cols. apply psum_ext. intros j Hj. f_equal. rewrite lin_mklist.
  apply psum_ext. intros i Hi. f_equal. f_equal. lia.
Qed.
