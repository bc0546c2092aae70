(** A B-spline patch whose value does not follow set_control_point (C36). *)
From Coq Require Import Reals Lra Lia ZArith List Bool.
From Verif Require Import Monad MonadFacts Scalar Spec SpecPatch ModelCurve ModelBezier ModelBSpline ModelPatchBase ModelPatch
  ExampleFacts PatchFacts BSplinePatchThms BSplinePatchThms2.
Import ListNotations.
Local Open Scope R_scope.

(** One direction with integer knots. *)
Definition chkd (p : nat) (zs : list Z) : bool :=
  (2 * p + 2 <=? length zs)%nat && sortedb zs && (nth p zs 0 <? nth (length zs - p - 1) zs 0)%Z.
Lemma valid_dir_of_Z p zs : chkd p zs = true -> valid_dir p (map IZR zs).
Proof.
  intros H. unfold chkd in H. rewrite !andb_true_iff in H. destruct H as [[H1 H2] H3].
  apply Nat.leb_le in H1. apply Z.ltb_lt in H3.
  split; rewrite ?map_length; auto.
  - intros i j Hij. rewrite map_length in Hij. rewrite !nth_map_IZR. apply IZR_le. now apply sortedb_nth.
  - unfold dir_lo, dir_hi, dir_count. rewrite map_length, !nth_map_IZR. now apply IZR_lt.
Qed.
Definition chkf (p : nat) (zs : list Z) : bool :=
  forallb (fun i => nth i zs 0 <? nth (i + p) zs 0)%Z (seq 1 (length zs - p - 2)).
Lemma no_full_of_Z p zs : chkf p zs = true -> no_full_knot p (map IZR zs).
Proof.
  intros H i H1 H2. rewrite map_length in H2. rewrite !nth_map_IZR. apply IZR_lt. apply Z.ltb_lt.
  unfold chkf in H. rewrite forallb_forall in H. apply (H i). apply in_seq. lia.
Qed.

(** Degrees 1 x 1, knots 0,0,1,1 twice, all control points 0. *)
Definition rk : list R := map IZR [0; 0; 1; 1]%Z.
Definition rs : spatch R (vec R 1) :=
  let c := {| bs_pts := [p0; p0]; bs_knots := rk; bs_periodic := false |} in
  {| sp_tu := -1; sp_tv := -1; sp_degu := 1; sp_degv := 1; sp_grid := [p0; p0; p0; p0]; sp_ku := rk; sp_kv := rk;
     sp_peru := false; sp_perv := false; sp_isou := [c; c]; sp_isov := [c; c] |}.
Lemma rs_init : sp_initialize rs = Ok rs. Proof. reflexivity. Qed.
Lemma rk_valid : valid_dir 1 rk. Proof. apply valid_dir_of_Z. reflexivity. Qed.
Lemma rk_apart : knots_apart (/ IZR (10 ^ 16)) rk. Proof. apply apart_of_Z. Qed.
Lemma rk_half : dir_param false 1 rk (1/2).
Proof. unfold dir_param, dir_lo, dir_hi, rk; cbn. split; [right|left]; lra. Qed.

Lemma rk_basis0 : bspline_basis 2 rk (1/2) 0 = 1/2.
Proof.
  unfold bspline_basis, rk.
  change (length (map IZR [0; 0; 1; 1]%Z) - 2 - 1)%nat with 1%nat.
  cbn [cox]. unfold N0, frac0, knot_of.
  change (Z.of_nat 0 + Z.of_nat 1)%Z with 1%Z. change (Z.of_nat 0 + Z.of_nat 1 + 1)%Z with 2%Z.
  change (Z.of_nat 0 + 1)%Z with 1%Z. change (1 + 1)%Z with 2%Z.
  change (Z.to_nat (Z.of_nat 0)) with 0%nat. change (Z.to_nat 1) with 1%nat. change (Z.to_nat 2) with 2%nat.
  change (Z.to_nat (Z.of_nat 2)) with 2%nat. cbn [nth map].
  repeat match goal with |- context [if ?c then _ else _] => destruct c; try (exfalso; lra) end; lra.
Qed.

Lemma spatch_setter_refuted : exists (s s' s'' : spatch R (vec R 1)) a v,
  sp_initialize s = Ok s /\ valid_dir 1 (sp_ku s) /\ valid_dir 1 (sp_kv s) /\ sp_degu s = 1%Z /\ sp_degv s = 1%Z /\
  sp_set_control_point s 0 0 a = Ok s' /\ sp_initialize s' = Ok s'' /\
  sp_evaluate s' (1/2) (1/2) = Ok v /\ sp_evaluate s'' (1/2) (1/2) <> Ok v.
Proof.
  destruct (spatch_setter_init 1 rs 0 0 (1, tt) rs_init rk_valid rk_valid rk_apart rk_apart) as
    (s' & s'' & g & E1 & E2 & Lg & G0 & G1 & V); [exact (Nat.lt_0_succ 1)|exact (Nat.lt_0_succ 1)|].
  destruct (spatch_evaluate 1 rs (1/2) (1/2) rs_init rk_valid rk_valid rk_apart rk_apart rk_half rk_half) as (u' & v' & W1 & W2 & E).
  destruct (V (1/2) (1/2) rk_half rk_half) as (u2 & v2 & W3 & W4 & F).
  cbn in W1, W2, W3, W4. subst u' v' u2 v2.
  exists rs, s', s'', (1, tt). eexists.
  split; [exact rs_init|]. split; [exact rk_valid|]. split; [exact rk_valid|]. split; [reflexivity|]. split; [reflexivity|].
  split; [exact E1|]. split; [exact E2|].
  split; [rewrite (spatch_setter_stale _ _ _ _ _ _ _ _ E1); exact E|].
  rewrite F. intros C. apply (f_equal (fun r => match r with Ok x => fst x | _ => 0 end)) in C.
  change (dir_count (Z.to_nat (sp_degv rs)) (sp_kv rs)) with 2%nat in G0, G1. cbn [Nat.mul Nat.add] in G0, G1.
  change (dir_count (Z.to_nat (sp_degu rs)) (sp_ku rs)) with 2%nat in C.
  change (dir_count (Z.to_nat (sp_degv rs)) (sp_kv rs)) with 2%nat in C.
  change (sp_ku rs) with rk in C. change (sp_kv rs) with rk in C.
  unfold tensor_sum in C. cbn [psum Nat.mul Nat.add] in C.
  rewrite G0, (G1 1%nat), (G1 2%nat), (G1 3%nat) in C by discriminate.
  cbn [rs sp_grid nth] in C. rewrite rk_basis0 in C. cbn in C. lra.
Qed.
