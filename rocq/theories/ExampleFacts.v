(** Helpers for the examples that show the hypotheses of the theorems can be met: knot vectors with
    integer entries. *)
From Coq Require Import Reals Lra Lia ZArith List Bool.
From Verif Require Import Scalar Spec.
Import ListNotations.
Local Open Scope R_scope.

Fixpoint sortedb (l : list Z) : bool :=
  match l with
  | a :: ((b :: _) as l') => (a <=? b)%Z && sortedb l'
  | _ => true
  end.

Lemma sortedb_nth l : sortedb l = true -> forall i j, (i <= j < length l)%nat -> (nth i l 0 <= nth j l 0)%Z.
Proof.
  induction l as [|a l IH]; intros H i j Hij; [simpl in Hij; lia|].
  assert (Hl : sortedb l = true) by (destruct l; [reflexivity|simpl in H; apply andb_true_iff in H; tauto]).
  destruct i as [|i], j as [|j]; simpl in *; try lia.
  - destruct l as [|b l]; [simpl in Hij; lia|]. apply andb_true_iff in H. destruct H as [H1 H2].
    apply Z.leb_le in H1. specialize (IH Hl 0%nat j ltac:(simpl in *; lia)). simpl nth in IH at 1. lia.
  - apply IH; [exact Hl|lia].
Qed.

Lemma nth_map_IZR zs i : nth i (map IZR zs) 0 = IZR (nth i zs 0%Z).
Proof. change 0 with (IZR 0%Z). apply map_nth. Qed.

Definition chk (n : nat) (zs : list Z) : bool :=
  ((n + 1 <=? length zs) && (length zs - n - 1 <? n))%nat && sortedb zs
  && (nth (length zs - n - 1) zs 0 <? nth n zs 0)%Z.

Lemma valid_of_Z {P} (pts : list P) zs : chk (length pts) zs = true -> valid_bspline pts (map IZR zs).
Proof.
  intros H. unfold chk in H. rewrite !andb_true_iff in H. destruct H as [[[H1 H2] H3] H4].
  apply Nat.leb_le in H1. apply Nat.ltb_lt in H2. apply Z.ltb_lt in H4.
  split; unfold bspline_degree; rewrite ?map_length; auto.
  - intros i j Hij. rewrite map_length in Hij. rewrite !nth_map_IZR. apply IZR_le. now apply sortedb_nth.
  - rewrite !nth_map_IZR. now apply IZR_lt.
Qed.

Lemma inv_IZR_lt1 (k : Z) : (1 < k)%Z -> 0 < / IZR k < 1.
Proof.
  intros H. assert (1 < IZR k) by (apply IZR_lt; exact H). split; [apply Rinv_0_lt_compat; lra|].
  rewrite <- Rinv_1. apply Rinv_lt_contravar; lra.
Qed.

Lemma apart_of_Z zs : knots_apart (/ IZR (10 ^ 16)) (map IZR zs).
Proof.
  intros i j _ Hlt. rewrite !nth_map_IZR in *. apply lt_IZR in Hlt. rewrite <- minus_IZR.
  destruct (inv_IZR_lt1 (10 ^ 16)) as [_ H]; [reflexivity|].
  assert (1 <= IZR (nth j zs 0%Z - nth i zs 0%Z)) by (apply IZR_le; lia). lra.
Qed.

Lemma regular_of_Z {P} (pts : list P) zs :
  (nth (length zs - length pts - 1) zs 0 <? nth (length zs - length pts) zs 0)%Z = true ->
  (length pts + 1 <= length zs)%nat ->
  regular_start pts (map IZR zs).
Proof.
  intros H HL. left. unfold bspline_degree. rewrite map_length, !nth_map_IZR. apply IZR_lt.
  replace (length zs - length pts - 1 + 1)%nat with (length zs - length pts)%nat by lia. now apply Z.ltb_lt.
Qed.

Lemma In_IZR_apart zs (z : Z) : forall u, In u (map IZR zs) -> u = IZR z \/ / IZR (10 ^ 16) < Rabs (u - IZR z).
Proof.
  intros u Hu. apply in_map_iff in Hu. destruct Hu as (x & <- & _).
  destruct (Z.eq_dec x z) as [->|Hne]; [left; reflexivity|right].
  destruct (inv_IZR_lt1 (10 ^ 16)) as [_ H]; [reflexivity|].
  rewrite <- minus_IZR, <- abs_IZR. assert (1 <= IZR (Z.abs (x - z))) by (apply IZR_le; lia). lra.
Qed.

Lemma count_IZR zs z : count_occ Req_EM_T (map IZR zs) (IZR z) = count_occ Z.eq_dec zs z.
Proof.
  induction zs as [|a zs IH]; [reflexivity|]. simpl map. simpl count_occ. rewrite IH.
  destruct (Req_EM_T (IZR a) (IZR z)) as [E|E], (Z.eq_dec a z) as [E'|E']; try reflexivity.
  - apply eq_IZR in E. contradiction.
  - subst. contradiction.
Qed.
