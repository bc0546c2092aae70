(** Loops that fill an array, one entry per iteration. *)
From Coq Require Import ZArith List Lia.
From Verif Require Import Monad MonadFacts.
Import ListNotations.
Local Open Scope Z_scope.

Lemma for_up_fill {A} lo hi n (body : Z -> list A -> res (list A)) l0 (f0 g : Z -> A) :
  arr l0 n f0 -> 0 <= lo -> hi <= n ->
  (forall i s, lo <= i < hi -> arr s n (fun j => if (lo <=? j) && (j <? i) then g j else f0 j)%bool ->
     body i s = set s i (g i)) ->
  exists o, for_up lo hi body l0 = Ok o /\ arr o n (fun j => if (lo <=? j) && (j <? hi) then g j else f0 j)%bool.
Proof.
  intros H0 Hlo Hhi Hb. destruct (Z_le_gt_dec lo hi) as [Hle|Hgt].
  - destruct (for_up_inv (fun i s => arr s n (fun j => if (lo <=? j) && (j <? i) then g j else f0 j)%bool) lo hi body l0)
      as (o & E & Ho).
    + lia.
    + eapply arr_ext; [exact H0|]. intros j Hj. destruct (Z.leb_spec lo j), (Z.ltb_spec j lo); cbn; (lia || reflexivity).
    + intros i s Hi Hs. rewrite (Hb i s Hi Hs).
      destruct (arr_set s n _ i (g i) Hs) as (s' & Es & Hs'); [lia|].
      exists s'. split; [exact Es|]. eapply arr_ext; [exact Hs'|]. intros j Hj. unfold fupd.
      destruct (Z.eqb_spec j i) as [->|].
      * destruct (Z.leb_spec lo i), (Z.ltb_spec i (i + 1)); cbn; (lia || reflexivity).
      * destruct (Z.leb_spec lo j), (Z.ltb_spec j i), (Z.ltb_spec j (i + 1)); cbn; (lia || reflexivity).
    + exists o. split; assumption.
  - rewrite for_up_empty by lia. exists l0. split; [reflexivity|]. eapply arr_ext; [exact H0|].
    intros j Hj. destruct (Z.leb_spec lo j), (Z.ltb_spec j hi); cbn; (lia || reflexivity).
Qed.

Lemma for_up_fill0 {A} n (body : Z -> list A -> res (list A)) l0 (f0 g : Z -> A) :
  arr l0 n f0 ->
  (forall i s, 0 <= i < n -> arr s n (fun j => if (0 <=? j) && (j <? i) then g j else f0 j)%bool ->
     body i s = set s i (g i)) ->
  exists o, for_up 0 n body l0 = Ok o /\ arr o n g.
Proof.
  intros H0 Hb. destruct (for_up_fill 0 n n body l0 f0 g H0 ltac:(lia) ltac:(lia) Hb) as (o & E & Ho).
  exists o. split; [exact E|]. eapply arr_ext; [exact Ho|]. intros j Hj.
  cbv beta. replace (0 <=? j) with true by (symmetry; apply Z.leb_le; lia). destruct (Z.ltb_spec j n); cbn [andb]; (lia || reflexivity).
Qed.

(** Decides the integer tests in the goal. *)
Ltac zbool := repeat match goal with
    | |- context [Z.leb ?a ?b] => destruct (Z.leb_spec a b); try lia
    | |- context [Z.ltb ?a ?b] => destruct (Z.ltb_spec a b); try lia
    | |- context [Z.eqb ?a ?b] => destruct (Z.eqb_spec a b); try lia
    end; cbn [andb orb].
