(** Counterexamples for B-splines: runs on rationals carried over to the reals. *)
From Coq Require Import Reals QArith Qreals Lra Lia ZArith List Bool.
From Verif Require Import Monad Scalar Spec ModelCurve ModelBezier ModelBSpline Transfer TransferBSpline.
Import ListNotations.
Local Open Scope R_scope.

Definition q1 (x : Q) : vec Q 1 := (x, tt).
Definition r1 (x : R) : vec R 1 := (x, tt).

(** A linear curve with knots 0,0,0,1,2,3. *)
Definition lin_q : bspline Q (vec Q 1) :=
  mk_bspline [q1 (1#1); q1 (3#1); q1 (5#1); q1 (7#1)]%Q [0#1;0#1;0#1;1#1;2#1;3#1]%Q.
Definition lin_pts : list (vec R 1) := map r1 (map IZR [1; 3; 5; 7]%Z).
Definition lin_knots : list R := map IZR [0; 0; 0; 1; 2; 3]%Z.

(** A cubic curve with knots -3,-2,-1,0,0,1,2,3,4. *)
Definition cub_q : bspline Q (vec Q 1) :=
  mk_bspline [q1 (1#1); q1 (3#1); q1 (-2#1); q1 (5#1); q1 (7#1)]%Q [-3#1;-2#1;-1#1;0#1;0#1;1#1;2#1;3#1;4#1]%Q.
Definition cub_pts : list (vec R 1) := map r1 (map IZR [1; 3; -2; 5; 7]%Z).
Definition cub_knots : list R := map IZR [-3; -2; -1; 0; 0; 1; 2; 3; 4]%Z.

Lemma Q2R_Z z : Q2R (z # 1) = IZR z.
Proof. unfold Q2R. simpl. field. Qed.
Lemma lin_eq : bsR lin_q = mk_bspline lin_pts lin_knots.
Proof. unfold bsR, lin_q, mk_bspline, lin_pts, lin_knots, q1, r1. cbn [bs_pts bs_knots bs_periodic map vR fst snd]. now rewrite !Q2R_Z. Qed.
Lemma cub_eq : bsR cub_q = mk_bspline cub_pts cub_knots.
Proof. unfold bsR, cub_q, mk_bspline, cub_pts, cub_knots, q1, r1. cbn [bs_pts bs_knots bs_periodic map vR fst snd]. now rewrite !Q2R_Z. Qed.

Lemma lin_at0 : bs_evaluate (mk_bspline lin_pts lin_knots) 0 = Ok (r1 1).
Proof.
  rewrite <- lin_eq, <- (Q2R_Z 0). rewrite (run_evaluate 1 lin_q (0#1) (q1 (1#1)) eq_refl); [|vm_compute; reflexivity].
  unfold q1, vR. cbn [fst snd]. now rewrite Q2R_Z.
Qed.

Lemma cub_at0 : bs_evaluate (mk_bspline cub_pts cub_knots) 0 = Ok (r1 (1/2)).
Proof.
  rewrite <- cub_eq, <- (Q2R_Z 0). rewrite (run_evaluate 1 cub_q (0#1) (q1 (1#2)) eq_refl); [|vm_compute; reflexivity].
  reflexivity.
Qed.

Lemma cub_insert : exists c', bs_insert_knot (mk_bspline cub_pts cub_knots) 0 1 = Ok c' /\ bs_evaluate c' 0 = Ok (r1 3).
Proof.
  rewrite <- cub_eq, <- (Q2R_Z 0).
  destruct (bs_insert_knot cub_q (0#1) 1) as [c'| | |] eqn:E; [|vm_compute in E; discriminate..].
  exists (bsR c'). split; [now apply run_insert|].
  rewrite (run_evaluate 1 c' (0#1) (q1 (3#1))).
  - unfold q1, vR. cbn [fst snd]. now rewrite Q2R_Z.
  - vm_compute in E. injection E as <-. reflexivity.
  - vm_compute in E. injection E as <-. vm_compute. reflexivity.
Qed.

Lemma cub_convert : exists b rest bounds, bs_convert_to_Bezier (mk_bspline cub_pts cub_knots) = Ok (b :: rest, 0 :: bounds) /\
  hd p0 (bz_pts b) = r1 3.
Proof.
  rewrite <- cub_eq.
  destruct (bs_convert_to_Bezier cub_q) as [[l bo]| | |] eqn:E; [|vm_compute in E; discriminate..].
  rewrite (run_convert _ _ _ _ E). vm_compute in E. injection E as <- <-.
  cbn [map]. do 3 eexists. split.
  - apply f_equal. apply f_equal2; [reflexivity|]. apply f_equal2; [|reflexivity]. now rewrite Q2R_Z.
  - unfold bzR. cbn [bz_pts map hd vR fst snd]. now rewrite Q2R_Z.
Qed.

Lemma r1_neq x y : x <> y -> Ok (r1 x) <> Ok (r1 y).
Proof. intros H E. injection E as E. contradiction. Qed.

Ltac decide_R := repeat match goal with
  | |- context [Req_EM_T ?a ?b] => destruct (Req_EM_T a b); try (exfalso; lra)
  | |- context [Rle_dec ?a ?b] => destruct (Rle_dec a b); try (exfalso; lra)
  | |- context [Rlt_dec ?a ?b] => destruct (Rlt_dec a b); try (exfalso; lra)
  end.

Lemma lin_spec : bspline_curve lin_pts lin_knots 0 = r1 3.
Proof.
  unfold bspline_curve, lin_pts, lin_knots, bspline_degree, knot_of. cbn [map length psum Nat.sub Z.of_nat].
  cbn [cox]. unfold N0, frac0. cbn. change (Pos.to_nat 1) with 1%nat; change (Pos.to_nat 2) with 2%nat; change (Pos.to_nat 3) with 3%nat; change (Pos.to_nat 4) with 4%nat; change (Pos.to_nat 5) with 5%nat. cbn. decide_R. unfold r1. f_equal. lra.
Qed.

From Verif Require Import ExampleFacts.
Lemma lin_valid : valid_bspline lin_pts lin_knots.
Proof. apply valid_of_Z. reflexivity. Qed.
Lemma lin_apart : knots_apart (/ IZR (10 ^ 16)) lin_knots.
Proof. apply apart_of_Z. Qed.
Lemma cub_valid : valid_bspline cub_pts cub_knots.
Proof. apply valid_of_Z. reflexivity. Qed.
Lemma cub_apart : knots_apart (/ IZR (10 ^ 16)) cub_knots.
Proof. apply apart_of_Z. Qed.
Lemma cub_regular : regular_start cub_pts cub_knots.
Proof.
  right. unfold bspline_degree, cub_pts, cub_knots. rewrite !map_length. cbn [length Nat.sub]. split; [lia|].
  intros i Hi. rewrite !nth_map_IZR. apply IZR_lt.
  assert (i = 1 \/ i = 2 \/ i = 3)%nat as [->|[->| ->]] by lia; reflexivity.
Qed.

Lemma eval_start_wrong : exists (c : bspline R (vec R 1)),
  valid_bspline (bs_pts c) (bs_knots c) /\ knots_apart (/ IZR (10 ^ 16)) (bs_knots c) /\ bs_periodic c = false /\
  bs_evaluate c (lower_of (bs_pts c) (bs_knots c)) <> Ok (bspline_curve (bs_pts c) (bs_knots c) (lower_of (bs_pts c) (bs_knots c))).
Proof.
  exists (mk_bspline lin_pts lin_knots). cbn [bs_pts bs_knots bs_periodic mk_bspline].
  split; [exact lin_valid|]. split; [exact lin_apart|]. split; [reflexivity|].
  change (lower_of lin_pts lin_knots) with 0. fold (mk_bspline lin_pts lin_knots).
  rewrite lin_at0, lin_spec. apply r1_neq. lra.
Qed.

Lemma insert_start_wrong : exists (c c' : bspline R (vec R 1)),
  valid_bspline (bs_pts c) (bs_knots c) /\ knots_apart (/ IZR (10 ^ 16)) (bs_knots c) /\ bs_periodic c = false /\
  regular_start (bs_pts c) (bs_knots c) /\
  (1 + count_occ Req_EM_T (bs_knots c) (lower_of (bs_pts c) (bs_knots c)) <= bspline_degree (bs_pts c) (bs_knots c))%nat /\
  bs_insert_knot c (lower_of (bs_pts c) (bs_knots c)) 1 = Ok c' /\
  bs_evaluate c' (lower_of (bs_pts c) (bs_knots c)) <> bs_evaluate c (lower_of (bs_pts c) (bs_knots c)).
Proof.
  destruct cub_insert as (c' & H1 & H2). exists (mk_bspline cub_pts cub_knots), c'.
  cbn [bs_pts bs_knots bs_periodic mk_bspline].
  split; [exact cub_valid|]. split; [exact cub_apart|]. split; [reflexivity|]. split; [exact cub_regular|].
  change (lower_of cub_pts cub_knots) with (IZR 0).
  split; [unfold cub_knots; rewrite count_IZR; unfold bspline_degree, cub_pts; rewrite !map_length; apply Nat.leb_le; reflexivity|].
  fold (mk_bspline cub_pts cub_knots). split; [exact H1|]. rewrite H2, cub_at0. apply r1_neq. lra.
Qed.

Lemma convert_start_wrong : exists (c : bspline R (vec R 1)) b rest bounds,
  valid_bspline (bs_pts c) (bs_knots c) /\ knots_apart (/ IZR (10 ^ 16)) (bs_knots c) /\ bs_periodic c = false /\
  regular_start (bs_pts c) (bs_knots c) /\
  bs_convert_to_Bezier c = Ok (b :: rest, bounds) /\
  hd 0 bounds = lower_of (bs_pts c) (bs_knots c) /\
  Ok (hd p0 (bz_pts b)) <> bs_evaluate c (lower_of (bs_pts c) (bs_knots c)).
Proof.
  destruct cub_convert as (b & rest & bounds & H1 & H2). exists (mk_bspline cub_pts cub_knots), b, rest, (0 :: bounds).
  cbn [bs_pts bs_knots bs_periodic mk_bspline].
  split; [exact cub_valid|]. split; [exact cub_apart|]. split; [reflexivity|]. split; [exact cub_regular|].
  fold (mk_bspline cub_pts cub_knots). split; [exact H1|]. split; [reflexivity|].
  change (lower_of cub_pts cub_knots) with 0. rewrite H2, cub_at0. apply r1_neq. lra.
Qed.

(** A piecewise constant curve (degree 0) with knots 0,1,2,3. *)
Definition con_q : bspline Q (vec Q 1) := mk_bspline [q1 (1#1); q1 (2#1); q1 (3#1)]%Q [0#1;1#1;2#1;3#1]%Q.
Definition con_pts : list (vec R 1) := map r1 (map IZR [1; 2; 3]%Z).
Definition con_knots : list R := map IZR [0; 1; 2; 3]%Z.
Lemma con_eq : bsR con_q = mk_bspline con_pts con_knots.
Proof. unfold bsR, con_q, mk_bspline, con_pts, con_knots, q1, r1. cbn [bs_pts bs_knots bs_periodic map vR fst snd]. now rewrite !Q2R_Z. Qed.

Lemma split_degree0_wrong : exists (c c1 c2 : bspline R (vec R 1)) t,
  valid_bspline (bs_pts c) (bs_knots c) /\ knots_apart (/ IZR (10 ^ 16)) (bs_knots c) /\ bs_periodic c = false /\
  regular_start (bs_pts c) (bs_knots c) /\
  lower_of (bs_pts c) (bs_knots c) < t < upper_of (bs_pts c) (bs_knots c) /\
  split_bspline c t = Ok [c1; c2] /\
  upper_of (bs_pts c1) (bs_knots c1) < t < lower_of (bs_pts c2) (bs_knots c2).
Proof.
  destruct (split_bspline con_q (3#2)) as [l| | |] eqn:E; [|vm_compute in E; discriminate..].
  pose proof (run_split _ _ _ _ E) as E'. vm_compute in E. injection E as <-. cbn [map] in E'.
  exists (mk_bspline con_pts con_knots). do 2 eexists. exists (Q2R (3#2)). rewrite <- con_eq.
  split; [rewrite con_eq; apply valid_of_Z; reflexivity|]. split; [rewrite con_eq; apply apart_of_Z|].
  split; [reflexivity|]. split.
  { rewrite con_eq. left. cbn [bs_pts bs_knots mk_bspline]. unfold bspline_degree, con_pts, con_knots. rewrite !map_length, !nth_map_IZR. apply IZR_lt; reflexivity. }
  split.
  { rewrite con_eq. unfold lower_of, upper_of, bspline_degree, con_pts, con_knots. cbn [bs_pts bs_knots mk_bspline].
    rewrite !map_length, !nth_map_IZR. cbn. unfold Q2R. simpl. lra. }
  split; [exact E'|].
  unfold upper_of, lower_of, bspline_degree, bsR. cbn [bs_pts bs_knots map length nth Nat.sub]. unfold Q2R. simpl. lra.
Qed.

(** A quadratic curve with knots 0,0,0,1,2,2,2, and a parameter half a tolerance below its domain. *)
Definition qua_q : bspline Q (vec Q 1) :=
  mk_bspline [q1 (1#1); q1 (2#1); q1 (4#1); q1 (3#1)]%Q [0#1;0#1;0#1;1#1;2#1;2#1;2#1]%Q.
Definition qua_pts : list (vec R 1) := map r1 (map IZR [1; 2; 4; 3]%Z).
Definition qua_knots : list R := map IZR [0; 0; 0; 1; 2; 2; 2]%Z.
Lemma qua_eq : bsR qua_q = mk_bspline qua_pts qua_knots.
Proof. unfold bsR, qua_q, mk_bspline, qua_pts, qua_knots, q1, r1. cbn [bs_pts bs_knots bs_periodic map vR fst snd]. now rewrite !Q2R_Z. Qed.

Lemma insert_tolerance_wrong : exists (c c' : bspline R (vec R 1)) t,
  valid_bspline (bs_pts c) (bs_knots c) /\ knots_apart (/ IZR (10 ^ 16)) (bs_knots c) /\ bs_periodic c = false /\
  regular_start (bs_pts c) (bs_knots c) /\
  (forall u, In u (bs_knots c) -> u = t \/ / IZR (10 ^ 16) < Rabs (u - t)) /\
  (1 + count_occ Req_EM_T (bs_knots c) t <= bspline_degree (bs_pts c) (bs_knots c))%nat /\
  bs_in_domain c t = Ok true /\
  bs_insert_knot c t 1 = Ok c' /\ ~ nondecreasing (bs_knots c').
Proof.
  set (tq := (-1#9007199254740992)%Q).
  destruct (bs_insert_knot qua_q tq 1) as [c'| | |] eqn:E; [|vm_compute in E; discriminate..].
  pose proof (run_insert _ _ _ _ _ E) as E'. vm_compute in E. injection E as <-.
  assert (Ht : Q2R tq = - / IZR 9007199254740992) by (unfold tq, Q2R; simpl; lra).
  assert (Hi : 0 < / IZR 9007199254740992) by (apply Rinv_0_lt_compat, IZR_lt; reflexivity).
  assert (Hi2 : / IZR (10 ^ 16) < / IZR 9007199254740992).
  { apply Rinv_lt_contravar; [|apply IZR_lt; reflexivity]. rewrite <- mult_IZR. apply IZR_lt. reflexivity. }
  exists (mk_bspline qua_pts qua_knots). eexists. exists (Q2R tq). rewrite <- qua_eq.
  split; [rewrite qua_eq; apply valid_of_Z; reflexivity|]. split; [rewrite qua_eq; apply apart_of_Z|].
  split; [reflexivity|]. split.
  { rewrite qua_eq. left. cbn [bs_pts bs_knots mk_bspline]. unfold bspline_degree, qua_pts, qua_knots. rewrite !map_length, !nth_map_IZR. apply IZR_lt; reflexivity. }
  assert (Hz : forall u, In u (bs_knots (bsR qua_q)) -> / IZR (10 ^ 16) < Rabs (u - Q2R tq)).
  { rewrite qua_eq. cbn [bs_knots mk_bspline qua_knots map In]. intros u Hu. rewrite Ht.
    rewrite Rabs_right; [|repeat destruct Hu as [Hu|Hu]; try contradiction; subst u; lra].
    repeat destruct Hu as [Hu|Hu]; try contradiction; subst u; lra. }
  split; [intros u Hu; right; now apply Hz|]. split.
  { rewrite (proj1 (count_occ_not_In Req_EM_T _ _)).
    - rewrite qua_eq. unfold bspline_degree, qua_pts, qua_knots. cbn [bs_pts bs_knots mk_bspline]. rewrite !map_length. cbn. lia.
    - intros Hin. specialize (Hz _ Hin). unfold Rminus in Hz. rewrite Rplus_opp_r, Rabs_R0 in Hz.
      assert (0 < / IZR (10 ^ 16)) by (apply Rinv_0_lt_compat, IZR_lt; reflexivity). lra. }
  split.
  { pose proof (in_domain_rel qua_q (bsR qua_q) tq (Q2R tq) (Rbs_bsR _ _) eq_refl) as Hd.
    replace (bs_in_domain qua_q tq) with (@Ok bool true) in Hd by (symmetry; vm_compute; reflexivity).
    destruct (bs_in_domain (bsR qua_q) (Q2R tq)); simpl in Hd; try contradiction. now subst. }
  split; [exact E'|]. intros Hs. specialize (Hs 2%nat 3%nat). cbn in Hs.
  assert (H23 : Q2R (0#1) <= Q2R (-1#9007199254740992)) by (apply Hs; lia).
  fold tq in H23. rewrite Ht, Q2R_Z in H23. lra.
Qed.
