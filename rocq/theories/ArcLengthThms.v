(** Proofs about arc_length.h (Romberg integration) and sample.h. *)
From Coq Require Import Reals Lra Lia ZArith QArith List Bool Psatz Sorted.
From Verif Require Import Monad MonadFacts LoopFacts Scalar ScalarFacts Spec SpecFacts SpecGeom ModelCurve ModelPatchBase ModelQuadrature ModelLine
  CurveFacts CurveThms LineThms.
Import ListNotations.
Local Open Scope R_scope.

(** Relative error of the entry (i,j) of the table for a constant integrand: (err_a j * i + err_b j) / 2^i. *)
Fixpoint err_a (j : nat) : R := match j with O => 1 | S k => err_a k * (4 ^ S k - 2) / (4 ^ S k - 1) end.
Fixpoint err_b (j : nat) : R := match j with O => 0 | S k => (err_b k * (4 ^ S k - 2) + 2 * err_a k) / (4 ^ S k - 1) end.
Lemma div_le x y z : 0 < y -> x <= z * y -> x / y <= z.
Proof. intros Hy H. apply Rmult_le_reg_r with y; [exact Hy|]. replace (x / y * y) with x by (field; lra). exact H. Qed.
Lemma four_pow k : 4 <= 4 ^ S k.
Proof. pose proof (pow_R1_Rle 4 k ltac:(lra)). cbn [pow]. lra. Qed.
Lemma err_a_pos j : 0 < err_a j.
Proof.
  induction j as [|k IH]; cbn [err_a]; [lra|]. pose proof (four_pow k). apply Rdiv_lt_0_compat; [apply Rmult_lt_0_compat; lra|lra].
Qed.
Lemma err_b_pos j : 0 <= err_b j.
Proof.
  induction j as [|k IH]; cbn [err_b]; [lra|]. pose proof (four_pow k). pose proof (err_a_pos k).
  apply Rdiv_le_0_compat; [|lra]. assert (0 <= err_b k * (4 ^ S k - 2)) by (apply Rmult_le_pos; lra). lra.
Qed.
Definition table (L : R) (i j : nat) : R := L * (1 - (err_a j * INR i + err_b j) / 2 ^ i).

Lemma table_step L i k : table L (S i) (S k) =
  table L (S i) k + (table L (S i) k - table L i k) / (4 ^ S k - 1).
Proof.
  unfold table. rewrite S_INR. cbn [err_a err_b]. pose proof (four_pow k). set (q := 4 ^ S k) in *. clearbody q.
  assert (H2 : 2 ^ i <> 0) by (apply pow_nonzero; lra). cbn [pow]. field. split; lra.
Qed.
Lemma table_lt L i j : 0 < L -> (0 < i)%nat -> table L i j < L.
Proof.
  intros HL Hi. unfold table. pose proof (err_a_pos j). pose proof (err_b_pos j). assert (0 < INR i) by (apply lt_0_INR; exact Hi).
  assert (0 < 2 ^ i) by (apply pow_lt; lra).
  assert (0 < (err_a j * INR i + err_b j) / 2 ^ i) by (apply Rdiv_lt_0_compat; [|assumption]; assert (0 < err_a j * INR i) by (apply Rmult_lt_0_compat; assumption); lra).
  set (e := (err_a j * INR i + err_b j) / 2 ^ i) in *. assert (0 < L * e) by (apply Rmult_lt_0_compat; assumption). lra.
Qed.

Section Constant.
  Variables (speed : R -> res R) (s t0 t1 : R).
  Hypothesis Hs : forall t, speed t = Ok s.
  Let L := (t1 - t0) * s.

  Lemma refine_const h n r0 : (1 <= n)%Z -> romberg_refine speed t0 h n r0 = Ok (r0 + (IZR n - 1) * (s * h)).
  Proof.
    intros Hn. unfold romberg_refine.
    destruct (for_up_inv (fun k acc => acc = r0 + (IZR k - 1) * (s * h)) 1 n
      (fun k acc => do s <- speed (sadd t0 (smul (sofZ (2 * k - 1)) h)); Ok (sadd acc (smul s h))) r0) as (r & E & Hr); [lia|ring| |].
    - intros i acc Hi ->. rewrite Hs, bind_Ok. eexists. split; [reflexivity|]. cbn [sadd smul R_ops]. rewrite plus_IZR. ring.
    - rewrite E, Hr. reflexivity.
  Qed.

  (** The extrapolation loop turns row i-1 (with the new first entry) into row i. *)
  Lemma extrapolate_const i n vals : (1 <= i < n)%Z ->
    arr vals n (fun j => if (j =? 0)%Z then table L (Z.to_nat i) 0 else if (j <? i)%Z then table L (Z.to_nat (i - 1)) (Z.to_nat j) else 0) ->
    exists vals', romberg_extrapolate i (table L (Z.to_nat (i - 1)) 0) vals = Ok vals' /\
      arr vals' n (fun j => if (j <? i + 1)%Z then table L (Z.to_nat i) (Z.to_nat j) else 0).
  Proof.
    intros Hi Ha. unfold romberg_extrapolate.
    match goal with |- context [for_up 1 (i + 1) ?b ?init] =>
    destruct (for_up_inv (fun j '(m, prev, vals) => m = (4 ^ (j - 1))%Z /\ prev = (if (j <? i + 1)%Z then table L (Z.to_nat (i - 1)) (Z.to_nat (j - 1)) else 0 ) /\
        arr vals n (fun k => if (k <? j)%Z then table L (Z.to_nat i) (Z.to_nat k) else if (k <? i)%Z then table L (Z.to_nat (i - 1)) (Z.to_nat k) else 0)) 1 (i + 1)
      b init) as (st & E & Hst); [lia| | |rewrite E] end.
    - split; [reflexivity|]. split; [replace (1 <? i + 1)%Z with true by (symmetry; apply Z.ltb_lt; lia); reflexivity|].
      eapply arr_ext; [exact Ha|]. intros k Hk. cbn beta. destruct (Z.eqb_spec k 0) as [-> | Hk0]; [reflexivity|].
      replace (k <? 1)%Z with false by (symmetry; apply Z.ltb_ge; lia). reflexivity.
    - intros j [[m prev] vs] Hj (Em & Ep & Hv). cbv zeta.
      replace (j <? i + 1)%Z with true in Ep by (symmetry; apply Z.ltb_lt; lia).
      rewrite (arr_get _ _ _ _ Hv) by lia. rewrite (arr_get _ _ _ (j - 1)%Z Hv) by lia. rewrite !bind_Ok. cbn beta.
      replace (j - 1 <? j)%Z with true by (symmetry; apply Z.ltb_lt; lia).
      replace (j <? j)%Z with false by (symmetry; apply Z.ltb_ge; lia).
      assert (Em4 : IZR (m * 4 - 1) = 4 ^ Z.to_nat j - 1).
      { rewrite Em. assert (E4 : (4 ^ (j - 1) * 4 = 4 ^ j)%Z) by (replace j with (Z.succ (j - 1)) at 2 by lia; rewrite Z.pow_succ_r by lia; ring).
        rewrite E4, minus_IZR. apply f_equal2; [|reflexivity]. rewrite pow_IZR. do 2 f_equal. lia. }
      unfold ddiv. cbn [seq_ s0 ssub sdiv sofZ sadd R_ops]. rewrite Em4.
      destruct (Z.to_nat j) as [|k] eqn:Ek; [lia|]. pose proof (four_pow k). rewrite Reqb_false by lra. rewrite bind_Ok.
      match goal with |- context [set vs j ?v] => destruct (arr_set vs n _ j v Hv ltac:(lia)) as (vs' & Es & Hvs') end.
      rewrite Es, bind_Ok. eexists. split; [reflexivity|]. cbn beta iota.
      split; [rewrite Em; replace (j + 1 - 1)%Z with (Z.succ (j - 1)) by lia; rewrite Z.pow_succ_r by lia; ring|].
      split; [replace (j + 1 - 1)%Z with j by lia; replace (j + 1 <? i + 1)%Z with (j <? i)%Z by (destruct (Z.ltb_spec j i), (Z.ltb_spec (j + 1) (i + 1)); lia); now rewrite Ek|].
      eapply arr_ext; [exact Hvs'|]. intros k0 Hk0. unfold fupd. cbn beta.
      destruct (Z.eqb_spec k0 j) as [-> | Hne].
      + replace (j <? j + 1)%Z with true by (symmetry; apply Z.ltb_lt; lia). rewrite Ek, Ep.
        replace (Z.to_nat (j - 1)) with k by lia. replace (Z.to_nat i) with (S (Z.to_nat (i - 1))) by lia. symmetry. apply table_step.
      + replace (k0 <? j + 1)%Z with (k0 <? j)%Z by (destruct (Z.ltb_spec k0 j), (Z.ltb_spec k0 (j + 1)); lia). reflexivity.
    - destruct st as [[m prev] vs]. destruct Hst as (_ & _ & Hv). exists vs. split; [reflexivity|].
      eapply arr_ext; [exact Hv|]. intros k Hk. cbn beta. destruct (Z.ltb_spec k (i + 1)); [reflexivity|]. now replace (k <? i)%Z with false by (symmetry; apply Z.ltb_ge; lia).
  Qed.

  (** The result is a diagonal entry of the table: the last one, or an earlier one (of index at least 2) when the
      tolerance test stops the loop. *)
  Lemma romberg_const level tol : (0 <= level)%Z -> exists i, (i <= Z.to_nat level)%nat /\
    ((i = Z.to_nat level)%nat \/ ((2 <= i)%nat /\ 0 < tol)) /\ romberg speed t0 t1 level tol = Ok (table L i i).
  Proof.
    intros Hl. unfold romberg. destruct (arr_alloc (A := R) s0 (level + 1) ltac:(lia)) as (v0 & Ev0 & Hv0).
    cbn [s0 R_ops] in *. rewrite Ev0, bind_Ok. rewrite !Hs, !bind_Ok. cbv zeta.
    match goal with |- context [set v0 0 ?v] => destruct (arr_set v0 _ _ 0%Z v Hv0 ltac:(lia)) as (v1 & Ev1 & Hv1); assert (Et : v = table L 0 0) end.
    { unfold table, L. cbn [smul sadd ssub sofQ R_ops Qnum Qden err_a err_b INR pow]. field. }
    rewrite Ev1, bind_Ok. rewrite Et in Hv1.
    match goal with |- context [forb_up 1 (level + 1) ?b ?init] =>
      destruct (forb_up_inv (fun i '(h, vals) => h = (t1 - t0) / 2 ^ Z.to_nat (i - 1) /\
        arr vals (level + 1) (fun j => if (j <? i)%Z then table L (Z.to_nat (i - 1)) (Z.to_nat j) else 0))
        (fun r => exists i, (2 <= i <= Z.to_nat level)%nat /\ 0 < tol /\ r = table L i i) 1 (level + 1) b init) as (st & E & Hst); [lia| | |rewrite E; clear E] end.
    - split; [cbn [pow Z.to_nat Z.sub]; cbn; field|]. eapply arr_ext; [exact Hv1|]. intros j Hj. unfold fupd. cbn beta.
      destruct (Z.eqb_spec j 0) as [-> | Hj0]; [reflexivity|]. now replace (j <? 1)%Z with false by (symmetry; apply Z.ltb_ge; lia).
    - intros i [h vals] Hi (Eh & Hv). cbv zeta. rewrite (arr_get _ _ _ _ Hv) by lia. rewrite bind_Ok. cbn beta.
      replace (0 <? i)%Z with true by (symmetry; apply Z.ltb_lt; lia).
      rewrite refine_const by (pose proof (Z.pow_pos_nonneg 2 (i - 1)); lia). rewrite bind_Ok.
      match goal with |- context [set vals 0 ?v] => destruct (arr_set vals _ _ 0%Z v Hv ltac:(lia)) as (v2 & Ev2 & Hv2); assert (Et2 : v = table L (Z.to_nat i) 0) end.
      { cbn [smul sadd ssub sdiv sofQ sofZ R_ops Qnum Qden]. rewrite Eh. unfold table, L. cbn [err_a err_b Z.to_nat].
        replace (Z.to_nat i) with (S (Z.to_nat (i - 1))) by lia. set (k := Z.to_nat (i - 1)). 
        replace (IZR (2 ^ (i - 1))) with (2 ^ k) by (unfold k; rewrite pow_IZR; f_equal; f_equal; lia).
        rewrite S_INR. cbn [pow]. assert (2 ^ k <> 0) by (apply pow_nonzero; lra). field. assumption. }
      rewrite Ev2, bind_Ok. rewrite Et2 in Hv2. change (Z.to_nat 0) with O.
      destruct (extrapolate_const i (level + 1) v2 ltac:(lia)) as (v3 & Ev3 & Hv3).
      { eapply arr_ext; [exact Hv2|]. intros j Hj. unfold fupd. cbn beta. reflexivity. }
      rewrite Ev3, bind_Ok. rewrite !(arr_get _ _ _ _ Hv3) by lia. rewrite !bind_Ok. cbn beta.
      destruct ((1 <? i)%Z && _)%bool eqn:Ec.
      + eexists. split; [reflexivity|]. cbn beta iota. exists (Z.to_nat i). apply andb_true_iff in Ec. destruct Ec as [Ec1 Ec2]. apply Z.ltb_lt in Ec1.
        replace (i <? i + 1)%Z with true by (symmetry; apply Z.ltb_lt; lia). split; [lia|]. split; [|reflexivity].
        rewrite sabs_R in Ec2. cbn [slt R_ops] in Ec2. apply Rltb_iff in Ec2. pose proof (Rabs_pos (ssub (if (i <? i + 1)%Z then table L (Z.to_nat i) (Z.to_nat i) else 0) (if (i - 1 <? i + 1)%Z then table L (Z.to_nat i) (Z.to_nat (i - 1)) else 0))).
        replace (i <? i + 1)%Z with true in * by (symmetry; apply Z.ltb_lt; lia). lra.
      + eexists. split; [reflexivity|]. cbn beta iota. replace (i + 1 - 1)%Z with i by lia. split.
        * rewrite Eh. cbn [sdiv sofZ R_ops]. replace (Z.to_nat i) with (S (Z.to_nat (i - 1))) by lia. cbn [pow]. field. apply pow_nonzero. lra.
        * exact Hv3.
    - rewrite bind_Ok. destruct st as [[h vals]|r].
      + destruct Hst as (_ & Hv). rewrite (arr_get _ _ _ _ Hv) by lia. replace (level <? level + 1)%Z with true by (symmetry; apply Z.ltb_lt; lia).
        replace (level + 1 - 1)%Z with level by lia. exists (Z.to_nat level). split; [lia|]. split; [now left|reflexivity].
      + destruct Hst as (i & Hi & Ht & ->). exists i. split; [lia|]. split; [right; split; [lia|exact Ht]|reflexivity].
  Qed.
End Constant.

Lemma edist_0_norm d (v : vec R d) : pnorm v = edist v p0.
Proof.
  rewrite <- pnorm_edist. apply f_equal. apply vec_ext. intros i Hi. rewrite coord_sub, coord_0 by exact Hi. ring.
Qed.
Lemma edist_pos_lt d (v : vec R d) : v <> p0 -> 0 < edist v p0.
Proof.
  intros Hv. pose proof (inner_pos_lt d v Hv) as H. destruct (edist_pos d v p0) as [H0|H0]; [exact H0|]. exfalso.
  assert (E : inner v v = edist v p0 ^ 2).
  { rewrite <- sqnorm_edist. unfold sqnorm. rewrite inner_pdot. unfold inner. apply rsum_ext. intros i Hi. rewrite coord_sub, coord_0 by exact Hi. ring. }
  rewrite <- H0 in E. lra.
Qed.

(** Curves of constant velocity v. *)
Lemma arc_const d (c : curve_ops R (vec R d)) v t0 t1 level tol : (forall t, c_d1 c t = Ok v) -> (0 <= level)%Z ->
  exists i, (i <= Z.to_nat level)%nat /\ ((i = Z.to_nat level)%nat \/ ((2 <= i)%nat /\ 0 < tol)) /\
    arc_length c t0 t1 level tol = Ok (table ((t1 - t0) * edist v p0) i i).
Proof.
  intros Hv Hl. unfold arc_length. apply romberg_const; [|exact Hl]. intros t. rewrite Hv, bind_Ok. now rewrite edist_0_norm.
Qed.
Lemma arc_const_short d (c : curve_ops R (vec R d)) v t0 t1 level tol : (forall t, c_d1 c t = Ok v) -> v <> p0 -> t0 < t1 -> (1 <= level)%Z ->
  exists r, arc_length c t0 t1 level tol = Ok r /\ r < (t1 - t0) * edist v p0.
Proof.
  intros Hv Hn Ht Hl. destruct (arc_const d c v t0 t1 level tol Hv ltac:(lia)) as (i & Hi & Hc & E). eexists. split; [exact E|].
  apply table_lt; [apply Rmult_lt_0_compat; [lra|now apply edist_pos_lt]|]. lia.
Qed.
Lemma arc_const_level0 d (c : curve_ops R (vec R d)) v t0 t1 tol : (forall t, c_d1 c t = Ok v) ->
  arc_length c t0 t1 0 tol = Ok ((t1 - t0) * edist v p0).
Proof.
  intros Hv. destruct (arc_const d c v t0 t1 0 tol Hv ltac:(lia)) as (i & Hi & _ & E). cbn in Hi. assert (i = O) by lia. subst i. rewrite E. apply f_equal.
  unfold table. cbn. field.
Qed.
Lemma arc_const_prop level : (0 <= level)%Z -> exists k, forall d (c : curve_ops R (vec R d)) v t0 t1 tol, (forall t, c_d1 c t = Ok v) -> tol <= 0 ->
  arc_length c t0 t1 level tol = Ok (k * ((t1 - t0) * edist v p0)).
Proof.
  intros Hl. exists (table 1 (Z.to_nat level) (Z.to_nat level)). intros d c v t0 t1 tol Hv Ht.
  destruct (arc_const d c v t0 t1 level tol Hv Hl) as (i & Hi & [-> | [_ H]] & E); [|lra]. rewrite E. apply f_equal. unfold table. ring.
Qed.
Lemma arc_const_add d (c : curve_ops R (vec R d)) v a b e level tol : (forall t, c_d1 c t = Ok v) -> (0 <= level)%Z -> tol <= 0 ->
  exists x y, arc_length c a b level tol = Ok x /\ arc_length c b e level tol = Ok y /\ arc_length c a e level tol = Ok (x + y).
Proof.
  intros Hv Hl Ht. destruct (arc_const_prop level Hl) as (k & H). do 2 eexists. rewrite !(H d c v _ _ tol Hv Ht).
  split; [reflexivity|]. split; [reflexivity|]. apply f_equal. ring.
Qed.

(** Bounds on the diagonal entries used by every call with the default tolerance. *)
Lemma err_a_le j : err_a (S (S j)) <= 28 / 45.
Proof.
  induction j as [|j IH]; [cbn; lra|]. change (err_a (S (S (S j)))) with (err_a (S (S j)) * (4 ^ S (S (S j)) - 2) / (4 ^ S (S (S j)) - 1)).
  pose proof (four_pow (S (S j))). pose proof (err_a_pos (S (S j))). set (q := 4 ^ S (S (S j))) in *. set (x := err_a (S (S j))) in *.
  apply Rle_trans with x; [|exact IH]. apply div_le; [lra|]. nra.
Qed.
Lemma err_a_le1 j : err_a j <= 1.
Proof. destruct j as [|[|j]]; [cbn; lra|cbn; lra|]. pose proof (err_a_le j). lra. Qed.
Lemma err_b_le j : err_b j <= 8 / 9 - 8 / 9 / 4 ^ j.
Proof.
  induction j as [|k IH]; [cbn; lra|]. cbn [err_b]. pose proof (four_pow k) as Hq. pose proof (err_a_le1 k). pose proof (err_a_pos k). pose proof (err_b_pos k).
  assert (Hk : 4 ^ k <> 0) by (apply pow_nonzero; lra).
  replace (8 / 9 / 4 ^ k) with (32 / 9 / 4 ^ S k) in IH by (cbn [pow]; field; exact Hk). set (q := 4 ^ S k) in *. clearbody q.
  set (a := err_a k) in *. set (b := err_b k) in *.
  apply Rle_trans with (b + 2 / (q - 1)).
  - apply div_le; [lra|]. replace ((b + 2 / (q - 1)) * (q - 1)) with (b * (q - 1) + 2) by (field; lra). nra.
  - assert (2 / (q - 1) <= 8 / 3 / q).
    { apply Rmult_le_reg_r with (q * (q - 1)); [apply Rmult_lt_0_compat; lra|]. replace (2 / (q - 1) * (q * (q - 1))) with (2 * q) by (field; lra).
      replace (8 / 3 / q * (q * (q - 1))) with (8 / 3 * (q - 1)) by (field; lra). lra. }
    replace (8 / 9 / q) with (32 / 9 / q - 8 / 3 / q) by (field; lra). lra.
Qed.
Lemma pow2_ge3 k : INR (3 + k) * (8 / 3) <= 2 ^ (3 + k).
Proof.
  induction k as [|k IH]; [cbn; lra|]. replace (3 + S k)%nat with (S (3 + k)) by lia. rewrite S_INR.
  change (2 ^ S (3 + k)) with (2 * 2 ^ (3 + k)). assert (8 <= 2 ^ (3 + k)).
  { rewrite pow_add. pose proof (pow_R1_Rle 2 k ltac:(lra)). replace (2 ^ 3) with 8 by (cbn; ring). lra. }
  lra.
Qed.
Lemma diag_bound i : (2 <= i)%nat -> 23 / 45 <= table 1 i i < 1.
Proof.
  intros Hi. split; [|apply table_lt; [lra|lia]]. unfold table. rewrite Rmult_1_l. destruct i as [|[|[|k]]]; [lia|lia|cbn; lra|].
  change (S (S (S k))) with (3 + k)%nat. pose proof (err_a_le (S k)) as Ha. pose proof (err_b_le (3 + k)) as Hb. pose proof (pow2_ge3 k) as Hp.
  assert (H4 : 0 < / 4 ^ (3 + k)) by (apply Rinv_0_lt_compat, pow_lt; lra). unfold Rdiv in Hb at 2. change (S (S (S k))) with (3 + k)%nat in Ha.
  pose proof (err_a_pos (3 + k)) as Hap. set (a := err_a (3 + k)) in *. set (b := err_b (3 + k)) in *.
  assert (H2 : 8 <= 2 ^ (3 + k)). { rewrite pow_add. pose proof (pow_R1_Rle 2 k ltac:(lra)). replace (2 ^ 3) with 8 by (cbn; ring). lra. }
  assert (Hn : 3 <= INR (3 + k)). { replace 3 with (INR 3) by (cbn; lra). apply le_INR. lia. }
  set (p := 2 ^ (3 + k)) in *. set (n := INR (3 + k)) in *. clearbody p n a b.
  assert ((a * n + b) / p <= 22 / 45); [|lra]. apply div_le; [lra|]. nra.
Qed.
Lemma table_scale L i j : table L i j = L * table 1 i j.
Proof. unfold table. ring. Qed.

(** * sample.h *)
Lemma uniform_domain d fuel (c : curve_ops R (vec R d)) n a b : (2 <= n)%Z -> exists l,
  sample fuel c n a b UNIFORM_DOMAIN = Ok l /\ Z.of_nat (length l) = n /\
  forall i, (Z.of_nat i < n)%Z -> nth i l 0 = a + (b - a) * (INR i / IZR (n - 1)).
Proof.
  intros Hn. unfold sample. replace (1 <? n)%Z with true by (symmetry; apply Z.ltb_lt; lia). cbn [assert_]. rewrite bind_Ok.
  assert (Hz : IZR (n - 1) <> 0) by (apply not_0_IZR; lia).
  assert (E : tabulate n (fun i => do q <- ddiv (smul (ssub b a) (sofZ i)) (sofZ (n - 1)); Ok (sadd a q)) = Ok (mklist n (fun i => a + (b - a) * (IZR i / IZR (n - 1))))).
  { apply tabulate_Ok; [lia|]. intros i Hi. unfold ddiv. cbn [seq_ s0 sofZ smul ssub sdiv sadd R_ops]. rewrite Reqb_false by exact Hz. rewrite bind_Ok. apply f_equal. field. exact Hz. }
  exists (mklist n (fun i => a + (b - a) * (IZR i / IZR (n - 1)))). split; [exact E|]. pose proof (arr_mklist n (fun i => a + (b - a) * (IZR i / IZR (n - 1))) ltac:(lia)) as Ha.
  split; [pose proof (arr_len _ _ _ Ha) as H; unfold zlen in H; exact H|]. intros i Hi.
  pose proof (arr_get _ _ _ (Z.of_nat i) Ha ltac:(lia)) as Hg. rewrite (get_nth _ _ 0) in Hg by (rewrite (arr_len _ _ _ Ha); lia).
  rewrite Nat2Z.id in Hg. apply Ok_inj in Hg. rewrite Hg, INR_IZR_INZ. reflexivity.
Qed.

Lemma adaptive_sorted d fuel (c : curve_ops R (vec R d)) tol : forall a b acc r, a < b -> adaptive_sample fuel c a b tol acc = Ok r ->
  exists l, r = acc ++ a :: l /\ StronglySorted Rlt (a :: l) /\ Forall (fun x => a <= x < b) (a :: l).
Proof.
  induction fuel as [|fuel IH]; intros a b acc r Hab E; [discriminate|]. cbn [adaptive_sample] in E.
  apply bind_inv in E. destruct E as (L & _ & E). apply bind_inv in E. destruct E as (q0 & _ & E). apply bind_inv in E. destruct E as (q1 & _ & E).
  cbv zeta in E. destruct (slt _ _) in E.
  - apply bind_inv in E. destruct E as (s1 & E1 & E2). cbn [sadd sdiv sofZ R_ops] in E1, E2.
    apply IH in E1; [|lra]. destruct E1 as (l1 & -> & S1 & F1). apply IH in E2; [|lra]. destruct E2 as (l2 & -> & S2 & F2).
    exists (l1 ++ (a + b) / 2 :: l2). split; [now rewrite <- app_assoc|]. split.
    + change (a :: l1 ++ (a + b) / 2 :: l2) with ((a :: l1) ++ (a + b) / 2 :: l2). revert S1 F1. generalize (a :: l1). intros l S1 F1.
      induction l as [|x l IHl]; [exact S2|]. cbn [app]. inversion S1 as [|? ? S1' F1']; subst. inversion F1 as [|? ? Hx F1'']; subst.
      constructor; [now apply IHl|]. apply Forall_app. split; [exact F1'|]. eapply Forall_impl; [|exact F2]. cbn beta. intros y Hy. lra.
    + change (a :: l1 ++ (a + b) / 2 :: l2) with ((a :: l1) ++ (a + b) / 2 :: l2). apply Forall_app. split; (eapply Forall_impl; [|eassumption]); cbn beta; intros y Hy; lra.
  - apply Ok_inj in E. subst r. exists []. split; [reflexivity|]. split; [constructor; constructor|]. constructor; [lra|constructor].
Qed.
Lemma sample_adaptive d fuel (c : curve_ops R (vec R d)) n a b l : a < b -> sample fuel c n a b ADAPTIVE = Ok l ->
  exists m, l = a :: m ++ [b] /\ StronglySorted Rlt l.
Proof.
  intros Hab E. unfold sample in E. apply bind_inv in E. destruct E as (? & _ & E). apply bind_inv in E. destruct E as (L & _ & E).
  apply bind_inv in E. destruct E as (y0 & _ & E). apply bind_inv in E. destruct E as (tol & _ & E). apply bind_inv in E. destruct E as (s & Es & E).
  apply Ok_inj in E. subst l. apply adaptive_sorted in Es; [|exact Hab]. destruct Es as (m & -> & Hs & Hf). exists m. split; [reflexivity|].
  cbn [app]. change (a :: m ++ [b]) with ((a :: m) ++ [b]). revert Hs Hf. generalize (a :: m). intros l Hs Hf.
  induction l as [|y l IHl]; [constructor; constructor|]. inversion Hs; subst. inversion Hf; subst. cbn [app]. constructor; [now apply IHl|].
  apply Forall_app. split; [assumption|]. constructor; [lra|constructor].
Qed.
Lemma mapM_length {A B} (f : A -> res B) l r : mapM f l = Ok r -> length r = length l.
Proof.
  revert r. induction l as [|a l IH]; intros r E; [cbn [mapM] in E; apply Ok_inj in E; now subst r|]. cbn [mapM] in E.
  apply bind_inv in E. destruct E as (b & _ & E). apply bind_inv in E. destruct E as (r' & Er & E). apply Ok_inj in E. subst r. cbn [length]. now rewrite (IH r').
Qed.
Lemma tabulate_length {A} n (f : Z -> res A) l : tabulate n f = Ok l -> length l = Z.to_nat n.
Proof. intros E. apply mapM_length in E. now rewrite seq_length in E. Qed.
Lemma sample_range_ends d fuel (c : curve_ops R (vec R d)) n a b l : sample fuel c n a b UNIFORM_RANGE = Ok l ->
  exists m, l = a :: m ++ [b] /\ Z.of_nat (length l) = n.
Proof.
  intros E. unfold sample in E. apply bind_inv in E. destruct E as (? & E0 & E). destruct (Z.ltb_spec 1 n) as [Hn|Hn]; [|discriminate].
  apply bind_inv in E. destruct E as (L & _ & E). apply bind_inv in E. destruct E as (m & Em & E). apply Ok_inj in E. subst l. exists m. split; [reflexivity|].
  apply tabulate_length in Em. cbn [length]. rewrite app_length. cbn [length]. unfold zlen in Em. lia.
Qed.

(** A line of unit speed sampled by arc length over the second half of its domain. *)
Definition unit_line : line R (vec R 2) :=
  {| ln_location := ((0, (0, tt)) : vec R 2); ln_direction := ((1, (0, tt)) : vec R 2); ln_lower := 0; ln_upper := 1 |}.
Section RangeRefute.
  Let c : curve_ops R (vec R 2) := ln_ops unit_line.
  Let v : vec R 2 := (1, (0, tt)).
  Lemma unit_speed : edist v p0 = 1.
  Proof. unfold edist, rsum, v. cbn [psum padd p0 scal_point_ops sadd s0 R_ops coord fst snd vec_ops vconst]. replace (0 + (1 - 0) ^ 2 + (0 - 0) ^ 2) with 1 by ring. apply sqrt_1. Qed.
  Lemma unit_arc a b : exists k, 23 / 45 <= k < 1 /\ arc_length c a b default_level default_tol = Ok (k * (b - a)).
  Proof.
    destruct (arc_const 2 c v a b default_level default_tol) as (i & Hi & Hc & E); [reflexivity|cbv; discriminate|].
    exists (table 1 i i). split.
    - apply diag_bound. unfold default_level in *. destruct Hc as [-> | [H _]]; [change (Z.to_nat 10) with 10%nat; lia|exact H].
    - rewrite E. apply f_equal. rewrite unit_speed, Rmult_1_r, table_scale. ring.
  Qed.
  Lemma unit_inverse l n : (0 <= n)%Z -> 0 <= l <= 1 / 4 -> exists t, inverse_arc_length c l n = Ok t /\ 0 <= t <= 45 / 92.
  Proof.
    intros Hn Hl. unfold inverse_arc_length, arc_length_to. change (c_lower c) with 0. change (c_upper c) with 1.
    destruct (unit_arc 0 1) as (k & Hk & ->). rewrite bind_Ok. unfold ddiv at 1. cbn [seq_ s0 sdiv R_ops]. rewrite Reqb_false by lra. rewrite bind_Ok. cbv zeta.
    assert (H0 : 0 <= l / (k * (1 - 0)) <= 45 / 92).
    { replace (k * (1 - 0)) with k by ring. split; [apply Rdiv_le_0_compat; lra|]. apply div_le; lra. }
    match goal with |- context [forb_up 0 n ?b ?i] =>
      destruct (forb_up_inv (fun (_ : Z) t => 0 <= t <= 45 / 92) (fun t => 0 <= t <= 45 / 92) 0 n b i Hn H0) as (x & E & Hx); [|rewrite E] end.
    - intros i t _ Ht. destruct (unit_arc 0 t) as (k' & Hk' & ->). rewrite bind_Ok. cbv zeta. destruct (slt _ _).
      + eexists. split; [reflexivity|]. exact Ht.
      + change (c_d1 c t) with (Ok v : res (vec R 2)). rewrite bind_Ok. rewrite edist_0_norm, unit_speed. unfold ddiv. cbn [seq_ s0 sdiv R_ops]. rewrite Reqb_false by lra.
        rewrite bind_Ok. eexists. split; [reflexivity|]. cbn beta iota. cbn [ssub R_ops]. replace (t - (k' * (t - 0) - l) / 1) with (t * (1 - k') + l) by field. split; nra.
    - rewrite bind_Ok. destruct x as [t|t]; exists t; split; (reflexivity || assumption).
  Qed.
  Lemma range_refuted fuel : exists t, sample fuel c 3 (1 / 2) 1 UNIFORM_RANGE = Ok [1 / 2; t; 1] /\ t < 1 / 2.
  Proof.
    unfold sample. cbn [Z.ltb assert_]. change (assert_ (1 <? 3)%Z) with (Ok tt). rewrite bind_Ok.
    destruct (unit_arc (1 / 2) 1) as (k & Hk & ->). rewrite bind_Ok. change (3 - 2)%Z with 1%Z. change (3 - 1)%Z with 2%Z.
    destruct (unit_inverse (k * (1 - 1 / 2) * 1 / 2) 10) as (t & Et & Ht); [lia|lra|].
    exists t. split; [|lra].
    match goal with |- context [tabulate 1 ?f] => assert (E : tabulate 1 f = Ok [t]) end.
    { rewrite (tabulate_Ok 1 _ (fun _ => t)); [reflexivity|lia|]. intros i Hi. assert (i = 0)%Z by lia. subst i. unfold ddiv. cbn [seq_ s0 sdiv sofZ smul R_ops].
      rewrite Reqb_false by lra. rewrite bind_Ok. exact Et. }
    rewrite E. reflexivity.
  Qed.
End RangeRefute.

Lemma uniform_domain_full d fuel (c : curve_ops R (vec R d)) n a b : (2 <= n)%Z -> exists l,
  sample fuel c n a b UNIFORM_DOMAIN = Ok l /\ Z.of_nat (length l) = n /\
  (forall i, (i < length l)%nat -> nth i l 0 = a + (b - a) * (INR i / IZR (n - 1))) /\
  nth 0 l 0 = a /\ nth (length l - 1) l 0 = b /\ (a < b -> forall i j, (i < j < length l)%nat -> nth i l 0 < nth j l 0).
Proof.
  intros Hn. destruct (uniform_domain d fuel c n a b Hn) as (l & E & Hl & H). exists l. split; [exact E|]. split; [exact Hl|].
  assert (H' : forall i, (i < length l)%nat -> nth i l 0 = a + (b - a) * (INR i / IZR (n - 1))) by (intros i Hi; apply H; lia).
  assert (Hz : 0 < IZR (n - 1)) by (apply IZR_lt; lia).
  split; [exact H'|]. split; [rewrite H' by lia; cbn [INR]; field; lra|]. split.
  - rewrite H' by lia. rewrite INR_IZR_INZ. replace (Z.of_nat (length l - 1)) with (n - 1)%Z by lia. field. lra.
  - intros Hab i j Hij. rewrite !H' by lia. apply Rplus_lt_compat_l. apply Rmult_lt_compat_l; [lra|]. unfold Rdiv. apply Rmult_lt_compat_r; [now apply Rinv_0_lt_compat|]. apply lt_INR. lia.
Qed.
