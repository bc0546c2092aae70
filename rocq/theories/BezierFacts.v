(** The Bezier loops compute the de Casteljau triangle, and consequences. *)
From Coq Require Import Reals Lra Lia ZArith List Permutation.
From Verif Require Import Monad MonadFacts Scalar ScalarFacts Spec SpecFacts Polar ModelCurve ModelBezier.
Import ListNotations.
Local Open Scope Z_scope.

(** Interpolation ratio of the Bezier triangle. *)
Definition albz : nat -> Z -> R -> R := fun _ _ x => x.

(** [blist b r] = [b (r-1); ...; b 1; b 0]. *)
Fixpoint blist (b : Z -> R) (r : nat) : list R :=
  match r with O => [] | S r' => b (Z.of_nat r') :: blist b r' end.

Lemma blist_length b r : length (blist b r) = r.
Proof. induction r; simpl; auto. Qed.

Lemma blist_const t r : blist (fun _ => t) r = repeat t r.
Proof. induction r; simpl; congruence. Qed.

Lemma blist_ext b b' r : (forall i, 0 <= i < Z.of_nat r -> b i = b' i) -> blist b r = blist b' r.
Proof.
  induction r as [|r IH]; intros H; simpl; [reflexivity|].
  rewrite H by lia. rewrite IH; [reflexivity|]. intros; apply H; lia.
Qed.

Section Loops.
  Context {P : Type} {V : PointOps R P} {L : PointLaws P}.
  Notation tr := (tri albz).

  (** Rows after the triangle loops: row [j] holds the level [min r j] value. *)
  Definition bz_rows (c : Z -> P) (b : Z -> R) (degree r : Z) : Z -> P :=
    fun j => if j <=? degree then tr c (blist b (Z.to_nat (Z.min r j))) j else c j.

  Lemma bz_blossom_correct bv m b pts n c degree :
    arr bv m b -> arr pts n c -> 0 <= degree < n -> degree <= m ->
    exists pts', bz_blossom bv degree pts = Ok pts' /\ arr pts' n (bz_rows c b degree degree).
  Proof.
    intros Hb Hc Hd Hm. unfold bz_blossom.
    destruct (for_up_inv (fun r s => arr s n (bz_rows c b degree (r - 1))) 1 (degree + 1)
      (fun rec_step c0 => for_down degree rec_step (fun j c1 =>
        do t <- get bv (rec_step - 1); do a <- get c1 j; do b0 <- get c1 (j - 1);
        set c1 j (padd (pmul t a) (pmul (ssub s1 t) b0))) c0) pts) as (s' & E & H').
    - lia.
    - eapply arr_ext; [exact Hc|]. intros i Hi. unfold bz_rows.
      replace (Z.to_nat (Z.min (1 - 1) i)) with O by lia. simpl. destruct (i <=? degree); reflexivity.
    - intros r s Hr Hs.
      destruct (for_down_inv (fun j s => arr s n (fun i =>
          if i <=? degree then
            if j <? i then tr c (blist b (Z.to_nat r)) i else tr c (blist b (Z.to_nat (Z.min (r - 1) i))) i
          else c i)) degree r
        (fun j c1 => do t <- get bv (r - 1); do a <- get c1 j; do b0 <- get c1 (j - 1);
           set c1 j (padd (pmul t a) (pmul (ssub s1 t) b0))) s) as (s2 & E2 & H2).
      + lia.
      + eapply arr_ext; [exact Hs|]. intros i Hi. unfold bz_rows.
        destruct (Z.leb_spec i degree); [|reflexivity]. destruct (Z.ltb_spec degree i); [lia|reflexivity].
      + intros j s0 Hj Hs0.
        rewrite (arr_get _ _ _ (r - 1) Hb) by lia. rewrite bind_Ok.
        rewrite (arr_get _ _ _ j Hs0) by lia. rewrite bind_Ok.
        rewrite (arr_get _ _ _ (j - 1) Hs0) by lia. rewrite bind_Ok.
        destruct (Z.leb_spec j degree); [|lia]. destruct (Z.leb_spec (j - 1) degree); [|lia].
        destruct (Z.ltb_spec j j); [lia|]. destruct (Z.ltb_spec j (j - 1)); [lia|].
        replace (Z.min (r - 1) j) with (r - 1) by lia. replace (Z.min (r - 1) (j - 1)) with (r - 1) by lia.
        match goal with |- exists s', set _ _ ?v = _ /\ _ =>
          destruct (arr_set s0 n _ j v Hs0) as (s3 & E3 & H3); [lia|] end.
        exists s3. split; [exact E3|]. eapply arr_ext; [exact H3|]. intros i Hi. cbv beta. unfold fupd.
        destruct (Z.eqb_spec i j) as [->|Hne].
        * destruct (Z.leb_spec j degree); [|lia]. destruct (Z.ltb_spec (j - 1) j); [|lia].
          replace (Z.to_nat r) with (S (Z.to_nat (r - 1))) by lia. cbn [blist tri]. unfold albz.
          replace (Z.of_nat (Z.to_nat (r - 1))) with (r - 1) by lia.
          apply pl_comm.
        * destruct (Z.leb_spec i degree); [|reflexivity].
          destruct (Z.ltb_spec j i); destruct (Z.ltb_spec (j - 1) i); try lia; reflexivity.
      + exists s2. split; [exact E2|]. eapply arr_ext; [exact H2|]. intros i Hi. unfold bz_rows.
        destruct (Z.leb_spec i degree); [|reflexivity].
        destruct (Z.ltb_spec (r - 1) i).
        * do 3 f_equal. lia.
        * do 3 f_equal. lia.
    - exists s'. split; [exact E|]. replace (degree + 1 - 1) with degree in H' by lia. exact H'.
  Qed.

  Lemma bz_deBoor_correct cd t degree pts n c :
    arr pts n c -> 0 <= degree < n -> degree <= cd ->
    bz_deBoor cd t degree pts = Ok (tr c (repeat t (Z.to_nat degree)) degree).
  Proof.
    intros Hc Hd Hcd. unfold bz_deBoor.
    destruct (Z.ltb_spec 0 degree).
    - destruct (arr_alloc t cd) as (bv & Eb & Hb); [lia|]. rewrite Eb, bind_Ok.
      destruct (bz_blossom_correct bv cd _ pts n c degree Hb Hc) as (p' & E & H'); [lia|lia|].
      rewrite E, bind_Ok. rewrite (arr_get _ _ _ degree H') by lia. unfold bz_rows.
      destruct (Z.leb_spec degree degree); [|lia]. rewrite Z.min_id, blist_const. reflexivity.
    - rewrite bind_Ok. replace degree with 0 in * by lia. rewrite (arr_get _ _ _ 0 Hc) by lia. reflexivity.
  Qed.

  Lemma bz_derivative_coefficients_correct cd pts n c :
    arr pts n c -> 0 <= cd < n ->
    exists pts', bz_derivative_coefficients cd pts = Ok pts' /\
      arr pts' n (fun i => if i <? cd then pmul (IZR cd) (psub (c (i + 1)) (c i)) else c i).
  Proof.
    intros Hc Hcd. unfold bz_derivative_coefficients.
    replace (cd - 1 + 1) with cd by lia.
    apply (for_up_inv (fun i0 s => arr s n (fun i => if i <? i0 then pmul (IZR cd) (psub (c (i + 1)) (c i)) else c i))).
    - lia.
    - eapply arr_ext; [exact Hc|]. intros i Hi. destruct (Z.ltb_spec i 0); [lia|reflexivity].
    - intros i s Hi Hs.
      rewrite (arr_get _ _ _ (i + 1) Hs) by lia. rewrite bind_Ok.
      rewrite (arr_get _ _ _ i Hs) by lia. rewrite bind_Ok.
      destruct (Z.ltb_spec (i + 1) i); [lia|]. destruct (Z.ltb_spec i i); [lia|].
      match goal with |- exists s', set _ _ ?v = _ /\ _ =>
        destruct (arr_set s n _ i v Hs) as (s3 & E3 & H3); [lia|] end.
      exists s3. split; [exact E3|]. eapply arr_ext; [exact H3|]. intros j Hj. cbv beta. unfold fupd.
      destruct (Z.eqb_spec j i) as [->|Hne].
      + destruct (Z.ltb_spec i (i + 1)); [reflexivity|lia].
      + destruct (Z.ltb_spec j i); destruct (Z.ltb_spec j (i + 1)); try lia; reflexivity.
  Qed.

  (** The split loops. *)
  Lemma bz_split_loop_correct d t pts n c :
    arr pts n c -> 0 <= d < n ->
    exists c1 c2, bz_split_loop d t pts = Ok (c1, c2) /\
      arr c1 (d + 1) (fun i => tr c (repeat t (Z.to_nat i)) i) /\
      arr c2 (d + 1) (fun i => tr c (repeat t (Z.to_nat (d - i))) d).
  Proof.
    intros Hc Hd. unfold bz_split_loop.
    destruct (arr_alloc (p0 : P) (d + 1)) as (a1 & E1 & H1); [lia|].
    rewrite E1, !bind_Ok.
    pose (Inv := fun (i : Z) (st : list P * list P * list P) =>
      let '(pts, c1, c2) := st in
      (exists f, arr pts n f /\ forall j, 0 <= j <= d - i -> f j = tr c (repeat t (Z.to_nat i)) (j + i)) /\
      (exists f1, arr c1 (d + 1) f1 /\ forall j, 0 <= j < i -> f1 j = tr c (repeat t (Z.to_nat j)) j) /\
      (exists f2, arr c2 (d + 1) f2 /\ forall j, d - i < j <= d -> f2 j = tr c (repeat t (Z.to_nat (d - j))) d)).
    match goal with |- context [for_up 0 (d + 1) ?B ?S0] =>
      destruct (for_up_inv Inv 0 (d + 1) B S0) as ([[pts' c1] c2] & E & H') end.
    - lia.
    - split; [|split].
      + exists c. split; [exact Hc|]. intros j Hj. simpl. f_equal. lia.
      + eexists. split; [exact H1|]. intros j Hj. lia.
      + eexists. split; [exact H1|]. intros j Hj. lia.
    - intros i [[s c1] c2] Hi ((f & Hf & Ff) & (f1 & Hf1 & Ff1) & (f2 & Hf2 & Ff2)).
      rewrite (arr_get _ _ _ 0 Hf) by lia. rewrite bind_Ok.
      destruct (arr_set c1 (d + 1) f1 i (f 0) Hf1) as (c1' & Ec1 & Hc1'); [lia|]. rewrite Ec1, bind_Ok.
      rewrite (arr_get _ _ _ (d - i) Hf) by lia. rewrite bind_Ok.
      destruct (arr_set c2 (d + 1) f2 (d - i) (f (d - i)) Hf2) as (c2' & Ec2 & Hc2'); [lia|]. rewrite Ec2, bind_Ok.
      match goal with |- context [for_up 0 (d - i) ?B s] =>
        destruct (for_up_inv (fun j0 s => arr s n (fun j => if j <? j0 then
             padd (pmul (1 - t)%R (f j)) (pmul t (f (j + 1))) else f j)) 0 (d - i) B s) as (s' & Es & Hs') end.
      + lia.
      + eapply arr_ext; [exact Hf|]. intros j Hj. destruct (Z.ltb_spec j 0); [lia|reflexivity].
      + intros j s0 Hj Hs0.
        rewrite (arr_get _ _ _ j Hs0) by lia. rewrite bind_Ok.
        rewrite (arr_get _ _ _ (j + 1) Hs0) by lia. rewrite bind_Ok.
        destruct (Z.ltb_spec (j + 1) j); [lia|]. destruct (Z.ltb_spec j j); [lia|].
        match goal with |- exists s', set _ _ ?v = _ /\ _ =>
          destruct (arr_set s0 n _ j v Hs0) as (s3 & E3 & H3); [lia|] end.
        exists s3. split; [exact E3|]. eapply arr_ext; [exact H3|]. intros m Hm. cbv beta. unfold fupd.
        destruct (Z.eqb_spec m j) as [->|Hne].
        * destruct (Z.ltb_spec j (j + 1)); [reflexivity|lia].
        * destruct (Z.ltb_spec m j); destruct (Z.ltb_spec m (j + 1)); try lia; reflexivity.
      + rewrite Es, bind_Ok. eexists. split; [reflexivity|]. split; [|split].
        * eexists. split; [exact Hs'|]. intros j Hj. cbv beta. destruct (Z.ltb_spec j (d - i)); [|lia].
          replace (Z.to_nat (i + 1)) with (S (Z.to_nat i)) by lia. cbn [repeat tri]. unfold albz at 1 3.
          rewrite !Ff by lia.
          replace (j + (i + 1) - 1) with (j + i) by lia. replace (j + (i + 1)) with (j + 1 + i) by lia. reflexivity.
        * eexists. split; [exact Hc1'|]. intros j Hj. unfold fupd. destruct (Z.eqb_spec j i) as [->|Hne].
          -- rewrite Ff by lia. f_equal.
          -- apply Ff1. lia.
        * eexists. split; [exact Hc2'|]. intros j Hj. unfold fupd. destruct (Z.eqb_spec j (d - i)) as [->|Hne].
          -- rewrite Ff by lia. f_equal; [do 2 f_equal|]; lia.
          -- apply Ff2. lia.
    - rewrite E, bind_Ok. destruct H' as (_ & (f1 & Hf1 & Ff1) & (f2 & Hf2 & Ff2)).
      exists c1, c2. split; [reflexivity|]. split.
      + eapply arr_ext; [exact Hf1|]. intros i Hi. apply Ff1. lia.
      + eapply arr_ext; [exact Hf2|]. intros i Hi. apply Ff2. lia.
  Qed.

  (** subcurve *)
  Lemma bz_subcurve_correct (cv : bezier P) t0 t1 d c :
    arr (bz_pts cv) (d + 1) c -> 0 <= d -> (0 <= t0 <= t1)%R -> (t1 <= 1)%R ->
    exists pts', bz_subcurve cv t0 t1 = Ok (mk_bezier pts') /\
      arr pts' (d + 1) (fun i => tr c (repeat t1 (Z.to_nat i) ++ repeat t0 (Z.to_nat (d - i))) d).
  Proof.
    intros Hc Hd Ht0 Ht1. unfold bz_subcurve, bz_degree.
    rewrite (arr_len _ _ _ Hc). replace (d + 1 - 1) with d by lia.
    simpl slt. cbn [s0 s1 R_ops].
    rewrite (Rltb_false t1 t0), (Rltb_false t0 0), (Rltb_false 1 t0), (Rltb_false t1 0), (Rltb_false 1 t1) by lra.
    cbn [orb].
    destruct (arr_alloc (p0 : P) (d + 1)) as (o & Eo & Ho); [lia|]. rewrite Eo, bind_Ok.
    match goal with |- context [for_up 0 (d + 1) ?B o] =>
      destruct (for_up_inv (fun i s => exists f, arr s (d + 1) f /\ forall j, d - i < j <= d ->
         f j = tr c (repeat t1 (Z.to_nat j) ++ repeat t0 (Z.to_nat (d - j))) d) 0 (d + 1) B o) as (o' & E & (f & Hf & Ff)) end.
    - lia.
    - eexists; split; [exact Ho|]. intros j Hj. lia.
    - intros i s Hi (f & Hf & Ff).
      destruct (arr_alloc t1 d) as (bv & Eb & Hb); [lia|]. rewrite Eb, bind_Ok.
      match goal with |- context [for_up 0 i ?B bv] =>
        destruct (for_up_inv (fun j0 s => arr s d (fun j => if j <? j0 then t0 else t1)) 0 i B bv) as (bv' & Eb' & Hb') end.
      + lia.
      + eapply arr_ext; [exact Hb|]. intros j Hj. destruct (Z.ltb_spec j 0); [lia|reflexivity].
      + intros j s0 Hj Hs0. destruct (arr_set s0 d _ j t0 Hs0) as (s3 & E3 & H3); [lia|].
        exists s3. split; [exact E3|]. eapply arr_ext; [exact H3|]. intros m Hm. cbv beta. unfold fupd.
        destruct (Z.eqb_spec m j) as [->|Hne].
        * destruct (Z.ltb_spec j (j + 1)); [reflexivity|lia].
        * destruct (Z.ltb_spec m j); destruct (Z.ltb_spec m (j + 1)); try lia; reflexivity.
      + rewrite Eb', bind_Ok.
        destruct (bz_blossom_correct bv' d _ (bz_pts cv) (d + 1) c d Hb' Hc) as (p' & Ep & Hp'); [lia|lia|].
        rewrite Ep, bind_Ok. rewrite (arr_get _ _ _ d Hp') by lia. rewrite bind_Ok.
        match goal with |- exists s', set _ _ ?v = _ /\ _ =>
          destruct (arr_set s (d + 1) f (d - i) v Hf) as (s3 & E3 & H3); [lia|] end.
        exists s3. split; [exact E3|]. eexists; split; [exact H3|]. intros j Hj. unfold fupd.
        destruct (Z.eqb_spec j (d - i)) as [->|Hne].
        * unfold bz_rows. destruct (Z.leb_spec d d); [|lia]. rewrite Z.min_id. f_equal.
          (* the reversed blossom vector *)
          replace (Z.to_nat (d - (d - i))) with (Z.to_nat i) by lia.
          assert (Hi' : i <= d) by lia. clear - Hi Hi' Hd.
          assert (G : forall m, (Z.to_nat i <= m)%nat ->
             blist (fun j => if j <? i then t0 else t1) m = repeat t1 (m - Z.to_nat i) ++ repeat t0 (Z.to_nat i)).
          { induction m as [|m IH]; intros Hm.
            - replace (Z.to_nat i) with O by lia. reflexivity.
            - cbn [blist]. destruct (Z.ltb_spec (Z.of_nat m) i).
              + replace (Z.to_nat i) with (S m) by lia. rewrite Nat.sub_diag. cbn [repeat app].
                f_equal. rewrite <- (blist_const t0 m). apply blist_ext. intros q Hq.
                destruct (Z.ltb_spec q i); [reflexivity|lia].
              + rewrite IH by lia. replace (S m - Z.to_nat i)%nat with (S (m - Z.to_nat i)) by lia. reflexivity. }
          rewrite G by lia. do 2 f_equal. lia.
        * apply Ff. lia.
    - rewrite E, bind_Ok. eexists; split; [reflexivity|]. eapply arr_ext; [exact Hf|].
      intros i Hi. apply Ff. lia.
  Qed.

  Lemma bz_elevate_correct (cv : bezier P) d c :
    arr (bz_pts cv) (d + 1) c -> 0 <= d ->
    exists pts', bz_elevate_degree cv = Ok {| bz_pts := pts'; bz_periodic := bz_periodic cv |} /\
      arr pts' (d + 2) (fun i => if i =? 0 then c 0 else if i =? d + 1 then c d else
        padd (pmul (1 - IZR i / IZR (d + 1))%R (c i)) (pmul (IZR i / IZR (d + 1))%R (c (i - 1)))).
  Proof.
    intros Hc Hd. unfold bz_elevate_degree, bz_degree.
    rewrite (arr_len _ _ _ Hc). replace (d + 1 - 1) with d by lia.
    destruct (arr_alloc (p0 : P) (d + 2)) as (o & Eo & Ho); [lia|]. rewrite Eo, bind_Ok.
    rewrite Z.eqb_refl. cbn [assert_]. rewrite bind_Ok.
    rewrite (arr_get _ _ _ 0 Hc) by lia. rewrite bind_Ok.
    destruct (arr_set o (d + 2) _ 0 (c 0) Ho) as (o1 & E1 & H1); [lia|]. rewrite E1, bind_Ok.
    match goal with |- context [for_up 1 (d + 1) ?B o1] =>
      destruct (for_up_inv (fun i0 s => arr s (d + 2) (fun i => if i =? 0 then c 0 else if i <? i0 then
        padd (pmul (1 - IZR i / IZR (d + 1))%R (c i)) (pmul (IZR i / IZR (d + 1))%R (c (i - 1))) else p0)) 1 (d + 1) B o1)
        as (o2 & E2 & H2) end.
    - lia.
    - eapply arr_ext; [exact H1|]. intros i Hi. unfold fupd. destruct (Z.eqb_spec i 0); [reflexivity|].
      destruct (Z.ltb_spec i 1); [lia|reflexivity].
    - intros i s Hi Hs.
      rewrite ddiv_R by (apply not_0_IZR; lia). rewrite bind_Ok.
      rewrite (arr_get _ _ _ i Hc) by lia. rewrite bind_Ok.
      rewrite (arr_get _ _ _ (i - 1) Hc) by lia. rewrite bind_Ok.
      match goal with |- exists s', set _ _ ?v = _ /\ _ =>
        destruct (arr_set s (d + 2) _ i v Hs) as (s3 & E3 & H3); [lia|] end.
      exists s3. split; [exact E3|]. eapply arr_ext; [exact H3|]. intros j Hj. cbv beta. unfold fupd.
      destruct (Z.eqb_spec j i) as [->|Hne].
      + destruct (Z.eqb_spec i 0); [lia|]. destruct (Z.ltb_spec i (i + 1)); [reflexivity|lia].
      + destruct (Z.eqb_spec j 0); [reflexivity|].
        destruct (Z.ltb_spec j i); destruct (Z.ltb_spec j (i + 1)); try lia; reflexivity.
    - rewrite E2, bind_Ok. rewrite (arr_get _ _ _ d Hc) by lia. rewrite bind_Ok.
      destruct (arr_set o2 (d + 2) _ (d + 1) (c d) H2) as (o3 & E3 & H3); [lia|]. rewrite E3, bind_Ok.
      eexists; split; [reflexivity|]. eapply arr_ext; [exact H3|]. intros i Hi. unfold fupd.
      destruct (Z.eqb_spec i (d + 1)) as [->|Hne].
      + destruct (Z.eqb_spec (d + 1) 0); [lia|reflexivity].
      + destruct (Z.eqb_spec i 0); [reflexivity|]. destruct (Z.ltb_spec i (d + 1)); [reflexivity|lia].
  Qed.

  (** evaluation of a curve given by its control point function *)
  Lemma bz_evaluate_tri (cv : bezier P) d c t :
    bz_periodic cv = false -> arr (bz_pts cv) (d + 1) c -> 0 <= d ->
    bz_evaluate cv t = Ok (tr c (repeat t (Z.to_nat d)) d).
  Proof.
    intros Hp Hc Hd. unfold bz_evaluate, bz_unwrap, bz_degree. rewrite Hp, bind_Ok.
    rewrite (arr_len _ _ _ Hc). replace (d + 1 - 1) with d by lia.
    apply (bz_deBoor_correct d t d (bz_pts cv) (d + 1) c Hc); lia.
  Qed.

  Lemma bz_evaluate_derivative_tri (cv : bezier P) d c t :
    bz_periodic cv = false -> arr (bz_pts cv) (d + 1) c -> 1 <= d ->
    bz_evaluate_derivative cv t =
      Ok (tr (fun i => pmul (IZR d) (psub (c (i + 1)) (c i))) (repeat t (Z.to_nat (d - 1))) (d - 1)).
  Proof.
    intros Hp Hc Hd. unfold bz_evaluate_derivative, bz_unwrap, bz_degree. rewrite Hp, bind_Ok.
    rewrite (arr_len _ _ _ Hc). replace (d + 1 - 1) with d by lia.
    destruct (Z.leb_spec 0 d); [|lia]. cbn [assert_]. rewrite bind_Ok.
    destruct (Z.eqb_spec d 0); [lia|].
    destruct (bz_derivative_coefficients_correct d (bz_pts cv) (d + 1) c Hc) as (p' & E & H'); [lia|].
    rewrite E, bind_Ok. rewrite (bz_deBoor_correct d t (d - 1) p' (d + 1) _ H') by lia.
    f_equal. apply tri_ext; [reflexivity|]. rewrite repeat_length. intros i Hi.
    destruct (Z.ltb_spec i d); [reflexivity|lia].
  Qed.

  Lemma bz_evaluate_2nd_derivative_tri (cv : bezier P) d c t :
    bz_periodic cv = false -> arr (bz_pts cv) (d + 1) c -> 2 <= d ->
    let c1 := fun i => pmul (IZR d) (psub (c (i + 1)) (c i)) in
    bz_evaluate_2nd_derivative cv t =
      Ok (tr (fun i => pmul (IZR (d - 1)) (psub (c1 (i + 1)) (c1 i))) (repeat t (Z.to_nat (d - 2))) (d - 2)).
  Proof.
    intros Hp Hc Hd c1. unfold bz_evaluate_2nd_derivative, bz_unwrap, bz_degree. rewrite Hp, bind_Ok.
    rewrite (arr_len _ _ _ Hc). replace (d + 1 - 1) with d by lia.
    destruct (Z.leb_spec 0 d); [|lia]. cbn [assert_]. rewrite bind_Ok.
    destruct (Z.leb_spec d 1); [lia|].
    destruct (bz_derivative_coefficients_correct d (bz_pts cv) (d + 1) c Hc) as (p' & E & H'); [lia|].
    rewrite E, bind_Ok.
    destruct (bz_derivative_coefficients_correct (d - 1) p' (d + 1) _ H') as (p2 & E2 & H2); [lia|].
    rewrite E2, bind_Ok.
    rewrite (bz_deBoor_correct d t (d - 2) p2 (d + 1) _ H2) by lia.
    f_equal. apply tri_ext; [reflexivity|]. rewrite repeat_length. intros i Hi.
    destruct (Z.ltb_spec i (d - 1)); [|lia]. destruct (Z.ltb_spec (i + 1) d); [|lia].
    destruct (Z.ltb_spec i d); [reflexivity|lia].
  Qed.
End Loops.
