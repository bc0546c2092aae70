(** Runs of the B-spline model on rationals are runs on reals. *)
From Coq Require Import Reals QArith Qreals Lra Lia ZArith List Bool.
From Verif Require Import Monad MonadFacts Scalar ScalarFacts ModelCurve ModelBezier ModelBSpline Transfer.
Import ListNotations.
Local Open Scope Z_scope.

Section T.
  Context {T1 T2 P1 P2 : Type} {O1 : ScalarOps T1} {O2 : ScalarOps T2} {V1 : PointOps T1 P1} {V2 : PointOps T2 P2}.
  Context {X : SRel T1 T2} {Y : PRel T1 T2 P1 P2}.

  Definition Rbs (c : bspline T1 P1) (c' : bspline T2 P2) : Prop :=
    Forall2 Rp (bs_pts c) (bs_pts c') /\ Forall2 Rs (bs_knots c) (bs_knots c') /\ bs_periodic c = bs_periodic c'.
  Definition Rbz (c : bezier P1) (c' : bezier P2) : Prop :=
    Forall2 Rp (bz_pts c) (bz_pts c') /\ bz_periodic c = bz_periodic c'.

  Lemma degree_rel c c' : Rbs c c' -> bs_degree c = bs_degree c'.
  Proof. intros (H1 & H2 & H3). unfold bs_degree. now rewrite (Forall2_zlen _ _ _ H1), (Forall2_zlen _ _ _ H2). Qed.

  Ltac start := let H1 := fresh "Hp" in let H2 := fresh "Hk" in let H3 := fresh "Hper" in intros (H1 & H2 & H3).

  Lemma lower_rel c c' : Rbs c c' -> res_rel Rs (bs_lower c) (bs_lower c').
  Proof. intros H. unfold bs_lower. rewrite (degree_rel _ _ H). destruct H as (? & ? & ?). xf. Qed.
  Lemma upper_rel c c' : Rbs c c' -> res_rel Rs (bs_upper c) (bs_upper c').
  Proof. intros H. unfold bs_upper. rewrite (degree_rel _ _ H). destruct H as (? & ? & ?). xf. Qed.
  Lemma in_domain_rel c c' t t' : Rbs c c' -> Rs t t' -> res_rel eq (bs_in_domain c t) (bs_in_domain c' t').
  Proof. intros H Ht. unfold bs_in_domain. rewrite (degree_rel _ _ H). destruct H as (? & ? & ?). xf. Qed.
  Lemma validate_rel c c' : Rbs c c' -> res_rel eq (bs_validate c) (bs_validate c').
  Proof. intros H. unfold bs_validate. rewrite (degree_rel _ _ H). xf. Qed.
  Lemma bypass_after_rel l l' i : Forall2 Rs l l' -> res_rel eq (bypass_after l i) (bypass_after l' i).
  Proof.
    intros H. unfold bypass_after. xlen. apply while_rel; [| |reflexivity].
    - intros s ? <-. xf.
    - intros s ? <-. xf.
  Qed.
  Lemma bypass_before_rel l l' i : Forall2 Rs l l' -> res_rel eq (bypass_before l i) (bypass_before l' i).
  Proof.
    intros H. unfold bypass_before. xlen. apply while_rel; [| |reflexivity].
    - intros s ? <-. xf.
    - intros s ? <-. xf.
  Qed.
  Lemma span_search_rel l l' t t' lo hi : Forall2 Rs l l' -> Rs t t' -> res_rel eq (span_search l t lo hi) (span_search l' t' lo hi).
  Proof.
    intros H Ht. unfold span_search. xlen. apply (bind_rel eq).
    - apply while_rel; [| |reflexivity].
      + intros [[a b] m] ? <-. xf.
      + intros [[a b] m] ? <-. xstep; [xstep|]. replace (slt t a0) with (slt t' a') by (symmetry; xbool). destruct (slt t' a'); reflexivity.
    - intros [[a b] m] ? <-. reflexivity.
  Qed.
  Hint Resolve lower_rel upper_rel in_domain_rel validate_rel bypass_after_rel bypass_before_rel span_search_rel : xfer.

  Lemma locate_span_rel c c' t t' : Rbs c c' -> Rs t t' -> res_rel eq (locate_span c t) (locate_span c' t').
  Proof.
    intros H Ht. unfold locate_span. rewrite (degree_rel _ _ H). destruct H as (? & ? & ?).
    xf.
  Qed.

  Lemma multiplicity_rel c c' k : Rbs c c' -> res_rel eq (get_multiplicity c k) (get_multiplicity c' k).
  Proof.
    intros (? & ? & ?). unfold get_multiplicity. xlen. cbv zeta.
    apply (bind_rel (sumrel eq eq)).
    - apply forb_up_rel; [|reflexivity]. intros i s ? <-. xf.
    - intros [x|x] [y|y] E; simpl in E; try contradiction; subst y;
        (apply (bind_rel (sumrel eq eq)); [apply forb_up_rel; [|reflexivity]; intros i s ? <-; xf|]);
        intros [u|u] [v|v] E; simpl in E; try contradiction; subst v; reflexivity.
  Qed.
  Hint Resolve locate_span_rel multiplicity_rel : xfer.

  Lemma span_points_rel c c' p k : Rbs c c' -> res_rel (Forall2 Rp) (span_points c p k) (span_points c' p k).
  Proof. intros (? & ? & ?). unfold span_points. xf. Qed.
  Lemma blossom_rel l l' bv bv' p k pts pts' : Forall2 Rs l l' -> Forall2 Rs bv bv' -> Forall2 Rp pts pts' ->
    res_rel (Forall2 Rp) (bs_blossom l bv p k pts) (bs_blossom l' bv' p k pts').
  Proof. intros. unfold bs_blossom. xf. Qed.
  Hint Resolve span_points_rel blossom_rel : xfer.
  Lemma deBoor_rel c c' t t' p k pts pts' : Rbs c c' -> Rs t t' -> Forall2 Rp pts pts' ->
    res_rel Rp (bs_deBoor c t p k pts) (bs_deBoor c' t' p k pts').
  Proof.
    intros H Ht Hp. unfold bs_deBoor. rewrite (degree_rel _ _ H). destruct H as (? & ? & ?). xf.
  Qed.
  Hint Resolve deBoor_rel : xfer.
  (** Only curves that are not periodic. *)
  Lemma evaluate_rel c c' t t' : bs_periodic c = false -> Rbs c c' -> Rs t t' -> res_rel Rp (bs_evaluate c t) (bs_evaluate c' t').
  Proof.
    intros Hper H Ht. unfold bs_evaluate, bs_unwrap. pose proof H as (? & ? & E). rewrite <- E, Hper.
    rewrite (degree_rel _ _ H). xf.
  Qed.

  Lemma insert_rounds_rel l l' t t' p k s r A A' B B' : Forall2 Rs l l' -> Rs t t' -> Forall2 Rp A A' -> Forall2 Rp B B' ->
    res_rel (prodrel (Forall2 Rp) (Forall2 Rp)) (insert_rounds l t p k s r A B) (insert_rounds l' t' p k s r A' B').
  Proof.
    intros. unfold insert_rounds. apply for_up_rel; [|split; assumption].
    intros i [u v] [u' v'] [Hu Hv]. simpl in Hu, Hv. xf. split; assumption.
  Qed.
  Hint Resolve insert_rounds_rel : xfer.
  Lemma insert_rel c c' t t' r : Rbs c c' -> Rs t t' -> res_rel Rbs (bs_insert_knot c t r) (bs_insert_knot c' t' r).
  Proof.
    intros H Ht. unfold bs_insert_knot. rewrite (degree_rel _ _ H). pose proof H as (? & ? & E). rewrite <- E.
    xf.
    repeat split; assumption.
  Qed.
  Hint Resolve insert_rel : xfer.

  Lemma saturate_rel c c' : Rbs c c' -> res_rel Rbs (bs_saturate c) (bs_saturate c').
  Proof.
    intros H. unfold bs_saturate. rewrite (degree_rel _ _ H). pose proof H as (? & ? & E).
    xf.
    eapply (bind_rel (sumrel Rbs Rbs)); [|intros [?|?] [?|?] ?; simpl in *; try contradiction; assumption].
    eapply forb_up_rel; [|assumption]. intros i s s' Hs. xf.
  Qed.
  Hint Resolve saturate_rel : xfer.

  Lemma segments_rel c c' d a a' b b' : Rbs c c' -> Rs a a' -> Rs b b' ->
    res_rel (prodrel (Forall2 Rbz) (Forall2 Rs)) (bs_segments c d a b) (bs_segments c' d a' b').
  Proof.
    intros H Ha Hb. unfold bs_segments. pose proof H as (? & ? & E). cbv zeta. xlen.
    pose (RR := prodrel (prodrel (Forall2 Rbz) (Forall2 Rs)) Rs).
    apply (bind_rel (sumrel RR RR)).
    - eapply forb_up_rel.
      + intros i [[u v] w] [[u' v'] w'] Hr. unfold RR in Hr. destruct Hr as [[? ?] ?]. cbn [fst snd] in *. xf.
        * repeat split; assumption.
        * repeat split; assumption.
        * repeat split; cbn [fst snd]; try assumption.
          -- apply Forall2_app; [assumption|]. constructor; [|constructor]. split; [assumption|reflexivity].
          -- apply Forall2_app; [assumption|]. constructor; [assumption|constructor].
      + repeat split; cbn [fst snd]; try assumption; repeat constructor; assumption.
    - intros [[[u v] w]|[[u v] w]] [[[u' v'] w']|[[u' v'] w']] Hr; simpl in Hr; try contradiction;
        destruct Hr as [[? ?] ?]; cbn [fst snd] in *; split; assumption.
  Qed.
  Hint Resolve segments_rel : xfer.

  Lemma convert_rel c c' : Rbs c c' ->
    res_rel (prodrel (Forall2 Rbz) (Forall2 Rs)) (bs_convert_to_Bezier c) (bs_convert_to_Bezier c').
  Proof. intros H. unfold bs_convert_to_Bezier. rewrite (degree_rel _ _ H). xf. Qed.
  Lemma split_bspline_rel c c' t t' : Rbs c c' -> Rs t t' -> res_rel (Forall2 Rbs) (split_bspline c t) (split_bspline c' t').
  Proof.
    intros H Ht. unfold split_bspline. rewrite (degree_rel _ _ H). pose proof H as (? & ? & E).
    repeat first [ match goal with G : Rbs ?a ?b |- _ => is_var a;
        lazymatch goal with _ : Forall2 Rs (bs_knots a) _ |- _ => fail | _ => pose proof G as (? & ? & ?) end end | xstep ]; xf;
      repeat constructor; assumption.
  Qed.
End T.

(** * Runs *)
Definition vR {d} (v : vec Q d) : vec R d :=
  (fix go d : vec Q d -> vec R d := match d with O => fun _ => tt | S d' => fun v => (Q2R (fst v), go d' (snd v)) end) d v.
Definition bsR {d} (c : bspline Q (vec Q d)) : bspline R (vec R d) :=
  {| bs_pts := map vR (bs_pts c); bs_knots := map Q2R (bs_knots c); bs_periodic := bs_periodic c |}.

Lemma Rv_vR d (v : vec Q d) : Rv d v (vR v).
Proof. induction d; simpl; [exact I|]. split; [reflexivity|apply IHd]. Qed.
Lemma Rv_det d (v : vec Q d) w : Rv d v w -> w = vR v.
Proof.
  induction d; simpl; [now destruct w|]. intros [H1 H2]. destruct w as [x w]. cbn [fst snd] in *.
  unfold Qs in H1. subst x. f_equal. now apply IHd.
Qed.
Lemma Rbs_bsR d (c : bspline Q (vec Q d)) : Rbs c (bsR c).
Proof.
  repeat split; cbn [bs_pts bs_knots bsR].
  - induction (bs_pts c); constructor; [apply Rv_vR|assumption].
  - induction (bs_knots c); constructor; [reflexivity|assumption].
Qed.
Lemma Rbs_det d (c : bspline Q (vec Q d)) c' : Rbs c c' -> c' = bsR c.
Proof.
  destruct c as [p k b], c' as [p' k' b']. intros (H1 & H2 & H3). cbn [bs_pts bs_knots bs_periodic] in *. subst b'.
  unfold bsR. cbn [bs_pts bs_knots bs_periodic]. f_equal.
  - induction H1; [reflexivity|]. simpl. f_equal; [now apply Rv_det|assumption].
  - induction H2; [reflexivity|]. simpl. f_equal; [cbn [Rs srel_QR] in *; congruence|assumption].
Qed.

Lemma run_evaluate d (c : bspline Q (vec Q d)) t v : bs_periodic c = false -> bs_evaluate c t = Ok v ->
  bs_evaluate (bsR c) (Q2R t) = Ok (vR v).
Proof.
  intros Hp H. pose proof (evaluate_rel c (bsR c) t (Q2R t) Hp (Rbs_bsR d c) eq_refl) as E. rewrite H in E.
  destruct (bs_evaluate (bsR c) (Q2R t)); simpl in E; try contradiction. now rewrite (Rv_det _ _ _ E).
Qed.
Lemma run_insert d (c : bspline Q (vec Q d)) t r c' : bs_insert_knot c t r = Ok c' -> bs_insert_knot (bsR c) (Q2R t) r = Ok (bsR c').
Proof.
  intros H. pose proof (insert_rel c (bsR c) t (Q2R t) r (Rbs_bsR d c) eq_refl) as E. rewrite H in E.
  destruct (bs_insert_knot (bsR c) (Q2R t) r); simpl in E; try contradiction. now rewrite (Rbs_det _ _ _ E).
Qed.
Lemma run_split d (c : bspline Q (vec Q d)) t l : split_bspline c t = Ok l -> split_bspline (bsR c) (Q2R t) = Ok (map bsR l).
Proof.
  intros H. pose proof (split_bspline_rel c (bsR c) t (Q2R t) (Rbs_bsR d c) eq_refl) as E. rewrite H in E.
  destruct (split_bspline (bsR c) (Q2R t)) as [l'| | |]; simpl in E; try contradiction. f_equal. clear H.
  induction E; [reflexivity|]. simpl. f_equal; [now apply Rbs_det|assumption].
Qed.
Definition bzR {d} (c : bezier (vec Q d)) : bezier (vec R d) := {| bz_pts := map vR (bz_pts c); bz_periodic := bz_periodic c |}.
Lemma run_convert d (c : bspline Q (vec Q d)) l b : bs_convert_to_Bezier c = Ok (l, b) ->
  bs_convert_to_Bezier (bsR c) = Ok (map bzR l, map Q2R b).
Proof.
  intros H. pose proof (convert_rel c (bsR c) (Rbs_bsR d c)) as E. rewrite H in E.
  destruct (bs_convert_to_Bezier (bsR c)) as [[l' b']| | |]; simpl in E; try contradiction.
  destruct E as [E1 E2]. cbn [fst snd] in *. clear H. f_equal. f_equal.
  - induction E1 as [|x y ? ? E]; [reflexivity|]. simpl. f_equal; [|assumption]. destruct x as [p q], y as [p' q'], E as [F G].
    cbn [bz_pts bz_periodic] in *. subst q'. unfold bzR. cbn [bz_pts bz_periodic]. f_equal.
    clear -F. induction F; [reflexivity|]. simpl. f_equal; [now apply Rv_det|assumption].
  - induction E2; [reflexivity|]. simpl. f_equal; [cbn [Rs srel_QR] in *; congruence|assumption].
Qed.

