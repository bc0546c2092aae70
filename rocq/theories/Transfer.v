(** Relations between two instances of the model that its functions respect.  Used for: a run on rationals
    that uses no square root is also the run on the corresponding real numbers (turns executable
    counterexamples into theorems about real numbers); and the scalars of a result (knots) do not depend
    on the control points. *)
From Coq Require Import Reals QArith Qreals Qround Qabs Lra Lia ZArith List Bool.
From Verif Require Import Monad MonadFacts Scalar ScalarFacts.
Import ListNotations.
Local Open Scope Z_scope.

Definition res_rel {A B} (RA : A -> B -> Prop) (x : res A) (y : res B) : Prop :=
  match x, y with
  | Ok a, Ok b => RA a b
  | Throw e, Throw e' => e = e'
  | Undef, Undef => True
  | NonFinite, NonFinite => True
  | _, _ => False
  end.

Definition sumrel {A B A' B'} (RA : A -> A' -> Prop) (RB : B -> B' -> Prop) (x : A + B) (y : A' + B') : Prop :=
  match x, y with
  | inl a, inl b => RA a b
  | inr a, inr b => RB a b
  | _, _ => False
  end.
Definition prodrel {A B A' B'} (RA : A -> A' -> Prop) (RB : B -> B' -> Prop) (x : A * B) (y : A' * B') : Prop :=
  RA (fst x) (fst y) /\ RB (snd x) (snd y).

Lemma bind_rel {A A' B B'} (RA : A -> A' -> Prop) (RB : B -> B' -> Prop) x x' f f' :
  res_rel RA x x' -> (forall a a', RA a a' -> res_rel RB (f a) (f' a')) -> res_rel RB (bind x f) (bind x' f').
Proof. intros H Hf. destruct x, x'; simpl in *; auto; contradiction. Qed.

Lemma assert_rel b : res_rel eq (assert_ b) (assert_ b).
Proof. destruct b; simpl; auto. Qed.

Lemma Forall2_len {A B} (RA : A -> B -> Prop) l l' : Forall2 RA l l' -> length l = length l'.
Proof. induction 1; simpl; congruence. Qed.

Lemma Forall2_zlen {A B} (RA : A -> B -> Prop) l l' : Forall2 RA l l' -> zlen l = zlen l'.
Proof. intros H. unfold zlen. now rewrite (Forall2_len _ _ _ H). Qed.

Lemma get_rel {A B} (RA : A -> B -> Prop) l l' i : Forall2 RA l l' -> res_rel RA (get l i) (get l' i).
Proof.
  intros H. unfold get. destruct (i <? 0); [exact I|]. generalize (Z.to_nat i) as n.
  induction H; intros [|n]; simpl; auto.
Qed.

Lemma upd_rel {A B} (RA : A -> B -> Prop) l l' n v v' : Forall2 RA l l' -> RA v v' -> Forall2 RA (upd_nat l n v) (upd_nat l' n v').
Proof. intros H Hv. revert n. induction H; intros [|n]; simpl; constructor; auto. Qed.

Lemma set_rel {A B} (RA : A -> B -> Prop) l l' i v v' : Forall2 RA l l' -> RA v v' ->
  res_rel (Forall2 RA) (set l i v) (set l' i v').
Proof.
  intros H Hv. unfold set. rewrite (Forall2_zlen _ _ _ H). destruct (_ && _); [|exact I]. now apply upd_rel.
Qed.

Lemma firstn_rel {A B} (RA : A -> B -> Prop) l l' n : Forall2 RA l l' -> Forall2 RA (firstn n l) (firstn n l').
Proof. intros H. revert n. induction H; intros [|n]; simpl; constructor; auto. Qed.
Lemma skipn_rel {A B} (RA : A -> B -> Prop) l l' n : Forall2 RA l l' -> Forall2 RA (skipn n l) (skipn n l').
Proof. intros H. revert n. induction H; intros [|n]; simpl; auto. Qed.
Lemma block_rel {A B} (RA : A -> B -> Prop) l l' i n : Forall2 RA l l' -> res_rel (Forall2 RA) (block l i n) (block l' i n).
Proof.
  intros H. unfold block. rewrite (Forall2_zlen _ _ _ H). destruct (_ && _); [|exact I]. now apply firstn_rel, skipn_rel.
Qed.
Lemma blit_rel {A B} (RA : A -> B -> Prop) l l' i s s' : Forall2 RA l l' -> Forall2 RA s s' ->
  res_rel (Forall2 RA) (blit l i s) (blit l' i s').
Proof.
  intros H Hs. unfold blit. rewrite (Forall2_zlen _ _ _ H), (Forall2_zlen _ _ _ Hs), (Forall2_len _ _ _ Hs).
  destruct (_ && _); [|exact I]. apply Forall2_app; [now apply firstn_rel|]. apply Forall2_app; [exact Hs|now apply skipn_rel].
Qed.
Lemma topRows_rel {A B} (RA : A -> B -> Prop) l l' n : Forall2 RA l l' -> res_rel (Forall2 RA) (topRows l n) (topRows l' n).
Proof. intros H. now apply block_rel. Qed.
Lemma bottomRows_rel {A B} (RA : A -> B -> Prop) l l' n : Forall2 RA l l' -> res_rel (Forall2 RA) (bottomRows l n) (bottomRows l' n).
Proof. intros H. unfold bottomRows. rewrite (Forall2_zlen _ _ _ H). now apply block_rel. Qed.
Lemma alloc_rel {A B} (RA : A -> B -> Prop) d d' n : RA d d' -> res_rel (Forall2 RA) (alloc d n) (alloc d' n).
Proof.
  intros H. unfold alloc. destruct (0 <=? n); [|exact I]. generalize (Z.to_nat n) as m.
  induction m; simpl; constructor; auto.
Qed.

Lemma for_nat_rel {S S'} (RS : S -> S' -> Prop) n i b b' s s' :
  (forall i s s', RS s s' -> res_rel RS (b i s) (b' i s')) -> RS s s' -> res_rel RS (for_nat n i b s) (for_nat n i b' s').
Proof.
  intros Hb. revert i s s'; induction n as [|n IH]; intros i s s' Hs; [exact Hs|].
  simpl. eapply bind_rel; [apply Hb; exact Hs|]. intros a a' Ha. now apply IH.
Qed.
Lemma for_up_rel {S S'} (RS : S -> S' -> Prop) lo hi b b' s s' :
  (forall i s s', RS s s' -> res_rel RS (b i s) (b' i s')) -> RS s s' -> res_rel RS (for_up lo hi b s) (for_up lo hi b' s').
Proof. intros. now apply for_nat_rel. Qed.
Lemma ford_nat_rel {S S'} (RS : S -> S' -> Prop) n i b b' s s' :
  (forall i s s', RS s s' -> res_rel RS (b i s) (b' i s')) -> RS s s' -> res_rel RS (ford_nat n i b s) (ford_nat n i b' s').
Proof.
  intros Hb. revert i s s'; induction n as [|n IH]; intros i s s' Hs; [exact Hs|].
  simpl. eapply bind_rel; [apply Hb; exact Hs|]. intros a a' Ha. now apply IH.
Qed.
Lemma for_down_rel {S S'} (RS : S -> S' -> Prop) lo hi b b' s s' :
  (forall i s s', RS s s' -> res_rel RS (b i s) (b' i s')) -> RS s s' -> res_rel RS (for_down lo hi b s) (for_down lo hi b' s').
Proof. intros. now apply ford_nat_rel. Qed.
Lemma forb_up_rel {S S' B B'} (RS : S -> S' -> Prop) (RB : B -> B' -> Prop) lo hi b b' s s' :
  (forall i s s', RS s s' -> res_rel (sumrel RS RB) (b i s) (b' i s')) -> RS s s' ->
  res_rel (sumrel RS RB) (forb_up lo hi b s) (forb_up lo hi b' s').
Proof.
  intros Hb. unfold forb_up. generalize (Z.to_nat (hi - lo)) as n. intros n. revert lo s s'.
  induction n as [|n IH]; intros i s s' Hs; [exact Hs|].
  simpl. eapply bind_rel; [apply Hb; exact Hs|]. intros [a|a] [a'|a'] Ha; simpl in Ha; try contradiction; [now apply IH|exact Ha].
Qed.
Lemma while_rel {S S'} (RS : S -> S' -> Prop) fuel c c' b b' s s' :
  (forall s s', RS s s' -> res_rel eq (c s) (c' s')) ->
  (forall s s', RS s s' -> res_rel RS (b s) (b' s')) -> RS s s' -> res_rel RS (while fuel c b s) (while fuel c' b' s').
Proof.
  intros Hc Hb. revert s s'; induction fuel as [|f IH]; intros s s' Hs; [exact I|].
  simpl. eapply bind_rel; [apply Hc; exact Hs|]. intros x y ->. destruct y; [|exact Hs].
  eapply bind_rel; [apply Hb; exact Hs|]. intros; now apply IH.
Qed.
Lemma mapM_rel {A A' B B'} (RA : A -> A' -> Prop) (RB : B -> B' -> Prop) f f' l l' :
  (forall a a', RA a a' -> res_rel RB (f a) (f' a')) -> Forall2 RA l l' -> res_rel (Forall2 RB) (mapM f l) (mapM f' l').
Proof.
  intros Hf H. induction H; [constructor|]. simpl. eapply bind_rel; [now apply Hf|]. intros b b' Hb.
  eapply bind_rel; [exact IHForall2|]. intros bs bs' Hbs. now constructor.
Qed.

(** * Scalars: a relation between two instances that is respected by all operations but the root *)
Class SRel (T1 T2 : Type) {O1 : ScalarOps T1} {O2 : ScalarOps T2} := {
  Rs : T1 -> T2 -> Prop;
  Rs_0 : Rs s0 s0;
  Rs_1 : Rs s1 s1;
  Rs_add : forall a b a' b', Rs a a' -> Rs b b' -> Rs (sadd a b) (sadd a' b');
  Rs_sub : forall a b a' b', Rs a a' -> Rs b b' -> Rs (ssub a b) (ssub a' b');
  Rs_mul : forall a b a' b', Rs a a' -> Rs b b' -> Rs (smul a b) (smul a' b');
  Rs_opp : forall a a', Rs a a' -> Rs (sopp a) (sopp a');
  Rs_sofZ : forall z, Rs (sofZ z) (sofZ z);
  Rs_sofQ : forall q, Rs (sofQ q) (sofQ q);
  Rs_le : forall a b a' b', Rs a a' -> Rs b b' -> sle a b = sle a' b';
  Rs_lt : forall a b a' b', Rs a a' -> Rs b b' -> slt a b = slt a' b';
  Rs_eq : forall a b a' b', Rs a a' -> Rs b b' -> seq_ a b = seq_ a' b';
  Rs_floor : forall a a', Rs a a' -> sfloor a = sfloor a';
  Rs_div : forall a b a' b', Rs a a' -> Rs b b' -> seq_ b s0 = false -> Rs (sdiv a b) (sdiv a' b');
}.

(** * Scalars: the rational instance *)
Definition Qs (q : Q) (x : R) : Prop := Q2R q = x.

Lemma Q2R_red q : Q2R (Qred q) = Q2R q.
Proof. apply Qeq_eqR, Qred_correct. Qed.

Lemma Qs_0 : Qs s0 s0. Proof. unfold Qs. cbn. unfold Q2R; simpl. lra. Qed.
Lemma Qs_1 : Qs s1 s1. Proof. unfold Qs. cbn. unfold Q2R; simpl. lra. Qed.
Lemma Qs_add a b a' b' : Qs a a' -> Qs b b' -> Qs (sadd a b) (sadd a' b').
Proof. unfold Qs. intros <- <-. cbn [sadd Q_ops R_ops]. rewrite Q2R_red. apply Q2R_plus. Qed.
Lemma Qs_sub a b a' b' : Qs a a' -> Qs b b' -> Qs (ssub a b) (ssub a' b').
Proof. unfold Qs. intros <- <-. cbn [ssub Q_ops R_ops]. rewrite Q2R_red. apply Q2R_minus. Qed.
Lemma Qs_mul a b a' b' : Qs a a' -> Qs b b' -> Qs (smul a b) (smul a' b').
Proof. unfold Qs. intros <- <-. cbn [smul Q_ops R_ops]. rewrite Q2R_red. apply Q2R_mult. Qed.
Lemma Qs_opp a a' : Qs a a' -> Qs (sopp a) (sopp a').
Proof. unfold Qs. intros <-. cbn [sopp Q_ops R_ops]. rewrite ?Q2R_red. apply Q2R_opp. Qed.
Lemma Qs_sofZ z : Qs (sofZ z) (sofZ z).
Proof. unfold Qs. cbn [sofZ Q_ops R_ops]. unfold Q2R. simpl. field. Qed.
Lemma Qs_sofQ q : Qs (sofQ q) (sofQ q).
Proof. unfold Qs. cbn [sofQ Q_ops R_ops]. rewrite ?Q2R_red. reflexivity. Qed.

Lemma Qs_le a b a' b' : Qs a a' -> Qs b b' -> sle a b = sle a' b'.
Proof.
  unfold Qs. intros <- <-. cbn [sle Q_ops R_ops]. unfold Rleb.
  destruct (Rle_dec (Q2R a) (Q2R b)) as [H|H].
  - apply Qle_bool_iff. now apply Rle_Qle.
  - destruct (Qle_bool a b) eqn:E; [|reflexivity]. apply Qle_bool_iff in E. now apply Qle_Rle in E.
Qed.
Lemma Qs_lt a b a' b' : Qs a a' -> Qs b b' -> slt a b = slt a' b'.
Proof.
  intros Ha Hb. pose proof (Qs_le b a b' a' Hb Ha) as H. cbn [slt sle Q_ops R_ops] in *. rewrite H.
  unfold Rleb, Rltb. destruct (Rle_dec b' a'), (Rlt_dec a' b'); simpl; auto; lra.
Qed.
Lemma Qs_eq a b a' b' : Qs a a' -> Qs b b' -> seq_ a b = seq_ a' b'.
Proof.
  unfold Qs. intros <- <-. cbn [seq_ Q_ops R_ops]. unfold Reqb.
  destruct (Req_EM_T (Q2R a) (Q2R b)) as [H|H].
  - apply Qeq_bool_iff. now apply eqR_Qeq.
  - destruct (Qeq_bool a b) eqn:E; [|reflexivity]. apply Qeq_bool_iff in E. now apply Qeq_eqR in E.
Qed.
Lemma Qs_floor a a' : Qs a a' -> sfloor a = sfloor a'.
Proof.
  unfold Qs. intros <-. cbn [sfloor Q_ops R_ops].
  pose proof (Qfloor_le a) as H1. pose proof (Qlt_floor a) as H2.
  apply Qle_Rle in H1. apply Qlt_Rlt in H2.
  assert (E : forall z, Q2R (inject_Z z) = IZR z) by (intros z; unfold Q2R; simpl; field).
  rewrite E in H1, H2. rewrite plus_IZR in H2.
  rewrite <- (tech_up (Q2R a) (Qfloor a + 1)); [lia| |]; rewrite plus_IZR; lra.
Qed.


Lemma Qs_div a b a' b' : Qs a a' -> Qs b b' -> seq_ b s0 = false -> Qs (sdiv a b) (sdiv a' b').
Proof.
  intros Ha Hb E. unfold Qs in *. subst. cbn [sdiv Q_ops R_ops]. rewrite Q2R_red. apply Q2R_div.
  cbn [seq_ Q_ops s0] in E. intro H. apply Qeq_bool_iff in H. congruence.
Qed.

Global Instance srel_QR : SRel Q R.
Proof.
  refine {| Rs := Qs |}.
  - exact Qs_0.
  - exact Qs_1.
  - exact Qs_add.
  - exact Qs_sub.
  - exact Qs_mul.
  - exact Qs_opp.
  - exact Qs_sofZ.
  - exact Qs_sofQ.
  - exact Qs_le.
  - exact Qs_lt.
  - exact Qs_eq.
  - exact Qs_floor.
  - exact Qs_div.
Defined.

(** Equality of real numbers. *)
Definition srel_RR : SRel R R.
Proof. refine {| Rs := eq |}; intros; subst; reflexivity. Defined.

Lemma Rs_eps {T1 T2} `{SRel T1 T2} : Rs seps seps. Proof. apply Rs_sofQ. Qed.
Lemma Rs_ddiv {T1 T2} `{SRel T1 T2} a b a' b' : Rs a a' -> Rs b b' -> res_rel Rs (ddiv a b) (ddiv a' b').
Proof.
  intros Ha Hb. unfold ddiv. rewrite <- (Rs_eq b s0 b' s0 Hb Rs_0). destruct (seq_ b s0) eqn:E; [exact I|].
  now apply Rs_div.
Qed.

(** * Points *)
Class PRel (T1 T2 P1 P2 : Type) {O1 : ScalarOps T1} {O2 : ScalarOps T2} {V1 : PointOps T1 P1} {V2 : PointOps T2 P2}
  {X : SRel T1 T2} := {
  Rp : P1 -> P2 -> Prop;
  Rp_0 : Rp p0 p0;
  Rp_add : forall a b a' b', Rp a a' -> Rp b b' -> Rp (padd a b) (padd a' b');
  Rp_sub : forall a b a' b', Rp a a' -> Rp b b' -> Rp (psub a b) (psub a' b');
  Rp_mul : forall x b x' b', Rs x x' -> Rp b b' -> Rp (pmul x b) (pmul x' b');
}.

Fixpoint Rv (d : nat) : vec Q d -> vec R d -> Prop :=
  match d return vec Q d -> vec R d -> Prop with
  | O => fun _ _ => True
  | S d' => fun a b => Qs (fst a) (fst b) /\ Rv d' (snd a) (snd b)
  end.

Global Instance scal_prel : PRel Q R Q R.
Proof.
  refine {| Rp := Qs |}.
  - exact Qs_0.
  - exact Qs_add.
  - exact Qs_sub.
  - exact Qs_mul.
Defined.

Global Instance vec_prel d : PRel Q R (vec Q d) (vec R d).
Proof.
  refine {| Rp := Rv d |}.
  - induction d; simpl; auto. split; [exact Qs_0|exact IHd].
  - induction d; simpl; auto. intros; split; [apply Qs_add; tauto|apply IHd; tauto].
  - induction d; simpl; auto. intros; split; [apply Qs_sub; tauto|apply IHd; tauto].
  - induction d; simpl; auto. intros; split; [apply Qs_mul; tauto|apply IHd; tauto].
Defined.

(** Points of any two types, everything related: what is left is the dependence on the scalars. *)
Definition prel_erase {P1 P2} {V1 : PointOps R P1} {V2 : PointOps R P2} : PRel R R P1 P2 (X := srel_RR).
Proof. refine {| Rp := fun _ _ => True |}; trivial. Defined.

Lemma Rp_divs {T1 T2 P1 P2} `{PRel T1 T2 P1 P2} a x a' x' : Rp a a' -> Rs x x' -> res_rel Rp (pdivs a x) (pdivs a' x').
Proof.
  intros Ha Hx. unfold pdivs. rewrite <- (Rs_eq x s0 x' s0 Hx Rs_0). destruct (seq_ x s0) eqn:E; [exact I|].
  simpl. apply Rp_mul; [|exact Ha]. apply Rs_div; [exact Rs_1|exact Hx|exact E].
Qed.

Create HintDb xfer discriminated.
Global Hint Constants Opaque : xfer.
Global Hint Variables Opaque : xfer.
Global Hint Resolve Rs_0 Rs_1 Rs_add Rs_sub Rs_mul Rs_opp Rs_sofZ Rs_sofQ Rs_eps Rp_0 Rp_add Rp_sub Rp_mul Rs_floor : xfer.

Lemma for_up_rel' {S S'} (RS : S -> S' -> Prop) lo hi b b' s s' : RS s s' ->
  (forall i s s', RS s s' -> res_rel RS (b i s) (b' i s')) -> res_rel RS (for_up lo hi b s) (for_up lo hi b' s').
Proof. intros. now apply for_up_rel. Qed.
Lemma for_down_rel' {S S'} (RS : S -> S' -> Prop) lo hi b b' s s' : RS s s' ->
  (forall i s s', RS s s' -> res_rel RS (b i s) (b' i s')) -> res_rel RS (for_down lo hi b s) (for_down lo hi b' s').
Proof. intros. now apply for_down_rel. Qed.

(** * Tactics *)
Ltac xlen := repeat match goal with
  | H : Forall2 _ ?l ?l' |- context [zlen ?l] => tryif constr_eq l l' then fail else rewrite (Forall2_zlen _ _ _ H)
  | H : Forall2 _ ?l ?l' |- context [length ?l] => tryif constr_eq l l' then fail else rewrite (Forall2_len _ _ _ H)
  end.
Ltac xbool := solve [  repeat first [ apply (f_equal2 andb) | apply (f_equal2 orb) | apply (f_equal negb) ];
   
   first [ simple apply Rs_le | simple apply Rs_lt | simple apply Rs_eq | match goal with |- ?a = ?b => constr_eq a b; exact eq_refl end ];
   solve [eauto 20 with xfer nocore] ].
Ltac xsplit := repeat match goal with
  | H : prodrel _ _ _ _ |- _ => destruct H as [? ?]
  | H : _ /\ _ |- _ => destruct H
  end.
Ltac xstep :=
  cbv beta zeta; xlen;
  match goal with
  | H : prodrel _ _ ?a ?b |- _ => is_var a; is_var b; destruct a, b; destruct H as [? ?]; cbn [fst snd] in *
  | |- res_rel _ (if ?b then _ else _) (if ?b' then _ else _) =>
      first [ constr_eq b b' | replace b with b' by (symmetry; xbool) ]; destruct b'
  | |- res_rel _ (bind (forb_up _ _ _ _) _) _ => fail 1
  | |- res_rel _ (bind _ _) (bind _ _) => eapply bind_rel; [|intros ? ? ?]
  | |- res_rel _ (assert_ ?b) (assert_ ?b') =>
      first [ constr_eq b b' | replace b with b' by (symmetry; xbool) ]; apply assert_rel
  | |- res_rel _ (get _ _) (get _ _) => eapply get_rel; solve [eauto with xfer nocore]
  | |- res_rel _ (set _ _ _) (set _ _ _) => eapply set_rel; solve [eauto 20 with xfer nocore]
  | |- res_rel _ (block _ _ _) (block _ _ _) => eapply block_rel; solve [eauto with xfer nocore]
  | |- res_rel _ (blit _ _ _) (blit _ _ _) => eapply blit_rel; solve [eauto with xfer nocore]
  | |- res_rel _ (topRows _ _) (topRows _ _) => eapply topRows_rel; solve [eauto with xfer nocore]
  | |- res_rel _ (bottomRows _ _) (bottomRows _ _) => eapply bottomRows_rel; solve [eauto with xfer nocore]
  | |- res_rel _ (alloc _ _) (alloc _ _) => first [ apply (alloc_rel Rs); solve [eauto with xfer nocore] | apply (alloc_rel Rp); solve [eauto with xfer nocore] ]
  | |- res_rel _ (ddiv _ _) (ddiv _ _) => eapply Rs_ddiv; solve [eauto 20 with xfer nocore]
  | |- res_rel _ (pdivs _ _) (pdivs _ _) => eapply Rp_divs; solve [eauto 20 with xfer nocore]
  | |- res_rel _ (for_up _ _ _ _) (for_up _ _ _ _) => eapply for_up_rel'; [solve [eauto with xfer nocore]|intros ? ? ? ?]
  | |- res_rel _ (for_down _ _ _ _) (for_down _ _ _ _) => eapply for_down_rel'; [solve [eauto with xfer nocore]|intros ? ? ? ?]
  | |- res_rel _ (Ok _) (Ok _) => cbn [res_rel sumrel]
  | |- res_rel _ (Throw _) (Throw _) => reflexivity
  | |- res_rel _ Undef Undef => exact I
  | |- res_rel _ NonFinite NonFinite => exact I
  | H : ?x = ?y |- _ => is_var x; is_var y; subst x
  | |- res_rel _ _ _ => solve [eauto 20 with xfer nocore]
  end.
Ltac xf := repeat xstep; try match goal with |- ?a = ?b => constr_eq a b; exact eq_refl end; try xbool; try solve [eauto 20 with xfer nocore].
