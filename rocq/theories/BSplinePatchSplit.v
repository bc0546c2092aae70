(** B-spline patches: split_u, split_v, split and subpatch. *)
From Coq Require Import Reals Lra Lia List ZArith Bool.
From Verif Require Import Monad MonadFacts LoopFacts Scalar ScalarFacts Spec SpecFacts SpecPatch Polar TensorFacts PatchFacts.
From Verif Require Import ModelCurve CurveFacts ModelBezier BSplineMath ModelBSpline BSplineFacts BSplineThms BSplineThms2 BSplineThms3.
From Verif Require Import BSplineInsert BSplineInsert2 BSplineInsert3 BSplineSplit.
From Verif Require Import Transfer TransferBSpline ModelPatchBase ModelPatch BezierPatchThms BezierPatchSplit BSplinePatchThms BSplinePatchThms2.
Import ListNotations.
Local Open Scope R_scope.

Lemma Forall2_weaken {A B} (P Q : A -> B -> Prop) l l' : (forall a b, P a b -> Q a b) -> Forall2 P l l' -> Forall2 Q l l'.
Proof. intros H F. induction F; constructor; auto. Qed.

Lemma Forall2_pair {A B} (P : A -> B -> Prop) a b a' b' : Forall2 P [a; b] [a'; b'] -> P a a' /\ P b b'.
Proof. intros F. inversion F as [|? ? ? ? H1 F2]; subst. inversion F2; subst. auto. Qed.

(** The knots and the number of control points of the pieces do not depend on the control points. *)
Lemma split_indep {d} (c c' : bspline R (vec R d)) t l l' :
  bs_knots c = bs_knots c' -> length (bs_pts c) = length (bs_pts c') -> bs_periodic c = bs_periodic c' ->
  split_bspline c t = Ok l -> split_bspline c' t = Ok l' ->
  Forall2 (fun a b => length (bs_pts a) = length (bs_pts b) /\ bs_knots a = bs_knots b) l l'.
Proof.
  intros E1 E2 E3 H H'.
  assert (Rc : Rbs (X := srel_RR) (Y := prel_erase) c c').
  { split; [|split; [|exact E3]].
    - clear -E2. revert E2. generalize (bs_pts c) (bs_pts c'). induction l as [|a l IH]; intros [|b l'] E; try discriminate; constructor.
      + exact I.
      + apply IH. simpl in E. lia.
    - rewrite E1. clear. induction (bs_knots c'); constructor; [reflexivity|assumption]. }
  pose proof (split_bspline_rel (X := srel_RR) (Y := prel_erase) c c' t t Rc eq_refl) as Rl. rewrite H, H' in Rl. cbn [res_rel] in Rl.
  eapply Forall2_weaken; [|exact Rl]. intros a b (A1 & A2 & A3). split.
  - clear -A1. induction A1; simpl; congruence.
  - clear -A2. induction A2; [reflexivity|]. f_equal; assumption.
Qed.

(** ** One direction *)
Definition dmult (p : nat) (knots : list R) (w : R) : Prop :=
  mult_le (Z.of_nat (dir_count p knots)) (Z.of_nat p) (knot_of knots) w (Z.of_nat p).

Lemma dir_eval p knots d (pts : list (vec R d)) x : regular_dir p knots -> length pts = dir_count p knots ->
  dir_lo p knots <= x <= dir_hi p knots ->
  bs_evaluate (mk_bspline pts knots) x = Ok (lin (dir_count p knots) (bspline_basis (dir_count p knots) knots x) pts).
Proof.
  intros [Hv Ha Hs] Hl Hx. apply (dir_eval_at p knots Hv d pts false x x Ha Hl eq_refl Hx). now left.
Qed.

Lemma piece_nice {d} p (c1 : bspline R (vec R d)) n1 U1 cp1 knots t :
  valid_dir p knots ->
  let n := dir_count p knots in
  bsrep c1 n1 (Z.of_nat p) U1 cp1 -> kval n1 (Z.of_nat p) U1 -> kapart n1 (Z.of_nat p) U1 ->
  kfrom (Z.of_nat n) (Z.of_nat p) (knot_of knots) t n1 U1 -> nth p knots 0 < nth (p + 1) knots 0 ->
  regular_dir p (bs_knots c1) /\ Z.of_nat (dir_count p (bs_knots c1)) = n1 /\ length (bs_pts c1) = dir_count p (bs_knots c1) /\
  dir_lo p (bs_knots c1) = U1 (Z.of_nat p) /\ dir_hi p (bs_knots c1) = U1 n1 /\
  (forall w, In w (bs_knots c1) -> w = t \/ In w knots) /\
  (forall w, w <> t -> dmult p knots w -> dmult p (bs_knots c1) w).
Proof.
  intros Hv n R1 V1 A1 [K1 K2 K3] Hs. destruct (rep_valid c1 _ _ _ _ R1 V1) as (W1 & W2 & W3 & W4 & _).
  pose proof (rep_pn _ _ _ _ _ R1) as Hpn.
  assert (L1 : length (bs_knots c1) = (length (bs_pts c1) + p + 1)%nat).
  { unfold bspline_degree in W2. destruct W1 as [X1 X2 _ _]. unfold bspline_degree in *. lia. }
  assert (Ec : dir_count p (bs_knots c1) = length (bs_pts c1)) by (unfold dir_count; lia).
  assert (Eu : forall i, (0 <= i <= n1 + Z.of_nat p)%Z -> nth (Z.to_nat i) (bs_knots c1) 0 = U1 i) by exact W4.
  assert (Elo : dir_lo p (bs_knots c1) = U1 (Z.of_nat p)).
  { unfold dir_lo. rewrite <- Eu by lia. f_equal. lia. }
  assert (Ehi : dir_hi p (bs_knots c1) = U1 n1).
  { unfold dir_hi. rewrite Ec, <- Eu by lia. f_equal. lia. }
  destruct (dir_len p knots Hv) as [L2 L3]. fold n in L2, L3.
  split; [split|].
  - split; [lia|exact (vb_sorted _ _ W1)|]. rewrite Elo, Ehi. exact (kv_dom _ _ _ V1).
  - intros i j Hij Hlt.
    assert (Hi : (i < length (bs_knots c1))%nat /\ (j < length (bs_knots c1))%nat) by lia.
    rewrite <- (Nat2Z.id i), <- (Nat2Z.id j) in Hlt |- *. rewrite !Eu in * by lia.
    rewrite <- btol_val. apply A1; (lia || assumption).
  - specialize (K1 ltac:(unfold knot_of; rewrite Nat2Z.id; replace (Z.to_nat (Z.of_nat p + 1)) with (p + 1)%nat by lia; exact Hs)).
    rewrite <- !Eu in K1 by lia. rewrite Nat2Z.id in K1. replace (Z.to_nat (Z.of_nat p + 1)) with (p + 1)%nat in K1 by lia. exact K1.
  - split; [lia|]. split; [lia|]. split; [exact Elo|]. split; [exact Ehi|]. split.
    + intros w Hw. destruct (In_nth _ _ 0 Hw) as (i & Hi & <-).
      destruct (K2 (Z.of_nat i) ltac:(lia)) as [E|(j & Hj & E)]; rewrite <- Eu in E by lia; rewrite Nat2Z.id in E; rewrite E.
      * now left.
      * right. apply nth_In. lia.
    + intros w Hw Hm. specialize (K3 w (Z.of_nat p) Hw ltac:(lia) Hm).
      intros i Hi0 Hi1 X Y. rewrite Ec, W3 in Hi1. unfold knot_of in X, Y. rewrite Eu in X, Y by lia. exact (K3 i Hi0 Hi1 X Y).
Qed.

Lemma dir_split p knots per t d : regular_dir p knots -> (1 <= p)%nat -> dir_lo p knots < t < dir_hi p knots -> apart_from knots t ->
  exists k1 k2, regular_dir p k1 /\ regular_dir p k2 /\
    dir_lo p k1 = dir_lo p knots /\ dir_hi p k1 = t /\ dir_lo p k2 = t /\ dir_hi p k2 = dir_hi p knots /\
    (forall w, In w k1 \/ In w k2 -> w = t \/ In w knots) /\
    (forall w, w <> t -> dmult p knots w -> dmult p k1 w /\ dmult p k2 w) /\
    forall pts : list (vec R d), length pts = dir_count p knots ->
    exists q1 q2, split_bspline {| bs_pts := pts; bs_knots := knots; bs_periodic := per |} t =
        Ok [mk_bspline q1 k1; mk_bspline q2 k2] /\
      length q1 = dir_count p k1 /\ length q2 = dir_count p k2 /\ conv_pres pts q1 /\ conv_pres pts q2 /\
      (forall x, dir_lo p knots <= x -> x < t \/ (x = t /\ dmult p knots t) ->
         lin (dir_count p k1) (bspline_basis (dir_count p k1) k1 x) q1 =
         lin (dir_count p knots) (bspline_basis (dir_count p knots) knots x) pts) /\
      (forall x, t <= x <= dir_hi p knots ->
         lin (dir_count p k2) (bspline_basis (dir_count p k2) k2 x) q2 =
         lin (dir_count p knots) (bspline_basis (dir_count p knots) knots x) pts).
Proof.
  intros Hn Hp Ht Hta. pose proof Hn as [Hv Ha Hs]. set (n := dir_count p knots). set (U := knot_of knots).
  assert (Key : forall pts : list (vec R d), length pts = n ->
    exists c1 c2, split_bspline {| bs_pts := pts; bs_knots := knots; bs_periodic := per |} t = Ok [c1; c2] /\
      bs_periodic c1 = false /\ bs_periodic c2 = false /\
      regular_dir p (bs_knots c1) /\ regular_dir p (bs_knots c2) /\
      length (bs_pts c1) = dir_count p (bs_knots c1) /\ length (bs_pts c2) = dir_count p (bs_knots c2) /\
      dir_lo p (bs_knots c1) = dir_lo p knots /\ dir_hi p (bs_knots c1) = t /\ dir_lo p (bs_knots c2) = t /\ dir_hi p (bs_knots c2) = dir_hi p knots /\
      (forall w, In w (bs_knots c1) \/ In w (bs_knots c2) -> w = t \/ In w knots) /\
      (forall w, w <> t -> dmult p knots w -> dmult p (bs_knots c1) w /\ dmult p (bs_knots c2) w) /\
      (forall x, dir_lo p knots <= x < t -> bs_evaluate c1 x = bs_evaluate (mk_bspline pts knots) x) /\
      (dmult p knots t -> bs_evaluate c1 t = bs_evaluate (mk_bspline pts knots) t) /\
      (forall x, t <= x <= dir_hi p knots -> bs_evaluate c2 x = bs_evaluate (mk_bspline pts knots) x) /\
      conv_pres pts (bs_pts c1) /\ conv_pres pts (bs_pts c2)).
  { intros pts Hl. set (c := {| bs_pts := pts; bs_knots := knots; bs_periodic := per |}).
    destruct (dir_rep p knots Hv c eq_refl Hl) as [Hr Hk]. destruct (dir_len p knots Hv) as [L1 L2]. fold n in L1, L2, Hr, Hk.
    rewrite (dir_lo_U p knots), (dir_hi_U p knots) in *. fold n U in Ht |- *. fold U in Hr, Hk.
    destruct (split_rep_full c (Z.of_nat n) (Z.of_nat p) U _ t Hr Hk (dir_apart p knots Hv Ha)) as
      (c1 & c2 & n1 & n2 & U1 & U2 & cp1 & cp2 & E & F1 & F2 & R1 & V1 & A1 & S1 & B1 & T1 & R2 & V2 & A2 & S2 & B2 & T2 & G1 & G2 & G3 & CV1 & CV2 & X1 & X2).
    - left. unfold U. rewrite knot_of_nat, knot_of_nat1. exact Hs.
    - exact Ht.
    - intros i Hi. rewrite btol_val. apply Hta. unfold U, knot_of. apply nth_In. lia.
    - lia.
    - destruct (piece_nice p c1 n1 U1 cp1 knots t Hv R1 V1 A1 X1 Hs) as (N1 & C1 & D1 & Lo1 & Hi1 & In1 & M1).
      destruct (piece_nice p c2 n2 U2 cp2 knots t Hv R2 V2 A2 X2 Hs) as (N2 & C2 & D2 & Lo2 & Hi2 & In2 & M2).
      exists c1, c2. split; [exact E|]. split; [exact F1|]. split; [exact F2|]. split; [exact N1|]. split; [exact N2|].
      split; [exact D1|]. split; [exact D2|]. split; [congruence|]. split; [congruence|]. split; [congruence|]. split; [congruence|].
      split; [intros w [Hw|Hw]; auto|]. split; [intros w Hw Hm; split; auto|].
      split; [exact G1|]. split; [exact G2|]. split; [exact G3|]. split; [exact CV1|exact CV2]. }
  destruct (Key (repeat p0 n) (repeat_length _ _)) as (r1 & r2 & Er & _ & _ & N1 & N2 & D1 & D2 & Lo1 & Hi1 & Lo2 & Hi2 & HIn & HM & _).
  exists (bs_knots r1), (bs_knots r2). split; [exact N1|]. split; [exact N2|]. split; [exact Lo1|]. split; [exact Hi1|].
  split; [exact Lo2|]. split; [exact Hi2|]. split; [exact HIn|]. split; [exact HM|].
  intros pts Hl. destruct (Key pts Hl) as (c1 & c2 & E & P1 & P2 & _ & _ & _ & _ & _ & _ & _ & _ & _ & _ & G1 & G2 & G3 & CV1 & CV2).
  assert (HI : Forall2 (fun a b => length (bs_pts a) = length (bs_pts b) /\ bs_knots a = bs_knots b) [r1; r2] [c1; c2]).
  { refine (split_indep _ _ t _ _ _ _ _ Er E); [reflexivity| |reflexivity]. cbn [bs_pts]. rewrite repeat_length. symmetry. exact Hl. }
  apply Forall2_pair in HI. destruct HI as [[I1 I2] [I3 I4]].
  assert (Ec1 : c1 = mk_bspline (bs_pts c1) (bs_knots r1)).
  { destruct c1. cbn in *. unfold mk_bspline. congruence. }
  assert (Ec2 : c2 = mk_bspline (bs_pts c2) (bs_knots r2)).
  { destruct c2. cbn in *. unfold mk_bspline. congruence. }
  exists (bs_pts c1), (bs_pts c2).
  assert (L1 : length (bs_pts c1) = dir_count p (bs_knots r1)) by lia.
  assert (L2 : length (bs_pts c2) = dir_count p (bs_knots r2)) by lia.
  split; [rewrite E; congruence|]. split; [exact L1|]. split; [exact L2|]. split; [exact CV1|]. split; [exact CV2|]. split.
  - intros x Hx0 Hx1.
    assert (Ex : bs_evaluate c1 x = bs_evaluate (mk_bspline pts knots) x).
    { destruct Hx1 as [Hx1|[-> Hm]]; [apply G1; lra|now apply G2]. }
    assert (Hxt : x <= t) by (destruct Hx1 as [?|[? _]]; lra).
    rewrite Ec1 in Ex. rewrite (dir_eval p (bs_knots r1) d (bs_pts c1) x N1 L1) in Ex by (rewrite Lo1, Hi1; lra).
    rewrite (dir_eval p knots d pts x Hn Hl) in Ex by lra. now injection Ex.
  - intros x Hx. specialize (G3 x Hx).
    rewrite Ec2 in G3. rewrite (dir_eval p (bs_knots r2) d (bs_pts c2) x N2 L2) in G3 by (rewrite Lo2, Hi2; lra).
    rewrite (dir_eval p knots d pts x Hn Hl) in G3 by lra. now injection G3.
Qed.

(** ** Patches *)
Record snice {d} (s : spatch R (vec R d)) (p q : nat) : Prop := {
  sn_fit : sfit s p q;
  sn_init : sp_initialize s = Ok s;
  sn_u : regular_dir p (sp_ku s);
  sn_v : regular_dir q (sp_kv s);
  sn_t : (sp_tu s < 0 \/ sp_tv s < 0 \/ (sp_tu s = Z.of_nat p /\ sp_tv s = Z.of_nat q))%Z;
}.
Definition sval {d} (s : spatch R (vec R d)) (p q : nat) (x y : R) : vec R d :=
  let n := dir_count p (sp_ku s) in let m := dir_count q (sp_kv s) in
  tensor_sum n m (bspline_basis n (sp_ku s) x) (bspline_basis m (sp_kv s) y) (sp_grid s).
Definition plain (per : bool) (p : nat) (knots : list R) (x : R) : Prop :=
  dir_lo p knots <= x <= dir_hi p knots /\ (per = true -> x < dir_hi p knots).

Lemma plain_wraps per p knots x : plain per p knots x -> wraps per (dir_lo p knots) (dir_hi p knots) x x.
Proof.
  intros [H1 H2]. destruct per; cbn; [|reflexivity]. specialize (H2 eq_refl). split; [lra|]. exists 0%Z. ring.
Qed.

Lemma sn_eval {d} (s : spatch R (vec R d)) p q x y : snice s p q ->
  plain (sp_peru s) p (sp_ku s) x -> plain (sp_perv s) q (sp_kv s) y -> sp_evaluate s x y = Ok (sval s p q x y).
Proof.
  intros [Hf Hi [Vu Au Su] [Vv Av Sv] _] Px Py. unfold sval. apply (sp_eval_lin s p q Hf Hi).
  - intros pts Hl. apply (dir_eval_at p _ Vu d pts _ x x Au Hl); [apply wraps_dunw, plain_wraps; assumption|apply Px|now left].
  - intros pts Hl. apply (dir_eval_at q _ Vv d pts _ y y Av Hl); [apply wraps_dunw, plain_wraps; assumption|apply Py|now left].
Qed.

Lemma tensor_by_cols2 {d} n n' m bu bu' bv (g g' : list (vec R d)) :
  (forall j, (j < m)%nat -> psum n (fun i => pmul (bu i) (nth (i * m + j) g p0)) = psum n' (fun i => pmul (bu' i) (nth (i * m + j) g' p0))) ->
  tensor_sum n m bu bv g = tensor_sum n' m bu' bv g'.
Proof. intros H. rewrite <- !tensor_cols. apply psum_ext. intros j Hj. f_equal. exact (H j Hj). Qed.
Lemma tensor_by_rows2 {d} n m m' bu bv bv' (g g' : list (vec R d)) :
  (forall i, (i < n)%nat -> psum m (fun j => pmul (bv j) (nth (i * m + j) g p0)) = psum m' (fun j => pmul (bv' j) (nth (i * m' + j) g' p0))) ->
  tensor_sum n m bu bv g = tensor_sum n m' bu bv' g'.
Proof. intros H. rewrite <- !tensor_rows. apply psum_ext. intros i Hi. f_equal. exact (H i Hi). Qed.

Lemma lin_scol {d} (s : spatch R (vec R d)) p q b (j : nat) : (j < dir_count q (sp_kv s))%nat ->
  lin (dir_count p (sp_ku s)) b (scol s p q (Z.of_nat j)) =
  psum (dir_count p (sp_ku s)) (fun i => pmul (b i) (nth (i * dir_count q (sp_kv s) + j) (sp_grid s) p0)).
Proof. intros Hj. unfold scol. rewrite lin_mklist. apply psum_ext. intros i Hi. do 2 f_equal. lia. Qed.
Lemma lin_srow {d} (s : spatch R (vec R d)) q b (i : nat) :
  lin (dir_count q (sp_kv s)) b (srow s q (Z.of_nat i)) =
  psum (dir_count q (sp_kv s)) (fun j => pmul (b j) (nth (i * dir_count q (sp_kv s) + j) (sp_grid s) p0)).
Proof. unfold srow. rewrite lin_mklist. apply psum_ext. intros j Hj. do 2 f_equal. lia. Qed.

(** The bounds. *)
Lemma sp_ulo_Ok {d} (s : spatch R (vec R d)) p q : sfit s p q -> sp_ulo s = Ok (dir_lo p (sp_ku s)).
Proof.
  intros H. destruct (dir_len _ _ (sr_ku _ _ _ H)) as [L1 L2]. unfold sp_ulo, checked_degree. rewrite (sr_u _ _ _ H).
  replace (0 <=? Z.of_nat p)%Z with true by (symmetry; apply Z.leb_le; lia). cbn [assert_ bind].
  rewrite (get_nth _ _ 0) by (unfold zlen; lia). now rewrite Nat2Z.id.
Qed.
Lemma sp_uhi_Ok {d} (s : spatch R (vec R d)) p q : sfit s p q -> sp_uhi s = Ok (dir_hi p (sp_ku s)).
Proof.
  intros H. destruct (dir_len _ _ (sr_ku _ _ _ H)) as [L1 L2]. unfold sp_uhi, checked_degree. rewrite (sr_u _ _ _ H).
  replace (0 <=? Z.of_nat p)%Z with true by (symmetry; apply Z.leb_le; lia). cbn [assert_ bind].
  rewrite (get_nth _ _ 0) by (unfold zlen; lia). unfold dir_hi. do 2 f_equal. unfold zlen. lia.
Qed.
Lemma sp_vlo_Ok {d} (s : spatch R (vec R d)) p q : sfit s p q -> sp_vlo s = Ok (dir_lo q (sp_kv s)).
Proof.
  intros H. destruct (dir_len _ _ (sr_kv _ _ _ H)) as [L1 L2]. unfold sp_vlo, checked_degree. rewrite (sr_v _ _ _ H).
  replace (0 <=? Z.of_nat q)%Z with true by (symmetry; apply Z.leb_le; lia). cbn [assert_ bind].
  rewrite (get_nth _ _ 0) by (unfold zlen; lia). now rewrite Nat2Z.id.
Qed.
Lemma sp_vhi_Ok {d} (s : spatch R (vec R d)) p q : sfit s p q -> sp_vhi s = Ok (dir_hi q (sp_kv s)).
Proof.
  intros H. destruct (dir_len _ _ (sr_kv _ _ _ H)) as [L1 L2]. unfold sp_vhi, checked_degree. rewrite (sr_v _ _ _ H).
  replace (0 <=? Z.of_nat q)%Z with true by (symmetry; apply Z.leb_le; lia). cbn [assert_ bind].
  rewrite (get_nth _ _ 0) by (unfold zlen; lia). unfold dir_hi. do 2 f_equal. unfold zlen. lia.
Qed.

(** Making a piece. *)
Lemma sp_piece {d} tu tv p q (g : list (vec R d)) ku kv : valid_dir p ku -> valid_dir q kv ->
  zlen g = (Z.of_nat (dir_count p ku) * Z.of_nat (dir_count q kv))%Z -> regular_dir p ku -> regular_dir q kv ->
  (tu < 0 \/ tv < 0 \/ (tu = Z.of_nat p /\ tv = Z.of_nat q))%Z ->
  exists a, sp_initialize (sp_make tu tv (Z.of_nat p) (Z.of_nat q) g ku kv false false) = Ok a /\ snice a p q /\
    sp_ku a = ku /\ sp_kv a = kv /\ sp_grid a = g /\ sp_peru a = false /\ sp_perv a = false /\ sp_tu a = tu /\ sp_tv a = tv.
Proof.
  intros Vu Vv Hg Nu Nv Ht.
  assert (H : sfit (sp_make tu tv (Z.of_nat p) (Z.of_nat q) g ku kv false false) p q) by (split; auto).
  destruct (sp_init_gen _ p q H) as (a & E & F1 & F2 & F3 & F4 & F5 & F6 & F7 & F8 & F9 & F10).
  cbn [sp_make sp_tu sp_tv sp_degu sp_degv sp_grid sp_ku sp_kv sp_peru sp_perv] in *.
  exists a. split; [exact E|]. split; [|repeat split; assumption].
  split; rewrite ?F1, ?F2, ?F6, ?F7; auto. split; rewrite ?F3, ?F4, ?F5, ?F6, ?F7; auto.
Qed.

Lemma in_dom_in (lo hi t : R) : lo <= t <= hi -> in_domain_1 lo hi t = true.
Proof.
  intros H. unfold in_domain_1. pose proof seps_pos as Hp. cbn [sle ssub sadd R_ops]. rewrite !Rleb_true by lra. reflexivity.
Qed.
Lemma endp_in (lo hi t : R) : lo < t < hi -> is_endpoint_1 lo hi t = false.
Proof. intros H. unfold is_endpoint_1. cbn [seq_ R_ops]. rewrite !Reqb_false by lra. reflexivity. Qed.
Lemma endp_end (lo hi t : R) : t = lo \/ t = hi -> is_endpoint_1 lo hi t = true.
Proof.
  intros H. unfold is_endpoint_1. cbn [seq_ R_ops]. destruct (Reqb_spec t lo); [reflexivity|]. destruct (Reqb_spec t hi); [reflexivity|lra].
Qed.

Record spiece {d} (s a : spatch R (vec R d)) (p q : nat) : Prop := {
  pc_nice : snice a p q;
  pc_u : sp_peru a = false;
  pc_v : sp_perv a = false;
  pc_conv : conv_pres (sp_grid s) (sp_grid a);
  pc_t : sp_tu a = sp_tu s /\ sp_tv a = sp_tv s;
}.

Lemma scol_Forall {d} (Q : vec R d -> Prop) (s : spatch R (vec R d)) p q j : sfit s p q ->
  (0 <= j < Z.of_nat (dir_count q (sp_kv s)))%Z -> Forall Q (sp_grid s) -> Forall Q (scol s p q j).
Proof.
  intros Hf Hj HF. pose proof (sr_g _ _ _ Hf) as Hg. unfold zlen in Hg.
  unfold scol, mklist. apply Forall_map, Forall_forall. intros i Hi. apply in_seq in Hi.
  apply Forall_nth_p0; [exact HF|]. nia.
Qed.
Lemma srow_Forall {d} (Q : vec R d -> Prop) (s : spatch R (vec R d)) p q i : sfit s p q ->
  (0 <= i < Z.of_nat (dir_count p (sp_ku s)))%Z -> Forall Q (sp_grid s) -> Forall Q (srow s q i).
Proof.
  intros Hf Hi HF. pose proof (sr_g _ _ _ Hf) as Hg. unfold zlen in Hg.
  unfold srow, mklist. apply Forall_map, Forall_forall. intros j Hj. apply in_seq in Hj.
  apply Forall_nth_p0; [exact HF|]. nia.
Qed.

Lemma sp_split_u_gen {d} (s : spatch R (vec R d)) p q u : snice s p q -> (1 <= p)%nat ->
  dir_lo p (sp_ku s) < u < dir_hi p (sp_ku s) -> apart_from (sp_ku s) u ->
  exists a b, sp_split_u s u = Ok [a; b] /\ spiece s a p q /\ spiece s b p q /\
    sp_kv a = sp_kv s /\ sp_kv b = sp_kv s /\
    dir_lo p (sp_ku a) = dir_lo p (sp_ku s) /\ dir_hi p (sp_ku a) = u /\
    dir_lo p (sp_ku b) = u /\ dir_hi p (sp_ku b) = dir_hi p (sp_ku s) /\
    (forall w, In w (sp_ku a) \/ In w (sp_ku b) -> w = u \/ In w (sp_ku s)) /\
    (forall w, w <> u -> dmult p (sp_ku s) w -> dmult p (sp_ku a) w /\ dmult p (sp_ku b) w) /\
    (forall x y, dir_lo p (sp_ku s) <= x -> x < u \/ (x = u /\ dmult p (sp_ku s) u) -> sval a p q x y = sval s p q x y) /\
    (forall x y, u <= x <= dir_hi p (sp_ku s) -> sval b p q x y = sval s p q x y).
Proof.
  intros [Hf Hi Nu Nv Ht] Hp Hu Hta. set (n := dir_count p (sp_ku s)). set (m := dir_count q (sp_kv s)).
  destruct (dir_len _ _ (sr_ku _ _ _ Hf)) as [L1 L2]. fold n in L1, L2.
  destruct (dir_len _ _ (sr_kv _ _ _ Hf)) as [L3 L4]. fold m in L3, L4.
  destruct (dir_split p (sp_ku s) (sp_peru s) u d Nu Hp Hu Hta) as (k1 & k2 & N1 & N2 & Lo1 & Hi1 & Lo2 & Hi2 & HIn & HM & Hsp).
  fold n in Hsp. set (n1 := dir_count p k1) in *. set (n2 := dir_count p k2) in *.
  unfold sp_split_u. rewrite (sp_ulo_Ok s p q Hf), (sp_uhi_Ok s p q Hf), !bind_Ok, endp_in by exact Hu.
  rewrite (sp_nv_Ok s p q Hf), bind_Ok. fold m.
  destruct (sp_cached s p q Hf Hi) as [Cu _]. fold m in Cu. rewrite Cu.
  set (iso := fun j => {| bs_pts := scol s p q j; bs_knots := sp_ku s; bs_periodic := sp_peru s |}).
  set (F := fun j => match split_bspline (iso j) u with Ok l => l | _ => [] end).
  assert (HF : forall j, exists q1 q2, split_bspline (iso j) u = Ok (F j) /\ F j = [mk_bspline q1 k1; mk_bspline q2 k2] /\
      length q1 = n1 /\ length q2 = n2 /\ conv_pres (scol s p q j) q1 /\ conv_pres (scol s p q j) q2 /\
      (forall x, dir_lo p (sp_ku s) <= x -> x < u \/ (x = u /\ dmult p (sp_ku s) u) ->
         lin n1 (bspline_basis n1 k1 x) q1 = lin n (bspline_basis n (sp_ku s) x) (scol s p q j)) /\
      (forall x, u <= x <= dir_hi p (sp_ku s) ->
         lin n2 (bspline_basis n2 k2 x) q2 = lin n (bspline_basis n (sp_ku s) x) (scol s p q j))).
  { intros j. destruct (Hsp (scol s p q j) (len_scol s p q j)) as (q1 & q2 & E & A). fold (iso j) in E. exists q1, q2.
    unfold F. rewrite E. auto. }
  rewrite (tabulate_Ok _ _ F) by (lia || (intros j Hj; rewrite get_mklist by lia; rewrite bind_Ok; fold (iso j); destruct (HF j) as (? & ? & E & _); exact E)).
  rewrite bind_Ok.
  rewrite get_mklist by lia. rewrite bind_Ok. destruct (HF 0%Z) as (r1 & r2 & _ & EF0 & Lr1 & Lr2 & _). rewrite EF0.
  change (get [mk_bspline r1 k1; mk_bspline r2 k2] 0) with (Ok (mk_bspline r1 k1)).
  change (get [mk_bspline r1 k1; mk_bspline r2 k2] 1) with (Ok (mk_bspline r2 k2)). rewrite !bind_Ok.
  cbn [bs_pts bs_knots mk_bspline].
  assert (Z1 : zlen r1 = Z.of_nat n1) by (unfold zlen; lia). assert (Z2 : zlen r2 = Z.of_nat n2) by (unfold zlen; lia).
  rewrite Z1, Z2.
  destruct (garr_alloc (p0 : vec R d) (Z.of_nat n1) (Z.of_nat m) ltac:(lia) ltac:(lia)) as (g0 & E0 & H0). rewrite E0, bind_Ok.
  destruct (garr_alloc (p0 : vec R d) (Z.of_nat n2) (Z.of_nat m) ltac:(lia) ltac:(lia)) as (g1 & E1 & H1). rewrite E1, bind_Ok.
  match goal with |- context [for_up 0 (Z.of_nat m) ?b ?st] => set (body := b); set (st0 := st) end.
  pose (ga := fun (j : nat) (G : Z -> Z -> vec R d) =>
    (forall x, dir_lo p (sp_ku s) <= x -> x < u \/ (x = u /\ dmult p (sp_ku s) u) ->
      psum n1 (fun i => pmul (bspline_basis n1 k1 x i) (G (Z.of_nat i) (Z.of_nat j))) =
      lin n (bspline_basis n (sp_ku s) x) (scol s p q (Z.of_nat j))) /\
    forall Q : vec R d -> Prop, convexP Q -> Forall Q (sp_grid s) -> forall k, (0 <= k < Z.of_nat n1)%Z -> Q (G k (Z.of_nat j))).
  pose (gb := fun (j : nat) (G : Z -> Z -> vec R d) =>
    (forall x, u <= x <= dir_hi p (sp_ku s) ->
      psum n2 (fun i => pmul (bspline_basis n2 k2 x i) (G (Z.of_nat i) (Z.of_nat j))) =
      lin n (bspline_basis n (sp_ku s) x) (scol s p q (Z.of_nat j))) /\
    forall Q : vec R d -> Prop, convexP Q -> Forall Q (sp_grid s) -> forall k, (0 <= k < Z.of_nat n2)%Z -> Q (G k (Z.of_nat j))).
  destruct (for_up_inv (fun (k : Z) (st : list (vec R d) * list (vec R d)) =>
     exists G0 G1, garr (fst st) (Z.of_nat n1) (Z.of_nat m) G0 /\ garr (snd st) (Z.of_nat n2) (Z.of_nat m) G1 /\
       forall j, (Z.of_nat j < k)%Z -> (j < m)%nat -> ga j G0 /\ gb j G1)
     0 (Z.of_nat m) body st0 ltac:(lia)) as (st & Est & (G0 & G1 & HG0 & HG1 & Hgood)).
  - exists (fun _ _ => p0), (fun _ _ => p0). split; [exact H0|]. split; [exact H1|]. intros j Hj. lia.
  - intros vj [h0 h1] Hvj (G0 & G1 & HG0 & HG1 & Hgood). cbn [fst snd] in *. unfold body.
    rewrite get_mklist by assumption. rewrite bind_Ok.
    destruct (HF vj) as (q1 & q2 & _ & EF & Lq1 & Lq2 & CV1 & CV2 & V1 & V2). rewrite EF.
    change (get [mk_bspline q1 k1; mk_bspline q2 k2] 0) with (Ok (mk_bspline q1 k1)).
    change (get [mk_bspline q1 k1; mk_bspline q2 k2] 1) with (Ok (mk_bspline q2 k2)). rewrite !bind_Ok.
    cbn [bs_pts mk_bspline].
    assert (Y1 : zlen q1 = Z.of_nat n1) by (unfold zlen; lia). assert (Y2 : zlen q2 = Z.of_nat n2) by (unfold zlen; lia).
    rewrite Y1.
    destruct (copy_col_Ok (Z.of_nat n1) (Z.of_nat m) vj q1 h0 G0 _ Hvj ltac:(lia) (arr_of_len q1 _ Lq1) HG0) as (h0' & X0 & HG0').
    destruct (copy_col_Ok (Z.of_nat n2) (Z.of_nat m) vj q2 h1 G1 _ Hvj ltac:(lia) (arr_of_len q2 _ Lq2) HG1) as (h1' & X1 & HG1').
    rewrite X0, !bind_Ok. cbn [bs_pts mk_bspline]. rewrite ?Y2, X1, bind_Ok. exists (h0', h1'). split; [reflexivity|]. cbn [fst snd].
    eexists; eexists. split; [exact HG0'|]. split; [exact HG1'|]. intros j Hj Hjm.
    destruct (Z.eq_dec (Z.of_nat j) vj) as [Ej|Nj].
    + split; (split; [intros x; intros|intros Q HQ HFQ k Hk]); rewrite Ej, Z.eqb_refl.
      * etransitivity; [|apply V1; assumption]. unfold lin. apply psum_ext. intros i Hi'. now rewrite Nat2Z.id.
      * apply (Forall_nth_p0 Q q1); [|lia]. apply (CV1 Q HQ). exact (scol_Forall Q s p q vj Hf Hvj HFQ).
      * etransitivity; [|apply V2; assumption]. unfold lin. apply psum_ext. intros i Hi'. now rewrite Nat2Z.id.
      * apply (Forall_nth_p0 Q q2); [|lia]. apply (CV2 Q HQ). exact (scol_Forall Q s p q vj Hf Hvj HFQ).
    + destruct (Hgood j ltac:(lia) Hjm) as [[A A'] [B B']].
      split; (split; [intros x; intros|intros Q HQ HFQ k Hk]); (destruct (Z.eqb_spec (Z.of_nat j) vj); [contradiction|]); [apply A|apply A'|apply B|apply B']; assumption.
  - rewrite Est, bind_Ok. destruct st as [h0 h1]. cbn [fst snd] in *.
    assert (Edv : checked_degree (sp_degv s) = Ok (Z.of_nat q)).
    { unfold checked_degree. rewrite (sr_v _ _ _ Hf). replace (0 <=? Z.of_nat q)%Z with true by (symmetry; apply Z.leb_le; lia). reflexivity. }
    rewrite Edv, !bind_Ok.
    assert (D1 : bs_degree (mk_bspline r1 k1) = Z.of_nat p).
    { unfold bs_degree. cbn [bs_pts bs_knots mk_bspline]. rewrite Z1. destruct (dir_len p k1 (rd_valid _ _ N1)) as [Q1 _]. unfold zlen. fold n1 in Q1. lia. }
    assert (D2 : bs_degree (mk_bspline r2 k2) = Z.of_nat p).
    { unfold bs_degree. cbn [bs_pts bs_knots mk_bspline]. rewrite Z2. destruct (dir_len p k2 (rd_valid _ _ N2)) as [Q1 _]. unfold zlen. fold n2 in Q1. lia. }
    assert (ET : forall r : bspline R (vec R d), bs_degree r = Z.of_nat p ->
      (if ((sp_tu s <? 0)%Z || (sp_tv s <? 0)%Z)%bool then (bs_degree r, Z.of_nat q) else (sp_tu s, sp_tv s)) = (Z.of_nat p, Z.of_nat q)).
    { intros r Hr. rewrite Hr. destruct (Z.ltb_spec (sp_tu s) 0); [reflexivity|]. destruct (Z.ltb_spec (sp_tv s) 0); [reflexivity|].
      destruct Ht as [?|[?|[-> ->]]]; [lia|lia|reflexivity]. }
    rewrite (ET _ D1), (ET _ D2).
    destruct (sp_piece (sp_tu s) (sp_tv s) p q h0 k1 (sp_kv s)) as (a & Ea & Na & A1 & A2 & A3 & A4 & A5 & A6 & A7);
      [apply N1|apply Nv|apply HG0|exact N1|exact Nv|exact Ht|].
    destruct (sp_piece (sp_tu s) (sp_tv s) p q h1 k2 (sp_kv s)) as (b & Eb & Nb & B1 & B2 & B3 & B4 & B5 & B6 & B7);
      [apply N2|apply Nv|apply HG1|exact N2|exact Nv|exact Ht|].
    rewrite Ea, bind_Ok. rewrite ?(ET _ D2). rewrite Eb, bind_Ok. exists a, b. split; [reflexivity|].
    split.
    { split; [assumption|assumption|assumption| |now split]. rewrite A3. intros Q HQ HFQ.
      { apply (garr_Forall Q h0 (Z.of_nat n1) (Z.of_nat m) G0 HG0 ltac:(lia)). intros i j Hi' Hj.
        destruct (Hgood (Z.to_nat j) ltac:(lia) ltac:(lia)) as [[_ A] _]. specialize (A Q HQ HFQ i Hi'). rewrite Z2Nat.id in A by lia. exact A. } }
    split.
    { split; [assumption|assumption|assumption| |now split]. rewrite B3. intros Q HQ HFQ.
      { apply (garr_Forall Q h1 (Z.of_nat n2) (Z.of_nat m) G1 HG1 ltac:(lia)). intros i j Hi' Hj.
        destruct (Hgood (Z.to_nat j) ltac:(lia) ltac:(lia)) as [_ [_ A]]. specialize (A Q HQ HFQ i Hi'). rewrite Z2Nat.id in A by lia. exact A. } }
    split; [exact A2|]. split; [exact B2|].
    rewrite A1, B1. split; [exact Lo1|]. split; [exact Hi1|]. split; [exact Lo2|]. split; [exact Hi2|]. split; [exact HIn|]. split; [exact HM|].
    unfold sval. rewrite A1, A2, A3, B1, B2, B3. fold n m n1 n2. split.
    + intros x y X1 X2. apply tensor_by_cols2. intros j Hj. destruct (Hgood j ltac:(lia) Hj) as [[A _] _].
      specialize (A x X1 X2). unfold n, m in A. rewrite lin_scol in A by exact Hj. fold n m in A. rewrite <- A.
      apply psum_ext. intros i Hi'. f_equal. apply (garr_nth h0 (Z.of_nat n1) (Z.of_nat m) G0 i j m HG0 eq_refl); lia.
    + intros x y X1. apply tensor_by_cols2. intros j Hj. destruct (Hgood j ltac:(lia) Hj) as [_ [B _]].
      specialize (B x X1). unfold n, m in B. rewrite lin_scol in B by exact Hj. fold n m in B. rewrite <- B.
      apply psum_ext. intros i Hi'. f_equal. apply (garr_nth h1 (Z.of_nat n2) (Z.of_nat m) G1 i j m HG1 eq_refl); lia.
Qed.

Lemma sp_split_v_gen {d} (s : spatch R (vec R d)) p q v : snice s p q -> (1 <= q)%nat ->
  dir_lo q (sp_kv s) < v < dir_hi q (sp_kv s) -> apart_from (sp_kv s) v ->
  exists a b, sp_split_v s v = Ok [a; b] /\ spiece s a p q /\ spiece s b p q /\
    sp_ku a = sp_ku s /\ sp_ku b = sp_ku s /\
    dir_lo q (sp_kv a) = dir_lo q (sp_kv s) /\ dir_hi q (sp_kv a) = v /\
    dir_lo q (sp_kv b) = v /\ dir_hi q (sp_kv b) = dir_hi q (sp_kv s) /\
    (forall w, In w (sp_kv a) \/ In w (sp_kv b) -> w = v \/ In w (sp_kv s)) /\
    (forall w, w <> v -> dmult q (sp_kv s) w -> dmult q (sp_kv a) w /\ dmult q (sp_kv b) w) /\
    (forall x y, dir_lo q (sp_kv s) <= y -> y < v \/ (y = v /\ dmult q (sp_kv s) v) -> sval a p q x y = sval s p q x y) /\
    (forall x y, v <= y <= dir_hi q (sp_kv s) -> sval b p q x y = sval s p q x y).
Proof.
  intros [Hf Hi Nu Nv Ht] Hq Hv Hta. set (n := dir_count p (sp_ku s)). set (m := dir_count q (sp_kv s)).
  destruct (dir_len _ _ (sr_ku _ _ _ Hf)) as [L1 L2]. fold n in L1, L2.
  destruct (dir_len _ _ (sr_kv _ _ _ Hf)) as [L3 L4]. fold m in L3, L4.
  destruct (dir_split q (sp_kv s) (sp_perv s) v d Nv Hq Hv Hta) as (k1 & k2 & N1 & N2 & Lo1 & Hi1 & Lo2 & Hi2 & HIn & HM & Hsp).
  fold m in Hsp. set (n1 := dir_count q k1) in *. set (n2 := dir_count q k2) in *.
  unfold sp_split_v. rewrite (sp_vlo_Ok s p q Hf), (sp_vhi_Ok s p q Hf), !bind_Ok.
  rewrite in_dom_in by lra. cbn [negb]. rewrite endp_in by exact Hv.
  rewrite (sp_nu_Ok s p q Hf), bind_Ok. fold n.
  destruct (sp_cached s p q Hf Hi) as [_ Cv]. fold n in Cv. rewrite Cv.
  set (iso := fun j => {| bs_pts := srow s q j; bs_knots := sp_kv s; bs_periodic := sp_perv s |}).
  set (F := fun j => match split_bspline (iso j) v with Ok l => l | _ => [] end).
  assert (HF : forall j, exists q1 q2, split_bspline (iso j) v = Ok (F j) /\ F j = [mk_bspline q1 k1; mk_bspline q2 k2] /\
      length q1 = n1 /\ length q2 = n2 /\ conv_pres (srow s q j) q1 /\ conv_pres (srow s q j) q2 /\
      (forall x, dir_lo q (sp_kv s) <= x -> x < v \/ (x = v /\ dmult q (sp_kv s) v) ->
         lin n1 (bspline_basis n1 k1 x) q1 = lin m (bspline_basis m (sp_kv s) x) (srow s q j)) /\
      (forall x, v <= x <= dir_hi q (sp_kv s) ->
         lin n2 (bspline_basis n2 k2 x) q2 = lin m (bspline_basis m (sp_kv s) x) (srow s q j))).
  { intros j. destruct (Hsp (srow s q j) (len_srow s q j)) as (q1 & q2 & E & A). fold (iso j) in E. exists q1, q2.
    unfold F. rewrite E. auto. }
  rewrite (tabulate_Ok _ _ F) by (lia || (intros j Hj; rewrite get_mklist by lia; rewrite bind_Ok; fold (iso j); destruct (HF j) as (? & ? & E & _); exact E)).
  rewrite bind_Ok.
  rewrite get_mklist by lia. rewrite bind_Ok. destruct (HF 0%Z) as (r1 & r2 & _ & EF0 & Lr1 & Lr2 & _). rewrite EF0.
  change (get [mk_bspline r1 k1; mk_bspline r2 k2] 0) with (Ok (mk_bspline r1 k1)).
  change (get [mk_bspline r1 k1; mk_bspline r2 k2] 1) with (Ok (mk_bspline r2 k2)). rewrite !bind_Ok.
  cbn [bs_pts bs_knots mk_bspline].
  assert (Z1 : zlen r1 = Z.of_nat n1) by (unfold zlen; lia). assert (Z2 : zlen r2 = Z.of_nat n2) by (unfold zlen; lia).
  rewrite Z1, Z2. rewrite (Z.mul_comm (Z.of_nat n1)), (Z.mul_comm (Z.of_nat n2)).
  destruct (garr_alloc (p0 : vec R d) (Z.of_nat n) (Z.of_nat n1) ltac:(lia) ltac:(lia)) as (g0 & E0 & H0). rewrite E0, bind_Ok.
  destruct (garr_alloc (p0 : vec R d) (Z.of_nat n) (Z.of_nat n2) ltac:(lia) ltac:(lia)) as (g1 & E1 & H1). rewrite E1, bind_Ok.
  match goal with |- context [for_up 0 (Z.of_nat n) ?b ?st] => set (body := b); set (st0 := st) end.
  pose (ga := fun (i : nat) (G : Z -> Z -> vec R d) =>
    (forall x, dir_lo q (sp_kv s) <= x -> x < v \/ (x = v /\ dmult q (sp_kv s) v) ->
      psum n1 (fun j => pmul (bspline_basis n1 k1 x j) (G (Z.of_nat i) (Z.of_nat j))) =
      lin m (bspline_basis m (sp_kv s) x) (srow s q (Z.of_nat i))) /\
    forall Q : vec R d -> Prop, convexP Q -> Forall Q (sp_grid s) -> forall k, (0 <= k < Z.of_nat n1)%Z -> Q (G (Z.of_nat i) k)).
  pose (gb := fun (i : nat) (G : Z -> Z -> vec R d) =>
    (forall x, v <= x <= dir_hi q (sp_kv s) ->
      psum n2 (fun j => pmul (bspline_basis n2 k2 x j) (G (Z.of_nat i) (Z.of_nat j))) =
      lin m (bspline_basis m (sp_kv s) x) (srow s q (Z.of_nat i))) /\
    forall Q : vec R d -> Prop, convexP Q -> Forall Q (sp_grid s) -> forall k, (0 <= k < Z.of_nat n2)%Z -> Q (G (Z.of_nat i) k)).
  destruct (for_up_inv (fun (k : Z) (st : list (vec R d) * list (vec R d)) =>
     exists G0 G1, garr (fst st) (Z.of_nat n) (Z.of_nat n1) G0 /\ garr (snd st) (Z.of_nat n) (Z.of_nat n2) G1 /\
       forall i, (Z.of_nat i < k)%Z -> (i < n)%nat -> ga i G0 /\ gb i G1)
     0 (Z.of_nat n) body st0 ltac:(lia)) as (st & Est & (G0 & G1 & HG0 & HG1 & Hgood)).
  - exists (fun _ _ => p0), (fun _ _ => p0). split; [exact H0|]. split; [exact H1|]. intros j Hj. lia.
  - intros ui [h0 h1] Hui (G0 & G1 & HG0 & HG1 & Hgood). cbn [fst snd] in *. unfold body.
    rewrite get_mklist by assumption. rewrite bind_Ok.
    destruct (HF ui) as (q1 & q2 & _ & EF & Lq1 & Lq2 & CV1 & CV2 & V1 & V2). rewrite EF.
    change (get [mk_bspline q1 k1; mk_bspline q2 k2] 0) with (Ok (mk_bspline q1 k1)).
    change (get [mk_bspline q1 k1; mk_bspline q2 k2] 1) with (Ok (mk_bspline q2 k2)). rewrite !bind_Ok.
    cbn [bs_pts mk_bspline].
    assert (Y1 : zlen q1 = Z.of_nat n1) by (unfold zlen; lia). assert (Y2 : zlen q2 = Z.of_nat n2) by (unfold zlen; lia).
    rewrite Y1.
    destruct (copy_row_Ok (Z.of_nat n) (Z.of_nat n1) ui q1 h0 G0 _ Hui ltac:(lia) (arr_of_len q1 _ Lq1) HG0) as (h0' & X0 & HG0').
    destruct (copy_row_Ok (Z.of_nat n) (Z.of_nat n2) ui q2 h1 G1 _ Hui ltac:(lia) (arr_of_len q2 _ Lq2) HG1) as (h1' & X1 & HG1').
    rewrite X0, !bind_Ok. cbn [bs_pts mk_bspline]. rewrite ?Y2, X1, bind_Ok. exists (h0', h1'). split; [reflexivity|]. cbn [fst snd].
    eexists; eexists. split; [exact HG0'|]. split; [exact HG1'|]. intros j Hj Hjm.
    destruct (Z.eq_dec (Z.of_nat j) ui) as [Ej|Nj].
    + split; (split; [intros x; intros|intros Q HQ HFQ k Hk]); rewrite Ej, Z.eqb_refl.
      * etransitivity; [|apply V1; assumption]. unfold lin. apply psum_ext. intros i Hi'. now rewrite Nat2Z.id.
      * apply (Forall_nth_p0 Q q1); [|lia]. apply (CV1 Q HQ). exact (srow_Forall Q s p q ui Hf Hui HFQ).
      * etransitivity; [|apply V2; assumption]. unfold lin. apply psum_ext. intros i Hi'. now rewrite Nat2Z.id.
      * apply (Forall_nth_p0 Q q2); [|lia]. apply (CV2 Q HQ). exact (srow_Forall Q s p q ui Hf Hui HFQ).
    + destruct (Hgood j ltac:(lia) Hjm) as [[A A'] [B B']].
      split; (split; [intros x; intros|intros Q HQ HFQ k Hk]); (destruct (Z.eqb_spec (Z.of_nat j) ui); [contradiction|]); [apply A|apply A'|apply B|apply B']; assumption.
  - rewrite Est, bind_Ok. destruct st as [h0 h1]. cbn [fst snd] in *.
    assert (Edu : checked_degree (sp_degu s) = Ok (Z.of_nat p)).
    { unfold checked_degree. rewrite (sr_u _ _ _ Hf). replace (0 <=? Z.of_nat p)%Z with true by (symmetry; apply Z.leb_le; lia). reflexivity. }
    rewrite Edu, !bind_Ok.
    assert (D1 : bs_degree (mk_bspline r1 k1) = Z.of_nat q).
    { unfold bs_degree. cbn [bs_pts bs_knots mk_bspline]. rewrite Z1. destruct (dir_len q k1 (rd_valid _ _ N1)) as [Q1 _]. unfold zlen. fold n1 in Q1. lia. }
    assert (D2 : bs_degree (mk_bspline r2 k2) = Z.of_nat q).
    { unfold bs_degree. cbn [bs_pts bs_knots mk_bspline]. rewrite Z2. destruct (dir_len q k2 (rd_valid _ _ N2)) as [Q1 _]. unfold zlen. fold n2 in Q1. lia. }
    assert (ET : forall r : bspline R (vec R d), bs_degree r = Z.of_nat q ->
      (if ((sp_tu s <? 0)%Z || (sp_tv s <? 0)%Z)%bool then (Z.of_nat p, bs_degree r) else (sp_tu s, sp_tv s)) = (Z.of_nat p, Z.of_nat q)).
    { intros r Hr. rewrite Hr. destruct (Z.ltb_spec (sp_tu s) 0); [reflexivity|]. destruct (Z.ltb_spec (sp_tv s) 0); [reflexivity|].
      destruct Ht as [?|[?|[-> ->]]]; [lia|lia|reflexivity]. }
    rewrite (ET _ D1), (ET _ D2).
    destruct (sp_piece (sp_tu s) (sp_tv s) p q h0 (sp_ku s) k1) as (a & Ea & Na & A1 & A2 & A3 & A4 & A5 & A6 & A7);
      [apply Nu|apply N1|apply HG0|exact Nu|exact N1|exact Ht|].
    destruct (sp_piece (sp_tu s) (sp_tv s) p q h1 (sp_ku s) k2) as (b & Eb & Nb & B1 & B2 & B3 & B4 & B5 & B6 & B7);
      [apply Nu|apply N2|apply HG1|exact Nu|exact N2|exact Ht|].
    rewrite Ea, bind_Ok. rewrite ?(ET _ D2). rewrite Eb, bind_Ok. exists a, b. split; [reflexivity|].
    split.
    { split; [assumption|assumption|assumption| |now split]. rewrite A3. intros Q HQ HFQ.
      { destruct (dir_len q k1 (rd_valid _ _ N1)) as [QL QL']. fold n1 in QL, QL'. apply (garr_Forall Q h0 (Z.of_nat n) (Z.of_nat n1) G0 HG0 ltac:(lia)). intros i j Hi' Hj.
        destruct (Hgood (Z.to_nat i) ltac:(lia) ltac:(lia)) as [[_ A] _]. specialize (A Q HQ HFQ j Hj). rewrite Z2Nat.id in A by lia. exact A. } }
    split.
    { split; [assumption|assumption|assumption| |now split]. rewrite B3. intros Q HQ HFQ.
      { destruct (dir_len q k2 (rd_valid _ _ N2)) as [QL QL']. fold n2 in QL, QL'. apply (garr_Forall Q h1 (Z.of_nat n) (Z.of_nat n2) G1 HG1 ltac:(lia)). intros i j Hi' Hj.
        destruct (Hgood (Z.to_nat i) ltac:(lia) ltac:(lia)) as [_ [_ A]]. specialize (A Q HQ HFQ j Hj). rewrite Z2Nat.id in A by lia. exact A. } }
    split; [exact A1|]. split; [exact B1|].
    rewrite A2, B2. split; [exact Lo1|]. split; [exact Hi1|]. split; [exact Lo2|]. split; [exact Hi2|]. split; [exact HIn|]. split; [exact HM|].
    unfold sval. rewrite A1, A2, A3, B1, B2, B3. fold n m n1 n2. split.
    + intros x y X1 X2. apply tensor_by_rows2. intros i Hi'. destruct (Hgood i ltac:(lia) Hi') as [[A _] _].
      specialize (A y X1 X2). unfold m in A. rewrite lin_srow in A. fold m in A. rewrite <- A.
      apply psum_ext. intros j Hj. f_equal. apply (garr_nth h0 (Z.of_nat n) (Z.of_nat n1) G0 i j n1 HG0 eq_refl); lia.
    + intros x y X1. apply tensor_by_rows2. intros i Hi'. destruct (Hgood i ltac:(lia) Hi') as [_ [B _]].
      specialize (B y X1). unfold m in B. rewrite lin_srow in B. fold m in B. rewrite <- B.
      apply psum_ext. intros j Hj. f_equal. apply (garr_nth h1 (Z.of_nat n) (Z.of_nat n2) G1 i j n2 HG1 eq_refl); lia.
Qed.
