(** Inner products and derivatives of points given in a frame. *)
From Coq Require Import Reals Lra Lia ZArith Psatz.
From Coquelicot Require Import Coquelicot.
From Verif Require Import Monad MonadFacts Scalar ScalarFacts Spec SpecFacts SpecGeom SpecPrimitive ModelCurve ModelPrimitive CurveThms LineThms IntersectThms TrigFacts.
Local Open Scope R_scope.

Section Inner.
  Context {d : nat}.
  Implicit Types a b c e : vec R d.
  Lemma inner_add_l a b c : inner (padd a b) c = inner a c + inner b c.
  Proof. unfold inner. rewrite <- rsum_plus. apply rsum_ext. intros i Hi. rewrite coord_add by exact Hi. ring. Qed.
  Lemma inner_sub_l a b c : inner (psub a b) c = inner a c - inner b c.
  Proof. unfold inner. rewrite <- rsum_minus. apply rsum_ext. intros i Hi. rewrite coord_sub by exact Hi. ring. Qed.
  Lemma inner_mul_l (x : R) a c : inner (pmul x a) c = x * inner a c.
  Proof. unfold inner. rewrite <- rsum_scal. apply rsum_ext. intros i Hi. rewrite coord_mul by exact Hi. ring. Qed.
  Lemma inner_add_r a b c : inner c (padd a b) = inner c a + inner c b.
  Proof. rewrite inner_comm, inner_add_l, (inner_comm _ a), (inner_comm _ b). reflexivity. Qed.
  Lemma inner_sub_r a b c : inner c (psub a b) = inner c a - inner c b.
  Proof. rewrite inner_comm, inner_sub_l, (inner_comm _ a), (inner_comm _ b). reflexivity. Qed.
  Lemma inner_mul_r (x : R) a c : inner c (pmul x a) = x * inner c a.
  Proof. rewrite inner_comm, inner_mul_l, (inner_comm _ a). reflexivity. Qed.
  Lemma edist_inner a b : edist a b ^ 2 = inner (psub a b) (psub a b).
  Proof. rewrite <- sqnorm_edist. unfold sqnorm. apply inner_pdot. Qed.
  Lemma edist_eq0 a b : edist a b <= 0 -> a = b.
  Proof.
    intros H. pose proof (edist_pos d a b). assert (E : edist a b = 0) by lra. clear H H0.
    assert (E2 : inner (psub a b) (psub a b) = 0) by (rewrite <- edist_inner, E; ring).
    apply vec_ext. intros i Hi.
    assert (Hz : (coord d i a - coord d i b) * (coord d i a - coord d i b) <= 0).
    { rewrite <- E2. unfold inner. rewrite <- (coord_sub i a b Hi). apply (rsum_term_le d (fun i => coord d i (psub a b) * coord d i (psub a b)) i); [intros; nra|exact Hi]. }
    nra.
  Qed.
  Lemma edist_refl a : edist a a = 0.
  Proof. unfold edist. rewrite rsum_0; [apply sqrt_0|]. intros i Hi. ring. Qed.
  Lemma edist_sym a b : edist a b = edist b a.
  Proof. unfold edist. f_equal. apply rsum_ext. intros i Hi. ring. Qed.
  Lemma pdot_inner a b : pdot a b = inner a b.
  Proof. apply inner_pdot. Qed.
End Inner.
Ltac bilin := repeat first [rewrite inner_add_l | rewrite inner_sub_l | rewrite inner_mul_l | rewrite inner_add_r | rewrite inner_sub_r | rewrite inner_mul_r].

(** The point with coordinates (x,y,z) in the frame (o;a,b,c). *)
Definition at2 {d} (o a b : vec R d) (x y : R) : vec R d := padd o (padd (pmul x a) (pmul y b)).
Definition at3 {d} (o a b c : vec R d) (x y z : R) : vec R d := padd o (padd (pmul x a) (padd (pmul y b) (pmul z c))).

Lemma along_at2 {d} (o a b n : vec R d) x y : along o n (at2 o a b x y) = x * inner a n + y * inner b n.
Proof. unfold along, at2. bilin. ring. Qed.
Lemma along_at3 {d} (o a b c n : vec R d) x y z : along o n (at3 o a b c x y z) = x * inner a n + y * inner b n + z * inner c n.
Proof. unfold along, at3. bilin. ring. Qed.
Lemma along_at2_frame {d} (o a b : vec R d) x y : orthonormal2 a b -> along o a (at2 o a b x y) = x /\ along o b (at2 o a b x y) = y.
Proof. intros (Ha & Hb & Hab). rewrite !along_at2, (inner_comm _ b a), Ha, Hb, Hab. lra. Qed.
Lemma along_at3_frame {d} (o a b c : vec R d) x y z : orthonormal3 a b c ->
  along o a (at3 o a b c x y z) = x /\ along o b (at3 o a b c x y z) = y /\ along o c (at3 o a b c x y z) = z.
Proof.
  intros ((Ha & Hb & Hab) & Hc & Hac & Hbc). rewrite !along_at3, (inner_comm _ b a), (inner_comm _ c a), (inner_comm _ c b), Ha, Hb, Hc, Hab, Hac, Hbc. lra.
Qed.
Lemma edist_at2 {d} (p o a b : vec R d) x y : orthonormal2 a b ->
  edist p (at2 o a b x y) ^ 2 = edist p o ^ 2 - 2 * (x * along o a p + y * along o b p) + x * x + y * y.
Proof.
  intros (Ha & Hb & Hab). rewrite !edist_inner. unfold along, at2. bilin.
  rewrite (inner_comm _ b a), (inner_comm _ o p), (inner_comm _ a p), (inner_comm _ b p), (inner_comm _ a o), (inner_comm _ b o), Ha, Hb, Hab. ring.
Qed.
Lemma edist_at3 {d} (p o a b c : vec R d) x y z : orthonormal3 a b c ->
  edist p (at3 o a b c x y z) ^ 2 = edist p o ^ 2 - 2 * (x * along o a p + y * along o b p + z * along o c p) + x * x + y * y + z * z.
Proof.
  intros ((Ha & Hb & Hab) & Hc & Hac & Hbc). rewrite !edist_inner. unfold along, at3. bilin.
  rewrite (inner_comm _ b a), (inner_comm _ c a), (inner_comm _ c b), (inner_comm _ o p), (inner_comm _ a p), (inner_comm _ b p), (inner_comm _ c p),
    (inner_comm _ a o), (inner_comm _ b o), (inner_comm _ c o), Ha, Hb, Hc, Hab, Hac, Hbc. ring.
Qed.
Lemma along_pdot_r {d} (o a p : vec R d) : pdot (psub p o) a = along o a p.
Proof. apply inner_pdot. Qed.
Lemma along_pdot_l {d} (o a p : vec R d) : pdot a (psub p o) = along o a p.
Proof. unfold along. rewrite inner_pdot. apply inner_comm. Qed.

(** Derivatives of frame coordinates. *)
Lemma derivable_ext (f g : R -> R) t l : (forall s, f s = g s) -> derivable_pt_lim g t l -> derivable_pt_lim f t l.
Proof. intros E H. rewrite <- is_derive_Reals in *. eapply is_derive_ext; [intros s; symmetry; apply E|exact H]. Qed.
Lemma vderiv_at3 {d} (o a b c : vec R d) (x y z : R -> R) t x' y' z' (f : R -> vec R d) f' :
  derivable_pt_lim x t x' -> derivable_pt_lim y t y' -> derivable_pt_lim z t z' ->
  (forall s, f s = at3 o a b c (x s) (y s) (z s)) -> f' = at3 p0 a b c x' y' z' -> vderiv f t f'.
Proof.
  intros Hx Hy Hz Ef -> i Hi.
  assert (E : forall s, coord d i (f s) = coord d i o + (coord d i a * x s + (coord d i b * y s + coord d i c * z s))).
  { intros s. rewrite Ef. unfold at3. rewrite !coord_add, !coord_mul by exact Hi. ring. }
  apply (derivable_ext _ _ _ _ E). unfold at3. rewrite !coord_add, !coord_mul, coord_0 by exact Hi.
  replace (0 + (x' * coord d i a + (y' * coord d i b + z' * coord d i c)))
    with (0 + (coord d i a * x' + (coord d i b * y' + coord d i c * z'))) by ring.
  apply (derivable_pt_lim_plus (fun _ => coord d i o)); [apply derivable_pt_lim_const|].
  apply (derivable_pt_lim_plus (fun s => coord d i a * x s)); [now apply (derivable_pt_lim_scal x)|].
  apply (derivable_pt_lim_plus (fun s => coord d i b * y s)); [now apply (derivable_pt_lim_scal y)|now apply (derivable_pt_lim_scal z)].
Qed.
Ltac vext := apply vec_ext; intros ? Hidx; unfold at3, at2; rewrite ?coord_add, ?coord_sub, ?coord_mul, ?coord_0, ?coord_add, ?coord_sub, ?coord_mul by exact Hidx.

(** Clamping. *)
Lemma clamp_spec lo hi x : lo <= hi -> lo <= smax lo (smin x hi) <= hi /\ (lo <= x <= hi -> smax lo (smin x hi) = x) /\
  (forall w, lo <= w <= hi -> (smax lo (smin x hi) - x) ^ 2 <= (w - x) ^ 2).
Proof.
  intros H. rewrite smax_R, smin_R. unfold Rmax, Rmin. destruct (Rle_dec x hi).
  - destruct (Rle_dec lo x); (split; [lra|split; [lra|]]); intros w Hw.
    + replace (x - x) with 0 by ring. rewrite pow_i by lia. apply pow2_ge_0.
    + nra.
  - destruct (Rle_dec lo hi); [|lra]. split; [lra|split; [lra|]]. intros w Hw. nra.
Qed.
