(** Extrusion, revolution and offset patches: values and derivatives. *)
From Coq Require Import Reals Lra Lia ZArith Psatz QArith.
From Coquelicot Require Import Coquelicot.
From Verif Require Import Monad MonadFacts Scalar ScalarFacts Spec SpecFacts SpecGeom SpecPatch SpecPrimitive ModelCurve ModelPatchBase ModelPrimitive ModelSweep
  CurveThms LineThms IntersectThms TrigFacts PrimitiveFacts CircleThms.
Local Open Scope R_scope.

(** ** Vectors of space *)
(** An equation that follows from |a|^2 = 1. *)
Ltac unit_ring H := let E := fresh "E" in match type of H with ?x * ?x + ?y + ?z = 1 => assert (E : x * x = 1 - y - z) by lra; ring [E] end.
Lemma vec3_eta (a : vec R 3) : exists x y z, a = (x, (y, (z, tt))).
Proof. destruct a as [x [y [z []]]]. now exists x, y, z. Qed.
Ltac v3 a := let x := fresh a "0" in let y := fresh a "1" in let z := fresh a "2" in destruct (vec3_eta a) as (x & y & z & ->).
Lemma inner3c (a0 a1 a2 b0 b1 b2 : R) : inner ((a0, (a1, (a2, tt))) : vec R 3) (b0, (b1, (b2, tt))) = a0 * b0 + a1 * b1 + a2 * b2.
Proof. unfold inner, rsum. cbn. ring. Qed.
Lemma pdot3c (a b : vec R 3) : pdot a b = coord 3 0 a * coord 3 0 b + coord 3 1 a * coord 3 1 b + coord 3 2 a * coord 3 2 b.
Proof. v3 a. v3 b. cbn. ring. Qed.
Lemma cross3_vec (a b : vec R 3) : cross3 a b = cross_vec a b.
Proof. v3 a. v3 b. reflexivity. Qed.
Ltac v3eq := apply vec_ext; let i := fresh "i" in let Hi := fresh "Hi" in intros [|[|[|i]]] Hi; [cbn| cbn | cbn | exfalso; lia].

Lemma sqnorm_pos3 (a : vec R 3) : 0 <= sqnorm a.
Proof. unfold sqnorm. rewrite inner_pdot. apply inner_pos. Qed.
Lemma sqnorm_zero3 (a : vec R 3) : sqnorm a = 0 -> a = p0.
Proof. v3 a. unfold sqnorm. cbn. intros E. assert (a0 = 0) by nra. assert (a1 = 0) by nra. assert (a2 = 0) by nra. now subst. Qed.
(** Over the reals normalized() is multiplication by 1 / |a|, also for the zero vector. *)
Lemma normalized3_R (a : vec R 3) : normalized3 a = pmul (/ sqrt (sqnorm a)) a.
Proof.
  unfold normalized3. cbn [slt s0 s1 sdiv ssqrt R_ops]. pose proof (sqnorm_pos3 a). destruct (Rltb_spec 0 (sqnorm a)) as [H1|H1].
  - f_equal. unfold Rdiv. ring.
  - assert (E : sqnorm a = 0) by lra. apply sqnorm_zero3 in E. subst a. v3eq; ring.
Qed.
Lemma pnorm_mul_norm (d : vec R 3) : 0 < pnorm d -> pmul (pnorm d) (normalized3 d) = d.
Proof.
  intros H. rewrite normalized3_R. unfold pnorm in *. cbn [ssqrt R_ops] in *. v3 d. set (w := sqrt _) in *.
  v3eq; field; lra.
Qed.
Lemma prim_tol_pos : 0 < (prim_tol : R).
Proof. apply prim_tol_bound. Qed.

(** Lagrange: |a x s|^2 = |s - (s.a) a|^2 for a unit vector a. *)
Lemma cross_across (a s : vec R 3) : inner a a = 1 -> sqnorm (cross3 a s) = sqnorm (psub s (pmul (pdot s a) a)).
Proof. v3 a. v3 s. rewrite inner3c. intros H. unfold sqnorm. cbn. unit_ring H. Qed.
Lemma cross_orth (a s : vec R 3) : pdot (cross3 a s) a = 0.
Proof. v3 a. v3 s. cbn. ring. Qed.
Lemma sub_zero_dot (d a : vec R 3) : pdot d a = 0 -> psub d (pmul (pdot d a) a) = d.
Proof. intros ->. v3 d. v3 a. v3eq; ring. Qed.

(** ** Linear maps and derivatives *)
Definition linear3 (L : vec R 3 -> vec R 3) : Prop := forall i, (i < 3)%nat -> exists m0 m1 m2, forall x, coord 3 i (L x) = m0 * coord 3 0 x + m1 * coord 3 1 x + m2 * coord 3 2 x.
Lemma linear_cross a : linear3 (cross3 a).
Proof.
  v3 a. intros [|[|[|i]]] Hi; [exists 0, (- a2), a1 | exists a2, 0, (- a0) | exists (- a1), a0, 0 | lia]; intros x; v3 x; cbn; ring.
Qed.
Lemma linear_rotate u a : linear3 (rotate3 u a).
Proof.
  v3 a. intros [|[|[|i]]] Hi; [exists (cos u + (1 - cos u) * a0 * a0), (- sin u * a2 + (1 - cos u) * a1 * a0), (sin u * a1 + (1 - cos u) * a2 * a0)
    | exists (sin u * a2 + (1 - cos u) * a0 * a1), (cos u + (1 - cos u) * a1 * a1), (- sin u * a0 + (1 - cos u) * a2 * a1)
    | exists (- sin u * a1 + (1 - cos u) * a0 * a2), (sin u * a0 + (1 - cos u) * a1 * a2), (cos u + (1 - cos u) * a2 * a2) | lia]; intros x; v3 x; cbn; ring.
Qed.
Lemma lin3_deriv (x y z : R -> R) t x' y' z' m0 m1 m2 : derivable_pt_lim x t x' -> derivable_pt_lim y t y' -> derivable_pt_lim z t z' ->
  derivable_pt_lim (fun s => m0 * x s + m1 * y s + m2 * z s) t (m0 * x' + m1 * y' + m2 * z').
Proof.
  intros Hx Hy Hz. apply (derivable_pt_lim_plus (fun s => m0 * x s + m1 * y s)); [|now apply (derivable_pt_lim_scal z)].
  apply (derivable_pt_lim_plus (fun s => m0 * x s)); [now apply (derivable_pt_lim_scal x)|now apply (derivable_pt_lim_scal y)].
Qed.
Lemma vderiv_linear L (g : R -> vec R 3) t g' : linear3 L -> vderiv g t g' -> vderiv (fun s => L (g s)) t (L g').
Proof.
  intros HL Hg i Hi. destruct (HL i Hi) as (m0 & m1 & m2 & E). rewrite E.
  apply (derivable_ext _ (fun s => m0 * coord 3 0 (g s) + m1 * coord 3 1 (g s) + m2 * coord 3 2 (g s))); [intros; apply E|].
  apply lin3_deriv; apply Hg; lia.
Qed.
Lemma vderiv_shift {d} (g : R -> vec R d) t g' o : vderiv g t g' -> vderiv (fun s => padd o (g s)) t g'.
Proof.
  intros Hg i Hi. apply (derivable_ext _ (fun s => coord d i o + coord d i (g s))); [intros; now rewrite coord_add by exact Hi|].
  replace (coord d i g') with (0 + coord d i g') by ring. apply (derivable_pt_lim_plus (fun _ => coord d i o)); [apply derivable_pt_lim_const|now apply Hg].
Qed.
Lemma vderiv_unshift {d} (g : R -> vec R d) t g' o : vderiv g t g' -> vderiv (fun s => psub (g s) o) t g'.
Proof.
  intros Hg i Hi. apply (derivable_ext _ (fun s => coord d i (g s) + - coord d i o)); [intros; rewrite coord_sub by exact Hi; ring|].
  replace (coord d i g') with (coord d i g' + 0) by ring. apply (derivable_pt_lim_plus (fun s => coord d i (g s))); [now apply Hg|apply derivable_pt_lim_const].
Qed.
Lemma vderiv_const {d} (o : vec R d) t : vderiv (fun _ => o) t p0.
Proof. intros i Hi. rewrite coord_0 by exact Hi. apply derivable_pt_lim_const. Qed.
Lemma vderiv_eq {d} (f : R -> vec R d) t l l' : vderiv f t l -> l = l' -> vderiv f t l'.
Proof. now intros H <-. Qed.
Lemma vderiv_ext' {d} (f g : R -> vec R d) t l : (forall s, f s = g s) -> vderiv g t l -> vderiv f t l.
Proof. intros E H i Hi. apply (derivable_ext _ (fun s => coord d i (g s))); [intros s; now rewrite E|now apply H]. Qed.

(** Rotation: derivative in the angle. *)
Lemma rotate_deriv a x u : inner a a = 1 -> vderiv (fun s => rotate3 s a x) u (cross3 a (rotate3 u a x)).
Proof.
  intros Ha. eapply vderiv_eq.
  - eapply (vderiv_at3 p0 x (cross3 a x) a cos sin (fun s => (1 - cos s) * pdot a x) u (- sin u) (cos u) (sin u * pdot a x)).
    + apply derivable_pt_lim_cos.
    + apply derivable_pt_lim_sin.
    + apply (derivable_ext _ (fun s => pdot a x * (1 - cos s))); [intros; ring|]. replace (sin u * pdot a x) with (pdot a x * (0 - - sin u)) by ring.
      apply (derivable_pt_lim_scal (fun s => 1 - cos s)). apply (derivable_pt_lim_minus (fun _ => 1)); [apply derivable_pt_lim_const|apply derivable_pt_lim_cos].
    + intros s. v3 a. v3 x. v3eq; ring.
    + reflexivity.
  - v3 a. v3 x. rewrite inner3c in Ha. unfold at3. v3eq; unit_ring Ha.
Qed.
Lemma cross_twice a y : inner a a = 1 -> cross3 a (cross3 a y) = padd (pmul (- 1) y) (pmul (pdot y a) a).
Proof. v3 a. v3 y. rewrite inner3c. intros H. v3eq; unit_ring H. Qed.
Lemma rotate_across a x u : inner a a = 1 -> pdot (rotate3 u a x) a = pdot x a /\
  across a (rotate3 u a x) = padd (pmul (cos u) (across a x)) (pmul (sin u) (cross_vec a x)).
Proof.
  intros Ha. assert (E : pdot (rotate3 u a x) a = pdot x a). { v3 a. v3 x. rewrite inner3c in Ha. cbn. unit_ring Ha. }
  split; [exact E|]. unfold across. rewrite <- !inner_pdot, E, <- cross3_vec. v3 a. v3 x. rewrite inner3c in Ha. v3eq; unit_ring Ha.
Qed.

(** ** Extrusion *)
(** The profile computes [g] with derivatives [g1], [g2] at parameter [t] (values for all parameters). *)
Definition profile_is {d} (pr : profile R (vec R d)) (g g1 g2 : R -> vec R d) : Prop :=
  forall t, c_eval (pr_ops pr) t = Ok (g t) /\ c_d1 (pr_ops pr) t = Ok (g1 t) /\ c_d2 (pr_ops pr) t = Ok (g2 t).

Lemma extrusion_derivatives d (c : extrusion R (vec R d)) pr g g1 g2 : ex_profile c = Some pr -> profile_is pr g g1 g2 ->
  exists f fu fv fuu fvv fuv,
    (forall u v, ex_evaluate c u v = Ok (f u v) /\ ex_du c u v = Ok (fu u v) /\ ex_dv c u v = Ok (fv u v) /\
       ex_duu c u v = Ok (fuu u v) /\ ex_dvv c u v = Ok (fvv u v) /\ ex_duv c u v = Ok (fuv u v)) /\
    (forall u v, f u v = padd (padd (ex_location c) (g u)) (pmul v (ex_direction c))) /\
    forall u v, vderiv g u (g1 u) -> vderiv g1 u (g2 u) -> partials f fu fv fuu fvv fuv u v.
Proof.
  intros Hp Hg. exists (fun u v => padd (padd (ex_location c) (g u)) (pmul v (ex_direction c))), (fun u v => g1 u), (fun u v => ex_direction c), (fun u v => g2 u), (fun u v => p0), (fun u v => p0).
  split; [|split].
  - intros u v. unfold ex_evaluate, ex_du, ex_dv, ex_duu, ex_dvv, ex_duv. rewrite Hp. cbn [not_null bind]. destruct (Hg u) as (-> & -> & ->). repeat split.
  - reflexivity.
  - intros u v H1 H2. assert (Hv : forall (o n : vec R d) y, vderiv (fun y => padd o (pmul y n)) y n).
    { intros o n y i Hi. apply (derivable_ext _ (fun s => coord d i o + coord d i n * s)); [intros s; rewrite coord_add, coord_mul by exact Hi; cbn; ring|].
      assert (D : derivable_pt_lim (fun s => coord d i o + coord d i n * s) y (0 + coord d i n * 1)).
      { apply (derivable_pt_lim_plus (fun _ => coord d i o)); [apply derivable_pt_lim_const|]. apply (derivable_pt_lim_scal (fun s => s)). apply derivable_pt_lim_id. }
      now rewrite Rplus_0_l, Rmult_1_r in D. }
    repeat split; try apply vderiv_const; try assumption; try apply Hv.
    apply (vderiv_ext' _ (fun x => padd (padd (ex_location c) (pmul v (ex_direction c))) (g x))); [|now apply vderiv_shift].
    intros s. vext. ring.
Qed.

(** ** Revolution *)
Section Revolution.
  Context (c : revolution R) (pr : profile R (vec R 3)) (g g1 g2 : R -> vec R 3).
  Context (Hp : re_profile c = Some pr) (Hg : profile_is pr g g1 g2) (Ha : inner (re_axis c) (re_axis c) = 1).
  Notation a := (re_axis c).
  Notation o := (re_location c).
  Notation rot := (fun u x => rotate3 u a x).
  Lemma re_eval u v : re_evaluate c u v = Ok (padd o (rotate3 u a (psub (g v) o))).
  Proof. unfold re_evaluate. rewrite Hp. cbn [not_null bind]. destruct (Hg v) as (-> & _). reflexivity. Qed.
  Lemma re_eval_dv u v : re_dv c u v = Ok (rotate3 u a (g1 v)).
  Proof. unfold re_dv. rewrite Hp. cbn [not_null bind]. destruct (Hg v) as (_ & -> & _). reflexivity. Qed.
  Lemma re_eval_dvv u v : re_dvv c u v = Ok (rotate3 u a (g2 v)).
  Proof. unfold re_dvv. rewrite Hp. cbn [not_null bind]. destruct (Hg v) as (_ & _ & ->). reflexivity. Qed.
  Lemma add_sub_cancel (x : vec R 3) : psub (padd o x) o = x.
  Proof. vext. ring. Qed.
  Lemma re_eval_du u v : re_du c u v = Ok (cross3 a (rotate3 u a (psub (g v) o))).
  Proof.
    unfold re_du. rewrite re_eval. cbn [bind]. rewrite add_sub_cancel. set (s := rotate3 u a _). cbn [slt R_ops].
    destruct (Rltb_spec prim_tol (pnorm (cross3 a s))) as [H|H]; [|reflexivity]. f_equal. pose proof prim_tol_pos.
    rewrite <- (pnorm_mul_norm (cross3 a s)) at 2 by lra. f_equal. unfold pnorm. now rewrite (cross_across a s Ha).
  Qed.
  Lemma re_eval_duv u v : re_duv c u v = Ok (cross3 a (rotate3 u a (g1 v))).
  Proof.
    unfold re_duv. rewrite re_eval_dv. cbn [bind]. set (s := rotate3 u a _). cbn [slt R_ops].
    destruct (Rltb_spec prim_tol (pnorm (cross3 a s))) as [H|H]; [|reflexivity]. f_equal. pose proof prim_tol_pos.
    rewrite (sub_zero_dot (cross3 a s) a (cross_orth a s)). apply pnorm_mul_norm. lra.
  Qed.
  Lemma re_eval_duu u v : re_duu c u v = Ok (cross3 a (cross3 a (rotate3 u a (psub (g v) o)))).
  Proof. unfold re_duu. rewrite re_eval. cbn [bind]. rewrite add_sub_cancel, (cross_twice a _ Ha). reflexivity. Qed.

  Lemma revolution_derivatives : exists f fu fv fuu fvv fuv,
    (forall u v, re_evaluate c u v = Ok (f u v) /\ re_du c u v = Ok (fu u v) /\ re_dv c u v = Ok (fv u v) /\
       re_duu c u v = Ok (fuu u v) /\ re_dvv c u v = Ok (fvv u v) /\ re_duv c u v = Ok (fuv u v)) /\
    (forall u v, turned o a u (g v) (f u v)) /\
    forall u v, vderiv g v (g1 v) -> vderiv g1 v (g2 v) -> partials f fu fv fuu fvv fuv u v.
  Proof.
    exists (fun u v => padd o (rotate3 u a (psub (g v) o))), (fun u v => cross3 a (rotate3 u a (psub (g v) o))), (fun u v => rotate3 u a (g1 v)),
      (fun u v => cross3 a (cross3 a (rotate3 u a (psub (g v) o)))), (fun u v => rotate3 u a (g2 v)), (fun u v => cross3 a (rotate3 u a (g1 v))).
    split; [|split].
    - intros u v. rewrite re_eval, re_eval_du, re_eval_dv, re_eval_duu, re_eval_dvv, re_eval_duv. repeat split.
    - intros u v. unfold turned. rewrite add_sub_cancel. destruct (rotate_across a (psub (g v) o) u Ha) as [E1 E2].
      rewrite <- !inner_pdot. split; assumption.
    - intros u v H1 H2. split; [|split; [|split; [|split; [|split]]]].
      + apply vderiv_shift. now apply rotate_deriv.
      + apply vderiv_shift. apply (vderiv_linear (rotate3 u a) (fun y => psub (g y) o)); [apply linear_rotate|now apply vderiv_unshift].
      + apply (vderiv_linear (cross3 a) (fun x => rotate3 x a (psub (g v) o))); [apply linear_cross|now apply rotate_deriv].
      + apply (vderiv_linear (rotate3 u a) g1); [apply linear_rotate|assumption].
      + apply (vderiv_linear (cross3 a) (fun y => rotate3 u a (psub (g y) o))); [apply linear_cross|].
        apply (vderiv_linear (rotate3 u a) (fun y => psub (g y) o)); [apply linear_rotate|now apply vderiv_unshift].
      + now apply rotate_deriv.
  Qed.
End Revolution.

(** ** Offset *)
Definition base_is (b : base_surface R) (f fu fv fuu fvv fuv : R -> R -> vec R 3) : Prop :=
  forall u v, s_eval (bs_ops b) u v = Ok (f u v) /\ s_du (bs_ops b) u v = Ok (fu u v) /\ s_dv (bs_ops b) u v = Ok (fv u v) /\
    s_duu (bs_ops b) u v = Ok (fuu u v) /\ s_dvv (bs_ops b) u v = Ok (fvv u v) /\ s_duv (bs_ops b) u v = Ok (fuv u v).

Lemma norm_deriv (N : R -> vec R 3) t r : vderiv N t r -> N t <> p0 ->
  vderiv (fun s => normalized3 (N s)) t (psub (pmul (/ sqrt (sqnorm (N t))) r) (pmul (/ (sqnorm (N t) * sqrt (sqnorm (N t)))) (pmul (pdot r (N t)) (N t)))).
Proof.
  intros HN Hz.
  assert (HZ : 0 < sqnorm (N t)). { pose proof (sqnorm_pos3 (N t)). destruct (Req_dec (sqnorm (N t)) 0) as [E|E]; [now apply sqnorm_zero3 in E|lra]. }
  pose proof (sqrt_lt_R0 _ HZ) as HS.
  assert (DZ : is_derive (fun s => sqnorm (N s)) t (2 * pdot r (N t))).
  { apply is_derive_Reals. apply (derivable_ext _ (fun s => coord 3 0 (N s) * coord 3 0 (N s) + coord 3 1 (N s) * coord 3 1 (N s) + coord 3 2 (N s) * coord 3 2 (N s))); [intros; unfold sqnorm; apply pdot3c|].
    replace (2 * pdot r (N t)) with ((coord 3 0 r * coord 3 0 (N t) + coord 3 0 (N t) * coord 3 0 r) + (coord 3 1 r * coord 3 1 (N t) + coord 3 1 (N t) * coord 3 1 r) + (coord 3 2 r * coord 3 2 (N t) + coord 3 2 (N t) * coord 3 2 r))
      by (rewrite pdot3c; ring).
    apply (derivable_pt_lim_plus (fun s => coord 3 0 (N s) * coord 3 0 (N s) + coord 3 1 (N s) * coord 3 1 (N s)));
      [apply (derivable_pt_lim_plus (fun s => coord 3 0 (N s) * coord 3 0 (N s)))|]; apply (derivable_pt_lim_mult (fun s => coord 3 _ (N s)) (fun s => coord 3 _ (N s))); apply HN; lia. }
  assert (DI : is_derive (fun s => / sqrt (sqnorm (N s))) t (- (pdot r (N t)) / (sqnorm (N t) * sqrt (sqnorm (N t))))).
  { evar_last. apply (is_derive_inv (fun s => sqrt (sqnorm (N s)))).
    - apply (is_derive_comp sqrt (fun s => sqnorm (N s))); [|exact DZ]. apply is_derive_Reals. apply derivable_pt_lim_sqrt. exact HZ.
    - lra.
    - change (- ((2 * pdot r (N t)) * / (2 * sqrt (sqnorm (N t)))) / (sqrt (sqnorm (N t))) ^ 2 = - pdot r (N t) / (sqnorm (N t) * sqrt (sqnorm (N t)))).
      pose proof (sqrt_sqrt _ (Rlt_le _ _ HZ)) as Ez. set (w := sqrt (sqnorm (N t))) in *. rewrite <- Ez. field. apply Rgt_not_eq. exact HS. }
  intros i Hi. apply (derivable_ext _ (fun s => / sqrt (sqnorm (N s)) * coord 3 i (N s))); [intros s; rewrite normalized3_R, coord_mul by exact Hi; reflexivity|].
  rewrite coord_sub, !coord_mul by exact Hi.
  replace (/ sqrt (sqnorm (N t)) * coord 3 i r - / (sqnorm (N t) * sqrt (sqnorm (N t))) * (pdot r (N t) * coord 3 i (N t)))
    with (- (pdot r (N t)) / (sqnorm (N t) * sqrt (sqnorm (N t))) * coord 3 i (N t) + / sqrt (sqnorm (N t)) * coord 3 i r) by (field; split; lra).
  apply (derivable_pt_lim_mult (fun s => / sqrt (sqnorm (N s))) (fun s => coord 3 i (N s))); [now apply is_derive_Reals|now apply HN].
Qed.
Lemma cross_deriv (x y : R -> vec R 3) t x' y' : vderiv x t x' -> vderiv y t y' ->
  vderiv (fun s => cross3 (x s) (y s)) t (padd (cross3 x' (y t)) (cross3 (x t) y')).
Proof.
  intros Hx Hy.
  assert (D : forall i j, (i < 3)%nat -> (j < 3)%nat -> derivable_pt_lim (fun s => coord 3 i (x s) * coord 3 j (y s) - coord 3 j (x s) * coord 3 i (y s)) t
     ((coord 3 i x' * coord 3 j (y t) + coord 3 i (x t) * coord 3 j y') - (coord 3 j x' * coord 3 i (y t) + coord 3 j (x t) * coord 3 i y'))).
  { intros i j Hi Hj. apply (derivable_pt_lim_minus (fun s => coord 3 i (x s) * coord 3 j (y s)));
      [apply (derivable_pt_lim_mult (fun s => coord 3 i (x s)))|apply (derivable_pt_lim_mult (fun s => coord 3 j (x s)))]; (apply Hx + apply Hy); assumption. }
  assert (E : forall i j k, (i = 0 /\ j = 1 /\ k = 2 \/ i = 1 /\ j = 2 /\ k = 0 \/ i = 2 /\ j = 0 /\ k = 1)%nat -> forall p q, coord 3 i (cross3 p q) = coord 3 j p * coord 3 k q - coord 3 k p * coord 3 j q).
  { intros i j k [(-> & -> & ->)|[(-> & -> & ->)|(-> & -> & ->)]] p q; v3 p; v3 q; reflexivity. }
  intros [|[|[|i]]] Hi; [pose proof (E 0 1 2 ltac:(lia))%nat as Ei; pose proof (D 1 2 ltac:(lia) ltac:(lia))%nat as Di
    | pose proof (E 1 2 0 ltac:(lia))%nat as Ei; pose proof (D 2 0 ltac:(lia) ltac:(lia))%nat as Di
    | pose proof (E 2 0 1 ltac:(lia))%nat as Ei; pose proof (D 0 1 ltac:(lia) ltac:(lia))%nat as Di | lia];
  rewrite coord_add, !Ei by lia; (eapply derivable_ext; [intros s; apply Ei|]);
  match type of Di with derivable_pt_lim _ _ ?l => match goal with |- derivable_pt_lim _ _ ?m => replace m with l by ring end end; exact Di.
Qed.

Section Offset.
  Context (c : offset R) (b : base_surface R) (f fu fv fuu fvv fuv : R -> R -> vec R 3).
  Context (Hb : of_base c = Some b) (Hf : base_is b f fu fv fuu fvv fuv).
  Definition of_pt u v : vec R 3 := padd (f u v) (pmul (of_offset c) (normalized3 (cross3 (fu u v) (fv u v)))).
  Lemma of_eval u v : of_evaluate c u v = Ok (of_pt u v).
  Proof. unfold of_evaluate. rewrite Hb. cbn [not_null bind]. destruct (Hf u v) as (-> & -> & -> & _). reflexivity. Qed.

  Lemma offset_points u v : exists q, of_evaluate c u v = Ok q /\
    (cross_vec (fu u v) (fv u v) <> p0 -> edist q (f u v) = Rabs (of_offset c)) /\ (cross_vec (fu u v) (fv u v) = p0 -> q = f u v) /\
    inner (psub q (f u v)) (fu u v) = 0 /\ inner (psub q (f u v)) (fv u v) = 0 /\
    inner (psub q (f u v)) (cross_vec (fu u v) (fv u v)) = of_offset c * sqrt (inner (cross_vec (fu u v) (fv u v)) (cross_vec (fu u v) (fv u v))).
  Proof.
    exists (of_pt u v). split; [apply of_eval|]. unfold of_pt. rewrite <- cross3_vec. set (n := cross3 (fu u v) (fv u v)).
    assert (E : psub (padd (f u v) (pmul (of_offset c) (normalized3 n))) (f u v) = pmul (of_offset c * / sqrt (inner n n)) n).
    { rewrite normalized3_R. unfold sqnorm. rewrite inner_pdot. vext. rewrite ?coord_mul by exact Hidx. ring. }
    assert (Hn : inner n n = 0 -> n = p0). { rewrite <- inner_pdot. apply sqnorm_zero3. }
    assert (Hs : forall k, k * / sqrt (inner n n) * inner n n = k * sqrt (inner n n)).
    { intros k. destruct (Req_dec (inner n n) 0) as [E0|E0]; [rewrite E0, sqrt_0; ring|]. pose proof (inner_pos 3 n).
      assert (0 < sqrt (inner n n)) by (apply sqrt_lt_R0; lra). rewrite <- (sqrt_sqrt (inner n n)) at 2 by lra. field. lra. }
    split; [|split; [|split; [|split]]].
    - intros Hz. assert (0 < inner n n) by (pose proof (inner_pos 3 n); destruct (Req_dec (inner n n) 0); [tauto|lra]).
      pose proof (edist_pos 3 (padd (f u v) (pmul (of_offset c) (normalized3 n))) (f u v)) as Hd.
      apply Rsqr_inj; [exact Hd|apply Rabs_pos|]. rewrite <- Rsqr_abs. unfold Rsqr. transitivity (edist (padd (f u v) (pmul (of_offset c) (normalized3 n))) (f u v) ^ 2); [ring|].
      rewrite edist_inner, E. bilin. rewrite Hs. assert (0 < sqrt (inner n n)) by (apply sqrt_lt_R0; lra). field. lra.
    - intros Hz. rewrite Hz, normalized3_R. vext. rewrite ?coord_mul, ?coord_0 by exact Hidx. ring.
    - rewrite E. bilin. unfold n. destruct (vec3_eta (fu u v)) as (x0 & x1 & x2 & ->). destruct (vec3_eta (fv u v)) as (y0 & y1 & y2 & ->). cbn [cross3]. rewrite inner3c. cbn. ring.
    - rewrite E. bilin. unfold n. destruct (vec3_eta (fu u v)) as (x0 & x1 & x2 & ->). destruct (vec3_eta (fv u v)) as (y0 & y1 & y2 & ->). cbn [cross3]. rewrite inner3c. cbn. ring.
    - rewrite E. bilin. apply Hs.
  Qed.
  Lemma of_formula_ok off d r n : n <> p0 -> of_formula off d r n =
    Ok (padd d (pmul off (psub (pmul (/ sqrt (sqnorm n)) r) (pmul (/ (sqnorm n * sqrt (sqnorm n))) (pmul (pdot r n) n))))).
  Proof.
    intros Hn. assert (HZ : 0 < sqnorm n). { pose proof (sqnorm_pos3 n). destruct (Req_dec (sqnorm n) 0) as [E|E]; [now apply sqnorm_zero3 in E|lra]. }
    pose proof (sqrt_lt_R0 _ HZ). assert (0 < sqnorm n * sqrt (sqnorm n)) by now apply Rmult_lt_0_compat.
    unfold of_formula, pdivs. cbn [seq_ s0 R_ops ssqrt smul sdiv s1]. rewrite !Reqb_false by lra. cbn [bind]. unfold Rdiv. now rewrite !Rmult_1_l.
  Qed.
  Lemma offset_derivatives u v : partials f fu fv fuu fvv fuv u v -> cross_vec (fu u v) (fv u v) <> p0 ->
    exists qu qv, of_du c u v = Ok qu /\ of_dv c u v = Ok qv /\
      vderiv (fun x => of_pt x v) u qu /\ vderiv (fun y => of_pt u y) v qv.
  Proof.
    rewrite <- cross3_vec. intros (Du & Dv & Duu & Dvv & Duv & Dvu) Hn.
    assert (Hadd : forall (x y : R -> vec R 3) t x' y' k, vderiv x t x' -> vderiv y t y' -> vderiv (fun s => padd (x s) (pmul k (y s))) t (padd x' (pmul k y'))).
    { intros x y t x' y' k Hx Hy i Hi. apply (derivable_ext _ (fun s => coord 3 i (x s) + k * coord 3 i (y s))); [intros s; now rewrite coord_add, coord_mul by exact Hi|].
      rewrite coord_add, coord_mul by exact Hi. apply (derivable_pt_lim_plus (fun s => coord 3 i (x s))); [now apply Hx|]. apply (derivable_pt_lim_scal (fun s => coord 3 i (y s))). now apply Hy. }
    unfold of_du, of_dv. rewrite Hb. cbn [not_null bind]. destruct (Hf u v) as (_ & -> & -> & -> & -> & ->). cbn [bind].
    rewrite !of_formula_ok by assumption. eexists _, _. split; [reflexivity|]. split; [reflexivity|]. unfold of_pt. split.
    - apply Hadd; [exact Du|]. apply (norm_deriv (fun x => cross3 (fu x v) (fv x v))); [|exact Hn]. apply (cross_deriv (fun x => fu x v) (fun x => fv x v)); assumption.
    - apply Hadd; [exact Dv|]. apply (norm_deriv (fun y => cross3 (fu u y) (fv u y))); [|exact Hn]. apply (cross_deriv (fun y => fu u y) (fun y => fv u y)); assumption.
  Qed.
End Offset.
