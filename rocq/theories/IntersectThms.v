(** Proofs about intersect.h and save_obj.h. *)
From Coq Require Import Reals Lra Lia ZArith QArith List Bool Psatz.
From Verif Require Import Monad MonadFacts LoopFacts Scalar ScalarFacts Spec SpecFacts SpecGeom ModelCurve ModelPatchBase ModelLine ModelIntersect ModelExport
  CurveFacts CurveThms TensorFacts SpecPatch LineThms ArcLengthThms.
Import ListNotations.
Local Open Scope R_scope.

Lemma sabs_lt x tol : slt (sabs x) tol = true -> Rabs x < tol.
Proof. rewrite sabs_R. cbn [slt R_ops]. apply Rltb_iff. Qed.

Lemma curve_plane_sound (c : curve_ops R (vec R 3)) pl t0 n tol t :
  intersect_curve_plane c pl t0 n tol = Ok (t, true) ->
  exists x y z, c_eval c t = Ok ((x, (y, (z, tt))) : vec R 3) /\ Rabs (pl_a pl * x + pl_b pl * y + pl_c pl * z + pl_d pl) < tol.
Proof.
  unfold intersect_curve_plane. intros E. apply bind_inv in E. destruct E as (st & Ef & E). unfold forb_up in Ef.
  apply (forb_nat_post (fun _ => True) (fun r => snd r = true -> exists x y z, c_eval c (fst r) = Ok ((x, (y, (z, tt))) : vec R 3) /\
    Rabs (pl_a pl * x + pl_b pl * y + pl_c pl * z + pl_d pl) < tol)) in Ef; [|exact I|].
  - destruct st as [[[? ?] ?]|r]; [apply Ok_inj in E; discriminate|]. apply Ok_inj in E. subst r. apply Ef. reflexivity.
  - intros i [[pt tt0] pe] y _ Eb. apply bind_inv in Eb. destruct Eb as (d0 & Ed & Eb). cbv zeta in Eb.
    destruct (slt (sabs _) tol) eqn:Ec in Eb.
    + apply Ok_inj in Eb. subst y. intros _. cbn [fst]. destruct d0 as [x [y [z []]]]. exists x, y, z. split; [exact Ed|]. apply sabs_lt in Ec. exact Ec.
    + destruct (slt _ _) in Eb; [apply Ok_inj in Eb; subst y; discriminate|]. apply bind_inv in Eb. destruct Eb as (d1 & _ & Eb). cbv zeta in Eb.
      destruct (seq_ _ _) in Eb; apply Ok_inj in Eb; subst y; [discriminate|exact I].
Qed.

(** A start value on the plane is returned at once. *)
Lemma curve_plane_start (c : curve_ops R (vec R 3)) pl t0 n tol x y z : (1 <= n)%Z ->
  c_eval c t0 = Ok ((x, (y, (z, tt))) : vec R 3) -> Rabs (pl_a pl * x + pl_b pl * y + pl_c pl * z + pl_d pl) < tol ->
  intersect_curve_plane c pl t0 n tol = Ok (t0, true).
Proof.
  intros Hn E H. unfold intersect_curve_plane, forb_up. destruct (Z.to_nat (n - 0)) as [|m] eqn:Em; [lia|]. cbn [forb_nat].
  rewrite E, bind_Ok. cbv zeta. rewrite sabs_R. cbn [slt R_ops]. rewrite Rltb_true by exact H. reflexivity.
Qed.

Lemma snummax_big : 1 <= (snummax : R).
Proof. unfold snummax. cbn [sofZ R_ops]. apply IZR_le. vm_compute. discriminate. Qed.

(** A line not parallel to the plane: the second iterate is the intersection point. *)
Lemma line_plane_converges (l : line R (vec R 3)) pl t0 n tol p0x p0y p0z dx dy dz : (2 <= n)%Z -> 0 < tol ->
  ln_location l = ((p0x, (p0y, (p0z, tt))) : vec R 3) -> ln_direction l = ((dx, (dy, (dz, tt))) : vec R 3) ->
  pl_a pl * dx + pl_b pl * dy + pl_c pl * dz <> 0 ->
  Rabs (pl_a pl * (p0x + t0 * dx) + pl_b pl * (p0y + t0 * dy) + pl_c pl * (p0z + t0 * dz) + pl_d pl) <= snummax ->
  exists t, intersect_curve_plane (ln_ops l) pl t0 n tol = Ok (t, true).
Proof.
  intros Hn Htol El Ed Hnp Hmax. set (err := pl_a pl * (p0x + t0 * dx) + pl_b pl * (p0y + t0 * dy) + pl_c pl * (p0z + t0 * dz) + pl_d pl) in *.
  set (sl := pl_a pl * dx + pl_b pl * dy + pl_c pl * dz) in *.
  assert (Ev : forall t, c_eval (ln_ops l) t = Ok ((p0x + t * dx, (p0y + t * dy, (p0z + t * dz, tt))) : vec R 3)).
  { intros t. cbn [ln_ops c_eval]. unfold ln_evaluate. rewrite El, Ed. reflexivity. }
  assert (Ed1 : forall t, c_d1 (ln_ops l) t = Ok ((dx, (dy, (dz, tt))) : vec R 3)) by (intros t; cbn [ln_ops c_d1]; unfold ln_evaluate_derivative; now rewrite Ed).
  unfold intersect_curve_plane, forb_up. destruct (Z.to_nat (n - 0)) as [|[|m]] eqn:Em; [lia|lia|]. cbn [forb_nat].
  rewrite Ev, bind_Ok. cbv zeta.
  assert (E1 : plane_value pl ((p0x + t0 * dx, (p0y + t0 * dy, (p0z + t0 * dz, tt))) : vec R 3) = err) by reflexivity. rewrite E1.
  destruct (slt (sabs err) tol) eqn:Ec; [eexists; reflexivity|].
  rewrite sabs_R. cbn [slt R_ops]. rewrite Rltb_false by lra. rewrite Ed1, bind_Ok. cbv zeta.
  assert (E2 : plane_slope pl ((dx, (dy, (dz, tt))) : vec R 3) = sl) by reflexivity. rewrite E2. cbn [seq_ s0 R_ops]. rewrite Reqb_false by exact Hnp.
  rewrite bind_Ok. rewrite Ev, bind_Ok. cbv zeta. cbn [ssub sdiv R_ops].
  match goal with |- context [plane_value pl ?q] => assert (E3 : plane_value pl q = 0) end.
  { unfold plane_value. cbn [coord fst snd sadd smul R_ops]. unfold err in *. field_simplify_eq; [unfold sl; ring|exact Hnp]. }
  rewrite E3, sabs_R, Rabs_R0. cbn [slt R_ops]. rewrite Rltb_true by exact Htol. rewrite bind_Ok. eexists. reflexivity.
Qed.

(** Segment of the parameter domain against a plane. *)
Lemma patch_plane_sound (s : patch_ops R (vec R 3)) pu pv qu qv pl u0 v0 n tol u v :
  (/ 10 ^ 12 <= Rabs (pu - qu) \/ / 10 ^ 12 <= Rabs (pv - qv)) ->
  intersect_patch_plane s pu pv qu qv pl u0 v0 n tol = Ok (u, v, true) ->
  exists k x y z, u = pu + k * (qu - pu) /\ v = pv + k * (qv - pv) /\
    s_eval s u v = Ok ((x, (y, (z, tt))) : vec R 3) /\ Rabs (pl_a pl * x + pl_b pl * y + pl_c pl * z + pl_d pl) < tol.
Proof.
  intros Hd. unfold intersect_patch_plane.
  assert (Ec : (slt (sabs (ssub pu qu)) (sofQ (1 # (10 ^ 12)%positive)) && slt (sabs (ssub pv qv)) (sofQ (1 # (10 ^ 12)%positive)))%bool = false).
  { rewrite !sabs_R. assert (Eq : (sofQ (1 # (10 ^ 12)%positive) : R) = / 10 ^ 12).
    { cbn [sofQ R_ops Qnum Qden]. change (Z.pos (10 ^ 12)%positive) with (10 ^ 12)%Z. unfold Rdiv. rewrite Rmult_1_l. apply f_equal. change (10 ^ 12)%Z with (10 ^ Z.of_nat 12)%Z. now rewrite <- pow_IZR. }
    rewrite Eq. cbn [slt ssub R_ops]. destruct Hd as [Hd|Hd]; [rewrite Rltb_false by lra; reflexivity|]. rewrite (Rltb_false (Rabs (pv - qv))) by lra. apply andb_false_r. }
  rewrite Ec. intros E. apply bind_inv in E. destruct E as (q & _ & E). cbv zeta in E. apply bind_inv in E. destruct E as (st & Ef & E). unfold forb_up in Ef.
  apply (forb_nat_post (fun _ => True) (fun r => snd r = true -> exists k x y z, fst (fst r) = pu + k * (qu - pu) /\ snd (fst r) = pv + k * (qv - pv) /\
    s_eval s (fst (fst r)) (snd (fst r)) = Ok ((x, (y, (z, tt))) : vec R 3) /\ Rabs (pl_a pl * x + pl_b pl * y + pl_c pl * z + pl_d pl) < tol)) in Ef; [|exact I|].
  - destruct st as [[[[[? ?] ?] ?] ?]|r]; [apply Ok_inj in E; discriminate|]. apply Ok_inj in E. subst r. apply Ef. reflexivity.
  - clear E Ef st. intros i [[[[pt tt0] uu] vv] pe] y _ Eb. unfold uv_interpolate in Eb.
    apply bind_inv in Eb. destruct Eb as (d0 & Ed & Eb). cbv zeta in Eb.
    destruct (slt (sabs _) tol) eqn:Ecc in Eb.
    + apply Ok_inj in Eb. subst y. intros _. cbn [fst snd]. destruct d0 as [x [y [z []]]]. exists tt0, x, y, z. apply sabs_lt in Ecc.
      split; [cbn [sadd smul ssub s1 R_ops]; ring|]. split; [cbn [sadd smul ssub s1 R_ops]; ring|]. split; [exact Ed|exact Ecc].
    + destruct (slt _ _) in Eb; [apply Ok_inj in Eb; subst y; discriminate|]. apply bind_inv in Eb. destruct Eb as (du & _ & Eb).
      apply bind_inv in Eb. destruct Eb as (dv & _ & Eb). cbv zeta in Eb.
      destruct (seq_ _ _) in Eb; apply Ok_inj in Eb; subst y; [discriminate|exact I].
Qed.

(** The plane z = 0 as a patch: (u,v) -> (u,v,0), and its translate z = -1. *)
Definition flat (h : R) : patch_ops R (vec R 3) :=
  {| s_ulo := 0; s_uhi := 1; s_vlo := 0; s_vhi := 1; s_eval := fun u v => Ok ((u, (v, (h, tt))) : vec R 3);
     s_du := fun _ _ => Ok ((1, (0, (0, tt))) : vec R 3); s_dv := fun _ _ => Ok ((0, (1, (0, tt))) : vec R 3);
     s_duu := fun _ _ => Ok p0; s_dvv := fun _ _ => Ok p0; s_duv := fun _ _ => Ok p0 |}.
Lemma patch_plane_degenerate (h tol : R) u v n : 0 < tol -> h < 0 ->
  intersect_patch_plane (flat h) u v u v {| pl_a := 0; pl_b := 0; pl_c := 1; pl_d := 0 |} u v n tol = Ok (u, v, true).
Proof.
  intros Ht Hh. unfold intersect_patch_plane. rewrite !sabs_R. cbn [ssub slt R_ops]. replace (u - u) with 0 by ring. replace (v - v) with 0 by ring. rewrite Rabs_R0.
  rewrite Rltb_true by (cbn [sofQ R_ops Qnum Qden]; apply Rdiv_lt_0_compat; [lra|apply IZR_lt; reflexivity]). cbn [andb s_eval flat]. rewrite bind_Ok. cbv zeta.
  rewrite Rltb_true; [reflexivity|]. unfold plane_value. cbn [pl_a pl_b pl_c pl_d coord fst snd sadd smul R_ops]. lra.
Qed.
(** Start value at the end p of the segment, which lies on the plane; the other end does not. *)
Lemma patch_plane_start (tol : R) : 0 < tol <= 1 ->
  exists u v, intersect_patch_plane (flat 0) 0 0 1 0 {| pl_a := 1; pl_b := 0; pl_c := 0; pl_d := 0 |} 0 0 1 tol = Ok (u, v, false).
Proof.
  intros Ht. unfold intersect_patch_plane. rewrite !sabs_R. cbn [ssub slt R_ops].
  rewrite Rltb_false by (rewrite (Rabs_left (0 - 1)) by lra; cbn [sofQ R_ops Qnum Qden]; apply Rmult_le_reg_r with (IZR (Z.pos (10 ^ 12))); [apply IZR_lt; reflexivity|];
    unfold Rdiv; rewrite Rmult_assoc, Rinv_l by (apply not_0_IZR; discriminate); rewrite Rmult_1_r; replace (- (0 - 1) * IZR (Z.pos (10 ^ 12))) with (IZR (Z.pos (10 ^ 12))) by ring; apply IZR_le; discriminate).
  cbn [andb]. unfold shypot. cbn [ssqrt sadd smul R_ops]. replace ((0 - 0) * (0 - 0) + (0 - 0) * (0 - 0)) with 0 by ring.
  replace ((0 - 1) * (0 - 1) + (0 - 0) * (0 - 0)) with 1 by ring. rewrite sqrt_0, sqrt_1. unfold ddiv. cbn [seq_ s0 sdiv R_ops]. rewrite Reqb_false by lra. rewrite bind_Ok. cbv zeta.
  change (Z.to_nat (1 - 0)) with 1%nat. unfold forb_up. change (Z.to_nat (1 - 0)) with 1%nat. cbn [forb_nat]. unfold uv_interpolate. cbn [s_eval flat]. rewrite bind_Ok. cbv zeta.
  match goal with |- context [sabs (plane_value ?pl ?q)] => assert (Ev : plane_value pl q = 1) end.
  { unfold plane_value. cbn [pl_a pl_b pl_c pl_d coord fst snd sadd smul ssub s1 R_ops]. field. }
  rewrite Ev, sabs_R, Rabs_R1. cbn [slt R_ops]. rewrite Rltb_false by lra. rewrite Rltb_false by exact snummax_big.
  cbn [s_du s_dv flat]. rewrite !bind_Ok. cbv zeta.
  match goal with |- context [plane_slope ?pl ?q] => assert (Es : plane_slope pl q = 1) end.
  { unfold plane_slope. cbn. ring. }
  rewrite Es. cbn [seq_ s0 R_ops]. rewrite Reqb_false by lra. rewrite !bind_Ok. do 2 eexists. reflexivity.
Qed.

(** An affine patch whose image of the segment crosses the plane: the second iterate is on the plane. *)
Lemma hypot_ratio (k dx dy : R) : 0 <= k -> dx <> 0 \/ dy <> 0 -> ddiv (shypot (k * dx) (k * dy)) (shypot dx dy) = Ok k.
Proof.
  intros Hk Hd. assert (Hp : 0 < dx * dx + dy * dy).
  { pose proof (Rle_0_sqr dx) as A. pose proof (Rle_0_sqr dy) as B. unfold Rsqr in A, B. destruct Hd as [Hd|Hd]; [pose proof (Rsqr_pos_lt dx Hd) as D|pose proof (Rsqr_pos_lt dy Hd) as D]; unfold Rsqr in D; lra. }
  unfold shypot. cbn [ssqrt sadd smul R_ops]. replace (k * dx * (k * dx) + k * dy * (k * dy)) with (k * k * (dx * dx + dy * dy)) by ring.
  rewrite sqrt_mult by (try apply Rle_0_sqr; lra). rewrite sqrt_square by exact Hk. pose proof (sqrt_lt_R0 _ Hp) as Hs.
  unfold ddiv. cbn [seq_ s0 sdiv R_ops]. rewrite Reqb_false by lra. f_equal. field. lra.
Qed.
Lemma affine_patch_plane (s : patch_ops R (vec R 3)) pu pv qu qv pl k n tol ox oy oz ax ay az bx by_ bz :
  (2 <= n)%Z -> 0 < tol -> / 10 ^ 12 <= Rabs (pu - qu) \/ / 10 ^ 12 <= Rabs (pv - qv) ->
  (forall u v, s_eval s u v = Ok ((ox + u * ax + v * bx, (oy + u * ay + v * by_, (oz + u * az + v * bz, tt))) : vec R 3)) ->
  (forall u v, s_du s u v = Ok ((ax, (ay, (az, tt))) : vec R 3)) -> (forall u v, s_dv s u v = Ok ((bx, (by_, (bz, tt))) : vec R 3)) ->
  let value u v := pl_a pl * (ox + u * ax + v * bx) + pl_b pl * (oy + u * ay + v * by_) + pl_c pl * (oz + u * az + v * bz) + pl_d pl in
  value pu pv <> value qu qv -> Rabs (value pu pv) <= snummax -> Rabs (value qu qv) <= snummax -> 0 <= k <= 1 ->
  exists u v, intersect_patch_plane s pu pv qu qv pl (pu + k * (qu - pu)) (pv + k * (qv - pv)) n tol = Ok (u, v, true).
Proof.
  intros Hn Htol Hd Ev Eu Evv value Hne Hp Hq Hk.
  set (sl := value qu qv - value pu pv).
  assert (Hsl : sl <> 0) by (unfold sl; lra).
  unfold intersect_patch_plane.
  assert (Ec : (slt (sabs (ssub pu qu)) (sofQ (1 # (10 ^ 12)%positive)) && slt (sabs (ssub pv qv)) (sofQ (1 # (10 ^ 12)%positive)))%bool = false).
  { rewrite !sabs_R. assert (Eq : (sofQ (1 # (10 ^ 12)%positive) : R) = / 10 ^ 12).
    { cbn [sofQ R_ops Qnum Qden]. change (Z.pos (10 ^ 12)%positive) with (10 ^ 12)%Z. unfold Rdiv. rewrite Rmult_1_l. apply f_equal. change (10 ^ 12)%Z with (10 ^ Z.of_nat 12)%Z. now rewrite <- pow_IZR. }
    rewrite Eq. cbn [slt ssub R_ops]. destruct Hd as [Hd|Hd]; [rewrite Rltb_false by lra; reflexivity|]. rewrite (Rltb_false (Rabs (pv - qv))) by lra. apply andb_false_r. }
  rewrite Ec. cbn [ssub R_ops]. replace (pu + k * (qu - pu) - pu) with (- k * (pu - qu)) by ring. replace (pv + k * (qv - pv) - pv) with (- k * (pv - qv)) by ring.
  assert (Hd' : pu - qu <> 0 \/ pv - qv <> 0).
  { assert (0 < / 10 ^ 12) by (apply Rinv_0_lt_compat, pow_lt; lra). destruct Hd as [Hd|Hd]; [left|right]; intros C; rewrite C, Rabs_R0 in Hd; lra. }
  assert (Eh : shypot (- k * (pu - qu)) (- k * (pv - qv)) = shypot (k * (pu - qu)) (k * (pv - qv))) by (unfold shypot; cbn [ssqrt sadd smul R_ops]; f_equal; ring).
  rewrite Eh, hypot_ratio by (try lra; assumption). rewrite bind_Ok. cbv zeta. cbn [s1 R_ops].
  unfold forb_up. destruct (Z.to_nat (n - 0)) as [|[|m]] eqn:Em; [lia|lia|]. cbn [forb_nat].
  unfold uv_interpolate. rewrite Ev, bind_Ok. cbv zeta.
  match goal with |- context [plane_value pl ?q] => assert (E1 : plane_value pl q = (1 - (1 - k)) * value pu pv + (1 - k) * value qu qv) end.
  { unfold plane_value, value. cbn [coord fst snd sadd smul ssub s1 R_ops]. ring. }
  rewrite E1. set (err := (1 - (1 - k)) * value pu pv + (1 - k) * value qu qv) in *.
  assert (Herr : Rabs err <= snummax).
  { unfold err. apply Rabs_le. assert (Hp2 : - snummax <= value pu pv <= snummax) by (revert Hp; unfold Rabs; destruct (Rcase_abs _); lra). assert (Hq2 : - snummax <= value qu qv <= snummax) by (revert Hq; unfold Rabs; destruct (Rcase_abs _); lra). clear - Hp2 Hq2 Hk. generalize dependent (value pu pv). generalize dependent (value qu qv). generalize (snummax : R). intros M y Hy x Hx. split; nra. }
  destruct (slt (sabs err) tol) eqn:Ecv; [do 2 eexists; reflexivity|].
  rewrite sabs_R. cbn [slt R_ops]. rewrite Rltb_false by lra. rewrite Eu, Evv, !bind_Ok. cbv zeta.
  match goal with |- context [plane_slope pl ?q] => assert (E2 : plane_slope pl q = sl) end.
  { unfold plane_slope, sl, value. cbn. ring. }
  rewrite E2. cbn [seq_ s0 R_ops]. rewrite Reqb_false by exact Hsl. rewrite bind_Ok. rewrite Ev, bind_Ok. cbv zeta. cbn [ssub sdiv R_ops].
  match goal with |- context [plane_value pl ?q] => assert (E3 : plane_value pl q = 0) end.
  { unfold plane_value. cbn [coord fst snd sadd smul ssub s1 R_ops]. transitivity (value pu pv + (1 - k - err / sl) * sl); [unfold sl, value; ring|].
    field_simplify_eq; [|exact Hsl]. unfold err, sl. ring. }
  rewrite E3, sabs_R, Rabs_R0. cbn [slt R_ops]. rewrite Rltb_true by exact Htol. rewrite bind_Ok. do 2 eexists. reflexivity.
Qed.

(** Curve against patch. *)
Lemma objective_f (c : curve_ops R (vec R 3)) s t u v f g H : objective c s t u v = Ok (f, g, H) ->
  exists a b, c_eval c t = Ok a /\ s_eval s u v = Ok b /\ f = edist a b ^ 2.
Proof.
  unfold objective. intros E. apply bind_inv in E. destruct E as (a & Ea & E). apply bind_inv in E. destruct E as (b & Eb & E). exists a, b.
  split; [exact Ea|]. split; [exact Eb|]. cbv zeta in E. do 7 (apply bind_inv in E; destruct E as (? & _ & E)). apply Ok_inj in E.
  pose proof (f_equal (fun x => fst (fst x)) E) as Ef. cbn [fst] in Ef. rewrite <- Ef. apply sqnorm_edist.
Qed.
Lemma curve_patch_sound (c : curve_ops R (vec R 3)) s t0 u0 v0 n tol t u v : 0 <= tol ->
  intersect_curve_patch c s t0 u0 v0 n tol = Ok (t, u, v, true) ->
  exists a b, c_eval c t = Ok a /\ s_eval s u v = Ok b /\ edist a b < tol.
Proof.
  intros Htol. unfold intersect_curve_patch. intros E. apply bind_inv in E. destruct E as (st & Ef & E). unfold forb_up in Ef.
  apply (forb_nat_post (fun _ => True) (fun r : R * R * R * bool => snd r = true -> exists a b, c_eval c (fst (fst (fst r))) = Ok a /\
    s_eval s (snd (fst (fst r))) (snd (fst r)) = Ok b /\ edist a b < tol)) in Ef; [|exact I|].
  - destruct st as [[[[[? ?] ?] ?] ?]|r]; [apply Ok_inj in E; discriminate|]. apply Ok_inj in E. subst r. apply Ef. reflexivity.
  - clear E Ef st. intros i [[[[tt0 uu] vv] [[pt pu] pv]] pf] y _ Eb. apply bind_inv in Eb. destruct Eb as ([[f [[gx gy] gz]] H] & Eo & Eb).
    destruct (slt pf f) in Eb; [apply Ok_inj in Eb; subst y; discriminate|]. destruct (slt f _) eqn:Ec in Eb.
    + apply Ok_inj in Eb. subst y. intros _. cbn [fst snd]. apply objective_f in Eo. destruct Eo as (a & b & Ea & Eb & ->). exists a, b. split; [exact Ea|]. split; [exact Eb|].
      cbn [slt smul R_ops] in Ec. apply Rltb_iff in Ec. pose proof (edist_pos 3 a b). nra.
    + destruct (seq_ _ _) in Eb; [apply Ok_inj in Eb; subst y; discriminate|]. destruct (inverse_times _ _ _ _) as [[dx dy] dz]. apply Ok_inj in Eb. subst y. exact I.
Qed.

(** The Newton system: gradient and Hessian of half the squared distance, and its solution. *)
Lemma inverse_times_solves (m : mat3 R) x y z a b c : det3 m <> 0 -> inverse_times m x y z = (a, b, c) ->
  m00 m * a + m01 m * b + m02 m * c = x /\ m10 m * a + m11 m * b + m12 m * c = y /\ m20 m * a + m21 m * b + m22 m * c = z.
Proof.
  intros Hd E. unfold inverse_times in E. cbv zeta in E. injection E as <- <- <-. unfold det3 in *. cbn [sadd ssub smul sdiv R_ops] in *. repeat split; field; exact Hd.
Qed.

Lemma inner_deriv d (A B : R -> vec R d) a b t : vderiv A t a -> vderiv B t b ->
  derivable_pt_lim (fun x => inner (A x) (B x)) t (inner a (B t) + inner (A t) b).
Proof.
  intros HA HB. unfold inner. rewrite <- rsum_plus. 
  assert (H : forall n, (n <= d)%nat -> derivable_pt_lim (fun x => rsum n (fun i => coord d i (A x) * coord d i (B x))) t
    (rsum n (fun i => coord d i a * coord d i (B t) + coord d i (A t) * coord d i b))); [|apply H; lia].
  induction n as [|n IH]; intros Hn; [apply derivable_pt_lim_const|]. rewrite rsum_S.
  apply (derivable_pt_lim_ext (fun x => rsum n (fun i => coord d i (A x) * coord d i (B x)) + coord d n (A x) * coord d n (B x))); [reflexivity|].
  apply (derivable_pt_lim_plus (fun x => rsum n (fun i => coord d i (A x) * coord d i (B x)))); [apply IH; lia|].
  apply (derivable_pt_lim_mult (fun x => coord d n (A x)) (fun x => coord d n (B x))); [apply HA|apply HB]; lia.
Qed.
Lemma vderiv_sub_const d (A : R -> vec R d) (b : vec R d) t a : vderiv A t a -> vderiv (fun x => psub (A x) b) t a.
Proof.
  intros H i Hi. apply (derivable_pt_lim_ext (fun x => coord d i (A x) - coord d i b)); [intros x; now rewrite coord_sub|].
  rewrite <- (Rminus_0_r (coord d i a)). apply (derivable_pt_lim_minus (fun x => coord d i (A x)) (fun _ => coord d i b)); [now apply H|apply derivable_pt_lim_const].
Qed.
Lemma vderiv_const_sub d (A : R -> vec R d) (b : vec R d) t a : vderiv A t a -> vderiv (fun x => psub b (A x)) t (psub p0 a).
Proof.
  intros H i Hi. apply (derivable_pt_lim_ext (fun x => coord d i b - coord d i (A x))); [intros x; now rewrite coord_sub|].
  rewrite coord_sub, coord_0 by assumption. apply (derivable_pt_lim_minus (fun _ => coord d i b) (fun x => coord d i (A x))); [apply derivable_pt_lim_const|now apply H].
Qed.
Lemma vderiv_const' d (b : vec R d) t : vderiv (fun _ => b) t p0.
Proof. intros i Hi. rewrite coord_0 by assumption. apply derivable_pt_lim_const. Qed.
Lemma inner_0_l d (a : vec R d) : inner p0 a = 0.
Proof. unfold inner. apply rsum_0. intros i Hi. rewrite coord_0 by assumption. ring. Qed.
Lemma inner_comm d (a b : vec R d) : inner a b = inner b a.
Proof. unfold inner. apply rsum_ext. intros. ring. Qed.
Lemma inner_neg_r d (a b : vec R d) : inner a (psub p0 b) = - inner a b.
Proof. unfold inner. replace (- rsum d (fun i => coord d i a * coord d i b)) with ((-1) * rsum d (fun i => coord d i a * coord d i b)) by ring. rewrite <- rsum_scal. apply rsum_ext. intros i Hi. rewrite coord_sub, coord_0 by assumption. ring. Qed.

Lemma newton_system (c : curve_ops R (vec R 3)) (s : patch_ops R (vec R 3)) (C C1 C2 : R -> vec R 3) (S Su Sv Suu Svv Suv : R -> R -> vec R 3)
    (f g1 g2 g3 : R -> R -> R -> R) (m : R -> R -> R -> mat3 R) :
  (forall t, c_eval c t = Ok (C t) /\ c_d1 c t = Ok (C1 t) /\ c_d2 c t = Ok (C2 t) /\ vderiv C t (C1 t) /\ vderiv C1 t (C2 t)) ->
  (forall u v, s_eval s u v = Ok (S u v) /\ s_du s u v = Ok (Su u v) /\ s_dv s u v = Ok (Sv u v) /\ s_duu s u v = Ok (Suu u v) /\
    s_dvv s u v = Ok (Svv u v) /\ s_duv s u v = Ok (Suv u v) /\ partials S Su Sv Suu Svv Suv u v) ->
  (forall t u v, objective c s t u v = Ok (f t u v, (g1 t u v, g2 t u v, g3 t u v), m t u v)) ->
  forall t u v,
    f t u v = edist (C t) (S u v) ^ 2 /\
    (derivable_pt_lim (fun x => f x u v / 2) t (g1 t u v) /\ derivable_pt_lim (fun x => f t x v / 2) u (g2 t u v) /\
     derivable_pt_lim (fun x => f t u x / 2) v (g3 t u v)) /\
    (derivable_pt_lim (fun x => g1 x u v) t (m00 (m t u v)) /\ derivable_pt_lim (fun x => g1 t x v) u (m01 (m t u v)) /\
     derivable_pt_lim (fun x => g1 t u x) v (m02 (m t u v))) /\
    (derivable_pt_lim (fun x => g2 x u v) t (m10 (m t u v)) /\ derivable_pt_lim (fun x => g2 t x v) u (m11 (m t u v)) /\
     derivable_pt_lim (fun x => g2 t u x) v (m12 (m t u v))) /\
    (derivable_pt_lim (fun x => g3 x u v) t (m20 (m t u v)) /\ derivable_pt_lim (fun x => g3 t x v) u (m21 (m t u v)) /\
     derivable_pt_lim (fun x => g3 t u x) v (m22 (m t u v))).
Proof.
  intros HC HS HO.
  assert (Ef : forall t u v, f t u v = inner (psub (C t) (S u v)) (psub (C t) (S u v)) /\ g1 t u v = inner (C1 t) (psub (C t) (S u v)) /\
    g2 t u v = - inner (Su u v) (psub (C t) (S u v)) /\ g3 t u v = - inner (Sv u v) (psub (C t) (S u v)) /\
    m t u v = {| m00 := inner (C2 t) (psub (C t) (S u v)) + inner (C1 t) (C1 t); m01 := - inner (C1 t) (Su u v); m02 := - inner (C1 t) (Sv u v);
      m10 := - inner (C1 t) (Su u v); m11 := inner (Suu u v) (psub p0 (psub (C t) (S u v))) + inner (Su u v) (Su u v);
      m12 := inner (Suv u v) (psub p0 (psub (C t) (S u v))) + inner (Su u v) (Sv u v); m20 := - inner (C1 t) (Sv u v);
      m21 := inner (Suv u v) (psub p0 (psub (C t) (S u v))) + inner (Su u v) (Sv u v); m22 := inner (Svv u v) (psub p0 (psub (C t) (S u v))) + inner (Sv u v) (Sv u v) |}).
  { intros t u v. specialize (HO t u v). destruct (HC t) as (E0 & E1 & E2 & _). destruct (HS u v) as (F0 & F1 & F2 & F3 & F4 & F5 & _).
    unfold objective in HO. rewrite E0, F0, E1, F1, F2, E2, F3, F5, F4 in HO. cbv zeta in HO. rewrite !bind_Ok in HO. apply Ok_inj in HO.
    unfold sqnorm in HO. rewrite !inner_pdot in HO. cbn [sopp sadd R_ops] in HO.
    pose proof (f_equal snd HO) as Em. pose proof (f_equal (fun x => fst (fst x)) HO) as Ef. pose proof (f_equal (fun x => fst (fst (snd (fst x)))) HO) as Eg1.
    pose proof (f_equal (fun x => snd (fst (snd (fst x)))) HO) as Eg2. pose proof (f_equal (fun x => snd (snd (fst x))) HO) as Eg3. cbn [fst snd] in *.
    repeat split; symmetry; assumption. }
  intros t u v. destruct (HC t) as (_ & _ & _ & D1 & D2). destruct (HS u v) as (_ & _ & _ & _ & _ & _ & Pu & Pv & Puu & Pvv & Puv & Pvu).
  pose proof (vderiv_sub_const 3 C (S u v) t _ D1) as Lt.
  pose proof (vderiv_const_sub 3 (fun x => S x v) (C t) u _ Pu) as Lu.
  pose proof (vderiv_const_sub 3 (fun x => S u x) (C t) v _ Pv) as Lv.
  destruct (Ef t u v) as (Ef0 & Eg1 & Eg2 & Eg3 & Em). rewrite Em. cbn [m00 m01 m02 m10 m11 m12 m20 m21 m22].
  split. { rewrite Ef0, <- inner_pdot. apply sqnorm_edist. }
  assert (Hhalf : forall (A : R -> vec R 3) a x, vderiv A x a -> derivable_pt_lim (fun x => inner (A x) (A x) / 2) x (inner a (A x))).
  { intros A a x HA. pose proof (inner_deriv 3 A A a a x HA HA) as H. rewrite (inner_comm 3 (A x) a) in H.
    apply (derivable_pt_lim_ext (fun x => (/ 2) * inner (A x) (A x))); [intros y; field|].
    replace (inner a (A x)) with ((/ 2) * (inner a (A x) + inner a (A x))) by field. apply (derivable_pt_lim_scal (fun x => inner (A x) (A x))). exact H. }
  assert (Hneg : forall (A B : R -> vec R 3) a b x, vderiv A x a -> vderiv B x b -> derivable_pt_lim (fun x => - inner (A x) (B x)) x (- (inner a (B x) + inner (A x) b))).
  { intros A B a b x HA HB. apply (derivable_pt_lim_opp (fun x => inner (A x) (B x))). now apply inner_deriv. }
  assert (V0 : forall (b : vec R 3) x, vderiv (fun _ => b) x p0) by (intros; apply vderiv_const').
  assert (Hn : forall a b : vec R 3, inner (psub p0 a) b = - inner a b) by (intros a b; rewrite inner_comm, inner_neg_r, inner_comm; reflexivity).
  split; [|split; [|split]].
  - split; [|split].
    + apply (derivable_pt_lim_ext (fun x => inner (psub (C x) (S u v)) (psub (C x) (S u v)) / 2)); [intros x; destruct (Ef x u v) as (-> & _); reflexivity|].
      rewrite Eg1. apply (Hhalf _ _ _ Lt).
    + apply (derivable_pt_lim_ext (fun x => inner (psub (C t) (S x v)) (psub (C t) (S x v)) / 2)); [intros x; destruct (Ef t x v) as (-> & _); reflexivity|].
      rewrite Eg2, <- Hn. apply (Hhalf _ _ _ Lu).
    + apply (derivable_pt_lim_ext (fun x => inner (psub (C t) (S u x)) (psub (C t) (S u x)) / 2)); [intros x; destruct (Ef t u x) as (-> & _); reflexivity|].
      rewrite Eg3, <- Hn. apply (Hhalf _ _ _ Lv).
  - split; [|split].
    + apply (derivable_pt_lim_ext (fun x => inner (C1 x) (psub (C x) (S u v)))); [intros x; destruct (Ef x u v) as (_ & -> & _); reflexivity|].
      apply (inner_deriv 3 C1 _ _ _ t D2 Lt).
    + apply (derivable_pt_lim_ext (fun x => inner (C1 t) (psub (C t) (S x v)))); [intros x; destruct (Ef t x v) as (_ & -> & _); reflexivity|].
      rewrite <- inner_neg_r. rewrite <- (Rplus_0_l (inner (C1 t) _)), <- (inner_0_l 3 (psub (C t) (S u v))). apply (inner_deriv 3 (fun _ => C1 t) _ _ _ u (V0 _ _) Lu).
    + apply (derivable_pt_lim_ext (fun x => inner (C1 t) (psub (C t) (S u x)))); [intros x; destruct (Ef t u x) as (_ & -> & _); reflexivity|].
      rewrite <- inner_neg_r. rewrite <- (Rplus_0_l (inner (C1 t) _)), <- (inner_0_l 3 (psub (C t) (S u v))). apply (inner_deriv 3 (fun _ => C1 t) _ _ _ v (V0 _ _) Lv).
  - split; [|split].
    + apply (derivable_pt_lim_ext (fun x => - inner (Su u v) (psub (C x) (S u v)))); [intros x; destruct (Ef x u v) as (_ & _ & -> & _); reflexivity|].
      rewrite inner_comm. replace (- inner (Su u v) (C1 t)) with (- (inner p0 (psub (C t) (S u v)) + inner (Su u v) (C1 t))) by (rewrite inner_0_l; ring).
      apply (Hneg (fun _ => Su u v) _ _ _ t (V0 _ _) Lt).
    + apply (derivable_pt_lim_ext (fun x => - inner (Su x v) (psub (C t) (S x v)))); [intros x; destruct (Ef t x v) as (_ & _ & -> & _); reflexivity|].
      rewrite inner_neg_r. replace (- inner (Suu u v) (psub (C t) (S u v)) + inner (Su u v) (Su u v)) with
        (- (inner (Suu u v) (psub (C t) (S u v)) + inner (Su u v) (psub p0 (Su u v)))) by (rewrite inner_neg_r; ring).
      apply (Hneg (fun x => Su x v) _ _ _ u Puu Lu).
    + apply (derivable_pt_lim_ext (fun x => - inner (Su u x) (psub (C t) (S u x)))); [intros x; destruct (Ef t u x) as (_ & _ & -> & _); reflexivity|].
      rewrite inner_neg_r. replace (- inner (Suv u v) (psub (C t) (S u v)) + inner (Su u v) (Sv u v)) with
        (- (inner (Suv u v) (psub (C t) (S u v)) + inner (Su u v) (psub p0 (Sv u v)))) by (rewrite inner_neg_r; ring).
      apply (Hneg (fun x => Su u x) _ _ _ v Puv Lv).
  - split; [|split].
    + apply (derivable_pt_lim_ext (fun x => - inner (Sv u v) (psub (C x) (S u v)))); [intros x; destruct (Ef x u v) as (_ & _ & _ & -> & _); reflexivity|].
      rewrite inner_comm. replace (- inner (Sv u v) (C1 t)) with (- (inner p0 (psub (C t) (S u v)) + inner (Sv u v) (C1 t))) by (rewrite inner_0_l; ring).
      apply (Hneg (fun _ => Sv u v) _ _ _ t (V0 _ _) Lt).
    + apply (derivable_pt_lim_ext (fun x => - inner (Sv x v) (psub (C t) (S x v)))); [intros x; destruct (Ef t x v) as (_ & _ & _ & -> & _); reflexivity|].
      rewrite inner_neg_r, (inner_comm 3 (Su u v)). replace (- inner (Suv u v) (psub (C t) (S u v)) + inner (Sv u v) (Su u v)) with
        (- (inner (Suv u v) (psub (C t) (S u v)) + inner (Sv u v) (psub p0 (Su u v)))) by (rewrite inner_neg_r; ring).
      apply (Hneg (fun x => Sv x v) _ _ _ u Pvu Lu).
    + apply (derivable_pt_lim_ext (fun x => - inner (Sv u x) (psub (C t) (S u x)))); [intros x; destruct (Ef t u x) as (_ & _ & _ & -> & _); reflexivity|].
      rewrite inner_neg_r. replace (- inner (Svv u v) (psub (C t) (S u v)) + inner (Sv u v) (Sv u v)) with
        (- (inner (Svv u v) (psub (C t) (S u v)) + inner (Sv u v) (psub p0 (Sv u v)))) by (rewrite inner_neg_r; ring).
      apply (Hneg (fun x => Sv u x) _ _ _ v Pvv Lv).
Qed.
