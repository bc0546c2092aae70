(** Proofs about Line.h, the degree 1 Bezier and PolynomialRootFinder.h. *)
From Coq Require Import Reals Lra Lia ZArith List Psatz.
From Verif Require Import Monad MonadFacts Scalar ScalarFacts Spec SpecFacts SpecGeom ModelCurve ModelBezier ModelLine ModelRoots CurveFacts CurveThms.
Import ListNotations.
Local Open Scope R_scope.

Lemma Ok_inj {A} (a b : A) : Ok a = Ok b -> a = b.
Proof. congruence. Qed.

(** The squared distance from p to q + t e. *)
Lemma inner_expand d (p q e : vec R d) t :
  edist p (padd q (pmul t e)) ^ 2 = edist p q ^ 2 - 2 * t * inner (psub p q) e + t ^ 2 * inner e e.
Proof.
  rewrite <- !sqnorm_edist. unfold sqnorm. rewrite !inner_pdot. unfold inner.
  rewrite <- !rsum_scal. rewrite <- rsum_minus, <- rsum_plus. apply rsum_ext. intros i Hi.
  rewrite !coord_sub, coord_add, coord_mul by exact Hi. ring.
Qed.
Lemma rsum_term_le n f k : (forall i, (i < n)%nat -> 0 <= f i) -> (k < n)%nat -> f k <= rsum n f.
Proof.
  induction n as [|n IH]; [lia|]. intros H Hk. rewrite rsum_S. pose proof (H n (Nat.lt_succ_diag_r n)).
  assert (Hn : 0 <= rsum n f) by (apply rsum_nonneg; intros; apply H; lia).
  destruct (Nat.eq_dec k n) as [-> | Hne]; [lra|]. assert (f k <= rsum n f) by (apply IH; [intros; apply H; lia|lia]). lra.
Qed.
Lemma inner_pos d (e : vec R d) : 0 <= inner e e.
Proof. apply rsum_nonneg. intros. nra. Qed.

(** Clamping the minimiser of a quadratic. *)
Lemma clamp_quadratic (A B lo hi t x : R) : 0 < A -> lo <= hi -> lo <= x <= hi ->
  let m := B / A in
  t = (if Rlt_dec m lo then lo else if Rlt_dec hi m then hi else m) ->
  lo <= t <= hi /\ - 2 * t * B + t ^ 2 * A <= - 2 * x * B + x ^ 2 * A.
Proof.
  intros HA Hl Hx m ->. assert (EB : B = m * A) by (unfold m; field; lra). clearbody m. subst B.
  destruct (Rlt_dec m lo) as [H|H]; [|destruct (Rlt_dec hi m) as [H'|H']]; split; try lra.
  - assert (0 <= A * ((x - lo) * (x + lo - 2 * m))) by (apply Rmult_le_pos; [lra|apply Rmult_le_pos; lra]). lra.
  - assert (0 <= A * ((hi - x) * (2 * m - x - hi))) by (apply Rmult_le_pos; [lra|apply Rmult_le_pos; lra]). lra.
  - assert (0 <= A * (x - m) ^ 2) by (apply Rmult_le_pos; [lra|apply pow2_ge_0]). lra.
Qed.

Lemma edist_le_sq d (a b c e : vec R d) : edist a b ^ 2 <= edist c e ^ 2 -> edist a b <= edist c e.
Proof. intros H. generalize (edist_pos d a b), (edist_pos d c e). intros. nra. Qed.

Lemma inner_pos_lt d (e : vec R d) : e <> p0 -> 0 < inner e e.
Proof.
  intros Hd. destruct (inner_pos d e) as [H|H]; [exact H|]. exfalso. apply Hd. apply vec_ext. intros i Hi.
  assert (Hle : coord d i e * coord d i e <= inner e e) by (apply (rsum_term_le d (fun i => coord d i e * coord d i e)); [intros; nra|exact Hi]).
  rewrite coord_0 by exact Hi. nra.
Qed.

Lemma line_nearest d (c : line R (vec R d)) p lo hi level : ln_direction c <> p0 -> lo <= hi ->
  exists t, ln_approximate_inverse_evaluate c p lo hi level = Ok t /\ lo <= t <= hi /\
    forall x qt qx, lo <= x <= hi -> ln_evaluate c t = Ok qt -> ln_evaluate c x = Ok qx -> edist p qt <= edist p qx.
Proof.
  intros Hd Hl. set (e := ln_direction c) in *. set (A := inner e e).
  assert (HA : 0 < A) by now apply inner_pos_lt.
  unfold ln_approximate_inverse_evaluate, ddiv. unfold sqnorm. fold e. rewrite !inner_pdot. fold A. cbn [seq_ s0 sdiv slt R_ops].
  rewrite Reqb_false by lra. rewrite bind_Ok. set (B := inner (psub p (ln_location c)) e).
  assert (H : exists t, (if Rltb (B / A) lo then Ok lo else if Rltb hi (B / A) then Ok hi else Ok (B / A)) = Ok t /\
    t = (if Rlt_dec (B / A) lo then lo else if Rlt_dec hi (B / A) then hi else B / A)).
  { unfold Rltb. destruct (Rlt_dec (B / A) lo); [|destruct (Rlt_dec hi (B / A))]; eexists; split; reflexivity. }
  destruct H as (t & E & Et). exists t. split; [exact E|]. split.
  - exact (proj1 (clamp_quadratic A B lo hi t lo HA Hl (conj (Rle_refl _) Hl) Et)).
  - intros x qt qx Hx Eqt Eqx. apply Ok_inj in Eqt, Eqx. subst qt qx.
    apply edist_le_sq. rewrite !inner_expand. fold e A B.
    pose proof (proj2 (clamp_quadratic A B lo hi t x HA Hl Hx Et)). lra.
Qed.

Lemma line_nearest_domain d (c : line R (vec R d)) p : ln_direction c <> p0 -> ln_lower c <= ln_upper c ->
  exists t, ln_inverse_evaluate c p = Ok t /\ ln_in_domain c t = true /\
    forall x qt qx, ln_in_domain c x = true -> ln_evaluate c t = Ok qt -> ln_evaluate c x = Ok qx -> edist p qt <= edist p qx.
Proof.
  intros Hd Hl. destruct (line_nearest d c p _ _ 3 Hd Hl) as (t & E & Ht & Hn). exists t. split; [exact E|].
  assert (Hi : forall x, ln_in_domain c x = true <-> ln_lower c <= x <= ln_upper c).
  { intros x. unfold ln_in_domain. cbn [sle R_ops]. rewrite andb_true_iff. unfold Rleb.
    destruct (Rle_dec (ln_lower c) x), (Rle_dec x (ln_upper c)); split; intros; try lra; intuition congruence. }
  split; [now apply Hi|]. intros x qt qx Hx. apply Hn. now apply Hi.
Qed.

Lemma line_degenerate d (c : line R (vec R d)) p lo hi level : ln_direction c = p0 ->
  ln_approximate_inverse_evaluate c p lo hi level = NonFinite.
Proof.
  intros E. unfold ln_approximate_inverse_evaluate, ddiv, sqnorm. rewrite E, !inner_pdot. cbn [seq_ s0 R_ops].
  rewrite Reqb_true; [reflexivity|]. apply rsum_0. intros i Hi. rewrite coord_0 by exact Hi. ring.
Qed.

(** The degree 1 Bezier. *)
Lemma bz1_nearest d (a b : vec R d) per p : a <> b ->
  let c := {| bz_pts := [a; b]; bz_periodic := per |} in
  exists t, bz1_inverse_evaluate c p = Ok t /\ 0 <= t <= 1 /\
    forall x qt qx, 0 <= x <= 1 -> bz1_evaluate c t = Ok qt -> bz1_evaluate c x = Ok qx -> edist p qt <= edist p qx.
Proof.
  intros Hab c. set (e := psub b a). set (A := inner e e).
  assert (HA : 0 < A).
  { apply inner_pos_lt. intros E. apply Hab. apply vec_ext. intros i Hi. apply (f_equal (coord d i)) in E.
    unfold e in E. rewrite coord_sub, coord_0 in E by exact Hi. lra. }
  assert (Ev : forall t, bz1_evaluate c t = Ok (padd a (pmul t e))).
  { intros t. unfold bz1_evaluate. change (get (bz_pts c) 0) with (Ok a : res (vec R d)). change (get (bz_pts c) 1) with (Ok b : res (vec R d)).
    rewrite !bind_Ok. apply f_equal. apply vec_ext. intros i Hi. unfold e.
    change (coord d i (padd (pmul (1 - t) a) (pmul t b)) = coord d i (padd a (pmul t (psub b a)))).
    rewrite !coord_add, !coord_mul, coord_sub by exact Hi. ring. }
  unfold bz1_inverse_evaluate. change (get (bz_pts c) 0) with (Ok a : res (vec R d)). change (get (bz_pts c) 1) with (Ok b : res (vec R d)).
  rewrite !bind_Ok. fold e. unfold ddiv, sqnorm. rewrite !inner_pdot. fold A. cbn [seq_ s0 s1 sdiv R_ops].
  rewrite Reqb_false by lra. rewrite bind_Ok. set (B := inner (psub p a) e).
  exists (smax (smin (B / A) 1) 0). split; [reflexivity|].
  assert (Et : smax (smin (B / A) 1) 0 = if Rlt_dec (B / A) 0 then 0 else if Rlt_dec 1 (B / A) then 1 else B / A).
  { rewrite smax_R, smin_R. unfold Rmax, Rmin.
    destruct (Rle_dec (B / A) 1), (Rlt_dec (B / A) 0), (Rlt_dec 1 (B / A)); try lra;
    match goal with |- context [Rle_dec ?x ?y] => destruct (Rle_dec x y) end; lra. }
  split.
  - exact (proj1 (clamp_quadratic A B 0 1 _ 0 HA Rle_0_1 (conj (Rle_refl _) Rle_0_1) Et)).
  - intros x qt qx Hx. rewrite !Ev. intros Eqt Eqx. apply Ok_inj in Eqt, Eqx. subst qt qx.
    apply edist_le_sq. rewrite !inner_expand. fold A B.
    pose proof (proj2 (clamp_quadratic A B 0 1 _ x HA Rle_0_1 Hx Et)). lra.
Qed.

(** * PolynomialRootFinder *)
Definition poly2 (c0 c1 c2 x : R) : R := c0 + c1 * x + c2 * x ^ 2.
Lemma push_in_R t0 t1 r l : push_in t0 t1 r l = if Rle_dec t0 r then if Rle_dec r t1 then l ++ [r] else l else l.
Proof. unfold push_in. cbn [sle R_ops]. unfold Rleb. destruct (Rle_dec t0 r), (Rle_dec r t1); reflexivity. Qed.
Lemma In_push x t0 t1 r l : In x (push_in t0 t1 r l) <-> In x l \/ (x = r /\ t0 <= r <= t1).
Proof.
  rewrite push_in_R. destruct (Rle_dec t0 r), (Rle_dec r t1); rewrite ?in_app_iff; cbn [In]; intuition (subst; auto; lra).
Qed.

Lemma roots0 c0 rest t0 t1 eps roots :
  find_roots_0 (c0 :: rest) roots t0 t1 eps = if Rlt_dec (Rabs c0) eps then Throw infinite_root_error else Ok roots.
Proof.
  unfold find_roots_0. cbn [get]. change (get (c0 :: rest) 0) with (Ok c0 : res R). rewrite bind_Ok. rewrite sabs_R.
  cbn [slt R_ops]. unfold Rltb. now destruct (Rlt_dec (Rabs c0) eps).
Qed.
Lemma roots1 c0 c1 rest t0 t1 eps roots : 0 < eps -> eps <= Rabs c1 ->
  exists l, find_roots_1 (c0 :: c1 :: rest) roots t0 t1 eps = Ok (roots ++ l) /\
    (forall x, In x l <-> c0 + c1 * x = 0 /\ t0 <= x <= t1) /\ (length l <= 1)%nat.
Proof.
  intros He H. unfold find_roots_1. change (get (c0 :: c1 :: rest) 0) with (Ok c0 : res R).
  change (get (c0 :: c1 :: rest) 1) with (Ok c1 : res R). rewrite !bind_Ok, sabs_R. cbn [slt R_ops].
  rewrite Rltb_false by lra. unfold ddiv. cbn [seq_ s0 sopp sdiv R_ops].
  assert (H1 : c1 <> 0) by (intros ->; rewrite Rabs_R0 in H; lra). rewrite Reqb_false by exact H1. rewrite bind_Ok, push_in_R.
  assert (Hr : forall x, c0 + c1 * x = 0 <-> x = - c0 / c1).
  { intros x. split; [intros E; field_simplify_eq; [lra|exact H1]|intros ->; field; exact H1]. }
  destruct (Rle_dec t0 (- c0 / c1)) as [Ha|Ha]; [destruct (Rle_dec (- c0 / c1) t1) as [Hb|Hb]|].
  - exists [- c0 / c1]. split; [reflexivity|]. split; [|cbn; lia]. intros x. rewrite Hr. cbn [In]. intuition (subst; auto; lra).
  - exists []. rewrite app_nil_r. split; [reflexivity|]. split; [|cbn; lia]. intros x. rewrite Hr. cbn [In]. intuition (subst; lra).
  - exists []. rewrite app_nil_r. split; [reflexivity|]. split; [|cbn; lia]. intros x. rewrite Hr. cbn [In]. intuition (subst; lra).
Qed.

Lemma quad_roots a b c x : a <> 0 -> 0 <= b * b - 4 * a * c ->
  (poly2 c b a x = 0 <-> x = (- b - sqrt (b * b - 4 * a * c)) / (2 * a) \/ x = (- b + sqrt (b * b - 4 * a * c)) / (2 * a)).
Proof.
  intros Ha HD. set (D := b * b - 4 * a * c) in *. pose proof (sqrt_sqrt D HD) as Hs. set (s := sqrt D) in *.
  assert (E : 4 * a * poly2 c b a x = (2 * a * x + b + s) * (2 * a * x + b - s)).
  { replace ((2 * a * x + b + s) * (2 * a * x + b - s)) with ((2 * a * x + b) * (2 * a * x + b) - s * s) by ring. rewrite Hs. unfold D, poly2. ring. }
  split.
  - intros H. rewrite H, Rmult_0_r in E. symmetry in E. apply Rmult_integral in E. destruct E as [E|E]; [left|right]; field_simplify_eq; lra.
  - intros [-> | ->]; apply Rmult_eq_reg_l with (4 * a); try lra; rewrite E, Rmult_0_r; field; exact Ha.
Qed.
Lemma quad_no_roots a b c x : b * b - 4 * a * c < 0 -> poly2 c b a x <> 0.
Proof. unfold poly2. intros H E. assert (H0 : 4 * a * (c + b * x + a * x ^ 2) = 0) by (rewrite E; ring). pose proof (pow2_ge_0 (2 * a * x + b)). lra. Qed.

(** Degree 2, leading coefficient at least eps, discriminant negative or at least eps. *)
Lemma roots2 c0 c1 c2 rest t0 t1 eps roots : 0 < eps -> eps <= Rabs c2 ->
  (c1 * c1 - 4 * c2 * c0 < 0 \/ c1 * c1 - 4 * c2 * c0 = 0 \/ eps <= c1 * c1 - 4 * c2 * c0) ->
  exists l, find_roots_2 (c0 :: c1 :: c2 :: rest) roots t0 t1 eps = Ok (roots ++ l) /\ NoDup l /\
    forall x, In x l <-> c0 + c1 * x + c2 * x ^ 2 = 0 /\ t0 <= x <= t1.
Proof.
  intros He H HD. unfold find_roots_2. change (get (c0 :: c1 :: c2 :: rest) 0) with (Ok c0 : res R).
  change (get (c0 :: c1 :: c2 :: rest) 1) with (Ok c1 : res R). change (get (c0 :: c1 :: c2 :: rest) 2) with (Ok c2 : res R).
  rewrite !bind_Ok, !sabs_R. cbn [slt R_ops]. rewrite Rltb_false by lra.
  assert (H2 : c2 <> 0) by (intros ->; rewrite Rabs_R0 in H; lra).
  assert (H22 : 2 * c2 <> 0) by lra.
  unfold ddiv. cbn [seq_ s0 ssub smul sofZ sopp sdiv sadd ssqrt R_ops]. cbv zeta.
  set (D := c1 * c1 - 4 * c2 * c0) in *.
  rewrite (Reqb_false (2 * c2) 0) by exact H22.
  destruct HD as [HD|[HD|HD]].
  - rewrite Rltb_true by exact HD. exists []. rewrite app_nil_r. split; [reflexivity|]. split; [constructor|].
    intros x. cbn [In]. split; [tauto|]. intros [E _]. now apply (quad_no_roots c2 c1 c0 x HD).
  - rewrite Rltb_false by lra. rewrite HD, Rabs_R0, Rltb_true by exact He. rewrite bind_Ok, push_in_R.
    assert (Hr : forall x, c0 + c1 * x + c2 * x ^ 2 = 0 <-> x = - c1 / (2 * c2)).
    { intros x. pose proof (quad_roots c2 c1 c0 x H2) as Q. fold D in Q. rewrite HD, sqrt_0 in Q. unfold poly2 in Q.
      rewrite (Q (Rle_refl 0)). rewrite Rminus_0_r, Rplus_0_r. tauto. }
    destruct (Rle_dec t0 (- c1 / (2 * c2))) as [Ha|Ha]; [destruct (Rle_dec (- c1 / (2 * c2)) t1) as [Hb|Hb]|].
    + exists [- c1 / (2 * c2)]. split; [reflexivity|]. split; [constructor; [cbn; tauto|constructor]|].
      intros x. rewrite Hr. cbn [In]. intuition (subst; auto; lra).
    + exists []. rewrite app_nil_r. split; [reflexivity|]. split; [constructor|]. intros x. rewrite Hr. cbn [In]. intuition (subst; lra).
    + exists []. rewrite app_nil_r. split; [reflexivity|]. split; [constructor|]. intros x. rewrite Hr. cbn [In]. intuition (subst; lra).
  - assert (HD0 : 0 <= D) by lra. rewrite Rltb_false by lra. rewrite Rabs_right by lra. rewrite Rltb_false by lra. rewrite !bind_Ok.
    set (s := sqrt D). assert (Hs : 0 < s) by (apply sqrt_lt_R0; lra).
    set (r1 := (- c1 - s) / (2 * c2)). set (r2 := (- c1 + s) / (2 * c2)).
    assert (Hne : r1 <> r2).
    { unfold r1, r2. intros E. assert (E2 : (- c1 - s) / (2 * c2) * (2 * c2) = (- c1 + s) / (2 * c2) * (2 * c2)) by now rewrite E.
      field_simplify in E2; lra. }
    assert (Hr : forall x, c0 + c1 * x + c2 * x ^ 2 = 0 <-> x = r1 \/ x = r2) by (intros x; exact (quad_roots c2 c1 c0 x H2 HD0)).
    rewrite !push_in_R.
    exists ((if Rle_dec t0 r1 then if Rle_dec r1 t1 then [r1] else [] else []) ++ (if Rle_dec t0 r2 then if Rle_dec r2 t1 then [r2] else [] else [])).
    destruct (Rle_dec t0 r1), (Rle_dec r1 t1), (Rle_dec t0 r2), (Rle_dec r2 t1);
      (split; [now rewrite ?app_nil_r, <- ?app_assoc|]);
      (split; [cbn [app]; repeat constructor; cbn [In]; intuition congruence|]);
      intros x; rewrite Hr; cbn [app In]; intuition (subst; auto; lra).
Qed.

(** Falling through to the next lower degree. *)
Lemma roots2_drop c0 c1 c2 rest t0 t1 eps roots : Rabs c2 < eps ->
  find_roots_2 (c0 :: c1 :: c2 :: rest) roots t0 t1 eps = find_roots_1 (c0 :: c1 :: c2 :: rest) roots t0 t1 eps.
Proof.
  intros H. unfold find_roots_2. change (get (c0 :: c1 :: c2 :: rest) 2) with (Ok c2 : res R). rewrite bind_Ok, sabs_R.
  cbn [slt R_ops]. now rewrite Rltb_true by exact H.
Qed.
Lemma roots1_drop c0 c1 rest t0 t1 eps roots : Rabs c1 < eps ->
  find_roots_1 (c0 :: c1 :: rest) roots t0 t1 eps = find_roots_0 (c0 :: c1 :: rest) roots t0 t1 eps.
Proof.
  intros H. unfold find_roots_1. change (get (c0 :: c1 :: rest) 1) with (Ok c1 : res R). rewrite bind_Ok, sabs_R.
  cbn [slt R_ops]. now rewrite Rltb_true by exact H.
Qed.

(** Everything reported, in every case that does not throw, lies in the interval. *)
Lemma fold_companion_in t0 t1 eps vals roots x :
  In x (fold_left (fun acc lam => if slt eps (sabs (ssub (sabs (complex_abs lam)) (sabs (fst lam)))) then acc else push_in t0 t1 (fst lam) acc) vals roots) ->
  In x roots \/ t0 <= x <= t1.
Proof.
  revert roots. induction vals as [|v vals IH]; intros roots H; [now left|]. cbn [fold_left] in H. apply IH in H.
  destruct H as [H|H]; [|now right]. destruct (slt _ _) in H; [now left|]. apply In_push in H. destruct H as [H|[-> H]]; auto.
Qed.
Lemma roots_range eigen n coeffs t0 t1 eps roots l x : find_roots eigen n coeffs roots t0 t1 eps = Ok l ->
  In x l -> In x roots \/ t0 <= x <= t1.
Proof.
  revert coeffs roots l.
  assert (G0 : forall coeffs roots l, find_roots_0 coeffs roots t0 t1 eps = Ok l -> In x l -> In x roots \/ t0 <= x <= t1).
  { intros coeffs roots l E Hx. unfold find_roots_0 in E. apply bind_inv in E. destruct E as (c & _ & E). destruct (slt _ _) in E; [discriminate|].
    injection E as <-. now left. }
  assert (G1 : forall coeffs roots l, find_roots_1 coeffs roots t0 t1 eps = Ok l -> In x l -> In x roots \/ t0 <= x <= t1).
  { intros coeffs roots l E Hx. unfold find_roots_1 in E. apply bind_inv in E. destruct E as (c & _ & E). destruct (slt _ _) in E; [eapply G0; eassumption|].
    apply bind_inv in E. destruct E as (b & _ & E). apply bind_inv in E. destruct E as (r & _ & E). injection E as <-.
    apply In_push in Hx. destruct Hx as [Hx|[-> Hx]]; auto. }
  assert (G2 : forall coeffs roots l, find_roots_2 coeffs roots t0 t1 eps = Ok l -> In x l -> In x roots \/ t0 <= x <= t1).
  { intros coeffs roots l E Hx. unfold find_roots_2 in E. apply bind_inv in E. destruct E as (c & _ & E). destruct (slt _ _) in E; [eapply G1; eassumption|].
    apply bind_inv in E. destruct E as (b & _ & E). apply bind_inv in E. destruct E as (a & _ & E). cbv zeta in E.
    destruct (slt _ s0) in E; [injection E as <-; now left|]. destruct (slt _ eps) in E.
    - apply bind_inv in E. destruct E as (r & _ & E). injection E as <-. apply In_push in Hx. destruct Hx as [Hx|[-> Hx]]; auto.
    - apply bind_inv in E. destruct E as (r & _ & E). apply bind_inv in E. destruct E as (r' & _ & E). injection E as <-.
      apply In_push in Hx. destruct Hx as [Hx|[-> Hx]]; auto. apply In_push in Hx. destruct Hx as [Hx|[-> Hx]]; auto. }
  induction n as [|n IH]; intros coeffs roots l E Hx; [exact (G0 _ _ _ E Hx)|].
  destruct n as [|[|n]]; [exact (G1 _ _ _ E Hx)|exact (G2 _ _ _ E Hx)|].
  change (find_roots eigen (S (S (S n))) coeffs roots t0 t1 eps) with
    (do a <- get coeffs (Z.of_nat (S (S (S n)))); do _ <- assert_ (slt t0 t1);
     if slt (sabs a) eps then find_roots eigen (S (S n)) coeffs roots t0 t1 eps
     else find_roots_companion eigen (Z.of_nat (S (S (S n)))) coeffs roots t0 t1 eps) in E.
  apply bind_inv in E. destruct E as (a & _ & E). apply bind_inv in E. destruct E as (? & _ & E). destruct (slt _ _) in E; [exact (IH _ _ _ E Hx)|].
  unfold find_roots_companion in E. apply bind_inv in E. destruct E as (m & _ & E). apply bind_inv in E. destruct E as (vals & _ & E). injection E as <-.
  exact (fold_companion_in _ _ _ _ _ _ Hx).
Qed.

(** Roots closer than the threshold on the discriminant are merged into a point that is not a root. *)
Lemma roots2_merge : exists c0 c1 c2, Rabs c2 >= 1 / 10 ^ 8 /\
  find_roots_2 [c0; c1; c2] [] (-1) 1 (1 / 10 ^ 8) = Ok [0] /\ c0 + c1 * 0 + c2 * 0 ^ 2 <> 0.
Proof.
  exists (- (1 / (5 * 10 ^ 9))), 0, 1. split; [rewrite Rabs_R1; lra|]. split; [|lra].
  unfold find_roots_2. change (get [- (1 / (5 * 10 ^ 9)); 0; 1] 0) with (Ok (- (1 / (5 * 10 ^ 9))) : res R).
  change (get [- (1 / (5 * 10 ^ 9)); 0; 1] 1) with (Ok 0 : res R). change (get [- (1 / (5 * 10 ^ 9)); 0; 1] 2) with (Ok 1 : res R).
  rewrite !bind_Ok, !sabs_R. cbn [slt R_ops]. rewrite Rabs_R1, Rltb_false by lra. cbv zeta. cbn [ssub smul sofZ s0 R_ops].
  rewrite Rltb_false by lra. rewrite Rabs_right by lra. rewrite Rltb_true by lra. unfold ddiv. cbn [seq_ s0 sopp sdiv R_ops].
  rewrite Reqb_false by lra. rewrite bind_Ok, push_in_R. replace (- 0 / (2 * 1)) with 0 by field.
  destruct (Rle_dec (-1) 0); [|lra]. destruct (Rle_dec 0 1); [reflexivity|lra].
Qed.
