(** Property theorems: Bezier curves (C01-C12, C56).  Statements only; proofs are in BezierThms.v.
    [vec R d] are the points of dimension [d]; [mk_bezier pts] is a curve object holding the control
    points [pts] with the periodic flag off; [Ok] means: returns normally with that value. *)
From Coq Require Import Reals Lra Lia ZArith QArith List.
From Verif Require Import Monad Scalar Spec ModelCurve ModelBezier BezierThms BezierThms2.
Import ListNotations.
Local Open Scope R_scope.

(** Points of the plane, for examples. *)
Notation pt x y := ((x, (y, tt)) : vec R 2).
Notation qt x y := ((x%Q, (y%Q, tt)) : vec Q 2).

(** C01: evaluate is the Bernstein sum, for every degree, dimension and real parameter. *)
Theorem C01_bezier_evaluate : forall d (pts : list (vec R d)) t,
  pts <> [] -> bz_evaluate (mk_bezier pts) t = Ok (bernstein_curve pts t).
Proof. exact bezier_bernstein. Qed.
Print Assumptions C01_bezier_evaluate.

Example C01_hyp : [pt 0 0; pt 1 2; pt 3 1] <> [].
Proof. discriminate. Qed.
(** The same model code run on rationals. *)
Example C01_run : bz_evaluate (mk_bezier [qt 0 0; qt 1 2; qt 3 1]) (1#2)%Q = Ok (qt (5#4)%Q (5#4)%Q).
Proof. vm_compute. reflexivity. Qed.

(** C02: end points. *)
Theorem C02_bezier_endpoints : forall d (pts : list (vec R d)), pts <> [] ->
  bz_evaluate (mk_bezier pts) 0 = Ok (hd p0 pts) /\ bz_evaluate (mk_bezier pts) 1 = Ok (last pts p0).
Proof. exact bezier_endpoints. Qed.
Print Assumptions C02_bezier_endpoints.

Example C02_run : bz_evaluate (mk_bezier [qt 0 0; qt 1 2; qt 3 1]) 0%Q = Ok (qt 0 0)%Q /\
  bz_evaluate (mk_bezier [qt 0 0; qt 1 2; qt 3 1]) 1%Q = Ok (qt 3 1)%Q.
Proof. vm_compute. split; reflexivity. Qed.

(** C03 (Bezier part): affine maps, possibly between different dimensions. *)
Theorem C03_bezier_affine : forall d d' (f : vec R d -> vec R d') (pts : list (vec R d)) t,
  (forall x a b, f (padd (pmul (1 - x) a) (pmul x b)) = padd (pmul (1 - x) (f a)) (pmul x (f b))) ->
  pts <> [] ->
  exists q, bz_evaluate (mk_bezier pts) t = Ok q /\ bz_evaluate (mk_bezier (map f pts)) t = Ok (f q).
Proof. exact bezier_affine. Qed.
Print Assumptions C03_bezier_affine.

(** A shear plus translation is such a map. *)
Example C03_hyp : let f := fun a : vec R 2 => pt (fst a + 2 * fst (snd a) + 5) (fst (snd a) - 1) in
  forall x a b, f (padd (pmul (1 - x) a) (pmul x b)) = padd (pmul (1 - x) (f a)) (pmul x (f b)).
Proof. intros f x [a1 [a2 []]] [b1 [b2 []]]. unfold f. cbn. apply f_equal2; [ring|]. apply f_equal2; [ring|reflexivity]. Qed.

(** C04 (Bezier part): convex hull. *)
Theorem C04_bezier_convex_hull : forall d (pts : list (vec R d)) t,
  pts <> [] -> 0 <= t <= 1 ->
  exists q, bz_evaluate (mk_bezier pts) t = Ok q /\ convex_comb pts q.
Proof. exact bezier_convex. Qed.
Print Assumptions C04_bezier_convex_hull.

Example C04_hyp : [pt 0 0; pt 1 2; pt 3 1] <> [] /\ 0 <= 1 / 3 <= 1.
Proof. split; [discriminate|lra]. Qed.

(** C05: the hand written classes of degree 0..3 agree with the generic class. *)
Theorem C05_degree0 : forall d (pts : list (vec R d)) t, length pts = 1%nat ->
  bz0_evaluate (mk_bezier pts) t = bz_evaluate (mk_bezier pts) t /\
  bz0_evaluate_derivative (mk_bezier pts) t = bz_evaluate_derivative (mk_bezier pts) t /\
  bz0_evaluate_2nd_derivative (mk_bezier pts) t = bz_evaluate_2nd_derivative (mk_bezier pts) t /\
  bz0_elevate_degree (mk_bezier pts) = bz_elevate_degree (mk_bezier pts).
Proof. exact bezier_deg0. Qed.
Print Assumptions C05_degree0.

Theorem C05_degree1 : forall d (pts : list (vec R d)) t, length pts = 2%nat ->
  bz1_evaluate (mk_bezier pts) t = bz_evaluate (mk_bezier pts) t /\
  bz1_evaluate_derivative (mk_bezier pts) t = bz_evaluate_derivative (mk_bezier pts) t /\
  bz1_evaluate_2nd_derivative (mk_bezier pts) t = bz_evaluate_2nd_derivative (mk_bezier pts) t /\
  bz1_split (mk_bezier pts) t = bz_split (mk_bezier pts) t.
Proof. exact bezier_deg1. Qed.
Print Assumptions C05_degree1.

Theorem C05_degree2 : forall d (pts : list (vec R d)) t, length pts = 3%nat ->
  bz2_evaluate (mk_bezier pts) t = bz_evaluate (mk_bezier pts) t /\
  bz2_evaluate_derivative (mk_bezier pts) t = bz_evaluate_derivative (mk_bezier pts) t /\
  bz2_evaluate_2nd_derivative (mk_bezier pts) t = bz_evaluate_2nd_derivative (mk_bezier pts) t /\
  bz2_split (mk_bezier pts) t = bz_split (mk_bezier pts) t.
Proof. exact bezier_deg2. Qed.
Print Assumptions C05_degree2.

Theorem C05_degree3 : forall d (pts : list (vec R d)) t, length pts = 4%nat ->
  bz3_evaluate (mk_bezier pts) t = bz_evaluate (mk_bezier pts) t /\
  bz3_evaluate_derivative (mk_bezier pts) t = bz_evaluate_derivative (mk_bezier pts) t /\
  bz3_evaluate_2nd_derivative (mk_bezier pts) t = bz_evaluate_2nd_derivative (mk_bezier pts) t /\
  bz3_split (mk_bezier pts) t = bz_split (mk_bezier pts) t.
Proof. exact bezier_deg3. Qed.
Print Assumptions C05_degree3.

Example C05_hyp : length [pt 0 0; pt 1 2; pt 3 1; pt 4 4] = 4%nat.
Proof. reflexivity. Qed.
Example C05_run :
  bz3_evaluate_2nd_derivative (mk_bezier [qt 0 0; qt 1 2; qt 3 1; qt 4 4]) (1#3)%Q
  = bz_evaluate_2nd_derivative (mk_bezier [qt 0 0; qt 1 2; qt 3 1; qt 4 4]) (1#3)%Q.
Proof. vm_compute. reflexivity. Qed.

(** C06: derivatives of every degree (including 0 and 1), at every real parameter. *)
Theorem C06_bezier_derivatives : forall d (pts : list (vec R d)), pts <> [] ->
  exists f f' f'' : R -> vec R d,
    (forall t, bz_evaluate (mk_bezier pts) t = Ok (f t)) /\
    (forall t, bz_evaluate_derivative (mk_bezier pts) t = Ok (f' t)) /\
    (forall t, bz_evaluate_2nd_derivative (mk_bezier pts) t = Ok (f'' t)) /\
    (forall t, vderiv f t (f' t)) /\ (forall t, vderiv f' t (f'' t)).
Proof. exact bezier_derivatives. Qed.
Print Assumptions C06_bezier_derivatives.

Example C06_run :
  bz_evaluate_derivative (mk_bezier [qt 0 0; qt 1 2; qt 3 1]) (1#2)%Q = Ok (qt 3 1)%Q /\
  bz_evaluate_2nd_derivative (mk_bezier [qt 0 0; qt 1 2; qt 3 1]) (1#2)%Q = Ok (qt 2 (-6))%Q.
Proof. vm_compute. split; reflexivity. Qed.

(** C07: splitting (member function; by C05 also of the specialised classes of degree 1..3). *)
Theorem C07_bezier_split : forall d (pts : list (vec R d)) t, pts <> [] -> 0 < t < 1 ->
  exists l r : list (vec R d),
    bz_split (mk_bezier pts) t = Ok [mk_bezier l; mk_bezier r] /\
    length l = length pts /\ length r = length pts /\
    forall s, bz_evaluate (mk_bezier l) s = bz_evaluate (mk_bezier pts) (t * s) /\
              bz_evaluate (mk_bezier r) s = bz_evaluate (mk_bezier pts) (t + (1 - t) * s).
Proof. exact bezier_split_eval. Qed.
Print Assumptions C07_bezier_split.

Theorem C07_bezier_split_outside : forall d (c : bezier (vec R d)) t,
  t <= 0 \/ 1 <= t -> bz_split c t = Ok [c].
Proof. exact bezier_split_trivial. Qed.
Print Assumptions C07_bezier_split_outside.

(** The free function split(curve, t): inside the domain it returns the pieces, at the two ends the
    curve itself, and beyond the tolerance of in_domain it throws. *)
Theorem C07_free_split : forall d (pts : list (vec R d)) t, pts <> [] ->
  (0 < t < 1 -> split_bezier bz_split (mk_bezier pts) t = bz_split (mk_bezier pts) t) /\
  (t = 0 \/ t = 1 -> split_bezier bz_split (mk_bezier pts) t = Ok [mk_bezier pts]) /\
  (t < - / IZR (2 ^ 52) \/ 1 + / IZR (2 ^ 52) < t ->
     split_bezier bz_split (mk_bezier pts) t = Throw invalid_setting_error).
Proof. exact free_split. Qed.
Print Assumptions C07_free_split.

Example C07_hyp : [pt 0 0; pt 1 2; pt 3 1] <> [] /\ 0 < 1 / 3 < 1.
Proof. split; [discriminate|lra]. Qed.
Example C07_run : bz_split (mk_bezier [qt 0 0; qt 1 2; qt 3 1]) (1#2)%Q =
  Ok [mk_bezier [qt 0 0; qt (1#2) 1; qt (5#4) (5#4)]; mk_bezier [qt (5#4) (5#4); qt 2 (3#2); qt 3 1]]%Q.
Proof. vm_compute. reflexivity. Qed.

(** C08: generic subcurve. *)
Theorem C08_bezier_subcurve : forall d (pts : list (vec R d)) t0 t1,
  pts <> [] -> 0 <= t0 <= t1 -> t1 <= 1 ->
  exists l : list (vec R d),
    bz_subcurve (mk_bezier pts) t0 t1 = Ok (mk_bezier l) /\ length l = length pts /\
    forall s, bz_evaluate (mk_bezier l) s = bz_evaluate (mk_bezier pts) (t0 + s * (t1 - t0)).
Proof. exact bezier_subcurve_eval. Qed.
Print Assumptions C08_bezier_subcurve.

Theorem C08_bezier_subcurve_throws : forall d (c : bezier (vec R d)) t0 t1,
  t1 < t0 \/ t0 < 0 \/ 1 < t1 -> bz_subcurve c t0 t1 = Throw invalid_setting_error.
Proof. exact bezier_subcurve_throws. Qed.
Print Assumptions C08_bezier_subcurve_throws.

Example C08_hyp : [pt 0 0; pt 1 2; pt 3 1] <> [] /\ 0 <= 1 / 4 <= 1 / 2 /\ 1 / 2 <= 1.
Proof. split; [discriminate|lra]. Qed.
Example C08_run : bz_subcurve (mk_bezier [qt 0 0; qt 1 2; qt 3 1]) (1#4)%Q (1#2)%Q =
  Ok (mk_bezier [qt (9#16) (13#16); qt (7#8) (9#8); qt (5#4) (5#4)])%Q.
Proof. vm_compute. reflexivity. Qed.

(** C09: the specialised cubic class.  False in general: *)
Theorem C09_cubic_subcurve_refuted :
  exists (pts : list (vec R 1)) t0 t1 s, length pts = 4%nat /\ 0 <= t0 <= t1 /\ t1 <= 1 /\ 0 <= s <= 1 /\
    exists sub, bz3_subcurve (mk_bezier pts) t0 t1 = Ok sub /\
      bz3_evaluate sub s <> bz3_evaluate (mk_bezier pts) (t0 + s * (t1 - t0)).
Proof. exact cubic_subcurve_wrong. Qed.
Print Assumptions C09_cubic_subcurve_refuted.

(** ... and for an empty range it reads past the end of a vector (right end) or returns the whole
    curve (left end): *)
Theorem C09_cubic_subcurve_empty_refuted : forall d (pts : list (vec R d)), length pts = 4%nat ->
  bz3_subcurve (mk_bezier pts) 1 1 = Undef /\ bz3_subcurve (mk_bezier pts) 0 0 = Ok (mk_bezier pts).
Proof. exact cubic_subcurve_ub. Qed.
Print Assumptions C09_cubic_subcurve_empty_refuted.

(** What the code computes instead for two interior parameters, for every curve: *)
Theorem C09_cubic_subcurve_actual : forall d (pts : list (vec R d)) t0 t1,
  length pts = 4%nat -> 0 < t0 < 1 -> t0 <= t1 < 1 ->
  exists l, bz3_subcurve (mk_bezier pts) t0 t1 = Ok (mk_bezier l) /\ length l = 4%nat /\
    forall s, bz_evaluate (mk_bezier l) s = bz_evaluate (mk_bezier pts) (t0 + (1 - t0) * (t1 * s)).
Proof. exact bezier3_subcurve_value_eval. Qed.
Print Assumptions C09_cubic_subcurve_actual.

(** It is right when the range touches an end of the domain.  Missing: both parameters interior. *)
Theorem C09_cubic_subcurve_partial : forall d (pts : list (vec R d)) t0 t1, length pts = 4%nat ->
  (t0 = 0 /\ 0 < t1 <= 1) \/ (0 <= t0 < 1 /\ t1 = 1) ->
  exists l, bz3_subcurve (mk_bezier pts) t0 t1 = Ok (mk_bezier l) /\ length l = 4%nat /\
    forall s, bz_evaluate (mk_bezier l) s = bz_evaluate (mk_bezier pts) (t0 + s * (t1 - t0)).
Proof. exact bezier3_subcurve_ends_eval. Qed.
Print Assumptions C09_cubic_subcurve_partial.

(** C10: degree elevation, any number [k] of times ([repeat_res k f] runs [f] k times). *)
Theorem C10_bezier_elevate : forall d k (pts : list (vec R d)), pts <> [] ->
  exists l, repeat_res k bz_elevate_degree (mk_bezier pts) = Ok (mk_bezier l) /\
    length l = (k + length pts)%nat /\
    forall t, bz_evaluate (mk_bezier l) t = bz_evaluate (mk_bezier pts) t.
Proof. exact bezier_elevate_eval. Qed.
Print Assumptions C10_bezier_elevate.

(** The specialised classes elevate to the same control points (any periodic flag). *)
Theorem C10_elevate_specialised : forall d (c : bezier (vec R d)),
  (length (bz_pts c) = 1%nat -> bz0_elevate_degree c = bz_elevate_degree c) /\
  (length (bz_pts c) = 2%nat -> bz1_elevate_degree c = bz_elevate_degree c) /\
  (length (bz_pts c) = 3%nat -> bz2_elevate_degree c = bz_elevate_degree c) /\
  (length (bz_pts c) = 4%nat -> bz3_elevate_degree c = bz_elevate_degree c).
Proof. exact elevate_specialised. Qed.
Print Assumptions C10_elevate_specialised.

Example C10_run : repeat_res 2 bz_elevate_degree (mk_bezier [qt 0 0; qt 3 6]) =
  Ok (mk_bezier [qt 0 0; qt 1 2; qt 2 4; qt 3 6])%Q.
Proof. vm_compute. reflexivity. Qed.

(** C11 (Bezier part): periodic curves, generic class and degrees 2 and 3. *)
Theorem C11_bezier_periodic_value : forall d (pts : list (vec R d)) t,
  let c := {| bz_pts := pts; bz_periodic := true |} in
  exists (u : R) (k : Z), u = t - IZR k /\ 0 <= u < 1 /\
    bz_evaluate c t = bz_evaluate (mk_bezier pts) u /\
    bz_evaluate_derivative c t = bz_evaluate_derivative (mk_bezier pts) u /\
    bz_evaluate_2nd_derivative c t = bz_evaluate_2nd_derivative (mk_bezier pts) u /\
    bz2_evaluate c t = bz2_evaluate (mk_bezier pts) u /\
    bz2_evaluate_derivative c t = bz2_evaluate_derivative (mk_bezier pts) u /\
    bz2_evaluate_2nd_derivative c t = bz2_evaluate_2nd_derivative (mk_bezier pts) u /\
    bz3_evaluate c t = bz3_evaluate (mk_bezier pts) u /\
    bz3_evaluate_derivative c t = bz3_evaluate_derivative (mk_bezier pts) u /\
    bz3_evaluate_2nd_derivative c t = bz3_evaluate_2nd_derivative (mk_bezier pts) u.
Proof. exact bezier_periodic. Qed.
Print Assumptions C11_bezier_periodic_value.

Theorem C11_bezier_periodic_shift : forall d (pts : list (vec R d)) t (m : Z),
  let c := {| bz_pts := pts; bz_periodic := true |} in
  bz_evaluate c (t + IZR m) = bz_evaluate c t /\
  bz_evaluate_derivative c (t + IZR m) = bz_evaluate_derivative c t /\
  bz_evaluate_2nd_derivative c (t + IZR m) = bz_evaluate_2nd_derivative c t.
Proof. exact bezier_periodic_shift. Qed.
Print Assumptions C11_bezier_periodic_shift.

Example C11_run : let c := {| bz_pts := [qt 0 0; qt 1 2; qt 0 0]; bz_periodic := true |} in
  bz_evaluate c (-(7#4))%Q = bz_evaluate c (1#4)%Q /\ bz_evaluate c (1#4)%Q = Ok (qt (3#8) (3#4))%Q.
Proof. vm_compute. split; reflexivity. Qed.

(** The degree 1 class ignores the flag. *)
Theorem C11_linear_periodic_refuted :
  exists (pts : list (vec R 1)) t, length pts = 2%nat /\
    let c := {| bz_pts := pts; bz_periodic := true |} in
    bz1_evaluate c (t + 1) <> bz1_evaluate c t.
Proof. exact linear_not_periodic. Qed.
Print Assumptions C11_linear_periodic_refuted.

(** C12 (Bezier part): hodograph.  For periodic curves inside the fundamental domain. *)
Theorem C12_bezier_hodograph : forall d (c : bezier (vec R d)), bz_pts c <> [] ->
  exists h, bz_hodograph c = Ok h /\
    length (bz_pts h) = Nat.max 1 (length (bz_pts c) - 1) /\
    (bz_periodic c = false -> bz_periodic h = false) /\
    forall t, (bz_periodic c = false \/ 0 <= t < 1) -> bz_evaluate h t = bz_evaluate_derivative c t.
Proof. exact bezier_hodograph. Qed.
Print Assumptions C12_bezier_hodograph.

Example C12_run : bz_hodograph (mk_bezier [qt 0 0; qt 1 2; qt 3 1]) = Ok (mk_bezier [qt 2 4; qt 4 (-2)])%Q.
Proof. vm_compute. reflexivity. Qed.

(** C56: split(curve, t) is not total: in the band in_domain tolerates before 0 it reads past the end
    of the vector returned by the member function. *)
Theorem C56_free_split_ub_refuted : forall d (pts : list (vec R d)) t,
  - / IZR (2 ^ 52) <= t < 0 \/ 1 < t <= 1 + / IZR (2 ^ 52) ->
  split_bezier bz_split (mk_bezier pts) t = Undef.
Proof. exact free_split_ub. Qed.
Print Assumptions C56_free_split_ub_refuted.

Example C56_hyp : - / IZR (2 ^ 52) <= - / IZR (2 ^ 53) < 0.
Proof. exact eps_band. Qed.
