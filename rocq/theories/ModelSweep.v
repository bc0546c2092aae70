(** ExtrusionPatch.h, RevolutionPatch.h, OffsetPatch.h.

    The profile curve (base surface) is any curve (patch): its virtual functions, its approximate_inverse_evaluate
    (inverse_evaluate) and its periodic flags.  A null pointer is [None]. *)
From Coq Require Import QArith.
From Verif Require Import Monad Scalar ModelCurve ModelPatchBase ModelPrimitive.
Local Open Scope Z_scope.

Section Sweep.
  Context {T P : Type} {SO : ScalarOps T} {TO : TrigOps T} {V : PointOps T P}.
  Local Open Scope scal_scope.

  (** What the swept surfaces use of a CurveBase. *)
  Record profile := {
    pr_ops : curve_ops T P;
    pr_inverse : P -> T -> T -> res T;    (* approximate_inverse_evaluate(p, lower, upper) *)
    pr_periodic : bool;                   (* get_periodic() *)
  }.
  (** ExtrusionPatch.h:209-214, RevolutionPatch.h:265-270 assert_valid_profile, OffsetPatch.h:257-262 assert_valid_base_surface *)
  Definition not_null {A} (x : option A) : res A := match x with Some a => Ok a | None => Throw invalid_setting_error end.

  (** ExtrusionPatch.h:138-143, RevolutionPatch.h:195-200: periodicity in the direction of the profile *)
  Definition profile_flag (pr : profile) (lower upper : T) : res bool :=
    if pr_periodic pr then
      do a <- c_eval (pr_ops pr) lower;
      do b <- c_eval (pr_ops pr) upper;
      Ok (sqnorm (b - a)%P <? prim_tol)
    else Ok false.

  (** ** ExtrusionPatch.h:217-223 members *)
  Record extrusion := { ex_location : P; ex_direction : P; ex_profile : option profile; ex_bounds : bounds4 T;
    ex_periodic_u : bool; ex_periodic_v : bool }.

  (** ExtrusionPatch.h:65-70 evaluate *)
  Definition ex_evaluate (c : extrusion) (u v : T) : res P :=
    do pr <- not_null (ex_profile c);
    do p <- c_eval (pr_ops pr) u;
    Ok (ex_location c + p + v *: ex_direction c)%P.
  (** ExtrusionPatch.h:72-100 derivatives *)
  Definition ex_du (c : extrusion) (u v : T) : res P := do pr <- not_null (ex_profile c); c_d1 (pr_ops pr) u.
  Definition ex_dv (c : extrusion) (u v : T) : res P := do pr <- not_null (ex_profile c); Ok (ex_direction c).
  Definition ex_duu (c : extrusion) (u v : T) : res P := do pr <- not_null (ex_profile c); c_d2 (pr_ops pr) u.
  Definition ex_dvv (c : extrusion) (u v : T) : res P := do pr <- not_null (ex_profile c); Ok p0.
  Definition ex_duv (c : extrusion) (u v : T) : res P := do pr <- not_null (ex_profile c); Ok p0.
  (** ExtrusionPatch.h:116-118: the body of the loop, from prev_v to the new (u, v) *)
  Definition ex_step (c : extrusion) (pr : profile) (p : P) (min_u max_u prev_v : T) : res (T * T) :=
    do u <- pr_inverse pr (p - ex_location c - prev_v *: ex_direction c)%P min_u max_u;
    do q <- c_eval (pr_ops pr) u;
    Ok (u, pdot (p - q)%P (ex_direction c)).
  (** ExtrusionPatch.h:112-120: do ... while (|v - prev_v| > 1e-6 and count < 20); [n] iterations are left *)
  Fixpoint ex_loop (n : nat) (c : extrusion) (pr : profile) (p : P) (min_u max_u prev_v : T) : res (T * T) :=
    do '(u, v) <- ex_step c pr p min_u max_u prev_v;
    match n with
    | O => Ok (u, v)
    | S n => if sofQ (1 # 1000000) <? sabs (v - prev_v) then ex_loop n c pr p min_u max_u v else Ok (u, v)
    end.
  (** ExtrusionPatch.h:102-127 inverse_evaluate *)
  Definition ex_inverse_evaluate (c : extrusion) (p : P) (min_u max_u min_v max_v : T) : res ((T * T) * bool) :=
    do pr <- not_null (ex_profile c);
    do '(u, v) <- ex_loop 19 c pr p min_u max_u min_v;
    let v := smin max_v (smax min_v v) in
    do _ <- assert_ ((min_u <=? u) && (u <=? max_u));
    do _ <- assert_ ((min_v <=? v) && (v <=? max_v));
    Ok ((u, v), true).
  (** ExtrusionPatch.h:129-146 initialize *)
  Definition ex_initialize (c : extrusion) : res extrusion :=
    do pr <- not_null (ex_profile c);
    do _ <- assert_ (sabs (sqnorm (ex_direction c) - s1) <? prim_tol);
    do _ <- assert_ (b_ulo (ex_bounds c) <=? b_uhi (ex_bounds c));
    do _ <- assert_ (b_vlo (ex_bounds c) <=? b_vhi (ex_bounds c));
    do per <- profile_flag pr (b_ulo (ex_bounds c)) (b_uhi (ex_bounds c));
    Ok {| ex_location := ex_location c; ex_direction := ex_direction c; ex_profile := ex_profile c; ex_bounds := ex_bounds c;
          ex_periodic_u := per; ex_periodic_v := false |}.
End Sweep.
Arguments profile : clear implicits.
Arguments extrusion : clear implicits.

(** RevolutionPatch and OffsetPatch are for dimension 3 (RevolutionPatch.h:12, OffsetPatch.h:13). *)
Section Sweep3.
  Context {T : Type} {SO : ScalarOps T} {TO : TrigOps T}.
  Local Open Scope scal_scope.
  Notation P := (vec T 3).

  (** Eigen's cross product *)
  Definition cross3 (a b : P) : P :=
    let '(a0, (a1, (a2, _))) := a in
    let '(b0, (b1, (b2, _))) := b in
    (a1 * b2 - a2 * b1, (a2 * b0 - a0 * b2, (a0 * b1 - a1 * b0, tt))).
  (** Eigen's normalized(): the zero vector is returned unchanged *)
  Definition normalized3 (a : P) : P :=
    let z := sqnorm a in
    if s0 <? z then ((s1 / ssqrt z) *: a)%P else a.
  (** Eigen's AngleAxis(u, axis) applied to a vector (its rotation matrix times the vector) *)
  Definition rotate3 (u : T) (a x : P) : P :=
    (scos u *: x + ssin u *: cross3 a x + ((s1 - scos u) * pdot a x)%S *: a)%P.

  (** ** RevolutionPatch.h:273-279 members *)
  Record revolution := { re_location : P; re_axis : P; re_profile : option (profile T P); re_bounds : bounds4 T;
    re_periodic_u : bool; re_periodic_v : bool }.

  (** RevolutionPatch.h:64-70 evaluate *)
  Definition re_evaluate (c : revolution) (u v : T) : res P :=
    do pr <- not_null (re_profile c);
    do p <- c_eval (pr_ops pr) v;
    Ok (re_location c + rotate3 u (re_axis c) (p - re_location c))%P.
  (** RevolutionPatch.h:72-84 evaluate_derivative_u *)
  Definition re_du (c : revolution) (u v : T) : res P :=
    do p <- re_evaluate c u v;
    let s := (p - re_location c)%P in
    let d := cross3 (re_axis c) s in
    if prim_tol <? pnorm d then
      let r := pnorm (s - pdot s (re_axis c) *: re_axis c)%P in
      Ok (r *: normalized3 d)%P
    else Ok d.
  (** RevolutionPatch.h:86-92 evaluate_derivative_v *)
  Definition re_dv (c : revolution) (u v : T) : res P :=
    do pr <- not_null (re_profile c);
    do d <- c_d1 (pr_ops pr) v;
    Ok (rotate3 u (re_axis c) d).
  (** RevolutionPatch.h:94-100 evaluate_2nd_derivative_uu *)
  Definition re_duu (c : revolution) (u v : T) : res P :=
    do p <- re_evaluate c u v;
    let d := (p - re_location c)%P in
    Ok (- s1 *: d + pdot d (re_axis c) *: re_axis c)%P.
  (** RevolutionPatch.h:102-108 evaluate_2nd_derivative_vv *)
  Definition re_dvv (c : revolution) (u v : T) : res P :=
    do pr <- not_null (re_profile c);
    do d <- c_d2 (pr_ops pr) v;
    Ok (rotate3 u (re_axis c) d).
  (** RevolutionPatch.h:110-122 evaluate_2nd_derivative_uv *)
  Definition re_duv (c : revolution) (u v : T) : res P :=
    do dv <- re_dv c u v;
    let duv := cross3 (re_axis c) dv in
    if prim_tol <? pnorm duv then
      let r := pnorm (duv - pdot duv (re_axis c) *: re_axis c)%P in
      Ok (r *: normalized3 duv)%P
    else Ok duv.
  Definition re_ops (c : revolution) : patch_ops T P :=
    {| s_ulo := b_ulo (re_bounds c); s_uhi := b_uhi (re_bounds c); s_vlo := b_vlo (re_bounds c); s_vhi := b_vhi (re_bounds c);
       s_eval := re_evaluate c; s_du := re_du c; s_dv := re_dv c; s_duu := re_duu c; s_dvv := re_dvv c; s_duv := re_duv c |}.
  (** RevolutionPatch.h:135-142: the mean of ten points of the profile *)
  Definition re_pivot (c : revolution) (min_v max_v : T) : res P :=
    do q <- for_up 0 10 (fun i q =>
              do t <- ddiv (sofZ i) (sofZ 9);
              do e <- re_evaluate c s0 (min_v * (s1 - t) + max_v * t);
              Ok (q + e)%P) p0;
    pdivs q (sofZ 10).
  (** RevolutionPatch.h:147-171: the body of the loop, from the pivot to (u, v) and the new pivot *)
  Definition re_step (c : revolution) (pr : profile T P) (p : P) (min_u max_u min_v max_v : T) (q : P) : res (T * T * P) :=
    let d1 := (q - re_location c)%P in
    let d1 := (d1 - pdot d1 (re_axis c) *: re_axis c)%P in
    let d2 := cross3 (re_axis c) d1 in
    let d1 := normalized3 d1 in
    let d2 := normalized3 d2 in
    let x := pdot (p - re_location c)%P d1 in
    let y := pdot (p - re_location c)%P d2 in
    do u <- clip_periodic_parameter (satan2 y x) min_u max_u (sofZ 2 * spi);
    let p2 := (re_location c + rotate3 (- u) (re_axis c) (p - re_location c))%P in
    do v <- pr_inverse pr p2 min_v max_v;
    do q2 <- re_evaluate c s0 v;
    Ok (u, v, q2).
  (** RevolutionPatch.h:146-172 do ... while (delta > TOL), on explicit fuel *)
  Fixpoint re_loop (fuel : nat) (c : revolution) (pr : profile T P) (p : P) (min_u max_u min_v max_v : T) (q : P) : res (T * T) :=
    match fuel with
    | O => Undef
    | S fuel =>
        do '(u, v, q2) <- re_step c pr p min_u max_u min_v max_v q;
        if seps * sofZ 100 <? sqnorm (q - q2)%P then re_loop fuel c pr p min_u max_u min_v max_v q2 else Ok (u, v)
    end.
  (** RevolutionPatch.h:124-180 inverse_evaluate *)
  Definition re_inverse_evaluate (fuel : nat) (c : revolution) (p : P) (min_u max_u min_v max_v : T) : res ((T * T) * bool) :=
    do pr <- not_null (re_profile c);
    do q <- re_pivot c min_v max_v;
    do uv <- re_loop fuel c pr p min_u max_u min_v max_v q;
    do '(uv, converged) <- patch_newton_raphson (re_ops c) p uv 20 (seps * sofZ 100) min_u max_u min_v max_v;
    do _ <- assert_ ((min_u <=? fst uv) && (fst uv <=? max_u));
    do _ <- assert_ ((min_v <=? snd uv) && (snd uv <=? max_v));
    Ok (uv, converged).
  (** RevolutionPatch.h:182-202 initialize *)
  Definition re_initialize (c : revolution) : res revolution :=
    do pr <- not_null (re_profile c);
    do _ <- assert_ (sabs (sqnorm (re_axis c) - s1) <? prim_tol);
    do _ <- assert_ (b_ulo (re_bounds c) <=? b_uhi (re_bounds c));
    do _ <- assert_ (b_vlo (re_bounds c) <=? b_vhi (re_bounds c));
    do pu <- winding_flag (b_ulo (re_bounds c)) (b_uhi (re_bounds c));
    do pv <- profile_flag pr (b_vlo (re_bounds c)) (b_vhi (re_bounds c));
    Ok {| re_location := re_location c; re_axis := re_axis c; re_profile := re_profile c; re_bounds := re_bounds c;
          re_periodic_u := pu; re_periodic_v := pv |}.

  (** What OffsetPatch uses of its base surface. *)
  Record base_surface := {
    bs_ops : patch_ops T P;
    bs_inverse : P -> T -> T -> T -> T -> res ((T * T) * bool);   (* inverse_evaluate(p, min_u, max_u, min_v, max_v) *)
    bs_periodic_u : bool; bs_periodic_v : bool;
  }.
  (** ** OffsetPatch.h:265-270 members *)
  Record offset := { of_base : option base_surface; of_offset : T; of_bounds : bounds4 T; of_periodic_u : bool; of_periodic_v : bool }.

  (** OffsetPatch.h:58-72 evaluate.  The normal is finite in exact arithmetic: at a singular point it is 0 and the base point
      is returned, as in the branch of the code. *)
  Definition of_evaluate (c : offset) (u v : T) : res P :=
    do b <- not_null (of_base c);
    do p <- s_eval (bs_ops b) u v;
    do du <- s_du (bs_ops b) u v;
    do dv <- s_dv (bs_ops b) u v;
    let n := normalized3 (cross3 du dv) in
    Ok (p + of_offset c *: n)%P.
  (** OffsetPatch.h:91 and 111: d + offset * (r / |n| - (r.n) n / |n|^3); 0 / 0 at a singular point is [NonFinite] *)
  Definition of_formula (off : T) (d r n : P) : res P :=
    let n_sq := sqnorm n in
    do a <- pdivs r (ssqrt n_sq);
    do b <- pdivs (pdot r n *: n)%P (n_sq * ssqrt n_sq);
    Ok (d + off *: (a - b))%P.
  (** OffsetPatch.h:74-92 evaluate_derivative_u *)
  Definition of_du (c : offset) (u v : T) : res P :=
    do b <- not_null (of_base c);
    do du <- s_du (bs_ops b) u v;
    do dv <- s_dv (bs_ops b) u v;
    do duu <- s_duu (bs_ops b) u v;
    do duv <- s_duv (bs_ops b) u v;
    of_formula (of_offset c) du (cross3 duu dv + cross3 du duv)%P (cross3 du dv).
  (** OffsetPatch.h:94-112 evaluate_derivative_v *)
  Definition of_dv (c : offset) (u v : T) : res P :=
    do b <- not_null (of_base c);
    do du <- s_du (bs_ops b) u v;
    do dv <- s_dv (bs_ops b) u v;
    do duv <- s_duv (bs_ops b) u v;
    do dvv <- s_dvv (bs_ops b) u v;
    of_formula (of_offset c) dv (cross3 duv dv + cross3 du dvv)%P (cross3 du dv).
  (** OffsetPatch.h:118-126 evaluate_2nd_derivative_uu *)
  Definition of_duu (c : offset) (u v : T) : res P :=
    do _ <- not_null (of_base c);
    let delta_u := (b_uhi (of_bounds c) - b_ulo (of_bounds c)) * sofQ (1 # 1000000) in
    do before <- of_du c (u - delta_u) v;
    do after <- of_du c (u + delta_u) v;
    pdivs (after - before)%P (delta_u * sofZ 2).
  (** OffsetPatch.h:128-136 evaluate_2nd_derivative_vv *)
  Definition of_dvv (c : offset) (u v : T) : res P :=
    do _ <- not_null (of_base c);
    let delta_v := (b_vhi (of_bounds c) - b_vlo (of_bounds c)) * sofQ (1 # 1000000) in
    do before <- of_dv c u (v - delta_v);
    do after <- of_dv c u (v + delta_v);
    pdivs (after - before)%P (delta_v * sofZ 2).
  (** OffsetPatch.h:138-146 evaluate_2nd_derivative_uv *)
  Definition of_duv (c : offset) (u v : T) : res P :=
    do _ <- not_null (of_base c);
    let delta_v := (b_vhi (of_bounds c) - b_vlo (of_bounds c)) * sofQ (1 # 1000000) in
    do before <- of_du c u (v - delta_v);
    do after <- of_du c u (v + delta_v);
    pdivs (after - before)%P (delta_v * sofZ 2).
  Definition of_ops (c : offset) : patch_ops T P :=
    {| s_ulo := b_ulo (of_bounds c); s_uhi := b_uhi (of_bounds c); s_vlo := b_vlo (of_bounds c); s_vhi := b_vhi (of_bounds c);
       s_eval := of_evaluate c; s_du := of_du c; s_dv := of_dv c; s_duu := of_duu c; s_dvv := of_dvv c; s_duv := of_duv c |}.
  (** OffsetPatch.h:148-170 inverse_evaluate (Base::inverse_evaluate with a guess, defaults of PatchBase.h:177-185) *)
  Definition of_inverse_evaluate (c : offset) (p : P) (min_u max_u min_v max_v : T) : res ((T * T) * bool) :=
    let again (uv : T * T) := patch_inverse_guess (of_ops c) p (fst uv) (snd uv) min_u max_u min_v max_v 20 (seps * sofZ 100) in
    do b <- not_null (of_base c);
    do '(uv, converged) <- bs_inverse b p min_u max_u min_v max_v;
    if converged then
      do '(uv, converged) <- again uv;
      if converged then Ok (uv, converged) else again uv
    else again uv.
  (** OffsetPatch.h:172-191 initialize (the flags are only ever set, never cleared) *)
  Definition of_initialize (c : offset) : res offset :=
    do b <- not_null (of_base c);
    let tol := seps * sofZ 100 in
    let pu := if bs_periodic_u b && (sabs (s_ulo (bs_ops b) - b_ulo (of_bounds c)) <? tol) &&
                 (sabs (s_uhi (bs_ops b) - b_uhi (of_bounds c)) <? tol) then true else of_periodic_u c in
    let pv := if bs_periodic_v b && (sabs (s_vlo (bs_ops b) - b_vlo (of_bounds c)) <? tol) &&
                 (sabs (s_vhi (bs_ops b) - b_vhi (of_bounds c)) <? tol) then true else of_periodic_v c in
    Ok {| of_base := of_base c; of_offset := of_offset c; of_bounds := of_bounds c; of_periodic_u := pu; of_periodic_v := pv |}.
  (** OffsetPatch.h:198-201 the bound setters *)
  Definition of_set_bounds (c : offset) (b : bounds4 T) : offset :=
    {| of_base := of_base c; of_offset := of_offset c; of_bounds := b; of_periodic_u := of_periodic_u c; of_periodic_v := of_periodic_v c |}.
End Sweep3.
Arguments revolution : clear implicits.
Arguments base_surface : clear implicits.
Arguments offset : clear implicits.
