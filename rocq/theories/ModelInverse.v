(** Model of the overrides of approximate_inverse_evaluate in
    /repo/include/nanospline/BSplineBase.h, BezierBase.h and BezierPatch.h.

    Simplification: [int] level arguments are [nat]s ([level <= 0] is level 0). *)
From Coq Require Import QArith.
From Verif Require Import Monad Scalar ModelCurve ModelBezier ModelBSpline ModelPatchBase ModelPatch.
Local Open Scope Z_scope.

Section Inverse.
  Context {T P : Type} {SO : ScalarOps T} {V : PointOps T P}.
  Local Open Scope scal_scope.
  Local Open Scope Z_scope.

  (** BezierBase.h:37-45 approximate_inverse_evaluate: CurveBase.h:141-172 with 2*(degree+1) samples.
      [c] is the curve seen through its virtual functions. *)
  Definition bz_approx_inverse (deg : Z) (c : curve_ops T P) (p : P) (lower upper : T) (level : Z) : res T :=
    approximate_inverse_evaluate c p (2 * (deg + 1)) lower upper level.

  (** BSplineBase.h:71-81: the sampling of one span; the state is (min_t, min_delta, min_dist). *)
  Definition span_samples (c : curve_ops T P) (p : P) (n : Z) (lo hi : T) (st : T * T * T) : res (T * T * T) :=
    do delta <- ddiv (hi - lo)%S (sofZ n);
    for_up 0 (n + 1) (fun j st =>
      let '(min_t, min_delta, min_dist) := st in
      do r <- ddiv (sofZ j) (sofZ n);
      let t := (lo + r * (hi - lo))%S in
      do q <- c_eval c t;
      let dist := sqnorm (p - q)%P in
      if (dist <? min_dist)%S then Ok (t, delta, dist) else Ok st) st.

  (** BSplineBase.h:56-86: one iteration of the walk over the spans.  The state is (curr_lower,
      curr_span, period_count, samples so far); [inr] is the [break]. *)
  Definition span_step (c : curve_ops T P) (p : P) (knots : list T) (deg n : Z) (periodic : bool)
      (period upper : T) (st : T * Z * Z * (T * T * T)) : res ((T * Z * Z * (T * T * T)) + (T * T * T)) :=
    let '(curr_lower, curr_span, period_count, best) := st in
    let wrap := curr_span + 1 <? zlen knots in
    if negb periodic && (zlen knots <=? curr_span + 1) then Ok (inr best)
    else
      let '(curr_span, period_count) :=
        if periodic && wrap then (deg, period_count + 1) else (curr_span, period_count) in
      do k <- get knots (curr_span + 1);
      let curr_upper := smin upper (k + sofZ period_count * period)%S in
      do best <- (if (curr_lower <? curr_upper)%S then span_samples c p n curr_lower curr_upper best else Ok best);
      Ok (inl (curr_upper, curr_span + 1, period_count, best)).

  (** BSplineBase.h:56-86: the [while] loop, on explicit fuel (out of fuel is [Undef]). *)
  Fixpoint span_walk (fuel : nat) (c : curve_ops T P) (p : P) (knots : list T) (deg n : Z) (periodic : bool)
      (period upper : T) (st : T * Z * Z * (T * T * T)) : res (T * T * T) :=
    match fuel with
    | O => Undef
    | Datatypes.S fuel' =>
        let '(curr_lower, curr_span, period_count, best) := st in
        if (curr_lower <? upper)%S then
          do x <- span_step c p knots deg n periodic period upper st;
          match x with
          | inl st' => span_walk fuel' c p knots deg n periodic period upper st'
          | inr best => Ok best
          end
        else Ok best
    end.

  (** BSplineBase.h:29-96 approximate_inverse_evaluate.  [ops] holds the virtual functions of the
      object (they are those of [b] for a BSpline and those of the rational curve for a NURBS's
      homogeneous curve).  The fuel bounds the number of spans plus the number of periods. *)
  Fixpoint bs_approx_inverse (b : bspline T P) (ops : curve_ops T P) (p : P) (lower upper : T) (level : nat) : res T :=
    do _ <- assert_ (lower <=? upper)%S;
    do _ <- bs_validate b;
    let n := 2 * (bs_degree b + 1) in
    do span <- locate_span b lower;
    do t_min <- bs_lower b;
    do t_max <- bs_upper b;
    let period := (t_max - t_min)%S in
    do '(count, fuel) <-
      (if bs_periodic b then
         do q <- ddiv (lower - t_min)%S period;
         do w <- ddiv (upper - lower)%S period;
         let count := sfloor q in
         do _ <- assert_ (period * sofZ count + t_min <=? lower)%S;
         do _ <- assert_ (lower <? period * sofZ (count + 1) + t_min)%S;
         Ok (count, (length (bs_knots b) + Z.to_nat (sceil w) + 3)%nat)
       else Ok (0, (length (bs_knots b) + 3)%nat));
    do '(min_t, min_delta, _) <-
      span_walk fuel ops p (bs_knots b) (bs_degree b) n (bs_periodic b) period upper
        (lower, span, count, (s0, s0, snummax));
    match level with
    | O => newton_raphson ops p min_t 10 (seps * sofZ 100)%S lower upper
    | Datatypes.S level' =>
        bs_approx_inverse b ops p (smin upper (smax lower (min_t - min_delta)%S))
          (smin upper (smax lower (min_t + min_delta)%S)) level'
    end.

  (** PatchBase.h:373-390 find_closest_control_point; the state is (min_dist, i_min, j_min). *)
  Definition find_closest_control_point (grid : list P) (nu nv : Z) (p : P) : res (Z * Z) :=
    do '(_, i, j) <- for_up 0 nu (fun ui st =>
      for_up 0 nv (fun vj st =>
        let '(min_dist, i_min, j_min) := st in
        do q <- grid_get grid nv ui vj;
        let dist := sqnorm (p - q)%P in
        if (dist <? min_dist)%S then Ok (dist, ui, vj) else Ok st) st) (snummax, 0, 0);
    Ok (i, j).

  (** BezierPatch.h:110-116 get_control_point_preimage. *)
  Definition bp_preimage (s : bpatch P) (i j : Z) : res (T * T) :=
    do du <- checked_degree (bp_degu s);
    do dv <- checked_degree (bp_degv s);
    do a <- ddiv (sofZ i) (sofZ du);
    do b <- ddiv (sofZ j) (sofZ dv);
    Ok (a, b).

  (** BezierPatch.h:537-542 clamp_2d. *)
  Definition clamp_2d (uv : T * T) : T * T :=
    (smin (smax (fst uv) s0) s1, smin (smax (snd uv) s0) s1).

  (** BezierPatch.h:547-549, 579-580: back to the parameters of the untrimmed patch. *)
  Definition remap_2d (min_u max_u min_v max_v : T) (uv : T * T) : T * T :=
    ((max_u - min_u) * fst uv + min_u, (max_v - min_v) * snd uv + min_v)%S.

  (** BezierPatch.h:496-583 approximate_inverse_evaluate.  The calls of the base class version use its
      default level 3 (PatchBase.h:235-242).  In PatchBase the members are those of the Bezier patch. *)
  Fixpoint bp_approx_inverse (s : bpatch P) (p : P) (nsu nsv : Z) (min_u max_u min_v max_v : T) (level : nat)
    : res (T * T) :=
    let base := patch_approx_inverse (bp_ops s) p nsu nsv min_u max_u min_v max_v 3 in
    if bp_peru s || bp_perv s then base
    else
      do du <- checked_degree (bp_degu s);
      do low_degree <- (if du <? 2 then Ok true else do dv <- checked_degree (bp_degv s); Ok (dv <? 2));
      if low_degree : bool then base
      else
        do nu <- bp_nu s;
        do few <- (if nu <=? 3 then Ok true else do nv <- bp_nv s; Ok (nv <=? 3));
        if few : bool then base
        else
          do nv <- bp_nv s;
          let u0 := smax min_u s0 in let u1 := smin max_u s1 in
          let v0 := smax min_v s0 in let v1 := smin max_v s1 in
          do a <- bp_subpatch s u0 u1 v0 v1;
          do anu <- bp_nu a; do anv <- bp_nv a;
          do '(i, j) <- find_closest_control_point (bp_grid a) anu anv p;
          match level with
          | O =>
              do uv <- bp_preimage a i j;
              Ok (remap_2d u0 u1 v0 v1 (clamp_2d uv))
          | Datatypes.S level' =>
              do lo <- bp_preimage a (if 0 <? i then i - 1 else i) (if 0 <? j then j - 1 else j);
              do hi <- bp_preimage a (if i <? nu - 1 then i + 1 else i) (if j <? nv - 1 then j + 1 else j);
              let lo := clamp_2d lo in let hi := clamp_2d hi in
              do uv <- bp_approx_inverse a p nsu nsv (fst lo) (fst hi) (snd lo) (snd hi) level';
              Ok (remap_2d u0 u1 v0 v1 uv)
          end.
End Inverse.
