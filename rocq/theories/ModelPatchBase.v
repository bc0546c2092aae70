(** Model of /repo/include/nanospline/PatchBase.h: the non-virtual functions of the base class of all
    patches.  A patch is represented by its virtual functions ([patch_ops]). *)
From Coq Require Import QArith.
From Verif Require Import Monad Scalar ModelCurve.
Local Open Scope Z_scope.

Section PatchBase.
  Context {T P : Type} {SO : ScalarOps T} {V : PointOps T P}.
  Local Open Scope scal_scope.

  (** PatchBase.h:34-37, 117-122: the pure virtual functions used by the base class. *)
  Record patch_ops := {
    s_ulo : T; s_uhi : T; s_vlo : T; s_vhi : T;  (* get_u_lower_bound() ... get_v_upper_bound() *)
    s_eval : T -> T -> res P;                    (* evaluate *)
    s_du : T -> T -> res P; s_dv : T -> T -> res P;    (* evaluate_derivative_u / _v *)
    s_duu : T -> T -> res P; s_dvv : T -> T -> res P; s_duv : T -> T -> res P;  (* evaluate_2nd_derivative_uu / _vv / _uv *)
  }.

  (** PatchBase.h:42-48 in_domain_u and 50-56 in_domain_v. *)
  Definition in_domain_1 (lo hi t : T) : bool := (lo - seps <=? t) && (t <=? hi + seps).

  (** PatchBase.h:58-61 is_endpoint_u and 63-66 is_endpoint_v. *)
  Definition is_endpoint_1 (lo hi t : T) : bool := (t =? lo) || (t =? hi).

  (** PatchBase.h:394 get_linear_index ([nv] = num_control_points_v()). *)
  Definition linear_index (nv i j : Z) : Z := (i * nv + j)%Z.

  (** PatchBase.h:424-441 clip_periodic_parameter. *)
  Definition clip_periodic_parameter (t t_min t_max period : T) : res T :=
    do t <-
      (if t <? t_min then
         do q <- ddiv (t_min - t) period;
         let n := sceil q in
         Ok (t + sofZ n * period)
       else
         do f <- sfmod (t - t_min) period;
         Ok (t_min + f));
    do _ <- assert_ (t_min <=? t);
    let t :=
      if t_max <? t then
        let dist_to_min := period - (t - t_min) in
        let dist_to_max := t - t_max in
        if dist_to_min <? dist_to_max then t_min else t_max
      else t in
    do _ <- assert_ (t <=? t_max);
    Ok t.

  (** PatchBase.h:321-368: one iteration of newton_raphson.  The state is (u, v, prev_uv, prev_dist).
      [inr (uv, b)] leaves the loop with result [uv] and return value [b]: [break] is
      [inr ((u, v), true)] because of the two statements after the loop. *)
  Definition patch_newton_step (s : patch_ops) (p : P) (tol min_u max_u min_v max_v : T)
      (st : T * T * (T * T) * T) : res ((T * T * (T * T) * T) + ((T * T) * bool)) :=
    let '(u, v, prev_uv, prev_dist) := st in
    do e <- s_eval s u v;
    let r := (e - p)%P in
    let dist := pnorm r in
    if (dist <? tol) || (sabs (dist - prev_dist) <? tol) then Ok (inr ((u, v), true))
    else if prev_dist <? dist then Ok (inr (prev_uv, false))
    else
      let prev_dist := dist in
      let prev_uv := (u, v) in
      do Su <- s_du s u v;
      do Sv <- s_dv s u v;
      if (sabs (pdot Su r) <? tol) && (sabs (pdot Sv r) <? tol) then Ok (inr ((u, v), true))
      else
        do Suu <- s_duu s u v;
        do Svv <- s_dvv s u v;
        do Suv <- s_duv s u v;
        let J00 := sqnorm Su + pdot r Suu in
        let J01 := pdot Su Sv + pdot r Suv in
        let J10 := pdot Sv Su + pdot r Suv in
        let J11 := sqnorm Sv + pdot r Svv in
        let det := J00 * J11 - J01 * J10 in
        if det <=? s0 then Ok (inr (prev_uv, false))
        else
          let k0 := - pdot r Su in
          let k1 := - pdot r Sv in
          (* J.inverse() * kappa *)
          do d0 <- ddiv (J11 * k0 - J01 * k1) det;
          do d1 <- ddiv (J00 * k1 - J10 * k0) det;
          let u := u + d0 in
          let v := v + d1 in
          let u := if u <? min_u then min_u else u in
          let u := if max_u <? u then max_u else u in
          let v := if v <? min_v then min_v else v in
          let v := if max_v <? v then max_v else v in
          Ok (inl (u, v, prev_uv, prev_dist)).

  (** PatchBase.h:308-371 newton_raphson: the final uv and the return value. *)
  Definition patch_newton_raphson (s : patch_ops) (p : P) (uv : T * T) (num_iterations : Z)
      (tol min_u max_u min_v max_v : T) : res ((T * T) * bool) :=
    do x <- forb_up 0 num_iterations (fun _ st => patch_newton_step s p tol min_u max_u min_v max_v st)
              (fst uv, snd uv, uv, snummax);
    match x with
    | inr y => Ok y
    | inl (u, v, _, _) => Ok ((u, v), true)
    end.

  (** PatchBase.h:177-194 inverse_evaluate with an initial guess. *)
  Definition patch_inverse_guess (s : patch_ops) (p : P) (u v min_u max_u min_v max_v : T)
      (num_iterations : Z) (tol : T) : res ((T * T) * bool) :=
    let u := smax min_u (smin max_u u) in
    let v := smax min_v (smin max_v v) in
    do '(uv, converged) <- patch_newton_raphson s p (u, v) num_iterations tol min_u max_u min_v max_v;
    do _ <- assert_ ((min_u <=? fst uv) && (fst uv <=? max_u));
    do _ <- assert_ ((min_v <=? snd uv) && (snd uv <=? max_v));
    Ok (uv, converged).

  (** PatchBase.h:249-250, 252-253: sample [i] of [n] between [lo] and [hi]. *)
  Definition grid_sample (lo hi : T) (n i : Z) : res T :=
    if (i =? n)%Z then Ok hi
    else do q <- ddiv (sofZ i * (hi - lo)) (sofZ n); Ok (q + lo).

  (** PatchBase.h:244-268: the sampling loops; the state is (uv, min_dist, uv_2, min_dist_2). *)
  Definition patch_sample_min (s : patch_ops) (p : P) (nu nv : Z) (min_u max_u min_v max_v : T)
    : res ((T * T) * T * (T * T) * T) :=
    for_up 0 (nu + 1) (fun i st =>
      do u <- grid_sample min_u max_u nu i;
      for_up 0 (nv + 1) (fun j st =>
        let '(uv, min_dist, uv_2, min_dist_2) := st in
        do v <- grid_sample min_v max_v nv j;
        do q <- s_eval s u v;
        let dist := sqnorm (p - q)%P in
        if dist <? min_dist then Ok ((u, v), dist, uv, min_dist)
        else if dist <? min_dist_2 then Ok (uv, min_dist, (u, v), dist)
        else Ok (uv, min_dist, uv_2, min_dist_2)) st)
      ((min_u, min_v), snummax, (min_u, min_v), snummax).

  (** PatchBase.h:285-291 on_opposite_boundary. *)
  Definition on_opposite_boundary (s : patch_ops) (uv1 uv2 : T * T) : bool :=
    let u_range := s_uhi s - s_ulo s in
    let v_range := s_vhi s - s_vlo s in
    let tol := seps * sofZ 10 in
    (sabs (sabs (fst uv1 - fst uv2) - u_range) <? tol) ||
    (sabs (sabs (snd uv1 - snd uv2) - v_range) <? tol).

  (** PatchBase.h:235-306 approximate_inverse_evaluate; recursion on the C++ [level] ([level <= 0]
      stops). *)
  Fixpoint patch_approx_inverse (s : patch_ops) (p : P) (nu nv : Z) (min_u max_u min_v max_v : T)
      (level : nat) : res (T * T) :=
    do '(uv, min_dist, uv_2, min_dist_2) <- patch_sample_min s p nu nv min_u max_u min_v max_v;
    match level with
    | O => Ok uv
    | S level' =>
        let check_sub_range (c : T * T) :=
          do delta_u <- ddiv (max_u - min_u) (sofZ nu);
          do delta_v <- ddiv (max_v - min_v) (sofZ nv);
          patch_approx_inverse s p nu nv
            (smax (fst c - delta_u) min_u) (smin (fst c + delta_u) max_u)
            (smax (snd c - delta_v) min_v) (smin (snd c + delta_v) max_v) level' in
        if (min_dist * sofQ (1 # 1000) <? sabs (min_dist - min_dist_2)) ||
           negb (on_opposite_boundary s uv uv_2)
        then check_sub_range uv
        else
          do c1 <- check_sub_range uv;
          do c2 <- check_sub_range uv_2;
          do e1 <- s_eval s (fst c1) (snd c1);
          do e2 <- s_eval s (fst c2) (snd c2);
          let d1 := sqnorm (e1 - p)%P in
          let d2 := sqnorm (e2 - p)%P in
          Ok (if d1 <? d2 then c1 else c2)
    end.

  (** PatchBase.h:144-155 inverse_evaluate without a guess ([nu], [nv]: recommended sample counts,
      PatchBase.h:226-232; the sampling function is the one of the base class). *)
  Definition patch_inverse_evaluate (s : patch_ops) (p : P) (nu nv : Z) (min_u max_u min_v max_v : T)
    : res ((T * T) * bool) :=
    do uv <- patch_approx_inverse s p nu nv min_u max_u min_v max_v 10;
    patch_inverse_guess s p (fst uv) (snd uv) min_u max_u min_v max_v 20 (seps * sofZ 100).
End PatchBase.
Arguments patch_ops : clear implicits.
Arguments Build_patch_ops {T P}.
