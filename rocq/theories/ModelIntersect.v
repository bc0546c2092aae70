(** intersect.h: Newton iterations for curve-plane, patch curve-plane and curve-patch intersections.
    A division by zero makes the C++ iterate infinite or nan, which the code tests with std::isfinite and answers with
    the previous iterate; here the divisor is compared with zero instead. *)
From Coq Require Import QArith.
From Verif Require Import Monad Scalar ModelCurve ModelPatchBase.
Local Open Scope Z_scope.

Section Intersect.
  Context {T : Type} {SO : ScalarOps T}.
  Local Open Scope scal_scope.
  Let P := vec T 3.

  (** The plane coefficients std::array<Scalar, 4> [a,b,c,d]. *)
  Record plane_eq := { pl_a : T; pl_b : T; pl_c : T; pl_d : T }.
  (** "plane[0] * d0[0] + plane[1] * d0[1] + plane[2] * d0[2] + plane[3]" (lines 35, 94, 111) *)
  Definition plane_value (pl : plane_eq) (p : P) : T :=
    pl_a pl * coord 3 0 p + pl_b pl * coord 3 1 p + pl_c pl * coord 3 2 p + pl_d pl.
  (** "plane[0] * d1[0] + plane[1] * d1[1] + plane[2] * d1[2]" (lines 45, 125) *)
  Definition plane_slope (pl : plane_eq) (v : P) : T :=
    pl_a pl * coord 3 0 v + pl_b pl * coord 3 1 v + pl_c pl * coord 3 2 v.

  (** intersect.h:24-55 curve and plane; state (prev_t, t, prev_err) *)
  Definition intersect_curve_plane (c : curve_ops T P) (pl : plane_eq) (t0 : T) (num_iterations : Z) (tol : T)
      : res (T * bool) :=
    do st <- forb_up 0 num_iterations (fun _ '(prev_t, t, prev_err) =>
        do d0 <- c_eval c t;
        let err := plane_value pl d0 in
        if sabs err <? tol then Ok (inr (t, true))
        else if prev_err <? sabs err then Ok (inr (prev_t, false))
        else
          do d1 <- c_d1 c t;
          let err_derivative := plane_slope pl d1 in
          if err_derivative =? s0 then Ok (inr (t, false))
          else Ok (inl (t, t - err / err_derivative, sabs err)))
      (t0, t0, snummax);
    match st with inr r => Ok r | inl (_, t, _) => Ok (t, false) end.

  (** intersect.h:87-89 interpolate *)
  Definition uv_interpolate (pu pv qu qv t : T) : T * T :=
    (pu * (s1 - t) + qu * t, pv * (s1 - t) + qv * t).
  (** std::hypot *)
  Definition shypot (x y : T) : T := ssqrt (x * x + y * y).

  (** intersect.h:74-135 the image of a segment of the parameter domain, and a plane; state (prev_t, t, u, v, prev_err) *)
  Definition intersect_patch_plane (s : patch_ops T P) (pu pv qu qv : T) (pl : plane_eq) (u0 v0 : T)
      (num_iterations : Z) (tol : T) : res (T * T * bool) :=
    if (sabs (pu - qu) <? sofQ (1 # (10 ^ 12)%positive)) && (sabs (pv - qv) <? sofQ (1 # (10 ^ 12)%positive)) then
      do p <- s_eval s pu pv;
      let err := plane_value pl p in
      if err <? tol then Ok (pu, pv, true) else Ok (pu, pv, false)
    else
      do q <- ddiv (shypot (u0 - pu) (v0 - pv)) (shypot (pu - qu) (pv - qv));
      let t0 := s1 - q in
      do st <- forb_up 0 num_iterations (fun _ '(prev_t, t, _, _, prev_err) =>
          let '(u, v) := uv_interpolate pu pv qu qv t in
          do d0 <- s_eval s u v;
          let err := plane_value pl d0 in
          if sabs err <? tol then Ok (inr (u, v, true))
          else if prev_err <? sabs err then
            let '(u, v) := uv_interpolate pu pv qu qv prev_t in Ok (inr (u, v, false))
          else
            do du <- s_du s u v;
            do dv <- s_dv s u v;
            let d1 := ((qu - pu) *: du + (qv - pv) *: dv)%P in
            let err_derivative := plane_slope pl d1 in
            if err_derivative =? s0 then
              let '(u, v) := uv_interpolate pu pv qu qv t in Ok (inr (u, v, false))
            else Ok (inl (t, t - err / err_derivative, u, v, sabs err)))
        (t0, t0, u0, v0, snummax);
      match st with inr r => Ok r | inl (_, _, u, v, _) => Ok (u, v, false) end.

  (** A 3x3 matrix by rows, its determinant and the product of its inverse (cofactors over determinant, as Eigen
      computes it for this size) with a vector. *)
  Record mat3 := { m00 : T; m01 : T; m02 : T; m10 : T; m11 : T; m12 : T; m20 : T; m21 : T; m22 : T }.
  Definition det3 (m : mat3) : T :=
    m00 m * (m11 m * m22 m - m12 m * m21 m) - m01 m * (m10 m * m22 m - m12 m * m20 m) + m02 m * (m10 m * m21 m - m11 m * m20 m).
  Definition inverse_times (m : mat3) (x y z : T) : T * T * T :=
    let d := det3 m in
    (((m11 m * m22 m - m12 m * m21 m) / d * x + (m02 m * m21 m - m01 m * m22 m) / d * y + (m01 m * m12 m - m02 m * m11 m) / d * z),
     ((m12 m * m20 m - m10 m * m22 m) / d * x + (m00 m * m22 m - m02 m * m20 m) / d * y + (m02 m * m10 m - m00 m * m12 m) / d * z),
     ((m10 m * m21 m - m11 m * m20 m) / d * x + (m01 m * m20 m - m00 m * m21 m) / d * y + (m00 m * m11 m - m01 m * m10 m) / d * z)).

  (** intersect.h:163-190 evaluate_objective_and_derivatives *)
  Definition objective (c : curve_ops T P) (s : patch_ops T P) (t u v : T) : res (T * (T * T * T) * mat3) :=
    do cp <- c_eval c t;
    do sp <- s_eval s u v;
    let l := (cp - sp)%P in
    do dt <- c_d1 c t;
    do du <- s_du s u v;
    do dv <- s_dv s u v;
    do dtt <- c_d2 c t;
    do duu <- s_duu s u v;
    do duv <- s_duv s u v;
    do dvv <- s_dvv s u v;
    let nl := (p0 - l)%P in
    let h01 := - pdot dt du in
    let h02 := - pdot dt dv in
    let h12 := pdot duv nl + pdot du dv in
    Ok (sqnorm l, (pdot dt l, - pdot du l, - pdot dv l),
        {| m00 := pdot dtt l + sqnorm dt; m01 := h01; m02 := h02; m10 := h01; m11 := pdot duu nl + sqnorm du;
           m12 := h12; m20 := h02; m21 := h12; m22 := pdot dvv nl + sqnorm dv |}).

  (** intersect.h:152-224 curve and patch; state (t, u, v), (prev_t, prev_u, prev_v), prev_f *)
  Definition intersect_curve_patch (c : curve_ops T P) (s : patch_ops T P) (t0 u0 v0 : T) (num_iterations : Z) (tol : T)
      : res (T * T * T * bool) :=
    do st <- forb_up 0 num_iterations (fun _ '((t, u, v), (prev_t, prev_u, prev_v), prev_f) =>
        do '(f, (gx, gy, gz), H) <- objective c s t u v;
        if prev_f <? f then Ok (inr (prev_t, prev_u, prev_v, false))
        else if f <? tol * tol then Ok (inr (t, u, v, true))
        else if det3 H =? s0 then Ok (inr (t, u, v, false))
        else
          let '(dx, dy, dz) := inverse_times H (- gx) (- gy) (- gz) in
          Ok (inl ((t + dx, u + dy, v + dz), (t, u, v), f)))
      ((t0, u0, v0), (t0, u0, v0), snummax);
    match st with inr r => Ok r | inl ((t, u, v), _, _) => Ok (t, u, v, false) end.
End Intersect.
Arguments plane_eq : clear implicits.
Arguments mat3 : clear implicits.
