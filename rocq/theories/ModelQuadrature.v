(** Quadrature.h, arc_length.h and sample.h. *)
From Coq Require Import QArith.
From Verif Require Import Monad Scalar ModelCurve ModelPatchBase.
Local Open Scope Z_scope.

(** enums.h SampleMethod *)
Inductive sample_method := UNIFORM_DOMAIN | UNIFORM_RANGE | ADAPTIVE.

Section Quadrature.
  Context {T : Type} {SO : ScalarOps T}.
  Local Open Scope scal_scope.
  Let half : T := sofQ (1 # 2).
  Let one : T := sofZ 1.

  (** "t0 + (t1 - t0) / 2 * x" of Quadrature.h *)
  Definition node (t0 t1 x : T) : T := t0 + (t1 - t0) / sofZ 2 * x.

  (** Quadrature.h:18-32 *)
  Definition quadrature2 (func : T -> res T) (t0 t1 : T) : res T :=
    let q0 := node t0 t1 (- one / ssqrt (sofZ 3) + one) in
    let q1 := node t0 t1 (one / ssqrt (sofZ 3) + one) in
    do val0 <- func q0;
    do val1 <- func q1;
    Ok ((val0 + val1) * (t1 - t0) * half).

  (** Quadrature.h:34-56 *)
  Definition quadrature3 (func : T -> res T) (t0 t1 : T) : res T :=
    let q0 := half * (t0 + t1) in
    let q1 := node t0 t1 (- ssqrt (sofQ (6 # 10)) + one) in
    let q2 := node t0 t1 (ssqrt (sofQ (6 # 10)) + one) in
    do val0 <- func q0;
    do val1 <- func q1;
    do val2 <- func q2;
    let w0 := sofZ 8 / sofZ 9 in
    let w1 := sofZ 5 / sofZ 9 in
    let w2 := sofZ 5 / sofZ 9 in
    Ok ((val0 * w0 + val1 * w1 + val2 * w2) * (t1 - t0) * half).

  (** Quadrature.h:58-83 *)
  Definition quadrature4 (func : T -> res T) (t0 t1 : T) : res T :=
    let r0 := ssqrt (sofZ 3 / sofZ 7 - sofZ 2 / sofZ 7 * ssqrt (sofQ (12 # 10))) in
    let r1 := ssqrt (sofZ 3 / sofZ 7 + sofZ 2 / sofZ 7 * ssqrt (sofQ (12 # 10))) in
    let q0 := node t0 t1 (- r0 + one) in
    let q1 := node t0 t1 (r0 + one) in
    let q2 := node t0 t1 (- r1 + one) in
    let q3 := node t0 t1 (r1 + one) in
    do val0 <- func q0;
    do val1 <- func q1;
    do val2 <- func q2;
    do val3 <- func q3;
    let w0 := (sofZ 18 + ssqrt (sofZ 30)) / sofZ 36 in
    let w1 := (sofZ 18 - ssqrt (sofZ 30)) / sofZ 36 in
    Ok ((val0 * w0 + val1 * w0 + val2 * w1 + val3 * w1) * (t1 - t0) * half).

  (** Quadrature.h:85-113 *)
  Definition quadrature5 (func : T -> res T) (t0 t1 : T) : res T :=
    let r0 := ssqrt (sofZ 5 - sofZ 2 * ssqrt (sofZ 10 / sofZ 7)) / sofZ 3 in
    let r1 := ssqrt (sofZ 5 + sofZ 2 * ssqrt (sofZ 10 / sofZ 7)) / sofZ 3 in
    let q0 := half * (t0 + t1) in
    let q1 := node t0 t1 (- r0 + one) in
    let q2 := node t0 t1 (r0 + one) in
    let q3 := node t0 t1 (- r1 + one) in
    let q4 := node t0 t1 (r1 + one) in
    do val0 <- func q0;
    do val1 <- func q1;
    do val2 <- func q2;
    do val3 <- func q3;
    do val4 <- func q4;
    let w0 := sofZ 128 / sofZ 225 in
    let w1 := (sofZ 322 + sofZ 13 * ssqrt (sofZ 70)) / sofZ 900 in
    let w2 := (sofZ 322 - sofZ 13 * ssqrt (sofZ 70)) / sofZ 900 in
    Ok ((val0 * w0 + val1 * w1 + val2 * w1 + val3 * w2 + val4 * w2) * (t1 - t0) * half).

  (** arc_length.h:157-160: the inner loop over the new sample points *)
  Definition romberg_refine (speed : T -> res T) (t0 h : T) (num_steps : Z) (r0 : T) : res T :=
    for_up 1 num_steps (fun k acc =>
      do s <- speed (t0 + sofZ (2 * k - 1) * h);
      Ok (acc + s * h)) r0.

  (** arc_length.h:162-170: the extrapolation loop; state (m, R_above, R_prev_above, R_values) *)
  Definition romberg_extrapolate (i : Z) (R_above : T) (R_values : list T) : res (list T) :=
    do '(_, _, vals) <- for_up 1 (i + 1) (fun j '(m, prev, vals) =>
        let m := (m * 4)%Z in
        do above <- get vals j;
        do left <- get vals (j - 1);
        do q <- ddiv (left - prev) (sofZ (m - 1));
        do vals <- set vals j (left + q);
        Ok (m, above, vals)) (1, R_above, R_values);
    Ok vals.

  (** arc_length.h:146-178 romberg *)
  Definition romberg (speed : T -> res T) (t0 t1 : T) (level : Z) (tol : T) : res T :=
    do R_values <- alloc s0 (level + 1);
    let h := t1 - t0 in
    do a <- speed t0;
    do b <- speed t1;
    do R_values <- set R_values 0 (half * h * (a + b));
    do st <- forb_up 1 (level + 1) (fun i '(h, R_values) =>
        let h := h / sofZ 2 in
        do R_above <- get R_values 0;
        do r0 <- romberg_refine speed t0 h (2 ^ (i - 1)) (half * R_above);
        do R_values <- set R_values 0 r0;
        do R_values <- romberg_extrapolate i R_above R_values;
        do ri <- get R_values i;
        do rj <- get R_values (i - 1);
        if (1 <? i)%Z && (sabs (ri - rj) <? tol) then Ok (inr ri) else Ok (inl (h, R_values)))
      (h, R_values);
    match st with inr r => Ok r | inl (_, R_values) => get R_values level end.
End Quadrature.

Section ArcLength.
  Context {T P : Type} {SO : ScalarOps T} {V : PointOps T P}.
  Local Open Scope scal_scope.

  (** The defaults level = 10 and tol = 1e-12 of arc_length.h:23, 37, 52-53. *)
  Definition default_level : Z := 10.
  Definition default_tol : T := sofQ (1 # (10 ^ 12)%positive).

  (** arc_length.h:22-31 *)
  Definition arc_length (c : curve_ops T P) (t0 t1 : T) (level : Z) (tol : T) : res T :=
    romberg (fun t => do d1 <- c_d1 c t; Ok (pnorm d1)) t0 t1 level tol.
  (** arc_length.h:36-41 *)
  Definition arc_length_to (c : curve_ops T P) (t : T) (level : Z) (tol : T) : res T :=
    arc_length c (c_lower c) t level tol.

  (** arc_length.h:46-69 *)
  Definition patch_arc_length (s : patch_ops T P) (u0 v0 u1 v1 : T) (level : Z) (tol : T) : res T :=
    romberg (fun t =>
      let pu := (u1 - u0) * t + u0 in
      let pv := (v1 - v0) * t + v0 in
      do du <- s_du s pu pv;
      do dv <- s_dv s pu pv;
      Ok (pnorm ((u1 - u0) *: du + (v1 - v0) *: dv)%P)) s0 s1 level tol.

  (** arc_length.h:80-104 inverse_arc_length *)
  Definition inverse_arc_length (c : curve_ops T P) (l : T) (num_iterations : Z) : res T :=
    do L <- arc_length_to c (c_upper c) default_level default_tol;
    do t <- ddiv l L;
    let tol := L * default_tol in
    do st <- forb_up 0 num_iterations (fun _ t =>
        do a <- arc_length_to c t default_level default_tol;
        let err := a - l in
        if sabs err <? tol then Ok (inr t)
        else
          do d1 <- c_d1 c t;
          do q <- ddiv err (pnorm d1);
          Ok (inl (t - q))) t;
    match st with inr t => Ok t | inl t => Ok t end.

  (** arc_length.h:105-142 inverse_arc_length of a patch *)
  Definition patch_inverse_arc_length (s : patch_ops T P) (u0 v0 u1 v1 l : T) (num_iterations : Z) : res (T * T) :=
    let position t := ((u1 - u0) * t + u0, (v1 - v0) * t + v0) in
    let speed t :=
      do du <- s_du s (fst (position t)) (snd (position t));
      do dv <- s_dv s (fst (position t)) (snd (position t));
      Ok (pnorm ((u1 - u0) *: du + (v1 - v0) *: dv)%P) in
    do L <- patch_arc_length s u0 v0 u1 v1 default_level default_tol;
    do t <- ddiv l L;
    let tol := L * default_tol in
    do st <- forb_up 0 num_iterations (fun _ t =>
        let p := position t in
        do a <- patch_arc_length s u0 v0 (fst p) (snd p) default_level default_tol;
        let err := a - l in
        if sabs err <? tol then Ok (inr t)
        else
          do sp <- speed t;
          do q <- ddiv err sp;
          Ok (inl (t - q))) t;
    match st with inr t => Ok (position t) | inl t => Ok (position t) end.

  (** sample.h:14-32 adaptive_sample.  The C++ recursion has no bound; [fuel] cuts it off and running out of it
      is [Undef] (C++: the recursion continues, possibly until the stack overflows). *)
  Fixpoint adaptive_sample (fuel : nat) (c : curve_ops T P) (t0 t1 tol : T) (samples : list T) : res (list T) :=
    match fuel with
    | 0%nat => Undef
    | S fuel =>
        do L <- arc_length c t0 t1 default_level default_tol;
        do q0 <- c_eval c t0;
        do q1 <- c_eval c t1;
        let l := pnorm (q1 - q0)%P in
        if tol <? L - l then
          let half := (t0 + t1) / sofZ 2 in
          do samples <- adaptive_sample fuel c t0 half tol samples;
          adaptive_sample fuel c half t1 tol samples
        else Ok (samples ++ [t0])
    end.

  (** sample.h:39-76 sample; [fuel] bounds the adaptive recursion only. *)
  Definition sample (fuel : nat) (c : curve_ops T P) (num_samples : Z) (min_t max_t : T) (method : sample_method)
      : res (list T) :=
    do _ <- assert_ (1 <? num_samples)%Z;
    match method with
    | UNIFORM_DOMAIN =>
        tabulate num_samples (fun i =>
          do q <- ddiv ((max_t - min_t) * sofZ i) (sofZ (num_samples - 1));
          Ok (min_t + q))
    | UNIFORM_RANGE =>
        do l <- arc_length c min_t max_t default_level default_tol;
        do mid <- tabulate (num_samples - 2) (fun i =>
          do a <- ddiv (l * sofZ (i + 1)) (sofZ (num_samples - 1));
          inverse_arc_length c a 10);
        Ok (min_t :: mid ++ [max_t])
    | ADAPTIVE =>
        do l <- arc_length c min_t max_t default_level default_tol;
        do a <- ddiv l (sofZ num_samples);
        do tol <- ddiv a (sofZ 10);
        do samples <- adaptive_sample fuel c min_t max_t tol [];
        Ok (samples ++ [max_t])
    end.
  (** sample.h:78-86 *)
  Definition sample_all (fuel : nat) (c : curve_ops T P) (num_samples : Z) (method : sample_method) : res (list T) :=
    sample fuel c num_samples (c_lower c) (c_upper c) method.
End ArcLength.
