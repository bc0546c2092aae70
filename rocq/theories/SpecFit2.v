(** Classes of patches used in the statements about least squares fitting; from the model only the records,
    initialize and evaluate are used. *)
From Coq Require Import Reals List ZArith.
From Verif Require Import Monad Scalar Spec SpecPatch SpecFit ModelPatch.
Local Open Scope R_scope.

(** The class of Bezier patches of the degrees [n] x [m] with the given flags. *)
Definition bp_like {d} (n m : nat) (pu pv : bool) (s : bpatch (vec R d)) : Prop :=
  bp_initialize s = Ok s /\ bp_tu s = Z.of_nat n /\ bp_tv s = Z.of_nat m /\ bp_degu s = Z.of_nat n /\
  bp_degv s = Z.of_nat m /\ bp_peru s = pu /\ bp_perv s = pv.

(** The value at a pair of parameters, and the basis functions of the class. *)
Definition bp_at {d} (s : bpatch (vec R d)) (uv : R * R) : res (vec R d) := bp_evaluate s (fst uv) (snd uv).
Definition bpB (n m : nat) (uv : R * R) : nat -> R :=
  tensor_basis (S m) (bezier_basis (S n) (fst uv)) (bezier_basis (S m) (snd uv)).

(** The class of B-spline patches with the given degrees, knots and flags. *)
Definition sp_like {d} (p q : nat) (ku kv : list R) (pu pv : bool) (s : spatch R (vec R d)) : Prop :=
  sp_initialize s = Ok s /\ sp_tu s = Z.of_nat p /\ sp_tv s = Z.of_nat q /\ sp_degu s = Z.of_nat p /\
  sp_degv s = Z.of_nat q /\ sp_ku s = ku /\ sp_kv s = kv /\ sp_peru s = pu /\ sp_perv s = pv.

(** The value at a pair of parameters, and the basis functions of the class. *)
Definition sp_at {d} (s : spatch R (vec R d)) (uv : R * R) : res (vec R d) := sp_evaluate s (fst uv) (snd uv).
Definition spB (p q : nat) (ku kv : list R) (uv : R * R) : nat -> R :=
  let n := dir_count p ku in let m := dir_count q kv in
  tensor_basis m (bspline_basis n ku (fst uv)) (bspline_basis m kv (snd uv)).

(** Knots that the code can work with: different knots are more than 1e-16 apart. *)
Definition good_dir (p : nat) (knots : list R) : Prop := valid_dir p knots /\ knots_apart (/ IZR (10 ^ 16)) knots.

(** A pair of parameters inside the domain. *)
Definition sp_own (pu pv : bool) (p q : nat) (ku kv : list R) (uv : R * R) : Prop :=
  (own_param pu p ku (fst uv) /\ (pu = true -> nth p ku 0 < nth (p + 1) ku 0)) /\
  (own_param pv q kv (snd uv) /\ (pv = true -> nth q kv 0 < nth (q + 1) kv 0)).
