(** Scalars and points.

    [ScalarOps T] mirrors the template parameter [_Scalar] of every class in
    /repo/include/nanospline: it lists operations only and assumes no law.  [PointOps T P] mirrors
    [Eigen::Matrix<Scalar,1,_dim>] (a row of a control point matrix). *)
From Coq Require Import QArith Qround Qabs.
From Coq Require Import Reals.
From Verif Require Import Monad.

Class ScalarOps (T : Type) := {
  s0 : T;
  s1 : T;
  sadd : T -> T -> T;
  ssub : T -> T -> T;
  smul : T -> T -> T;
  sdiv : T -> T -> T;          (* only used through [ddiv] or after a non-zero test *)
  sopp : T -> T;
  sle : T -> T -> bool;        (* <= *)
  slt : T -> T -> bool;        (* <  *)
  seq_ : T -> T -> bool;       (* == *)
  sofZ : Z -> T;               (* int -> Scalar conversion *)
  sofQ : Q -> T;               (* decimal literals such as 1e-16 *)
  sfloor : T -> Z;             (* std::floor *)
  ssqrt : T -> T;              (* std::sqrt *)
}.

Declare Scope scal_scope.
Delimit Scope scal_scope with S.
Infix "+" := sadd : scal_scope.
Infix "-" := ssub : scal_scope.
Infix "*" := smul : scal_scope.
Infix "/" := sdiv : scal_scope.
Notation "- x" := (sopp x) : scal_scope.
Infix "<=?" := sle : scal_scope.
Infix "<?" := slt : scal_scope.
Infix "=?" := seq_ : scal_scope.

Section Derived.
  Context {T : Type} {SO : ScalarOps T}.
  Local Open Scope scal_scope.

  (** Floating point division; dividing by zero is kept apart (see [NonFinite]). *)
  Definition ddiv (a b : T) : res T := if b =? s0 then NonFinite else Ok (a / b).

  (** std::min / std::max (std::max(a,b) = (a < b) ? b : a;  std::min(a,b) = (b < a) ? b : a). *)
  Definition smax (a b : T) : T := if a <? b then b else a.
  Definition smin (a b : T) : T := if b <? a then b else a.
  Definition sabs (a : T) : T := if a <? s0 then - a else a.

  (** std::numeric_limits<double>::epsilon() = 2^-52 and ::max() = (2 - 2^-52) * 2^1023. *)
  Definition seps : T := sofQ (1 # (2 ^ 52)%positive).
  Definition snummax : T := sofZ ((2 ^ 53 - 1) * 2 ^ 971).

  (** Truncation toward zero, and std::fmod (fmod(x,y) = x - trunc(x/y) * y; fmod(x,0) is nan). *)
  Definition strunc (a : T) : Z :=
    if a <? s0 then Z.opp (sfloor (- a)) else sfloor a.
  Definition sfmod (x y : T) : res T :=
    do q <- ddiv x y; Ok (x - sofZ (strunc q) * y).
  (** std::ceil *)
  Definition sceil (a : T) : Z := Z.opp (sfloor (- a)).
End Derived.

Class PointOps (T P : Type) := {
  p0 : P;                      (* Point::Zero() *)
  padd : P -> P -> P;
  psub : P -> P -> P;
  pmul : T -> P -> P;          (* scalar * row *)
  pdot : P -> P -> T;          (* a.dot(b) *)
}.

Declare Scope point_scope.
Delimit Scope point_scope with P.
Infix "+" := padd : point_scope.
Infix "-" := psub : point_scope.
Infix "*:" := pmul (at level 40) : point_scope.

Section DerivedP.
  Context {T P : Type} {SO : ScalarOps T} {V : PointOps T P}.
  Definition sqnorm (a : P) : T := pdot a a.
  Definition pnorm (a : P) : T := ssqrt (sqnorm a).
  (** row / scalar (componentwise division); by zero: [NonFinite]. *)
  Definition pdivs (a : P) (x : T) : res P :=
    if seq_ x s0 then NonFinite else Ok (pmul (sdiv s1 x) a).
End DerivedP.

(** * Points of dimension [d] *)
Fixpoint vec (T : Type) (d : nat) : Type :=
  match d with
  | O => unit
  | S d' => (T * vec T d')%type
  end.

Section Vec.
  Context {T : Type} {SO : ScalarOps T}.

  Fixpoint vconst (d : nat) (x : T) : vec T d :=
    match d return vec T d with
    | O => tt
    | S d' => (x, vconst d' x)
    end.

  Fixpoint vmap (d : nat) (f : T -> T) : vec T d -> vec T d :=
    match d return vec T d -> vec T d with
    | O => fun _ => tt
    | S d' => fun a => (f (fst a), vmap d' f (snd a))
    end.

  Fixpoint vmap2 (d : nat) (f : T -> T -> T) : vec T d -> vec T d -> vec T d :=
    match d return vec T d -> vec T d -> vec T d with
    | O => fun _ _ => tt
    | S d' => fun a b => (f (fst a) (fst b), vmap2 d' f (snd a) (snd b))
    end.

  Fixpoint vdot (d : nat) : vec T d -> vec T d -> T :=
    match d return vec T d -> vec T d -> T with
    | O => fun _ _ => s0
    | S d' => fun a b => sadd (smul (fst a) (fst b)) (vdot d' (snd a) (snd b))
    end.

  (** Coordinate [i]; coordinates past the end are 0 (only used with [i < d]). *)
  Fixpoint coord (d : nat) (i : nat) : vec T d -> T :=
    match d return vec T d -> T with
    | O => fun _ => s0
    | S d' => fun a => match i with O => fst a | S i' => coord d' i' (snd a) end
    end.

  Global Instance vec_ops (d : nat) : PointOps T (vec T d) := {
    p0 := vconst d s0;
    padd := vmap2 d sadd;
    psub := vmap2 d ssub;
    pmul := fun x => vmap d (smul x);
    pdot := vdot d;
  }.

  (** One-dimensional points seen as plain scalars. *)
  Global Instance scal_point_ops : PointOps T T | 10 := {
    p0 := s0;
    padd := sadd;
    psub := ssub;
    pmul := smul;
    pdot := smul;
  }.
End Vec.

(** * The two scalar instances *)

(** Real numbers: the instance all theorems are about. *)
Definition Rleb (x y : R) : bool := if Rle_dec x y then true else false.
Definition Rltb (x y : R) : bool := if Rlt_dec x y then true else false.
Definition Reqb (x y : R) : bool := if Req_EM_T x y then true else false.

Global Instance R_ops : ScalarOps R := {
  s0 := 0%R;
  s1 := 1%R;
  sadd := Rplus;
  ssub := Rminus;
  smul := Rmult;
  sdiv := Rdiv;
  sopp := Ropp;
  sle := Rleb;
  slt := Rltb;
  seq_ := Reqb;
  sofZ := IZR;
  sofQ := fun q => (IZR (Qnum q) / IZR (Zpos (Qden q)))%R;
  sfloor := fun x => (up x - 1)%Z;
  ssqrt := sqrt;
}.

(** Rationals (always in lowest terms): executable instance for examples.  [ssqrt] is only an
    approximation from below with 30 decimal digits; no theorem is about this instance's sqrt. *)
Definition Qsqrt_approx (q : Q) : Q :=
  let s := (10 ^ 30)%Z in
  Qred (Z.sqrt (Qnum q * s * s / Zpos (Qden q)) # (Z.to_pos s)).

Global Instance Q_ops : ScalarOps Q := {
  s0 := 0%Q;
  s1 := 1%Q;
  sadd := fun a b => Qred (a + b);
  ssub := fun a b => Qred (a - b);
  smul := fun a b => Qred (a * b);
  sdiv := fun a b => Qred (a / b);
  sopp := fun a => Qred (- a);
  sle := Qle_bool;
  slt := fun a b => negb (Qle_bool b a);
  seq_ := Qeq_bool;
  sofZ := fun z => (z # 1)%Q;
  sofQ := Qred;
  sfloor := Qfloor;
  ssqrt := Qsqrt_approx;
}.
