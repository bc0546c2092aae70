(** Computational background of the model: outcomes, checked arrays and loops.

    None of these definitions models a particular function of /repo; they model the C++
    constructs every modelled function is written in.  *)
From Coq Require Export ZArith List Bool Lia.
Export ListNotations.
Open Scope Z_scope.

(** Exceptions: /repo/include/nanospline/Exceptions.h (the three classes derived from
    std::runtime_error), plus [runtime_error] for plain std::runtime_error throws. *)
Inductive exn := not_implemented_error | invalid_setting_error | infinite_root_error | runtime_error.

(** Outcome of running a C++ function.
    - [Ok a]        normal return;
    - [Throw e]     a C++ exception;
    - [Undef]       undefined or aborting behaviour: index out of range (Eigen asserts or reads
                    arbitrary memory), a failed [assert], or a loop that does not terminate;
    - [NonFinite]   a floating point division by zero: the C++ program goes on with inf/nan, which
                    exact arithmetic cannot represent, so it is kept apart as an outcome. *)
Inductive res (A : Type) : Type :=
| Ok (a : A)
| Throw (e : exn)
| Undef
| NonFinite.
Arguments Ok {A} a.
Arguments Throw {A} e.
Arguments Undef {A}.
Arguments NonFinite {A}.

(** Sequencing of statements. *)
Definition bind {A B} (x : res A) (f : A -> res B) : res B :=
  match x with
  | Ok a => f a
  | Throw e => Throw e
  | Undef => Undef
  | NonFinite => NonFinite
  end.

Notation "'do' x <- e ; f" := (bind e (fun x => f))
  (at level 200, x name, e at level 100, f at level 200, right associativity).
Notation "'do' ' x <- e ; f" := (bind e (fun y => match y with x => f end))
  (at level 200, x strict pattern, e at level 100, f at level 200, right associativity).

Definition res_map {A B} (f : A -> B) (x : res A) : res B := bind x (fun a => Ok (f a)).

(** [assert(b); k] of C++ (debug semantics: failing is [Undef]). *)
Definition assert_ (b : bool) : res unit := if b then Ok tt else Undef.

(** Checked array access ([row(i)], [m_knots[i]], [std::vector::operator[]]).  The index is a C++
    signed integer, so it is a [Z]; negative or too large indices are [Undef]. *)
Definition zlen {A} (l : list A) : Z := Z.of_nat (length l).

Definition get {A} (l : list A) (i : Z) : res A :=
  if i <? 0 then Undef
  else match nth_error l (Z.to_nat i) with
       | Some a => Ok a
       | None => Undef
       end.

Fixpoint upd_nat {A} (l : list A) (n : nat) (v : A) : list A :=
  match l, n with
  | [], _ => []
  | _ :: l', O => v :: l'
  | x :: l', S n' => x :: upd_nat l' n' v
  end.

(** Checked array update. *)
Definition set {A} (l : list A) (i : Z) (v : A) : res (list A) :=
  if (0 <=? i) && (i <? zlen l) then Ok (upd_nat l (Z.to_nat i) v) else Undef.

(** [M.block(i,0,n,cols)] / [v.segment(i,n)] / [topRows] / [bottomRows] read access. *)
Definition block {A} (l : list A) (i n : Z) : res (list A) :=
  if (0 <=? i) && (0 <=? n) && (i + n <=? zlen l)
  then Ok (firstn (Z.to_nat n) (skipn (Z.to_nat i) l))
  else Undef.

(** [M.block(i,0,n,cols) = src] with [src] of [n] rows. *)
Definition blit {A} (l : list A) (i : Z) (src : list A) : res (list A) :=
  if (0 <=? i) && (i + zlen src <=? zlen l)
  then Ok (firstn (Z.to_nat i) l ++ src ++ skipn (Z.to_nat i + length src) l)
  else Undef.

Definition topRows {A} (l : list A) (n : Z) : res (list A) := block l 0 n.
Definition bottomRows {A} (l : list A) (n : Z) : res (list A) := block l (zlen l - n) n.

(** A freshly allocated (uninitialised) Eigen array of [n] rows; the contents are arbitrary in C++,
    the model fills them with [d]. *)
Definition alloc {A} (d : A) (n : Z) : res (list A) :=
  if 0 <=? n then Ok (repeat d (Z.to_nat n)) else Undef.

(** [for (int i = lo; i < hi; i++) s = body(i, s);] *)
Fixpoint for_nat {S} (n : nat) (i : Z) (body : Z -> S -> res S) (s : S) : res S :=
  match n with
  | O => Ok s
  | Datatypes.S n' => do s' <- body i s; for_nat n' (i + 1) body s'
  end.

Definition for_up {S} (lo hi : Z) (body : Z -> S -> res S) (s : S) : res S :=
  for_nat (Z.to_nat (hi - lo)) lo body s.

(** [for (int j = hi; j >= lo; j--) s = body(j, s);] *)
Fixpoint ford_nat {S} (n : nat) (j : Z) (body : Z -> S -> res S) (s : S) : res S :=
  match n with
  | O => Ok s
  | Datatypes.S n' => do s' <- body j s; ford_nat n' (j - 1) body s'
  end.

Definition for_down {S} (hi lo : Z) (body : Z -> S -> res S) (s : S) : res S :=
  ford_nat (Z.to_nat (hi - lo + 1)) hi body s.

(** A loop whose body may [break]/[return] ([inr]) or continue ([inl]); [for (i=lo;i<hi;i++)]. *)
Fixpoint forb_nat {S B} (n : nat) (i : Z) (body : Z -> S -> res (S + B)) (s : S) : res (S + B) :=
  match n with
  | O => Ok (inl s)
  | Datatypes.S n' =>
      do x <- body i s;
      match x with
      | inl s' => forb_nat n' (i + 1) body s'
      | inr b => Ok (inr b)
      end
  end.

Definition forb_up {S B} (lo hi : Z) (body : Z -> S -> res (S + B)) (s : S) : res (S + B) :=
  forb_nat (Z.to_nat (hi - lo)) lo body s.

(** [while (c(s)) s = body(s);] on explicit fuel; out of fuel is [Undef] (non-termination). *)
Fixpoint while {S} (fuel : nat) (c : S -> res bool) (body : S -> res S) (s : S) : res S :=
  match fuel with
  | O => Undef
  | Datatypes.S f =>
      do b <- c s;
      if b then (do s' <- body s; while f c body s') else Ok s
  end.

(** Mapping a fallible function over a list (range-for with push_back). *)
Fixpoint mapM {A B} (f : A -> res B) (l : list A) : res (list B) :=
  match l with
  | [] => Ok []
  | a :: l' => do b <- f a; do bs <- mapM f l'; Ok (b :: bs)
  end.

(** Building an array row by row: [for i in 0..n-1: out.row(i) = f(i)]. *)
Definition tabulate {A} (n : Z) (f : Z -> res A) : res (list A) :=
  mapM (fun k => f (Z.of_nat k)) (seq 0 (Z.to_nat n)).
