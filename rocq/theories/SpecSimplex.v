(** Specification vocabulary for Bezier simplices: multi-indices, barycentric coordinates, Bernstein weights. *)
From Coq Require Import Reals List Arith.
From Verif Require Import Scalar Spec.
Import ListNotations.
Local Open Scope R_scope.

(** The multi-indices of degree [d] over a simplex of dimension [n]: n+1 natural numbers with sum d. *)
Definition multi_index (n d : nat) (a : list nat) : Prop := length a = (n + 1)%nat /\ list_sum a = d.
(** [a] comes before [b] in lexicographically decreasing order. *)
Definition lex_before (a b : list nat) : Prop :=
  exists k, firstn k a = firstn k b /\ (k < length a)%nat /\ (k < length b)%nat /\ (nth k b 0 < nth k a 0)%nat.
(** [l] lists the multi-indices, each once. *)
Definition enumerates (n d : nat) (l : list (list nat)) : Prop := NoDup l /\ forall a, In a l <-> multi_index n d a.

(** Sum of a list of real numbers, and of points over a list. *)
Fixpoint sumR (l : list R) : R := match l with [] => 0 | x :: l' => x + sumR l' end.
Fixpoint psumL {A P} {V : PointOps R P} (f : A -> P) (l : list A) : P := match l with [] => p0 | a :: l' => padd (f a) (psumL f l') end.

(** b_0^a_0 ... b_n^a_n / (a_0! ... a_n!) *)
Fixpoint monomial (a : list nat) (b : list R) : R :=
  match a, b with
  | k :: a', x :: b' => x ^ k / INR (fact k) * monomial a' b'
  | _, _ => 1
  end.
(** The Bernstein polynomial of degree [d] and multi-index [a] at [b]: d! b^a / a! *)
Definition bern_weight (d : nat) (a : list nat) (b : list R) : R := INR (fact d) * monomial a b.

(** The point b + t dir. *)
Fixpoint move (b dir : list R) (t : R) : list R :=
  match b, dir with
  | x :: b', y :: dir' => x + t * y :: move b' dir' t
  | _, _ => []
  end.
(** [a] with entry [k] raised by one. *)
Fixpoint raise (a : list nat) (k : nat) : list nat :=
  match a, k with
  | [], _ => []
  | x :: a', O => S x :: a'
  | x :: a', S k' => x :: raise a' k'
  end.
(** de Casteljau's algorithm for simplices (Farin): sum_k b_k (the net of degree d-1 starting at index k). *)
Fixpoint casteljau {P} {V : PointOps R P} (n d : nat) (o : list nat -> P) (b : list R) : P :=
  match d with
  | O => o (repeat 0%nat (n + 1))
  | S d' => psum (n + 1) (fun k => pmul (nth k b 0) (casteljau n d' (fun a => o (raise a k)) b))
  end.

(** [N] is a right inverse of the square matrix [M] of size [k] (lists of rows): M N = 1. *)
Definition square (k : nat) (M : list (list R)) : Prop := length M = k /\ forall r, In r M -> length r = k.
Definition entry (M : list (list R)) (i j : nat) : R := nth j (nth i M []) 0.
Definition right_inverse (k : nat) (M N : list (list R)) : Prop :=
  square k N /\ forall i j, (i < k)%nat -> (j < k)%nat -> rsum k (fun l => entry M i l * entry N l j) = if Nat.eq_dec i j then 1 else 0.
