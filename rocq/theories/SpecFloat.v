(** What floating point results are compared with: the real numbers they stand for, and error bounds. *)
From Coq Require Import Reals ZArith List.
From Flocq Require Import Core.Raux Core.Zaux IEEE754.BinarySingleNaN.
From Verif Require Import Scalar Spec.
Import ListNotations.
Local Open Scope R_scope.

(** The real point a point of floating point numbers stands for. *)
Fixpoint vreal {prec emax : Z} (d : nat) : vec (binary_float prec emax) d -> vec R d :=
  match d with
  | O => fun _ => tt
  | S d' => fun a => (B2R (fst a), vreal d' (snd a))
  end.

(** All coordinates of a point are finite numbers. *)
Fixpoint vfinite {prec emax : Z} (d : nat) : vec (binary_float prec emax) d -> Prop :=
  match d with
  | O => fun _ => True
  | S d' => fun a => is_finite (fst a) = true /\ vfinite d' (snd a)
  end.

(** Half an ulp of 1, and half the smallest positive number. *)
Definition unit_roundoff (prec : Z) : R := bpow radix2 (- prec).
Definition underflow_error (prec emax : Z) : R := bpow radix2 (2 - emax - prec).

(** How large the numbers of [k] rounded interpolation steps can become when they start below [M]. *)
Definition growth (u eta M : R) (k : nat) : R := (1 + u) ^ (3 * k) * (M + 2 * INR k * eta).
