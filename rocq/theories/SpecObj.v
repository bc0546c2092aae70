(** What an OBJ file says: its points in order, its segments and its quadrilaterals (numbering points from 1). *)
From Coq Require Import ZArith List.
From Verif Require Import ModelExport.
Import ListNotations.

Definition obj_points {P} (file : list (obj_line P)) : list P :=
  flat_map (fun l => match l with ObjV p => [p] | _ => [] end) file.
Definition obj_segments {P} (file : list (obj_line P)) : list (Z * Z) :=
  flat_map (fun l => match l with ObjL i j => [(i, j)] | _ => [] end) file.
Definition obj_faces {P} (file : list (obj_line P)) : list (Z * Z * Z * Z) :=
  flat_map (fun l => match l with ObjF a b c d => [(a, b, c, d)] | _ => [] end) file.
(** The chain a, a+1, ..., a+n of segments. *)
Definition chain (a : Z) (n : nat) : list (Z * Z) := map (fun k => (a + Z.of_nat k, a + Z.of_nat k + 1)%Z) (seq 0 n).
