(** save_obj.h.  The file is the list of its lines; numbers are kept exact (the stream prints 6 digits; int is unbounded). *)
From Verif Require Import Monad Scalar ModelCurve ModelPatchBase.
Local Open Scope Z_scope.

(** The lines written: "v x y ...", "l i j", "f a b c d". *)
Inductive obj_line (P : Type) := ObjV (p : P) | ObjL (i j : Z) | ObjF (a b c d : Z).
Arguments ObjV {P}. Arguments ObjL {P}. Arguments ObjF {P}.

Section Obj.
  Context {T P : Type} {SO : ScalarOps T}.
  Local Open Scope scal_scope.

  (** save_obj.h:9-29 export_obj: the lines and the returned offset *)
  Definition export_obj (c : curve_ops T P) (N offset : Z) : res (list (obj_line P) * Z) :=
    do vs <- tabulate N (fun i =>
      do t <- ddiv (sofZ i) (sofZ N);
      do p <- c_eval c t;
      Ok (ObjV p));
    do ls <- tabulate (N - 1) (fun i => Ok (ObjL (i + offset + 1) (i + offset + 2)));
    Ok ((vs ++ ls)%list, (offset + N)%Z).

  (** save_obj.h:31-69 export_patch_obj *)
  Definition export_patch_obj (s : patch_ops T P) (num_u_samples num_v_samples offset : Z) : res (list (obj_line P) * Z) :=
    do vs <- tabulate num_u_samples (fun ui =>
      do qu <- ddiv (sofZ ui) (sofZ (num_u_samples - 1));
      let u := s_ulo s + (s_uhi s - s_ulo s) * qu in
      tabulate num_v_samples (fun vi =>
        do qv <- ddiv (sofZ vi) (sofZ (num_v_samples - 1));
        let v := s_vlo s + (s_vhi s - s_vlo s) * qv in
        do p <- s_eval s u v;
        Ok (ObjV p)));
    do fs <- tabulate (num_u_samples - 1) (fun ui =>
      tabulate (num_v_samples - 1) (fun vi =>
        let c0 := (ui * num_v_samples + vi)%Z in
        let c1 := ((ui + 1) * num_v_samples + vi)%Z in
        let c2 := ((ui + 1) * num_v_samples + vi + 1)%Z in
        let c3 := (ui * num_v_samples + vi + 1)%Z in
        Ok (ObjF (c0 + offset + 1) (c1 + offset + 1) (c2 + offset + 1) (c3 + offset + 1))));
    Ok ((concat vs ++ concat fs)%list, (offset + num_u_samples * num_v_samples)%Z).

  (** save_obj.h:73-79 one curve *)
  Definition save_obj_curve (c : curve_ops T P) : res (list (obj_line P)) :=
    do '(ls, _) <- export_obj c 100 0; Ok ls.

  (** save_obj.h:81-90 and 103-112 several: "count += export(..., count)" *)
  Fixpoint save_obj_loop {A} (export : A -> Z -> res (list (obj_line P) * Z)) (cs : list A) (count : Z) : res (list (obj_line P)) :=
    match cs with
    | [] => Ok []
    | c :: cs =>
        do '(ls, n) <- export c count;
        do rest <- save_obj_loop export cs (count + n);
        Ok (ls ++ rest)%list
    end.
  Definition save_obj_curves (cs : list (curve_ops T P)) : res (list (obj_line P)) :=
    save_obj_loop (fun c count => export_obj c 100 count) cs 0.
  (** save_obj.h:92-112 *)
  Definition save_patch_obj (s : patch_ops T P) (nu nv : Z) : res (list (obj_line P)) :=
    do '(ls, _) <- export_patch_obj s nu nv 0; Ok ls.
  Definition save_patches_obj (ss : list (patch_ops T P)) : res (list (obj_line P)) :=
    save_obj_loop (fun s count => export_patch_obj s 100 100 count) ss 0.
End Obj.
