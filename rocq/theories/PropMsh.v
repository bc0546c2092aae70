(** Property theorems: saving and loading MSH files (C50, C86-C90).
    Statements only; the proofs are in MshThms.v, MshThms2.v, MshThms3.v, MshMesh.v and MshRefute.v. *)
From Coq Require Import List ZArith QArith Reals Lra Lia.
From Verif Require Import Monad Scalar ModelCurve ModelBezier ModelBSpline ModelRational ModelPatchBase ModelPatch ModelPatchRational.
From Verif Require Import ModelMsh SpecMsh MshThms3 MshMesh MshRefute.
Import ListNotations.
Local Open Scope Z_scope.

(** * C50: round trip *)
Theorem C50_saves : forall T (SO : ScalarOps T) d, d = 2%nat \/ d = 3%nat -> forall (cs : list (curve T d * curve_ops T (vec T d))) ps,
  Forall saved_curve (map fst cs) -> Forall saved_patch (map fst ps) -> exists spec : msh_spec T, save_msh cs ps false = Ok spec.
Proof. exact @msh_save_ok. Qed.
Print Assumptions C50_saves.
Theorem C50_round_trip : forall T (SO : ScalarOps T) d, d = 2%nat \/ d = 3%nat -> forall (cs : list (curve T d * curve_ops T (vec T d))) ps b (spec : msh_spec T),
  Forall saved_curve (map fst cs) -> Forall saved_patch (map fst ps) -> save_msh cs ps b = Ok spec ->
  exists cs' ps', load_msh spec = Ok (cs', ps') /\ Forall2 carries_curve (map fst cs) cs' /\ Forall2 carries_patch (map fst ps) ps'.
Proof. exact @msh_round_trip. Qed.
Print Assumptions C50_round_trip.
(** Objects in space that are not periodic come back unchanged in every member. *)
Theorem C50_identity : forall T (SO : ScalarOps T) (cs : list (curve T 3 * curve_ops T (vec T 3))) ps b (spec : msh_spec T),
  Forall saved_curve (map fst cs) -> Forall plain_curve (map fst cs) -> Forall saved_patch (map fst ps) -> Forall plain_patch (map fst ps) ->
  save_msh cs ps b = Ok spec -> load_msh spec = Ok (map fst cs, map fst ps).
Proof. exact @msh_identity. Qed.
Print Assumptions C50_identity.

Section Concrete.
  Local Open Scope Q_scope.
  Let p (x y z : Q) : vec Q 3 := (x, (y, (z, tt))).
  Let p2 (x y : Q) : vec Q 2 := (x, (y, tt)).
  Definition take {A} (r : res A) (a : A) : A := match r with Ok a => a | _ => a end.
  Definition q_bz : bezier (vec Q 3) := mk_bezier [p 0 0 0; p 1 2 0; p 3 0 5].
  Definition q_rb : rbezier Q 3 :=
    take (rb_initialize (rb_set_weights (rb_set_control_points rb_empty [p 0 0 0; p 1 (1#2) 0; p 2 0 1]) [1; 2; 1#3])) rb_empty.
  Definition q_bs : bspline Q (vec Q 3) := mk_bspline [p 0 0 0; p 1 2 0; p 3 0 5; p 4 4 4] [0; 0; 0; 1#2; 1; 1; 1].
  Definition q_nb : nurbs Q 3 :=
    take (mk_nurbs [p 0 0 0; p 1 2 0; p 3 0 5; p 4 4 4] [0; 0; 0; 1#2; 1; 1; 1] [1; 2; 3; 1]) nb_empty.
  Definition q_bp : bpatch (vec Q 3) := take (bp_initialize (bp_set_degrees (bp_set_grid (bp_new (-1) (-1)) [p 0 0 0; p 0 1 0; p 0 2 1; p 1 0 0; p 1 1 3; p 1 2 0]) 1 2)) (bp_new (-1) (-1)).
  Definition q_rp : rbpatch Q 3 :=
    take (rp_initialize (rp_set_degrees (rp_set_weights (rp_set_grid (rp_new (-1) (-1)) [p 0 0 0; p 0 1 0; p 1 0 0; p 1 1 3]) [1; 2; 3; 4]) 1 1)) (rp_new (-1) (-1)).
  Definition q_sp0 : spatch Q (vec Q 3) :=
    sp_make (-1) (-1) 1 1 [p 0 0 0; p 0 1 0; p 1 0 0; p 1 1 3; p 2 0 0; p 2 1 1] [0; 0; 1#2; 1; 1] [0; 0; 1; 1] false false.
  Definition q_sp : spatch Q (vec Q 3) := take (sp_initialize q_sp0) q_sp0.
  Definition q_np0 : nupatch Q 3 :=
    np_make (-1) (-1) 1 1 [p 0 0 0; p 0 1 0; p 1 0 0; p 1 1 3; p 2 0 0; p 2 1 1] [1; 1; 2; 1; 1; 1#2] [0; 0; 1#2; 1; 1] [0; 0; 1; 1] false false.
  Definition q_np : nupatch Q 3 := take (np_initialize q_np0) q_np0.
  Definition no_curve : curve_ops Q (vec Q 3) := bz_ops q_bz.
  Definition no_patch : patch_ops Q (vec Q 3) * (Z * Z) := (bp_ops q_bp, (3, 3)%Z).
  Definition q_cs := [(CBezier q_bz, no_curve); (CRational q_rb, no_curve); (CBSpline q_bs, no_curve); (CNurbs q_nb, no_curve)].
  Definition q_ps := [(PBezier q_bp, no_patch); (PRational q_rp, no_patch); (PBSpline q_sp, no_patch); (PNurbs q_np, no_patch)].
  Definition q_flat : curve Q 2 * curve_ops Q (vec Q 2) := (CBezier (mk_bezier [p2 1 2; p2 3 4]), bz_ops (mk_bezier [p2 1 2; p2 3 4])).
End Concrete.
(** All eight classes at once meet the hypotheses, are saved, and come back. *)
Example C50_hypotheses : Forall saved_curve (map fst q_cs) /\ Forall plain_curve (map fst q_cs) /\ Forall saved_patch (map fst q_ps) /\ Forall plain_patch (map fst q_ps) /\
  exists spec, save_msh q_cs q_ps false = Ok spec /\ load_msh spec = Ok (map fst q_cs, map fst q_ps).
Proof.
  split; [|split; [|split; [|split]]].
  - cbn [q_cs map fst]. repeat (apply Forall_cons || apply Forall_nil); cbn [saved_curve]; repeat (match goal with |- _ /\ _ => split end); try discriminate; vm_compute; reflexivity.
  - cbn [q_cs map fst]. repeat (apply Forall_cons || apply Forall_nil); vm_compute; reflexivity.
  - cbn [q_ps map fst]. repeat (apply Forall_cons || apply Forall_nil); cbn [saved_patch]; repeat (match goal with |- _ /\ _ => split end); vm_compute; reflexivity.
  - cbn [q_ps map fst]. repeat (apply Forall_cons || apply Forall_nil); vm_compute; repeat split.
  - eexists. split; [vm_compute; reflexivity|]. vm_compute. reflexivity.
Qed.
(** A plane curve comes back in space, and sampled saving works too. *)
Example C50_plane : exists spec c, save_msh [q_flat] [] true = Ok spec /\ load_msh spec = Ok ([CBezier c], []) /\
  bz_pts c = [(1, (2, (0, tt))); (3, (4, (0, tt)))]%Q /\ ms_num_nodes spec = 101 /\ ms_num_elements spec = 100.
Proof. eexists _, _. split; [vm_compute; reflexivity|]. split; [vm_compute; reflexivity|]. vm_compute. repeat split. Qed.

(** * C86: the sampled mesh *)
Theorem C86_mesh : forall d, d = 2%nat \/ d = 3%nat ->
  forall (cs : list (curve R d * curve_ops R (vec R d))) (ps : list (patch R d * (patch_ops R (vec R d) * (Z * Z)))) spec,
  Forall (fun p => 0 < fst (snd (snd p)) < 2 ^ 31 /\ 0 < snd (snd (snd p)) < 2 ^ 31) ps ->
  save_msh cs ps true = Ok spec ->
  exists bc bp, numbered spec (bc ++ bp) /\ length bc = length cs /\ length bp = length ps /\
    (forall k c b, nth_error cs k = Some c -> nth_error bc k = Some b -> samples_curve 100 (1 + Z.of_nat k) (snd c) b) /\
    (forall k p b, nth_error ps k = Some p -> nth_error bp k = Some b ->
      samples_patch (2 * Z.to_nat (fst (snd (snd p)))) (2 * Z.to_nat (snd (snd (snd p)))) (1 + Z.of_nat k) (fst (snd p)) b).
Proof. exact @msh_mesh. Qed.
Print Assumptions C86_mesh.
Theorem C86_saves : forall d, d = 2%nat \/ d = 3%nat -> forall (cs : list (curve R d * curve_ops R (vec R d))) ps,
  Forall sampled_curve_ok cs -> Forall sampled_patch_ok ps -> exists spec : msh_spec R, save_msh cs ps true = Ok spec.
Proof. exact @msh_sampled_ok. Qed.
Print Assumptions C86_saves.
(** The counts of samples of the four classes with control points are positive. *)
Theorem C86_recommended : forall d (s : patch R d), saved_patch s ->
  exists nu nv, patch_recommended_u s = Ok nu /\ patch_recommended_v s = Ok nv /\ 2 <= nu /\ 2 <= nv.
Proof. exact @recommended. Qed.
Print Assumptions C86_recommended.
Example C86_concrete : sampled_curve_ok (seg_saved 0 1) /\ sampled_patch_ok (quad_saved 1) /\
  patch_recommended_u (PBezier (quad 1)) = Ok 3 /\ patch_recommended_v (PBezier (quad 1)) = Ok 3.
Proof. split; [apply seg_ok|]. split; [apply quad_ok|]. split; reflexivity. Qed.

(** * C87: the smallest node number *)
(** Two curves: the file says 2, node 1 is there. *)
Theorem C87_refuted : exists (cs : list (curve R 2 * curve_ops R (vec R 2))) spec, Forall sampled_curve_ok cs /\ save_msh cs [] true = Ok spec /\
  ms_min_node spec = 2 /\ exists b, In b (ms_node_blocks spec) /\ In 1 (kb_tags b).
Proof. exact min_node_wrong. Qed.
Print Assumptions C87_refuted.
(** With a patch it is right; without, it is the number of curves. *)
Theorem C87_actual : forall d, d = 2%nat \/ d = 3%nat -> forall (cs : list (curve R d * curve_ops R (vec R d))) ps spec, save_msh cs ps true = Ok spec ->
  (ps <> [] -> ms_min_node spec = 1) /\ (ps = [] -> cs <> [] -> zlen cs < 2 ^ 64 -> ms_min_node spec = zlen cs).
Proof. exact @min_node. Qed.
Print Assumptions C87_actual.

(** * C88: entity data *)
Theorem C88_partial : forall d, d = 2%nat \/ d = 3%nat ->
  forall (cs : list (curve R d * curve_ops R (vec R d))) (ps : list (patch R d * (patch_ops R (vec R d) * (Z * Z)))) spec,
  Forall (fun p => 0 < fst (snd (snd p)) < 2 ^ 31 /\ 0 < snd (snd (snd p)) < 2 ^ 31) ps -> cs <> [] -> ps <> [] ->
  save_msh cs ps true = Ok spec ->
  exists bc bp, numbered spec (bc ++ bp) /\ length bc = length cs /\ length bp = length ps /\
    ms_element_data spec = [{| ed_patch := false; ed_num := zlen (concat (map part_entries bc)); ed_entries := concat (map part_entries bc) |};
                            {| ed_patch := true; ed_num := zlen (concat (map part_entries bp)); ed_entries := concat (map part_entries bp) |}].
Proof. exact @entity_blocks. Qed.
Print Assumptions C88_partial.
Theorem C88_refuted : exists (ps : list (patch R 3 * (patch_ops R (vec R 3) * (Z * Z)))) spec, Forall sampled_patch_ok ps /\
  save_msh ([] : list (curve R 3 * curve_ops R (vec R 3))) ps true = Ok spec /\ map ed_patch (ms_element_data spec) = [true; true].
Proof. exact entity_wrong. Qed.
Print Assumptions C88_refuted.
Theorem C88_actual : forall d, d = 2%nat \/ d = 3%nat -> forall (ps : list (patch R d * (patch_ops R (vec R d) * (Z * Z)))) spec, (2 <= length ps)%nat ->
  save_msh ([] : list (curve R d * curve_ops R (vec R d))) ps true = Ok spec -> map ed_patch (ms_element_data spec) = [true; true].
Proof. exact @entity_actual. Qed.
Print Assumptions C88_actual.

(** * C89: what a file keeps *)
Theorem C89_periodic_refuted : exists (c : curve R 3) (ops : curve_ops R (vec R 3)) spec c', saved_curve c /\ c = CBezier loop /\
  save_msh [(c, ops)] [] false = Ok spec /\ load_msh spec = Ok ([CBezier c'], []) /\ bz_pts c' = bz_pts loop /\ bz_periodic c' = false.
Proof. exact periodic_lost. Qed.
Print Assumptions C89_periodic_refuted.
Theorem C89_periodic_actual : forall (spec : msh_spec R) cs ps, load_msh spec = Ok (cs, ps) -> Forall plain_curve cs /\ Forall plain_patch ps.
Proof. exact loaded_not_periodic. Qed.
Print Assumptions C89_periodic_actual.
(** A line, circle or ellipse makes the whole file unreadable, whatever else is in it. *)
Theorem C89_line_refuted : forall d, d = 2%nat \/ d = 3%nat -> forall ty (ops : curve_ops R (vec R d)), 5 <= ty <= 7 ->
  exists spec, save_msh [(COther ty, ops)] [] false = Ok spec /\ load_msh spec = Throw invalid_setting_error.
Proof. exact @line_unreadable. Qed.
Print Assumptions C89_line_refuted.
Theorem C89_line_actual : forall d, d = 2%nat \/ d = 3%nat -> forall (cs : list (curve R d * curve_ops R (vec R d))) ps b (spec : msh_spec R),
  Forall (fun c => saved_curve c \/ exists ty, c = COther ty /\ 5 <= ty <= 7) (map fst cs) -> ~ Forall saved_curve (map fst cs) ->
  save_msh cs ps b = Ok spec -> load_msh spec = Throw invalid_setting_error.
Proof. exact @other_file. Qed.
Print Assumptions C89_line_actual.
(** A closed form patch is written as a Bezier patch without control points. *)
Theorem C89_closed_form_refuted : forall d, d = 2%nat \/ d = 3%nat -> forall du dv ops (r : Z * Z), 0 <= du < 2 ^ 31 -> 0 <= dv < 2 ^ 31 ->
  exists spec, save_msh ([] : list (curve R d * curve_ops R (vec R d))) [(POther du dv, (ops, r))] false = Ok spec /\ load_msh spec = Undef.
Proof. exact @closed_form_unreadable. Qed.
Print Assumptions C89_closed_form_refuted.

(** * C90: sampling swept patches *)
(** The profile is a line, circle or ellipse: no control points, no samples, the parameter is 0 / 0. *)
Theorem C90_profile_refuted : forall d, d = 2%nat \/ d = 3%nat -> forall ty ops, save_msh ([] : list (curve R d * curve_ops R (vec R d)))
  [(POther 2 2, (ops, (swept_recommended (COther ty : curve R d), 3)))] true = NonFinite.
Proof. exact @profile_no_points. Qed.
Print Assumptions C90_profile_refuted.
