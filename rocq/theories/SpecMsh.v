(** What it means for a loaded curve or patch to carry the data of a saved one. *)
From Coq Require Import List ZArith Reals Lra Lia.
From Verif Require Import Monad Scalar ModelCurve ModelPatchBase ModelBezier ModelBSpline ModelRational ModelPatch ModelPatchRational ModelMsh.
Import ListNotations.
Local Open Scope Z_scope.

Section Spec.
  Context {T : Type} {SO : ScalarOps T}.

  (** A point of the plane seen in space; a point of space is itself. *)
  Definition in_space {d} (p : vec T d) : vec T 3 := (coord d 0 p, (coord d 1 p, (coord d 2 p, tt))).

  (** The object is of one of the four classes with control points, its arrays have the lengths its class
      demands, and (rational ones) initialize was called after the last change. *)
  Definition saved_curve {d} (c : curve T d) : Prop :=
    match c with
    | CBezier c => zlen (bz_pts c) * 3 < 2 ^ 64
    | CRational c => rb_pts c <> [] /\ rb_initialize c = Ok c /\ zlen (rb_pts c) * 4 < 2 ^ 64
    | CBSpline c => zlen (bs_pts c) * 3 + zlen (bs_knots c) < 2 ^ 64
    | CNurbs c => nb_pts c <> [] /\ nb_initialize c = Ok c /\ zlen (nb_pts c) * 4 + zlen (nb_knots c) < 2 ^ 64
    | COther _ => False
    end.
  (** Degrees fit in an int; at least one control point in each direction. *)
  Definition saved_patch {d} (s : patch T d) : Prop :=
    match s with
    | PBezier s => bp_initialize s = Ok s /\ bp_degu s < 2 ^ 31 /\ bp_degv s < 2 ^ 31
    | PRational s => rp_initialize s = Ok s /\ rp_degu s < 2 ^ 31 /\ rp_degv s < 2 ^ 31
    | PBSpline s => sp_initialize s = Ok s /\ sp_degu s < 2 ^ 31 /\ sp_degv s < 2 ^ 31 /\
        sp_degu s + 1 < zlen (sp_ku s) < 2 ^ 31 /\ sp_degv s + 1 < zlen (sp_kv s) < 2 ^ 31
    | PNurbs s => np_initialize s = Ok s /\ np_degu s < 2 ^ 31 /\ np_degv s < 2 ^ 31 /\
        np_degu s + 1 < zlen (np_ku s) < 2 ^ 31 /\ np_degv s + 1 < zlen (np_kv s) < 2 ^ 31
    | POther _ _ => False
    end.

  (** [c'] is of the class of [c], has its control points, weights and knots, is not periodic and is ready for use. *)
  Definition carries_curve {d} (c : curve T d) (c' : curve T 3) : Prop :=
    match c, c' with
    | CBezier c, CBezier c' => bz_pts c' = map in_space (bz_pts c) /\ bz_periodic c' = false
    | CRational c, CRational c' =>
        rb_pts c' = map in_space (rb_pts c) /\ rb_weights c' = rb_weights c /\ rb_periodic c' = false /\ rb_initialize c' = Ok c'
    | CBSpline c, CBSpline c' =>
        bs_pts c' = map in_space (bs_pts c) /\ bs_knots c' = bs_knots c /\ bs_periodic c' = false
    | CNurbs c, CNurbs c' =>
        nb_pts c' = map in_space (nb_pts c) /\ nb_knots c' = nb_knots c /\ nb_weights c' = nb_weights c /\
        nb_periodic c' = false /\ nb_initialize c' = Ok c'
    | _, _ => False
    end.
  Definition carries_patch {d} (s : patch T d) (s' : patch T 3) : Prop :=
    match s, s' with
    | PBezier s, PBezier s' =>
        bp_grid s' = map in_space (bp_grid s) /\ bp_degu s' = bp_degu s /\ bp_degv s' = bp_degv s /\
        bp_peru s' = false /\ bp_perv s' = false /\ bp_initialize s' = Ok s'
    | PRational s, PRational s' =>
        rp_grid s' = map in_space (rp_grid s) /\ rp_weights s' = rp_weights s /\
        rp_degu s' = rp_degu s /\ rp_degv s' = rp_degv s /\
        rp_peru s' = false /\ rp_perv s' = false /\ rp_initialize s' = Ok s'
    | PBSpline s, PBSpline s' =>
        sp_grid s' = map in_space (sp_grid s) /\ sp_ku s' = sp_ku s /\ sp_kv s' = sp_kv s /\
        sp_degu s' = sp_degu s /\ sp_degv s' = sp_degv s /\
        sp_peru s' = false /\ sp_perv s' = false /\ sp_initialize s' = Ok s'
    | PNurbs s, PNurbs s' =>
        np_grid s' = map in_space (np_grid s) /\ np_weights s' = np_weights s /\ np_ku s' = np_ku s /\ np_kv s' = np_kv s /\
        np_degu s' = np_degu s /\ np_degv s' = np_degv s /\
        np_peru s' = false /\ np_perv s' = false /\ np_initialize s' = Ok s'
    | _, _ => False
    end.

  (** The object is not periodic; patches have dynamic degrees, as the loaded ones do. *)
  Definition plain_curve (c : curve T 3) : Prop :=
    match c with
    | CBezier c => bz_periodic c = false | CRational c => rb_periodic c = false
    | CBSpline c => bs_periodic c = false | CNurbs c => nb_periodic c = false | COther _ => False
    end.
  Definition plain_patch (s : patch T 3) : Prop :=
    match s with
    | PBezier s => bp_peru s = false /\ bp_perv s = false /\ bp_tu s = -1 /\ bp_tv s = -1
    | PRational s => rp_peru s = false /\ rp_perv s = false /\ rp_tu s = -1 /\ rp_tv s = -1 /\
        bp_tu (rp_hom s) = -1 /\ bp_tv (rp_hom s) = -1
    | PBSpline s => sp_peru s = false /\ sp_perv s = false /\ sp_tu s = -1 /\ sp_tv s = -1
    | PNurbs s => np_peru s = false /\ np_perv s = false /\ np_tu s = -1 /\ np_tv s = -1 /\
        sp_tu (np_hom s) = -1 /\ sp_tv (np_hom s) = -1
    | POther _ _ => False
    end.
End Spec.

(** * The sampled mesh *)

(** Numbers a+1, ..., a+n. *)
Definition consecutive (a : Z) (n : nat) : list Z := map (fun k => a + Z.of_nat k + 1) (seq 0 n).
(** The nodes of an object, its elements, and the elements' data cut in pieces, one for each element. *)
Definition mesh_part : Type := @node_block R * @element_block * list (list Z).
Definition part_nodes (b : mesh_part) : @node_block R := fst (fst b).
Definition part_elements (b : mesh_part) : @element_block := snd (fst b).
Definition part_pieces (b : mesh_part) : list (list Z) := snd b.

(** A piece starts with the number of the element; its nodes follow. *)
Definition well_cut (b : mesh_part) : Prop :=
  eb_data (part_elements b) = concat (part_pieces b) /\
  zlen (part_pieces b) = eb_num (part_elements b) /\
  zlen (kb_tags (part_nodes b)) = kb_num (part_nodes b) /\
  kb_tag (part_nodes b) = eb_tag (part_elements b) /\ kb_dim (part_nodes b) = eb_dim (part_elements b).
Definition part_numbers (b : mesh_part) : list Z := map (hd 0) (part_pieces b).
Definition part_entries (b : mesh_part) : list (Z * Z) := map (fun n => (n, eb_tag (part_elements b))) (part_numbers b).

(** Nodes and elements are numbered from 1 without gaps or repetitions, the counters agree, and each element
    number has one entry giving the tag of its object. *)
Definition numbered (spec : msh_spec R) (blocks : list mesh_part) : Prop :=
  ms_node_blocks spec = map part_nodes blocks /\ ms_element_blocks spec = map part_elements blocks /\
  ms_num_node_blocks spec = zlen blocks /\ ms_num_element_blocks spec = zlen blocks /\
  Forall well_cut blocks /\
  concat (map (fun b => kb_tags (part_nodes b)) blocks) = consecutive 0 (Z.to_nat (ms_num_nodes spec)) /\
  ms_max_node spec = ms_num_nodes spec /\ 0 <= ms_num_nodes spec /\
  concat (map part_numbers blocks) = consecutive 0 (Z.to_nat (ms_num_elements spec)) /\
  ms_max_element spec = ms_num_elements spec /\ 0 <= ms_num_elements spec /\
  concat (map ed_entries (ms_element_data spec)) = concat (map part_entries blocks) /\
  Forall (fun e => ed_num e = zlen (ed_entries e)) (ms_element_data spec).

Section Samples.
  Context {d : nat}.
  Local Open Scope R_scope.
  (** The i-th of n equal steps from lo to hi. *)
  Definition step_at (lo hi : R) (n i : nat) : R := lo + (hi - lo) * (INR i / INR n).
  Definition node (p : vec R d) : list R := coords 3 (in_space p).

  (** The nodes are the curve's points at n+1 equally spaced parameters, each with its parameter; the elements
      are the segments between neighbours. *)
  Definition samples_curve (n : nat) (tag : Z) (ops : curve_ops R (vec R d)) (b : mesh_part) : Prop :=
    let tags := kb_tags (part_nodes b) in
    kb_tag (part_nodes b) = tag /\ kb_dim (part_nodes b) = 1%Z /\ eb_type (part_elements b) = 1%Z /\
    (exists row : list (list R),
      Forall2 (fun i x => exists p, c_eval ops (step_at (c_lower ops) (c_upper ops) n i) = Ok p /\
        x = (node p ++ [step_at (c_lower ops) (c_upper ops) n i])%list) (seq 0 (S n)) row /\
      kb_data (part_nodes b) = concat row) /\
    length tags = S n /\
    map (@tl Z) (part_pieces b) = map (fun k => [nth k tags 0%Z; nth (S k) tags 0%Z]) (seq 0 n).
  (** The same on a grid; node (i, j) is number i * (nv + 1) + j of the block, the elements are the cells. *)
  Definition samples_patch (nu nv : nat) (tag : Z) (ops : patch_ops R (vec R d)) (b : mesh_part) : Prop :=
    let tags := kb_tags (part_nodes b) in
    let at_ i j := nth (i * S nv + j) tags 0%Z in
    kb_tag (part_nodes b) = tag /\ kb_dim (part_nodes b) = 2%Z /\ eb_type (part_elements b) = 3%Z /\
    (exists rows : list (list (list R)),
      Forall2 (fun i row => Forall2 (fun j x => exists p,
          s_eval ops (step_at (s_ulo ops) (s_uhi ops) nu i) (step_at (s_vlo ops) (s_vhi ops) nv j) = Ok p /\
          x = (node p ++ [step_at (s_ulo ops) (s_uhi ops) nu i; step_at (s_vlo ops) (s_vhi ops) nv j])%list)
        (seq 0 (S nv)) row) (seq 0 (S nu)) rows /\
      kb_data (part_nodes b) = concat (concat rows)) /\
    length tags = (S nu * S nv)%nat /\
    map (@tl Z) (part_pieces b) =
      concat (map (fun i => map (fun j => [at_ i j; at_ (S i) j; at_ (S i) (S j); at_ i (S j)]) (seq 0 nv)) (seq 0 nu)).

  Local Open Scope Z_scope.
  (** The object can be saved and evaluated at the parameters of its samples. *)
  Definition sampled_curve_ok (c : curve R d * curve_ops R (vec R d)) : Prop :=
    saved_curve (fst c) /\
    forall i, (i <= 100)%nat -> exists p, c_eval (snd c) (step_at (c_lower (snd c)) (c_upper (snd c)) 100 i) = Ok p.
  Definition sampled_patch_ok (p : patch R d * (patch_ops R (vec R d) * (Z * Z))) : Prop :=
    let ops := fst (snd p) in let ru := fst (snd (snd p)) in let rv := snd (snd (snd p)) in
    saved_patch (fst p) /\ 0 < ru < 2 ^ 31 /\ 0 < rv < 2 ^ 31 /\
    forall i j, (i <= 2 * Z.to_nat ru)%nat -> (j <= 2 * Z.to_nat rv)%nat ->
      exists q, s_eval ops (step_at (s_ulo ops) (s_uhi ops) (2 * Z.to_nat ru) i) (step_at (s_vlo ops) (s_vhi ops) (2 * Z.to_nat rv) j) = Ok q.
End Samples.
