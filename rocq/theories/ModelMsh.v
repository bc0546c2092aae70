(** save_msh.h and load_msh.h.  The mshio library (the structs MshSpec, Curve, Patch, NodeBlock, ElementBlock,
    Data and the writing and reading of the file) is not part of the repository: its structs are the records
    below, with the counters starting at 0, and saving a spec to a file and loading it back is taken to give
    the same spec.  Scalar is double, so the casts to and from double are the identity; int and the size_t
    index arithmetic are unbounded, the casts between int and size_t are not. *)
From Verif Require Import Monad Scalar ModelCurve ModelBezier ModelBSpline ModelRational ModelPatchBase ModelPatch ModelPatchRational.
Local Open Scope Z_scope.

(** static_cast<size_t> of an int, and size_t arithmetic *)
Definition to_size (z : Z) : Z := z mod 2 ^ 64.
(** static_cast<int> of a size_t *)
Definition to_int (z : Z) : Z := (z + 2 ^ 31) mod 2 ^ 32 - 2 ^ 31.

(** enums.h:5-13 CurveEnum and 15-28 PatchEnum *)
Definition CURVE_BEZIER := 1. Definition CURVE_RATIONAL_BEZIER := 2. Definition CURVE_BSPLINE := 3. Definition CURVE_NURBS := 4.
Definition PATCH_BEZIER := 1. Definition PATCH_RATIONAL_BEZIER := 2. Definition PATCH_BSPLINE := 3. Definition PATCH_NURBS := 4.

Section Msh.
  Context {T : Type} {SO : ScalarOps T}.

  (** A CurveBase object by its class; [COther ty] stands for Line, Circle and Ellipse, with their get_curve_type(). *)
  Inductive curve (d : nat) :=
  | CBezier (c : bezier (vec T d))
  | CRational (c : rbezier T d)
  | CBSpline (c : bspline T (vec T d))
  | CNurbs (c : nurbs T d)
  | COther (ty : Z).
  Arguments CBezier {d}. Arguments CRational {d}. Arguments CBSpline {d}. Arguments CNurbs {d}. Arguments COther {d}.

  (** The virtual functions save_msh.h calls on a curve.
      get_curve_type: Bezier.h:36, RationalBezier.h:31, BSpline.h:52, NURBS.h:43, Line.h:26, Circle.h:30, Ellipse.h:30 *)
  Definition curve_type {d} (c : curve d) : Z :=
    match c with
    | CBezier _ => CURVE_BEZIER | CRational _ => CURVE_RATIONAL_BEZIER | CBSpline _ => CURVE_BSPLINE
    | CNurbs _ => CURVE_NURBS | COther ty => ty
    end.
  (** get_degree: BezierBase.h:109-113, BSplineBase.h:374-378, Line.h:55, Circle.h:69 *)
  Definition curve_degree {d} (c : curve d) : Z :=
    match c with
    | CBezier c => bz_degree c | CRational c => zlen (rb_pts c) - 1
    | CBSpline c => bs_degree c | CNurbs c => bs_degree (nb_base c) | COther _ => -1
    end.
  (** get_num_control_points: BezierBase.h:47, BSplineBase.h:98-101, Line.h:83 *)
  Definition curve_num_points {d} (c : curve d) : Z :=
    match c with
    | CBezier c => bz_degree c + 1 | CRational c => zlen (rb_pts c) - 1 + 1
    | CBSpline c => zlen (bs_pts c) | CNurbs c => zlen (nb_pts c) | COther _ => 0
    end.
  (** get_control_point: BezierBase.h:48, BSplineBase.h:102, Line.h:84-87 *)
  Definition curve_point {d} (c : curve d) (i : Z) : res (vec T d) :=
    match c with
    | CBezier c => get (bz_pts c) i | CRational c => rb_get_control_point c i
    | CBSpline c => get (bs_pts c) i | CNurbs c => get (nb_pts c) i | COther _ => Throw not_implemented_error
    end.
  (** get_num_weights: BezierBase.h:51, RationalBezier.h:83, BSplineBase.h:105, NURBS.h:97, Line.h:93 *)
  Definition curve_num_weights {d} (c : curve d) : Z :=
    match c with
    | CRational c => zlen (rb_pts c) - 1 + 1 | CNurbs c => zlen (nb_pts c)
    | CBezier _ | CBSpline _ | COther _ => 0
    end.
  (** get_weight: BezierBase.h:53-56, RationalBezier.h:85, BSplineBase.h:106-109, NURBS.h:99, Line.h:94-97 *)
  Definition curve_weight {d} (c : curve d) (i : Z) : res T :=
    match c with
    | CRational c => rb_get_weight c i | CNurbs c => get (nb_weights c) i
    | CBezier _ | CBSpline _ | COther _ => Throw not_implemented_error
    end.
  (** get_num_knots: BezierBase.h:63, BSplineBase.h:115, Line.h:103 *)
  Definition curve_num_knots {d} (c : curve d) : Z :=
    match c with
    | CBSpline c => zlen (bs_knots c) | CNurbs c => zlen (nb_knots c)
    | CBezier _ | CRational _ | COther _ => 0
    end.
  (** get_knot: BezierBase.h:65-68, BSplineBase.h:116, Line.h:104-107 *)
  Definition curve_knot {d} (c : curve d) (i : Z) : res T :=
    match c with
    | CBSpline c => get (bs_knots c) i | CNurbs c => get (nb_knots c) i
    | CBezier _ | CRational _ | COther _ => Throw not_implemented_error
    end.

  (** A PatchBase object by its class; [POther du dv] stands for the closed form patches, which have no control
      points, weights or knots, with their degrees (Plane.h:29-30, Cylinder.h:32-33, Cone.h:32-33, Sphere.h:32-33,
      Torus.h:32-33, ExtrusionPatch.h:28-29, RevolutionPatch.h:27-28). *)
  Inductive patch (d : nat) :=
  | PBezier (s : bpatch (vec T d))
  | PRational (s : rbpatch T d)
  | PBSpline (s : spatch T (vec T d))
  | PNurbs (s : nupatch T d)
  | POther (du dv : Z).
  Arguments PBezier {d}. Arguments PRational {d}. Arguments PBSpline {d}. Arguments PNurbs {d}. Arguments POther {d}.

  (** PatchBase.h:74-84 get_degree_u/v *)
  Definition patch_degree_u {d} (s : patch d) : res Z :=
    match s with
    | PBezier s => checked_degree (bp_degu s) | PRational s => checked_degree (rp_degu s)
    | PBSpline s => checked_degree (sp_degu s) | PNurbs s => checked_degree (np_degu s)
    | POther du _ => checked_degree du
    end.
  Definition patch_degree_v {d} (s : patch d) : res Z :=
    match s with
    | PBezier s => checked_degree (bp_degv s) | PRational s => checked_degree (rp_degv s)
    | PBSpline s => checked_degree (sp_degv s) | PNurbs s => checked_degree (np_degv s)
    | POther _ dv => checked_degree dv
    end.
  (** num_control_points_u/v: BezierPatch.h:267-277, RationalBezierPatch.h:39-40, BSplinePatch.h:320-332,
      NURBSPatch.h:40-42, Plane.h:130-132 *)
  Definition patch_nu {d} (s : patch d) : res Z :=
    match s with
    | PBezier s => bp_nu s | PRational s => bp_nu (rp_hom s) | PBSpline s => sp_nu s | PNurbs s => sp_nu (np_hom s)
    | POther _ _ => Ok 0
    end.
  Definition patch_nv {d} (s : patch d) : res Z :=
    match s with
    | PBezier s => bp_nv s | PRational s => bp_nv (rp_hom s) | PBSpline s => sp_nv s | PNurbs s => sp_nv (np_hom s)
    | POther _ _ => Ok 0
    end.
  (** PatchBase.h:199-202 get_control_point *)
  Definition patch_grid {d} (s : patch d) : list (vec T d) :=
    match s with
    | PBezier s => bp_grid s | PRational s => rp_grid s | PBSpline s => sp_grid s | PNurbs s => np_grid s
    | POther _ _ => []
    end.
  Definition patch_point {d} (s : patch d) (i j : Z) : res (vec T d) :=
    do nv <- patch_nv s; grid_get (patch_grid s) nv i j.
  (** get_num_weights_u/v: BezierPatch.h:119-120, RationalBezierPatch.h:183-184, BSplinePatch.h:165-166,
      NURBSPatch.h:179-180, Plane.h:98-99 *)
  Definition patch_num_weights_u {d} (s : patch d) : res Z :=
    match s with
    | PRational _ | PNurbs _ => patch_nu s
    | PBezier _ | PBSpline _ | POther _ _ => Ok 0
    end.
  Definition patch_num_weights_v {d} (s : patch d) : res Z :=
    match s with
    | PRational _ | PNurbs _ => patch_nv s
    | PBezier _ | PBSpline _ | POther _ _ => Ok 0
    end.
  (** get_weight: BezierPatch.h:121-124, RationalBezierPatch.h:185-188, BSplinePatch.h:167-170, NURBSPatch.h:181-184 *)
  Definition patch_weight {d} (s : patch d) (i j : Z) : res T :=
    match s with
    | PRational r => do nv <- patch_nv s; get (rp_weights r) (linear_index nv i j)
    | PNurbs r => do nv <- patch_nv s; get (np_weights r) (linear_index nv i j)
    | PBezier _ | PBSpline _ | POther _ _ => Throw not_implemented_error
    end.
  (** get_num_knots_u/v and get_knot_u/v: BezierPatch.h:130-144, RationalBezierPatch.h:199-213,
      BSplinePatch.h:176-180, NURBSPatch.h:195-203; the members read *)
  Definition patch_knots_u {d} (s : patch d) : list T :=
    match s with PBSpline s => sp_ku s | PNurbs s => np_ku s | PBezier _ | PRational _ | POther _ _ => [] end.
  Definition patch_knots_v {d} (s : patch d) : list T :=
    match s with PBSpline s => sp_kv s | PNurbs s => np_kv s | PBezier _ | PRational _ | POther _ _ => [] end.

  (** num_recommended_samples_u/v: PatchBase.h:226 and 232 *)
  Definition patch_recommended_u {d} (s : patch d) : res Z := do n <- patch_nu s; Ok (n + 1).
  Definition patch_recommended_v {d} (s : patch d) : res Z := do n <- patch_nv s; Ok (n + 1).
  (** ExtrusionPatch.h:200-206 and RevolutionPatch.h:260-262: the count in the direction of the profile *)
  Definition swept_recommended {d} (profile : curve d) : Z := curve_num_points profile.

  (** * The spec *)

  (** mshio::Curve, as used at save_msh.h:98-132 *)
  Record msh_curve := {
    mc_tag : Z; mc_type : Z; mc_degree : Z; mc_num_points : Z; mc_num_knots : Z; mc_with_weights : bool; mc_data : list T
  }.
  (** mshio::Patch, as used at save_msh.h:235-287 *)
  Record msh_patch := {
    mp_tag : Z; mp_type : Z; mp_degree_u : Z; mp_degree_v : Z; mp_num_points : Z; mp_num_u_knots : Z; mp_num_v_knots : Z;
    mp_with_weights : bool; mp_data : list T
  }.
  (** mshio::NodeBlock, as used at save_msh.h:25-35, 57-65 ([parametric] is always 1) *)
  Record node_block := { kb_dim : Z; kb_tag : Z; kb_num : Z; kb_tags : list Z; kb_data : list T }.
  (** mshio::ElementBlock, as used at save_msh.h:37-47, 68-70 *)
  Record element_block := { eb_dim : Z; eb_tag : Z; eb_type : Z; eb_num : Z; eb_data : list Z }.
  (** mshio::Data, as used at save_msh.h:75-92: whether the string tag is "patch_entity", the number of entries
      (int_tags[2]) and the entries (element tag, value) *)
  Record entity_data := { ed_patch : bool; ed_num : Z; ed_entries : list (Z * Z) }.
  (** mshio::MshSpec: the parts save_msh.h fills *)
  Record msh_spec := {
    ms_node_blocks : list node_block; ms_num_node_blocks : Z; ms_num_nodes : Z; ms_min_node : Z; ms_max_node : Z;
    ms_element_blocks : list element_block; ms_num_element_blocks : Z; ms_num_elements : Z; ms_min_element : Z; ms_max_element : Z;
    ms_element_data : list entity_data;
    ms_curves : list msh_curve; ms_patches : list msh_patch
  }.
  (** a default constructed MshSpec *)
  Definition empty_spec : msh_spec :=
    {| ms_node_blocks := []; ms_num_node_blocks := 0; ms_num_nodes := 0; ms_min_node := 0; ms_max_node := 0;
       ms_element_blocks := []; ms_num_element_blocks := 0; ms_num_elements := 0; ms_min_element := 0; ms_max_element := 0;
       ms_element_data := []; ms_curves := []; ms_patches := [] |}.

  (** the coordinates in order *)
  Fixpoint coords (d : nat) : vec T d -> list T :=
    match d return vec T d -> list T with
    | O => fun _ => []
    | S d' => fun p => fst p :: coords d' (snd p)
    end.
  (** save_msh.h:120-124 and 268-275: the coordinates of a control point, with a 0 added in dimension 2 *)
  Definition point_data {d} (p : vec T d) : list T := (coords d p ++ (if Nat.eqb d 2 then [s0] else []))%list.

  (** * Saving *)

  (** save_msh.h:95-133 add_curve: the record appended to spec.curves *)
  Definition curve_record {d} (c : curve d) (tag : Z) : res msh_curve :=
    let num_control_points := curve_num_points c in
    let num_knots := curve_num_knots c in
    let num_weights := curve_num_weights c in
    if negb (Nat.eqb d 3) && negb (Nat.eqb d 2) then Throw not_implemented_error
    else
      do pts <- tabulate num_control_points (fun i =>
        do p <- curve_point c i;
        do w <- (if 0 <? num_weights then do w <- curve_weight c i; Ok [w] else Ok []);
        Ok (point_data p ++ w)%list);
      do knots <- tabulate num_knots (curve_knot c);
      Ok {| mc_tag := to_size tag; mc_type := to_size (curve_type c); mc_degree := to_size (curve_degree c);
            mc_num_points := to_size num_control_points; mc_num_knots := to_size num_knots;
            mc_with_weights := 0 <? num_weights; mc_data := (concat pts ++ knots)%list |}.
  Definition add_curve {d} (spec : msh_spec) (c : curve d) (tag : Z) : res msh_spec :=
    do r <- curve_record c tag;
    Ok {| ms_node_blocks := ms_node_blocks spec; ms_num_node_blocks := ms_num_node_blocks spec; ms_num_nodes := ms_num_nodes spec;
          ms_min_node := ms_min_node spec; ms_max_node := ms_max_node spec; ms_element_blocks := ms_element_blocks spec;
          ms_num_element_blocks := ms_num_element_blocks spec; ms_num_elements := ms_num_elements spec;
          ms_min_element := ms_min_element spec; ms_max_element := ms_max_element spec; ms_element_data := ms_element_data spec;
          ms_curves := (ms_curves spec ++ [r])%list; ms_patches := ms_patches spec |}.

  (** save_msh.h:232-288 add_patch *)
  Definition patch_record {d} (s : patch d) (tag : Z) : res msh_patch :=
    do degree_u <- patch_degree_u s;
    do degree_v <- patch_degree_v s;
    do num_control_points_u <- patch_nu s;
    do num_control_points_v <- patch_nv s;
    do num_weights_u <- patch_num_weights_u s;
    do num_weights_v <- patch_num_weights_v s;
    let num_knots_u := zlen (patch_knots_u s) in
    let num_knots_v := zlen (patch_knots_v s) in
    let no_weights := (num_weights_u =? 0) && (num_weights_v =? 0) in
    let ty :=
      if (num_knots_u =? 0) && (num_knots_v =? 0)
      then if no_weights then PATCH_BEZIER else PATCH_RATIONAL_BEZIER
      else if no_weights then PATCH_BSPLINE else PATCH_NURBS in
    let with_weights := 0 <? num_weights_u in
    do pts <- tabulate num_control_points_u (fun i =>
      tabulate num_control_points_v (fun j =>
        do p <- patch_point s i j;
        do w <- (if with_weights then do w <- patch_weight s i j; Ok [w] else Ok []);
        Ok (point_data p ++ w)%list));
    do ku <- tabulate num_knots_u (get (patch_knots_u s));
    do kv <- tabulate num_knots_v (get (patch_knots_v s));
    Ok {| mp_tag := to_size tag; mp_type := to_size ty; mp_degree_u := to_size degree_u; mp_degree_v := to_size degree_v;
          mp_num_points := to_size (num_control_points_u * num_control_points_v);
          mp_num_u_knots := to_size num_knots_u; mp_num_v_knots := to_size num_knots_v;
          mp_with_weights := with_weights; mp_data := (concat (concat pts) ++ ku ++ kv)%list |}.
  Definition add_patch {d} (spec : msh_spec) (s : patch d) (tag : Z) : res msh_spec :=
    do r <- patch_record s tag;
    Ok {| ms_node_blocks := ms_node_blocks spec; ms_num_node_blocks := ms_num_node_blocks spec; ms_num_nodes := ms_num_nodes spec;
          ms_min_node := ms_min_node spec; ms_max_node := ms_max_node spec; ms_element_blocks := ms_element_blocks spec;
          ms_num_element_blocks := ms_num_element_blocks spec; ms_num_elements := ms_num_elements spec;
          ms_min_element := ms_min_element spec; ms_max_element := ms_max_element spec; ms_element_data := ms_element_data spec;
          ms_curves := ms_curves spec; ms_patches := (ms_patches spec ++ [r])%list |}.

  (** save_msh.h:85-92 and 221-229: [n] entries with value [tag] appended to the last element data *)
  Definition add_entries (l : list entity_data) (n element_offset tag : Z) : list entity_data :=
    match rev l with
    | [] => []
    | e :: r =>
        (rev r ++ [{| ed_patch := ed_patch e; ed_num := ed_num e + n;
                      ed_entries := ed_entries e ++ map (fun k => (element_offset + Z.of_nat k + 1, tag)) (seq 0 (Z.to_nat n)) |}])%list
    end.

  Section Sampled.
    Context {d : nat}.
    Local Open Scope scal_scope.

    (** save_msh.h:58-64: p[0], p[1] and p[2] (0 in dimension 2); a coordinate past the end is an Eigen assertion *)
    Definition node_data (p : vec T d) : res (list T) :=
      do x <- get (coords d p) 0;
      do y <- get (coords d p) 1;
      do z <- (if Nat.eqb d 2 then Ok s0 else get (coords d p) 2);
      Ok [x; y; z].
    (** save_msh.h:53-54: t_min * (1 - r) + t_max * r with r = i / N *)
    Definition sample_at (lo hi : T) (N i : Z) : res T :=
      do r <- ddiv (sofZ i) (sofZ N);
      Ok (lo * (s1 - r) + hi * r).

    (** save_msh.h:18-93 add_curve_sampled *)
    Definition add_curve_sampled (spec : msh_spec) (c : curve_ops T (vec T d)) (N tag : Z) : res msh_spec :=
      let node_offset := ms_max_node spec in
      let element_offset := ms_max_element spec in
      do nodes <- tabulate (N + 1) (fun i =>
        do t <- sample_at (c_lower c) (c_upper c) N i;
        do p <- c_eval c t;
        do x <- node_data p;
        Ok (node_offset + i + 1, (x ++ [t])%list)%Z);
      let elements := map (fun k => let i := Z.of_nat k in [element_offset + i + 1; node_offset + i + 1; node_offset + i + 2])%Z
                          (seq 0 (Z.to_nat N)) in
      let data := match ms_element_data spec with
                  | [] => [{| ed_patch := false; ed_num := 0; ed_entries := [] |}]
                  | l => l
                  end in
      Ok {| ms_node_blocks := (ms_node_blocks spec ++
              [{| kb_dim := 1; kb_tag := tag; kb_num := N + 1; kb_tags := map fst nodes; kb_data := concat (map snd nodes) |}])%list%Z;
            ms_num_node_blocks := (ms_num_node_blocks spec + 1)%Z;
            ms_num_nodes := (ms_num_nodes spec + (N + 1))%Z;
            ms_min_node := to_size tag;
            ms_max_node := (ms_max_node spec + (N + 1))%Z;
            ms_element_blocks := (ms_element_blocks spec ++
              [{| eb_dim := 1; eb_tag := tag; eb_type := 1; eb_num := N; eb_data := concat elements |}])%list;
            ms_num_element_blocks := (ms_num_element_blocks spec + 1)%Z;
            ms_num_elements := (ms_num_elements spec + N)%Z;
            ms_min_element := 1;
            ms_max_element := (ms_max_element spec + N)%Z;
            ms_element_data := add_entries data N element_offset tag;
            ms_curves := ms_curves spec; ms_patches := ms_patches spec |}.

    (** save_msh.h:135-230 add_patch_sampled ([nu], [nv] are num_u_samples and num_v_samples) *)
    Definition add_patch_sampled (spec : msh_spec) (s : patch_ops T (vec T d)) (nu nv tag : Z) : res msh_spec :=
      let node_offset := ms_max_node spec in
      let element_offset := ms_max_element spec in
      let N := ((nu + 1) * (nv + 1))%Z in
      let M := (nu * nv)%Z in
      do nodes <- tabulate (nu + 1) (fun i =>
        do u <- sample_at (s_ulo s) (s_uhi s) nu i;
        tabulate (nv + 1) (fun j =>
          do v <- sample_at (s_vlo s) (s_vhi s) nv j;
          do p <- s_eval s u v;
          do x <- node_data p;
          Ok (node_offset + i * (nv + 1) + j + 1, (x ++ [u; v])%list)%Z));
      let nodes := concat nodes in
      let elements := flat_map (fun k => let i := Z.of_nat k in
        map (fun m => let j := Z.of_nat m in
          [element_offset + i * nv + j + 1;
           node_offset + i * (nv + 1) + j + 1;
           node_offset + (i + 1) * (nv + 1) + j + 1;
           node_offset + (i + 1) * (nv + 1) + j + 2;
           node_offset + i * (nv + 1) + j + 2])%Z (seq 0 (Z.to_nat nv))) (seq 0 (Z.to_nat nu)) in
      let data := if (length (ms_element_data spec) <=? 1)%nat
                  then (ms_element_data spec ++ [{| ed_patch := true; ed_num := 0; ed_entries := [] |}])%list
                  else ms_element_data spec in
      Ok {| ms_node_blocks := (ms_node_blocks spec ++
              [{| kb_dim := 2; kb_tag := tag; kb_num := N; kb_tags := map fst nodes; kb_data := concat (map snd nodes) |}])%list%Z;
            ms_num_node_blocks := (ms_num_node_blocks spec + 1)%Z;
            ms_num_nodes := (ms_num_nodes spec + N)%Z;
            ms_min_node := 1;
            ms_max_node := (ms_max_node spec + N)%Z;
            ms_element_blocks := (ms_element_blocks spec ++
              [{| eb_dim := 2; eb_tag := tag; eb_type := 3; eb_num := M; eb_data := concat elements |}])%list;
            ms_num_element_blocks := (ms_num_element_blocks spec + 1)%Z;
            ms_num_elements := (ms_num_elements spec + M)%Z;
            ms_min_element := 1;
            ms_max_element := (ms_max_element spec + M)%Z;
            ms_element_data := add_entries data M element_offset tag;
            ms_curves := ms_curves spec; ms_patches := ms_patches spec |}.

    (** save_msh.h:292-326 save_msh, up to the call of mshio.  Every object comes with its evaluation functions;
        every patch also with num_recommended_samples_u/v(). *)
    Fixpoint save_curves (spec : msh_spec) (cs : list (curve d * curve_ops T (vec T d))) (save_sampled : bool) (tag : Z)
      : res msh_spec :=
      match cs with
      | [] => Ok spec
      | (c, ops) :: cs =>
          do spec <- add_curve spec c tag;
          do spec <- (if save_sampled then add_curve_sampled spec ops 100 tag else Ok spec);
          save_curves spec cs save_sampled (tag + 1)
      end.
    Fixpoint save_patches (spec : msh_spec) (ps : list (patch d * (patch_ops T (vec T d) * (Z * Z)))) (save_sampled : bool)
      (tag : Z) : res msh_spec :=
      match ps with
      | [] => Ok spec
      | (s, (ops, (ru, rv))) :: ps =>
          do spec <- add_patch spec s tag;
          do spec <- (if save_sampled then add_patch_sampled spec ops (to_size ru * 2) (to_size rv * 2) tag else Ok spec);
          save_patches spec ps save_sampled (tag + 1)
      end.
    Definition save_msh (cs : list (curve d * curve_ops T (vec T d))) (ps : list (patch d * (patch_ops T (vec T d) * (Z * Z))))
      (save_sampled : bool) : res msh_spec :=
      do spec <- save_curves empty_spec cs save_sampled 1;
      save_patches spec ps save_sampled 1.
  End Sampled.

  (** * Loading (dimension 3, load_msh.h:271, 286) *)

  (** load_msh.h:27-52 extract_control_points, of a curve and of a patch *)
  Definition extract_control_points (num_points : Z) (with_weights : bool) (data : list T) : res (list (vec T 3)) :=
    let entry_size := if with_weights then 4 else 3 in
    tabulate num_points (fun i =>
      do x <- get data (i * entry_size);
      do y <- get data (i * entry_size + 1);
      do z <- get data (i * entry_size + 2);
      Ok ((x, (y, (z, tt))) : vec T 3)).
  (** load_msh.h:54-72 extract_weights *)
  Definition extract_weights (num_points : Z) (data : list T) : res (list T) :=
    tabulate num_points (fun i => get data (i * 4 + 3)).
  (** load_msh.h:74-105 extract_knots, extract_knots_u, extract_knots_v: [n] numbers from [offset] on *)
  Definition extract_knots (offset n : Z) (data : list T) : res (list T) :=
    tabulate n (fun i => get data (offset + i)).
  Definition entry_size (with_weights : bool) : Z := if with_weights then 4 else 3.

  (** load_msh.h:108-119 load_Bezier_curve *)
  Definition load_Bezier_curve (r : msh_curve) : res (curve 3) :=
    do _ <- assert_ (mc_num_knots r =? 0);
    do _ <- assert_ (negb (mc_with_weights r));
    do _ <- assert_ (mc_num_points r =? to_size (mc_degree r + 1));
    do _ <- assert_ (zlen (mc_data r) =? to_size (mc_num_points r * 3));
    do pts <- extract_control_points (mc_num_points r) (mc_with_weights r) (mc_data r);
    Ok (CBezier (mk_bezier pts)).
  (** load_msh.h:121-133 load_BSpline_curve *)
  Definition load_BSpline_curve (r : msh_curve) : res (curve 3) :=
    do _ <- assert_ (negb (mc_with_weights r));
    do _ <- assert_ (mc_num_knots r =? to_size (mc_num_points r + mc_degree r + 1));
    do _ <- assert_ (zlen (mc_data r) =? to_size (mc_num_points r * 3 + mc_num_knots r));
    do pts <- extract_control_points (mc_num_points r) (mc_with_weights r) (mc_data r);
    do knots <- extract_knots (mc_num_points r * entry_size (mc_with_weights r)) (mc_num_knots r) (mc_data r);
    Ok (CBSpline (mk_bspline pts knots)).
  (** load_msh.h:135-148 load_rational_Bezier_curve *)
  Definition load_rational_Bezier_curve (r : msh_curve) : res (curve 3) :=
    do _ <- assert_ (mc_with_weights r);
    do _ <- assert_ (mc_num_knots r =? 0);
    do _ <- assert_ (zlen (mc_data r) =? to_size (mc_num_points r * 4));
    do pts <- extract_control_points (mc_num_points r) (mc_with_weights r) (mc_data r);
    do ws <- extract_weights (mc_num_points r) (mc_data r);
    do c <- rb_initialize (rb_set_weights (rb_set_control_points rb_empty pts) ws);
    Ok (CRational c).
  (** load_msh.h:150-164 load_NURBS_curve *)
  Definition load_NURBS_curve (r : msh_curve) : res (curve 3) :=
    do _ <- assert_ (mc_with_weights r);
    do _ <- assert_ (mc_num_knots r =? to_size (mc_num_points r + mc_degree r + 1));
    do _ <- assert_ (zlen (mc_data r) =? to_size (mc_num_points r * 4 + mc_num_knots r));
    do pts <- extract_control_points (mc_num_points r) (mc_with_weights r) (mc_data r);
    do knots <- extract_knots (mc_num_points r * entry_size (mc_with_weights r)) (mc_num_knots r) (mc_data r);
    do ws <- extract_weights (mc_num_points r) (mc_data r);
    do c <- nb_initialize (nb_set_weights (nb_set_knots (nb_set_control_points nb_empty pts) knots) ws);
    Ok (CNurbs c).
  (** load_msh.h:238-251 load_curve *)
  Definition load_curve (r : msh_curve) : res (curve 3) :=
    if mc_type r =? CURVE_BEZIER then load_Bezier_curve r
    else if mc_type r =? CURVE_BSPLINE then load_BSpline_curve r
    else if mc_type r =? CURVE_RATIONAL_BEZIER then load_rational_Bezier_curve r
    else if mc_type r =? CURVE_NURBS then load_NURBS_curve r
    else Throw invalid_setting_error.

  (** load_msh.h:166-181 load_Bezier_patch *)
  Definition load_Bezier_patch (r : msh_patch) : res (patch 3) :=
    do _ <- assert_ (mp_num_points r =? to_size ((mp_degree_u r + 1) * (mp_degree_v r + 1)));
    do _ <- assert_ (mp_num_u_knots r =? 0);
    do _ <- assert_ (mp_num_v_knots r =? 0);
    do _ <- assert_ (negb (mp_with_weights r));
    do grid <- extract_control_points (mp_num_points r) (mp_with_weights r) (mp_data r);
    do s <- bp_initialize (bp_set_degrees (bp_set_grid (bp_new (-1) (-1)) grid) (to_int (mp_degree_u r)) (to_int (mp_degree_v r)));
    Ok (PBezier s).
  (** load_msh.h:183-199 load_rational_Bezier_patch *)
  Definition load_rational_Bezier_patch (r : msh_patch) : res (patch 3) :=
    do _ <- assert_ (mp_num_points r =? to_size ((mp_degree_u r + 1) * (mp_degree_v r + 1)));
    do _ <- assert_ (mp_num_u_knots r =? 0);
    do _ <- assert_ (mp_num_v_knots r =? 0);
    do _ <- assert_ (mp_with_weights r);
    do grid <- extract_control_points (mp_num_points r) (mp_with_weights r) (mp_data r);
    do ws <- extract_weights (mp_num_points r) (mp_data r);
    do s <- rp_initialize (rp_set_degrees (rp_set_weights (rp_set_grid (rp_new (-1) (-1)) grid) ws)
                             (to_int (mp_degree_u r)) (to_int (mp_degree_v r)));
    Ok (PRational s).
  (** load_msh.h:201-217 load_BSpline_patch *)
  Definition load_BSpline_patch (r : msh_patch) : res (patch 3) :=
    do _ <- assert_ (mp_num_points r =? to_size ((mp_num_u_knots r - mp_degree_u r - 1) * (mp_num_v_knots r - mp_degree_v r - 1)));
    do _ <- assert_ (negb (mp_with_weights r));
    do grid <- extract_control_points (mp_num_points r) (mp_with_weights r) (mp_data r);
    do ku <- extract_knots (mp_num_points r * entry_size (mp_with_weights r)) (mp_num_u_knots r) (mp_data r);
    do kv <- extract_knots (mp_num_points r * entry_size (mp_with_weights r) + mp_num_u_knots r) (mp_num_v_knots r) (mp_data r);
    do s <- sp_initialize (sp_make (-1) (-1) (to_int (mp_degree_u r)) (to_int (mp_degree_v r)) grid ku kv false false);
    Ok (PBSpline s).
  (** load_msh.h:219-236 load_NURBS_patch *)
  Definition load_NURBS_patch (r : msh_patch) : res (patch 3) :=
    do _ <- assert_ (mp_num_points r =? to_size ((mp_num_u_knots r - mp_degree_u r - 1) * (mp_num_v_knots r - mp_degree_v r - 1)));
    do _ <- assert_ (mp_with_weights r);
    do grid <- extract_control_points (mp_num_points r) (mp_with_weights r) (mp_data r);
    do ws <- extract_weights (mp_num_points r) (mp_data r);
    do ku <- extract_knots (mp_num_points r * entry_size (mp_with_weights r)) (mp_num_u_knots r) (mp_data r);
    do kv <- extract_knots (mp_num_points r * entry_size (mp_with_weights r) + mp_num_u_knots r) (mp_num_v_knots r) (mp_data r);
    do s <- np_initialize (np_make (-1) (-1) (to_int (mp_degree_u r)) (to_int (mp_degree_v r)) grid ws ku kv false false);
    Ok (PNurbs s).
  (** load_msh.h:253-266 load_patch *)
  Definition load_patch (r : msh_patch) : res (patch 3) :=
    if mp_type r =? PATCH_BEZIER then load_Bezier_patch r
    else if mp_type r =? PATCH_BSPLINE then load_BSpline_patch r
    else if mp_type r =? PATCH_RATIONAL_BEZIER then load_rational_Bezier_patch r
    else if mp_type r =? PATCH_NURBS then load_NURBS_patch r
    else Throw invalid_setting_error.

  (** load_msh.h:268-308 load_curves, load_patches, load_msh *)
  Definition load_msh (spec : msh_spec) : res (list (curve 3) * list (patch 3)) :=
    do cs <- mapM load_curve (ms_curves spec);
    do ps <- mapM load_patch (ms_patches spec);
    Ok (cs, ps).
End Msh.
Arguments curve : clear implicits. Arguments patch : clear implicits.
Arguments CBezier {T d}. Arguments CRational {T d}. Arguments CBSpline {T d}. Arguments CNurbs {T d}. Arguments COther {T d}.
Arguments PBezier {T d}. Arguments PRational {T d}. Arguments PBSpline {T d}. Arguments PNurbs {T d}. Arguments POther {T d}.
Arguments msh_spec : clear implicits. Arguments msh_curve : clear implicits. Arguments msh_patch : clear implicits.
