(** VectorExport.h and save_svg.h.  A file is the list of its elements; numbers are kept exact (the stream prints 6 digits), attributes
    of style (colours and line width of the SVG output) and the opening of the file are left out. *)
From Coq Require Import QArith String.
From Verif Require Import Monad Scalar ModelCurve ModelBezier ModelBSpline ModelRational.
Local Open Scope Z_scope.

(** "Mx,y " and "Lx,y " (VectorExport.h:34, 37) *)
Inductive path_cmd (T : Type) := MoveTo (x y : T) | LineTo (x y : T).
Arguments MoveTo {T}. Arguments LineTo {T}.
(** The elements written: <svg viewBox="0 0 w h">, <rect x="0" y="0" ...>, <path d=...>, <g>, <circle ...>, </g>, </svg>. *)
Inductive svg_item (T : Type) :=
  SvgOpen (w h : T) | SvgRect (w h : T) | SvgPath (cmds : list (path_cmd T)) | SvgGroup | SvgCircle (cx cy r : T) | SvgEndGroup | SvgClose.
Arguments SvgOpen {T}. Arguments SvgRect {T}. Arguments SvgPath {T}. Arguments SvgGroup {T}. Arguments SvgCircle {T}. Arguments SvgEndGroup {T}. Arguments SvgClose {T}.
(** The tokens of the PostScript output. *)
Inductive ps_token (T : Type) := Num (x : T) | Word (w : string).
Arguments Num {T}. Arguments Word {T}.

Section Vector.
  Context {T : Type} {SO : ScalarOps T} {d : nat}.
  Local Open Scope scal_scope.

  (** What the exporters use of a curve: get_control_points, the bounds of the domain and evaluate. *)
  Record vcurve := { vc_pts : list (vec T d); vc_lower : T; vc_upper : T; vc_eval : T -> res (vec T d) }.

  (** VectorExport.h:28-30 (and 82-84) the parameter and the value of sample [i] *)
  Definition sample_param (c : vcurve) (num_samples i : Z) : res T :=
    do q <- ddiv (sofZ i) (sofZ num_samples);
    let t := vc_lower c + q * (vc_upper c - vc_lower c) in
    Ok (smax (vc_lower c) (smin (vc_upper c) t)).
  (** "(p[k] + offset[k]) * scaling" *)
  Definition place (offset : T * T) (scaling : T) (p : vec T d) : T * T :=
    ((coord d 0 p + fst offset) * scaling, (coord d 1 p + snd offset) * scaling).
  (** VectorExport.h:27-39 (and 81-92): the placed samples *)
  Definition samples (c : vcurve) (offset : T * T) (scaling : T) (num_samples : Z) : res (list (T * T)) :=
    tabulate (num_samples + 1) (fun i =>
      do t <- sample_param c num_samples i;
      do p <- vc_eval c t;
      Ok (place offset scaling p)).
  (** VectorExport.h:32-38: M for the first, L for the others *)
  Definition path_of (l : list (T * T)) : list (path_cmd T) :=
    match l with
    | [] => []
    | p :: l => MoveTo (fst p) (snd p) :: map (fun q => LineTo (fst q) (snd q)) l
    end.
  (** VectorExport.h:8-55 to_svg *)
  Definition to_svg (c : vcurve) (offset : T * T) (scaling : T) (export_ctrl : bool) (ctrl_radius : T) (num_samples : Z) : res (list (svg_item T)) :=
    do _ <- assert_ (d =? 2)%nat;
    do l <- samples c offset scaling num_samples;
    let path := [SvgPath (path_of l)] in
    if negb export_ctrl then Ok path
    else
      let circles := map (fun p => let q := place offset scaling p in SvgCircle (fst q) (snd q) (ctrl_radius * scaling)) (vc_pts c) in
      Ok (path ++ [SvgGroup] ++ circles ++ [SvgEndGroup])%list.

  (** VectorExport.h:84-91: "x y moveto" for the first, "x y lineto" for the others *)
  Definition ps_path_of (l : list (T * T)) : list (ps_token T) :=
    match l with
    | [] => []
    | p :: l => [Num (fst p); Num (snd p); Word "moveto"] ++ concat (map (fun q => [Num (fst q); Num (snd q); Word "lineto"]) l)
    end%list.
  (** VectorExport.h:57-109 to_eps; a colour is the list of numbers in its string *)
  Definition to_eps (c : vcurve) (offset : T * T) (scaling : T) (export_ctrl : bool) (color : list T) (line_width : T) (ctrl_color : list T)
      (ctrl_radius : T) (num_samples : Z) : res (list (ps_token T)) :=
    do _ <- assert_ (d =? 2)%nat;
    do l <- samples c offset scaling num_samples;
    let path := (map Num color ++ [Word "setrgbcolor"; Num line_width; Word "setlinewidth"] ++ ps_path_of l ++ [Word "stoke"])%list in
    if negb export_ctrl then Ok path
    else
      let discs := concat (map (fun p => let q := place offset scaling p in
        [Num (fst q); Num (snd q); Num (ctrl_radius * scaling); Num (sofZ 0); Num (sofZ 360)]) (vc_pts c)) in
      Ok (path ++ map Num ctrl_color ++ [Word "setrgbcolor"] ++ discs ++ [Word "fill"])%list.

  (** colwise().minCoeff()[k] and colwise().maxCoeff()[k]; without rows Eigen's assertion fails *)
  Definition col_min (k : nat) (pts : list (vec T d)) : res T :=
    match pts with [] => Undef | p :: ps => Ok (fold_left (fun a q => smin a (coord d k q)) ps (coord d k p)) end.
  Definition col_max (k : nat) (pts : list (vec T d)) : res T :=
    match pts with [] => Undef | p :: ps => Ok (fold_left (fun a q => smax a (coord d k q)) ps (coord d k p)) end.

  (** save_svg.h:19-40 and 62-82: the frame computed from the box, then the curves *)
  Definition svg_file (cs : list vcurve) (xmin ymin xmax ymax : T) : res (list (svg_item T)) :=
    let w := xmax - xmin in
    let h := ymax - ymin in
    let m := smax w h in
    do margin <- ddiv m (sofZ 10);
    do s <- ddiv (sofZ 1000) m;
    do r <- ddiv (ssqrt (w * w + h * h)) (sofZ 100);
    let o := (- xmin + margin, - ymin + margin) in
    let W := (w + sofZ 2 * margin) * s in
    let H := (h + sofZ 2 * margin) * s in
    do items <- mapM (fun c => to_svg c o s true r 1000) cs;
    Ok ([SvgOpen W H; SvgRect W H] ++ concat items ++ [SvgClose])%list.
  (** save_svg.h:12-42 one curve *)
  Definition save_svg (c : vcurve) : res (list (svg_item T)) :=
    do _ <- assert_ (d =? 2)%nat;
    do xmin <- col_min 0 (vc_pts c);
    do ymin <- col_min 1 (vc_pts c);
    do xmax <- col_max 0 (vc_pts c);
    do ymax <- col_max 1 (vc_pts c);
    svg_file [c] xmin ymin xmax ymax.
  (** save_svg.h:44-85 several curves *)
  Definition save_svg_curves (cs : list vcurve) : res (list (svg_item T)) :=
    let big := snummax in
    do box <- fold_left (fun box c =>
      do '(xmin, ymin, xmax, ymax) <- box;
      do _ <- assert_ (d =? 2)%nat;
      do x0 <- col_min 0 (vc_pts c);
      do y0 <- col_min 1 (vc_pts c);
      do x1 <- col_max 0 (vc_pts c);
      do y1 <- col_max 1 (vc_pts c);
      Ok (smin xmin x0, smin ymin y0, smax xmax x1, smax ymax y1)) cs (Ok (big, big, - big, - big));
    let '(xmin, ymin, xmax, ymax) := box in
    svg_file cs xmin ymin xmax ymax.

  (** The exported classes (BezierBase.h:95, BSplineBase.h:346 and their evaluate functions) *)
  Definition vc_bezier (c : bezier (vec T d)) : vcurve := {| vc_pts := bz_pts c; vc_lower := s0; vc_upper := s1; vc_eval := bz_evaluate c |}.
  Definition vc_rbezier (c : rbezier T d) : vcurve := {| vc_pts := rb_pts c; vc_lower := s0; vc_upper := s1; vc_eval := rb_evaluate c |}.
  Definition vc_bspline (c : bspline T (vec T d)) : res vcurve :=
    do lo <- bs_lower c; do hi <- bs_upper c; Ok {| vc_pts := bs_pts c; vc_lower := lo; vc_upper := hi; vc_eval := bs_evaluate c |}.
  Definition vc_nurbs (c : nurbs T d) : res vcurve :=
    let b := {| bs_pts := nb_pts c; bs_knots := nb_knots c; bs_periodic := nb_periodic c |} in
    do lo <- bs_lower b; do hi <- bs_upper b; Ok {| vc_pts := nb_pts c; vc_lower := lo; vc_upper := hi; vc_eval := nb_evaluate c |}.
End Vector.
Arguments vcurve : clear implicits.
