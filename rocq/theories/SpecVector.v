(** Pictures: what fits into the view of an SVG file, and what a PostScript program paints. *)
From Coq Require Import Reals List String.
From Verif Require Import Monad Scalar Spec ModelVector.
Import ListNotations.
Local Open Scope R_scope.

(** * SVG *)
Definition cmd_point (c : path_cmd R) : R * R := match c with MoveTo x y => (x, y) | LineTo x y => (x, y) end.
(** The disc around [q] with radius [r] lies in [0,W] x [0,H]. *)
Definition disc_in (W H : R) (q : R * R) (r : R) : Prop := 0 <= r /\ r <= fst q <= W - r /\ r <= snd q <= H - r.
(** An element lies inside the view. *)
Definition fits (W H : R) (it : svg_item R) : Prop :=
  match it with
  | SvgPath cmds => forall c, In c cmds -> disc_in W H (cmd_point c) 0
  | SvgCircle cx cy r => disc_in W H (cx, cy) r
  | SvgRect w h => w = W /\ h = H
  | _ => True
  end.
(** The picture of a curve with value [f] on [lo, hi] and control points [pts] under the map [M]: a polyline through [n] + 1 points, and
    a disc of radius [r] for every control point. *)
Definition picture (M : vec R 2 -> R * R) (r : R) (n : nat) (f : R -> vec R 2) (lo hi : R) (pts : list (vec R 2)) : list (svg_item R) :=
  [SvgPath (MoveTo (fst (M (f lo))) (snd (M (f lo))) ::
            map (fun i => let q := M (f (lo + INR i / INR n * (hi - lo))) in LineTo (fst q) (snd q)) (seq 1 n)); SvgGroup]
  ++ map (fun p => SvgCircle (fst (M p)) (snd (M p)) r) pts ++ [SvgEndGroup].

(** * PostScript: the operators a drawing of lines and discs needs.  Colours are clamped to [0,1]. *)
Inductive ps_elem := PsMove (x y : R) | PsLine (x y : R) | PsArc (x y r a b : R).
Definition rgb : Type := R * R * R.
Inductive ps_paint := Stroked (c : rgb) (width : R) (path : list ps_elem) | Filled (c : rgb) (path : list ps_elem).
Record ps_state := { ps_stack : list R; ps_path : list ps_elem; ps_color : rgb; ps_width : R; ps_page : list ps_paint }.
Definition ps_start : ps_state := {| ps_stack := []; ps_path := []; ps_color := (0, 0, 0); ps_width := 1; ps_page := [] |}.
Definition clamp01 (x : R) : R := Rmax 0 (Rmin 1 x).
Definition ps_with_path (s : ps_state) (stack : list R) (path : list ps_elem) : ps_state :=
  {| ps_stack := stack; ps_path := path; ps_color := ps_color s; ps_width := ps_width s; ps_page := ps_page s |}.
Definition ps_painting (s : ps_state) (p : ps_paint) : ps_state :=
  {| ps_stack := ps_stack s; ps_path := []; ps_color := ps_color s; ps_width := ps_width s; ps_page := ps_page s ++ [p] |}.
(** [None] is an error: too few operands, no current point, or an unknown operator. *)
Definition ps_operator (w : string) (s : ps_state) : option ps_state :=
  if (w =? "setrgbcolor")%string then
    match ps_stack s with
    | b :: g :: r :: st => Some {| ps_stack := st; ps_path := ps_path s; ps_color := (clamp01 r, clamp01 g, clamp01 b); ps_width := ps_width s; ps_page := ps_page s |}
    | _ => None
    end
  else if (w =? "setlinewidth")%string then
    match ps_stack s with
    | x :: st => Some {| ps_stack := st; ps_path := ps_path s; ps_color := ps_color s; ps_width := x; ps_page := ps_page s |}
    | _ => None
    end
  else if (w =? "moveto")%string then
    match ps_stack s with y :: x :: st => Some (ps_with_path s st (ps_path s ++ [PsMove x y])) | _ => None end
  else if (w =? "lineto")%string then
    match ps_path s, ps_stack s with _ :: _, y :: x :: st => Some (ps_with_path s st (ps_path s ++ [PsLine x y])) | _, _ => None end
  else if (w =? "arc")%string then
    match ps_stack s with b :: a :: r :: y :: x :: st => Some (ps_with_path s st (ps_path s ++ [PsArc x y r a b])) | _ => None end
  else if (w =? "newpath")%string then Some (ps_with_path s (ps_stack s) [])
  else if (w =? "stroke")%string then Some (ps_painting s (Stroked (ps_color s) (ps_width s) (ps_path s)))
  else if (w =? "fill")%string then Some (ps_painting s (Filled (ps_color s) (ps_path s)))
  else None.
(** Running a program; [ops] are the operators.  The flag says whether it ran to its end. *)
Fixpoint ps_run (ops : string -> ps_state -> option ps_state) (toks : list (ps_token R)) (s : ps_state) : bool * ps_state :=
  match toks with
  | [] => (true, s)
  | Num x :: toks =>
      ps_run ops toks {| ps_stack := x :: ps_stack s; ps_path := ps_path s; ps_color := ps_color s; ps_width := ps_width s; ps_page := ps_page s |}
  | Word w :: toks => match ops w s with Some s => ps_run ops toks s | None => (false, s) end
  end.
(** A dictionary in which "stoke" means "stroke". *)
Definition with_stoke (w : string) (s : ps_state) : option ps_state := if (w =? "stoke")%string then ps_operator "stroke" s else ps_operator w s.

(** An SVG file that shows the curve and its control points inside its view, 1200 units long on the longer side, and as large as a margin of
    100 units allows. *)
Definition drawing (f : R -> vec R 2) (lo hi : R) (pts : list (vec R 2)) (file : list (svg_item R)) : Prop :=
  exists W H k ox oy r, let shapes := picture (fun p => ((coord 2 0 p + ox) * k, (coord 2 1 p + oy) * k)) r 1000 f lo hi pts in
    0 < k /\ Rmax W H = 1200 /\ file = [SvgOpen W H; SvgRect W H] ++ shapes ++ [SvgClose] /\ Forall (fits W H) shapes /\
    exists p q i, In p pts /\ In q pts /\ (i < 2)%nat /\ (coord 2 i p - coord 2 i q) * k = 1000.
(** The value of the exported curve on its domain is [f], which stays in the convex hull of the control points. *)
Definition hulled (c : vcurve R 2) (f : R -> vec R 2) : Prop :=
  vc_lower c <= vc_upper c /\ forall t, vc_lower c <= t <= vc_upper c -> vc_eval c t = Ok (f t) /\ convex_comb (vc_pts c) (f t).
