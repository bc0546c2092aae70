(** Model of /repo/include/nanospline/BSplineBase.h and BSpline.h, the B-spline part of split.h,
    conversion.h and hodograph.h.

    Simplification: the template argument [_degree] is -1 (dynamic) or equal to the actual degree, so
    validate_curve only checks that the degree is not negative. *)
From Coq Require Import QArith.
From Verif Require Import Monad Scalar ModelCurve ModelBezier.
Local Open Scope Z_scope.

Section BSpline.
  Context {T P : Type} {SO : ScalarOps T} {V : PointOps T P}.
  Local Open Scope scal_scope.
  Local Open Scope Z_scope.

  (** BSplineBase.h:412-413 m_control_points, m_knots; CurveBase.h:216 m_periodic. *)
  Record bspline := { bs_pts : list P; bs_knots : list T; bs_periodic : bool }.

  (** A default constructed curve after set_control_points and set_knots (BSplineBase.h:347-372). *)
  Definition mk_bspline (pts : list P) (knots : list T) : bspline :=
    {| bs_pts := pts; bs_knots := knots; bs_periodic := false |}.

  (** BSplineBase.h:103 set_control_point, 117 set_knot. *)
  Definition bs_set_control_point (c : bspline) (i : Z) (p : P) : res bspline :=
    do l <- set (bs_pts c) i p;
    Ok {| bs_pts := l; bs_knots := bs_knots c; bs_periodic := bs_periodic c |}.
  Definition bs_set_knot (c : bspline) (i : Z) (x : T) : res bspline :=
    do l <- set (bs_knots c) i x;
    Ok {| bs_pts := bs_pts c; bs_knots := l; bs_periodic := bs_periodic c |}.

  (** BSplineBase.h:374-377 get_degree. *)
  Definition bs_degree (c : bspline) : Z := zlen (bs_knots c) - zlen (bs_pts c) - 1.

  (** BSplineBase.h:389-393 get_domain_lower_bound. *)
  Definition bs_lower (c : bspline) : res T := get (bs_knots c) (bs_degree c).
  (** BSplineBase.h:395-400 get_domain_upper_bound. *)
  Definition bs_upper (c : bspline) : res T :=
    get (bs_knots c) (zlen (bs_knots c) - bs_degree c - 1).

  (** BSplineBase.h:379-387 in_domain. *)
  Definition bs_in_domain (c : bspline) (t : T) : res bool :=
    do t_min <- get (bs_knots c) (bs_degree c);
    do t_max <- get (bs_knots c) (zlen (bs_knots c) - bs_degree c - 1);
    Ok ((t_min - seps <=? t)%S && (t <=? t_max + seps)%S).

  (** BSplineBase.h:403-409 validate_curve. *)
  Definition bs_validate (c : bspline) : res unit :=
    if bs_degree c <? 0 then Throw invalid_setting_error else Ok tt.

  (** BSplineBase.h:297-302 bypass_duplicates_after.  [&&] evaluates its right operand only if the
      left one holds. *)
  Definition bypass_after (knots : list T) (i : Z) : res Z :=
    while (S (length knots))
      (fun i => if i + 1 <? zlen knots then
                  do a <- get knots i; do b <- get knots (i + 1); Ok (a =? b)%S
                else Ok false)
      (fun i => Ok (i + 1)) i.

  (** BSplineBase.h:304-309 bypass_duplicates_before. *)
  Definition bypass_before (knots : list T) (i : Z) : res Z :=
    while (S (length knots))
      (fun i => if 0 <=? i - 1 then
                  do a <- get knots i; do b <- get knots (i - 1); Ok (a =? b)%S
                else Ok false)
      (fun i => Ok (i - 1)) i.

  (** BSplineBase.h:315-322: the binary search; the state is (low, high, mid). *)
  Definition span_search (knots : list T) (t : T) (low high : Z) : res Z :=
    do '(_, _, mid) <-
      while (S (length knots))
        (fun st => let '(low, high, mid) := st in
           do a <- get knots mid;
           if (t <? a)%S then Ok true
           else do b <- get knots (mid + 1); Ok (b <=? t)%S)
        (fun st => let '(low, high, mid) := st in
           do a <- get knots mid;
           let '(low, high) := if (t <? a)%S then (low, mid) else (mid, high) in
           Ok (low, high, Z.quot (high + low) 2))
        (low, high, Z.quot (high + low) 2);
    Ok mid.

  (** BSplineBase.h:289-325 locate_span. *)
  Definition locate_span (c : bspline) (t : T) : res Z :=
    let knots := bs_knots c in
    let p := bs_degree c in
    do _ <- assert_ (zlen (bs_pts c) <? zlen knots);
    let low := p in
    let high := zlen knots - p - 1 in
    do a <- get knots low;
    if (t <=? a)%S then Ok low
    else
      do b <- get knots high;
      if (b <=? t)%S then do i <- bypass_before knots high; Ok (i - 1)
      else
        do mid <- span_search knots t low high;
        bypass_after knots mid.

  (** BSplineBase.h:327-344 get_multiplicity; [break] leaves the loop with the count so far. *)
  Definition get_multiplicity (c : bspline) (k : Z) : res Z :=
    let knots := bs_knots c in
    let m := zlen knots in
    let step i s :=
      do a <- get knots i; do b <- get knots k;
      if (a =? b)%S then Ok (inl (s + 1)) else Ok (inr s) in
    do x <- forb_up 0 k (fun i s => step (k - 1 - i) s) 1;
    let s := match x with inl s => s | inr s => s end in
    do x <- forb_up (k + 1) m step s;
    Ok (match x with inl s => s | inr s => s end).

  (** The prologue [if (get_periodic()) t = unwrap_parameter(t);] (BSpline.h:75-77 etc.). *)
  Definition bs_unwrap (c : bspline) (t : T) : res T :=
    if bs_periodic c then
      do a <- bs_lower c; do b <- bs_upper c;
      unwrap_parameter (bs_periodic c) a b t
    else Ok t.

  (** BSpline.h:59-70 get_knot_span_control_points (the rows written into the local matrix). *)
  Definition span_points (c : bspline) (curve_degree knot_span : Z) : res (list P) :=
    do l <- alloc p0 (curve_degree + 1);
    for_up 0 (curve_degree + 1) (fun i l =>
      let idx := knot_span - curve_degree + i in
      do _ <- assert_ (0 <=? idx);
      do _ <- assert_ (idx <? zlen (bs_pts c));
      do a <- get (bs_pts c) idx;
      set l i a) l.

  (** BSpline.h:490-511 blossom. *)
  Definition bs_blossom (knots : list T) (bv : list T) (p k : Z) (pts : list P) : res (list P) :=
    do _ <- assert_ (p + 1 <=? zlen pts);
    for_up 1 (p + 1) (fun r pts =>
      do t <- get bv (r - 1);
      for_down p r (fun j pts =>
        let index := j + k in
        do u1 <- get knots (index + 1 - r);
        do u0 <- get knots (index - p);
        let diff := (u1 - u0)%S in
        do alpha <- (if (sofQ (1 # (10 ^ 16)%positive) <? diff)%S then ddiv (t - u0)%S diff else Ok s0);
        do a <- get pts (j - 1);
        do b <- get pts j;
        set pts j ((s1 - alpha)%S *: a + alpha *: b)%P) pts) pts.

  (** BSpline.h:513-525 deBoor. *)
  Definition bs_deBoor (c : bspline) (t : T) (p k : Z) (pts : list P) : res P :=
    do pts <-
      (if 0 <? p then
         do bv <- alloc t (bs_degree c);
         bs_blossom (bs_knots c) bv p k pts
       else Ok pts);
    get pts p.

  (** BSpline.h:72-87 evaluate. *)
  Definition bs_evaluate (c : bspline) (t : T) : res P :=
    do _ <- bs_validate c;
    do t <- bs_unwrap c t;
    let p := bs_degree c in
    do k <- locate_span c t;
    do _ <- assert_ (0 <=? p);
    do _ <- assert_ (zlen (bs_knots c) =? zlen (bs_pts c) + p + 1);
    do pts <- span_points c p k;
    bs_deBoor c t p k pts.

  (** BSpline.h:94-109 get_derivative_coefficients. *)
  Definition bs_derivative_coefficients (c : bspline) (curve_degree knot_span : Z) (pts : list P)
    : res (list P) :=
    let num := curve_degree + 1 in
    for_up 0 num (fun i pts =>
      let index := i + knot_span + 1 in
      do u1 <- get (bs_knots c) index;
      do u0 <- get (bs_knots c) (index - num);
      let diff := (u1 - u0)%S in
      do alpha <- (if (s0 <? diff)%S then ddiv (sofZ num) diff else Ok s0);
      do a <- get pts (i + 1);
      do b <- get pts i;
      set pts i (alpha *: (a - b))%P) pts.

  (** BSpline.h:111-132 evaluate_derivative. *)
  Definition bs_evaluate_derivative (c : bspline) (t : T) : res P :=
    do _ <- bs_validate c;
    do t <- bs_unwrap c t;
    let p := bs_degree c in
    do k <- locate_span c t;
    do _ <- assert_ (0 <=? p);
    do _ <- assert_ (zlen (bs_knots c) =? zlen (bs_pts c) + p + 1);
    if p =? 0 then Ok p0
    else
      do pts <- span_points c p k;
      let deriv_degree := p - 1 in
      do pts <- bs_derivative_coefficients c deriv_degree k pts;
      bs_deBoor c t deriv_degree k pts.

  (** BSpline.h:134-157 evaluate_2nd_derivative. *)
  Definition bs_evaluate_2nd_derivative (c : bspline) (t : T) : res P :=
    do _ <- bs_validate c;
    do t <- bs_unwrap c t;
    let p := bs_degree c in
    do k <- locate_span c t;
    do _ <- assert_ (0 <=? p);
    do _ <- assert_ (zlen (bs_knots c) =? zlen (bs_pts c) + p + 1);
    if p <=? 1 then Ok p0
    else
      let deriv_degree := p - 1 in
      let deriv2_degree := p - 2 in
      do pts <- span_points c p k;
      do pts <- bs_derivative_coefficients c deriv_degree k pts;
      do pts <- bs_derivative_coefficients c deriv2_degree k pts;
      bs_deBoor c t deriv2_degree k pts.

  (** The virtual functions of a B-spline object (for the functions of the base class). *)
  Definition bs_ops (c : bspline) (lower upper : T) : curve_ops T P :=
    {| c_lower := lower; c_upper := upper; c_eval := bs_evaluate c;
       c_d1 := bs_evaluate_derivative c; c_d2 := bs_evaluate_2nd_derivative c |}.

  (** BSplineBase.h:166-182: the rounds of insert_knot; the state is (Rw, ctrl_pts_new). *)
  Definition insert_rounds (knots : list T) (t : T) (p k s r : Z) (Rw ctrl_new : list P)
    : res (list P * list P) :=
    for_up 1 (r + 1) (fun j st =>
      let '(Rw, ctrl_new) := st in
      let L := k - p + j in
      do Rw <- for_up 0 (p - j - s + 1) (fun i Rw =>
        do u1 <- get knots (i + k + 1);
        do u0 <- get knots (L + i);
        let diff := (u1 - u0)%S in
        do alpha <- (if (s0 <? diff)%S then ddiv (t - u0)%S diff else Ok s0);
        do a <- get Rw (i + 1);
        do b <- get Rw i;
        set Rw i (alpha *: a + (s1 - alpha)%S *: b)%P) Rw;
      do a <- get Rw 0; do ctrl_new <- set ctrl_new L a;
      do b <- get Rw (p - j - s); do ctrl_new <- set ctrl_new (k + r - j - s) b;
      Ok (Rw, ctrl_new)) (Rw, ctrl_new).

  (** BSplineBase.h:137-189 insert_knot. *)
  Definition bs_insert_knot (c : bspline) (t : T) (num_copies : Z) : res bspline :=
    do _ <- assert_ (1 <=? num_copies);
    do d <- bs_in_domain c t;
    do _ <- assert_ d;
    do _ <- bs_validate c;
    let r := num_copies in
    let p := bs_degree c in
    let knots := bs_knots c in
    let pts := bs_pts c in
    do k <- locate_span c t;
    do uk <- get knots k;
    do s <- (if (t =? uk)%S then get_multiplicity c k else Ok 0);
    do _ <- assert_ (p <=? k);
    do _ <- assert_ (r + s <=? p);
    let n := zlen pts - 1 in
    let m := zlen knots - 1 in
    do knots_new <- alloc s0 (m + r + 1);
    do x <- block knots 0 (k + 1);
    do knots_new <- blit knots_new 0 x;
    do x <- alloc t r;
    do knots_new <- blit knots_new (k + 1) x;
    do x <- block knots (k + 1) (m - k - 1);
    do knots_new <- blit knots_new (k + 1 + r) x;
    do x <- get knots m;
    do knots_new <- set knots_new (m + r) x;
    do ctrl_new <- alloc p0 (n + r + 1);
    do _ <- assert_ (0 <=? k - p + 1);
    do ctrl_new <-
      (if 0 <? k - p + 1 then
         do x <- topRows pts (k - p + 1); blit ctrl_new 0 x
       else Ok ctrl_new);
    do _ <- assert_ (0 <=? n - k + s + 1);
    do ctrl_new <-
      (if 0 <? n - k + s + 1 then
         do x <- bottomRows pts (n - k + s + 1);
         blit ctrl_new (zlen ctrl_new - (n - k + s + 1)) x
       else Ok ctrl_new);
    do Rw <- block pts (k - p) (p - s + 1);
    do '(Rw, ctrl_new) <- insert_rounds knots t p k s r Rw ctrl_new;
    do ctrl_new <- for_up (k - p + r) (k - s) (fun i ctrl_new =>
      do a <- get Rw (i - k + p - r);
      set ctrl_new i a) ctrl_new;
    Ok {| bs_pts := ctrl_new; bs_knots := knots_new; bs_periodic := bs_periodic c |}.

  (** BSplineBase.h:228-240: the first inner loop of remove_knot; state (temp, i, j, ii, jj). *)
  Definition remove_sweep (U : list T) (Pw : list P) (t : T) (ord k : Z)
      (st : list P * Z * Z * Z * Z) : res (list P * Z * Z * Z * Z) :=
    while (S (length Pw + length U))
      (fun st => let '(_, i, j, _, _) := st in Ok (k <? j - i))
      (fun st => let '(temp, i, j, ii, jj) := st in
         do ui <- get U i; do uio <- get U (i + ord + k);
         do alpha_i <- ddiv (t - ui)%S (uio - ui)%S;
         do ujk <- get U (j - k); do ujo <- get U (j + ord);
         do alpha_j <- ddiv (t - ujk)%S (ujo - ujk)%S;
         do pi <- get Pw i; do tm <- get temp (ii - 1);
         do v <- pdivs (pi - (s1 - alpha_i)%S *: tm)%P alpha_i;
         do temp <- set temp ii v;
         do pj <- get Pw j; do tp <- get temp (jj + 1);
         do v <- pdivs (pj - alpha_j *: tp)%P (s1 - alpha_j)%S;
         do temp <- set temp jj v;
         Ok (temp, i + 1, j - 1, ii + 1, jj - 1)) st.

  (** BSplineBase.h:255-262: copying the new points back; state (Pw, i, j). *)
  Definition remove_copy (Pw temp : list P) (first last off k : Z) : res (list P) :=
    do '(Pw, _, _) <-
      while (S (length Pw))
        (fun st => let '(_, i, j) := st in Ok (k <? j - i))
        (fun st => let '(Pw, i, j) := st in
           do a <- get temp (i - off); do Pw <- set Pw i a;
           do b <- get temp (j - off); do Pw <- set Pw j b;
           Ok (Pw, i + 1, j - 1)) (Pw, first, last);
    Ok Pw.

  (** BSplineBase.h:191-286 remove_knot, for an explicit tolerance [tol >= 0].  Returns the new curve
      and the number of copies removed.  (For [tol < 0] the C++ code first replaces it by 1e-6 times
      the largest extent of the control points: bs_remove_knot_any in ModelRemove.v.) *)
  Definition bs_remove_knot (c : bspline) (t : T) (num_copies : Z) (tol : T) : res (bspline * Z) :=
    do _ <- assert_ (1 <=? num_copies);
    do d <- bs_in_domain c t;
    do _ <- assert_ d;
    do _ <- bs_validate c;
    let p := bs_degree c in
    do r <- locate_span c t;
    do ur <- get (bs_knots c) r;
    do s <- (if (t =? ur)%S then get_multiplicity c r else Ok 0);
    let n := zlen (bs_pts c) - 1 in
    let m := zlen (bs_knots c) - 1 in
    if s =? 0 then Ok (c, 0)
    else if (r <=? p) || (m - p <=? r) then Ok (c, 0)
    else
      do _ <- assert_ (p <=? r);
      do ur1 <- get (bs_knots c) (r + 1);
      do _ <- assert_ (negb (ur1 =? ur)%S);
      let U := bs_knots c in
      let ord := p + 1 in
      let fout := Z.quot (2 * r - s - p) 2 in
      do temp <- alloc p0 (n + 1);
      (* state of the outer loop: (Pw, temp, first, last, count) *)
      do x <- forb_up 0 num_copies (fun k st =>
        let '(Pw, temp, first, last, count) := st in
        let off := first - 1 in
        do a <- get Pw off; do temp <- set temp 0 a;
        do b <- get Pw (last + 1); do temp <- set temp (last + 1 - off) b;
        do '(temp, i, j, ii, jj) <- remove_sweep U Pw t ord k (temp, first, last, 1, last - off);
        do bad <-
          (if j - i <? k then
             do a <- get temp (ii - 1); do b <- get temp (jj + 1);
             Ok (tol <? pnorm (a - b)%P)%S
           else
             do ui <- get U i; do uio <- get U (i + ord + k);
             do alpha_i <- ddiv (t - ui)%S (uio - ui)%S;
             do pi <- get Pw i;
             do a <- get temp (ii + k + 1); do b <- get temp (ii - 1);
             Ok (tol <? pnorm (pi - (alpha_i *: a + (s1 - alpha_i)%S *: b))%P)%S);
        if (bad : bool) then Ok (inr (Pw, count))
        else
          do Pw <- remove_copy Pw temp first last off k;
          Ok (inl (Pw, temp, first - 1, last + 1, count + 1)))
        (bs_pts c, temp, r - p, r - s, 0);
      let '(Pw, count) := match x with inl (Pw, _, _, _, count) => (Pw, count) | inr y => y end in
      if count =? 0 then Ok ({| bs_pts := Pw; bs_knots := U; bs_periodic := bs_periodic c |}, 0)
      else
        do U' <- for_up (r + 1) (m + 1) (fun k U => do a <- get U k; set U (k - count) a) U;
        do U' <- topRows U' (m - count + 1);
        do '(i, j) <- for_up 1 count (fun k st =>
          let '(i, j) := st in
          if Z.rem k 2 =? 1 then Ok (i + 1, j) else Ok (i, j - 1)) (fout, fout);
        do '(Pw, j) <- for_up (i + 1) (n + 1) (fun k st =>
          let '(Pw, j) := st in
          do a <- get Pw k; do Pw <- set Pw j a; Ok (Pw, j + 1)) (Pw, j);
        do Pw <- topRows Pw j;
        Ok ({| bs_pts := Pw; bs_knots := U'; bs_periodic := bs_periodic c |}, count).

  (** BSpline.h:340-369: inserting knots until every knot of the domain has multiplicity d. *)
  Definition bs_saturate (c : bspline) : res bspline :=
    let d := bs_degree c in
    do t_min <- bs_lower c;
    do t_max <- bs_upper c;
    do k_start <- locate_span c t_min;
    do k_end <- locate_span c t_max;
    do s_start <- get_multiplicity c k_start;
    do s_end <- get_multiplicity c (k_end + 1);
    do curve <- (if s_start <? d then bs_insert_knot c t_min (d - s_start) else Ok c);
    do curve <- (if s_end <? d then bs_insert_knot curve t_max (d - s_end) else Ok curve);
    do x <- forb_up 0 (zlen (bs_knots c)) (fun i curve =>
      do u <- get (bs_knots c) i;
      if (u <=? t_min)%S then Ok (inl curve)
      else if (t_max <=? u)%S then Ok (inr curve)
      else
        do k <- locate_span curve u;
        do s <- get_multiplicity curve k;
        if s <? d then do curve <- bs_insert_knot curve u (d - s); Ok (inl curve)
        else Ok (inl curve)) curve;
    Ok (match x with inl c => c | inr c => c end).

  (** BSpline.h:371-389: cutting the saturated curve into segments; state (segments, bounds, curr_t). *)
  Definition bs_segments (curve : bspline) (d : Z) (t_min t_max : T)
    : res (list (bezier P) * list T) :=
    let knots := bs_knots curve in
    do x <- forb_up 0 (zlen knots) (fun i st =>
      let '(segments, bounds, curr_t) := st in
      do u <- get knots i;
      if (u <=? curr_t)%S then Ok (inl st)
      else if (t_max <? u)%S then Ok (inr st)
      else
        do l <- block (bs_pts curve) (i - d - 1) (d + 1);
        Ok (inl (segments ++ [mk_bezier l], bounds ++ [u], u))) ([], [t_min], t_min);
    let '(segments, bounds, _) := match x with inl y => y | inr y => y end in
    Ok (segments, bounds).

  (** BSpline.h:329-392 convert_to_Bezier. *)
  Definition bs_convert_to_Bezier (c : bspline) : res (list (bezier P) * list T) :=
    let d := bs_degree c in
    do t_min <- bs_lower c;
    do t_max <- bs_upper c;
    do curve <- bs_saturate c;
    bs_segments curve d t_min t_max.

  (** BSpline.h:527-563 combine_Beziers, on a default constructed curve. *)
  Definition bs_combine_Beziers (beziers : list (bezier P)) (bounds : list T) : res bspline :=
    let num_curves := zlen beziers in
    if num_curves =? 0 then Throw invalid_setting_error
    else
      do _ <- assert_ (zlen bounds =? num_curves + 1);
      do b0 <- get beziers 0;
      let degree := bz_degree b0 in
      let num_knots := num_curves * degree + degree + 2 in
      do pts <- alloc p0 (num_curves * degree + 1);
      do _ <- assert_ (zlen (bz_pts b0) =? degree + 1);
      do pts <- blit pts 0 (bz_pts b0);
      do pts <- for_up 1 num_curves (fun i pts =>
        do b <- get beziers i;
        do _ <- assert_ (degree =? bz_degree b);
        do a <- get (bz_pts b) 0; do e <- get pts (i * degree);
        do _ <- assert_ (pnorm (a - e)%P <? seps)%S;
        do x <- block (bz_pts b) 1 degree;
        blit pts (1 + i * degree) x) pts;
      do front <- get bounds 0;
      do back <- get bounds (zlen bounds - 1);
      do knots <- alloc s0 num_knots;
      do x <- alloc front (degree + 1);
      do knots <- blit knots 0 x;
      do x <- alloc back (degree + 1);
      do knots <- blit knots (num_knots - degree - 1) x;
      do knots <- for_up 1 num_curves (fun i knots =>
        do b <- get bounds i;
        do x <- alloc b degree;
        blit knots (i * degree + 1) x) knots;
      for_up 0 (zlen bounds) (fun i c =>
        do t <- get bounds i;
        do '(c, _) <- bs_remove_knot c t degree seps;
        Ok c) (mk_bspline pts knots).

  (** BSpline.h:394-418 elevate_degree; [elevate] is elevate_degree of the Bezier class used. *)
  Definition bs_elevate_degree (elevate : bezier P -> res (bezier P)) (c : bspline) : res bspline :=
    if bs_degree c =? 0 then Throw invalid_setting_error
    else
      do '(beziers, bounds) <- bs_convert_to_Bezier c;
      do beziers2 <- mapM elevate beziers;
      do nc <- bs_combine_Beziers beziers2 bounds;
      Ok {| bs_pts := bs_pts nc; bs_knots := bs_knots nc; bs_periodic := bs_periodic c |}.

  (** split.h:49-102 split(BSpline, t). *)
  Definition split_bspline (curve : bspline) (t : T) : res (list bspline) :=
    do ok <- bs_in_domain curve t;
    if negb ok then Throw invalid_setting_error
    else
      do lower <- bs_lower curve;
      do upper <- bs_upper curve;
      if (t =? lower)%S then Ok [curve]
      else if (t =? upper)%S then Ok [curve]
      else
        let d := bs_degree curve in
        do k <- locate_span curve t;
        do uk <- get (bs_knots curve) k;
        do s <- (if (t =? uk)%S then get_multiplicity curve k else Ok 0);
        do curve <- (if s <? d then bs_insert_knot curve t (d - s) else Ok curve);
        let pts := bs_pts curve in
        let n := zlen pts - 1 in
        let knots := bs_knots curve in
        let m := zlen knots - 1 in
        do k <- locate_span curve t;
        do c1 <- topRows pts (k - d + 1);
        do c2 <- bottomRows pts (n - k + d + 1);
        do k1 <- alloc s0 (k + 2);
        do x <- block knots 0 (k + 1);
        do k1 <- blit k1 0 x;
        do x <- get k1 k; do k1 <- set k1 (k + 1) x;
        do k2 <- alloc s0 (m - k + d + 1);
        do x <- block knots (k - d + 1) (m - k + d);
        do k2 <- blit k2 1 x;
        do x <- get k2 1; do k2 <- set k2 0 x;
        Ok [mk_bspline c1 k1; mk_bspline c2 k2].

  (** conversion.h:24-38 convert_to_BSpline(Bezier). *)
  Definition bezier_to_bspline (c : bezier P) : res bspline :=
    let d := bz_degree c in
    do knots <- alloc s0 ((d + 1) * 2);
    do x <- alloc s0 (d + 1);
    do knots <- blit knots 0 x;
    do x <- alloc s1 (d + 1);
    do knots <- blit knots (d + 1) x;
    Ok (mk_bspline (bz_pts c) knots).

  (** hodograph.h:37-74 compute_hodograph(BSpline). *)
  Definition bs_hodograph (c : bspline) : res bspline :=
    let d := bs_degree c in
    let knots := bs_knots c in
    let pts := bs_pts c in
    let num := zlen pts in
    if d =? 0 then
      do l <- alloc p0 num;
      Ok (mk_bspline l knots)
    else
      do knots_2 <- block knots 1 (zlen knots - 2);
      do out <- alloc p0 (num - 1);
      do out <- for_up 0 (num - 1) (fun i out =>
        do u1 <- get knots (i + d + 1);
        do u0 <- get knots (i + 1);
        let diff := (u1 - u0)%S in
        if (s0 <? diff)%S then
          do a <- get pts (i + 1);
          do b <- get pts i;
          do v <- pdivs (sofZ d *: (a - b))%P diff;
          set out i v
        else set out i p0) out;
      do closed <-
        (if bs_periodic c then
           do lo <- bs_lower c; do up <- bs_upper c;
           is_closed (bs_ops c lo up) 1 seps
         else Ok false);
      Ok {| bs_pts := out; bs_knots := knots_2; bs_periodic := bs_periodic c && closed |}.

  (** BSpline.h:317-326 subcurve: after the range checks it calls [split(t0)], and there is no member
      function of that name in BSpline or its bases; the template only compiles while it is not used.
      Modelled by its checks only. *)
  Definition bs_subcurve_range_check (t0 t1 : T) : res unit :=
    if (t1 <? t0)%S then Throw invalid_setting_error
    else if ((t0 <? s0) || (s1 <? t0) || (t1 <? s0) || (s1 <? t1))%S%bool then Throw invalid_setting_error
    else Ok tt.
End BSpline.
Arguments bspline : clear implicits.
