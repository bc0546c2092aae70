(** Least squares fitting and deformation of the four classes. *)
From Coq Require Import Reals Lra Lia List ZArith Bool.
From Verif Require Import Monad MonadFacts LoopFacts Scalar ScalarFacts Spec SpecFacts SpecGeom SpecPatch SpecFit TensorFacts.
From Verif Require Import PrimitiveFacts PatchFacts ModelCurve CurveFacts ModelBezier BezierFacts BezierThms ModelBSpline BSplineFacts.
From Verif Require Import BSplineThms ModelPatchBase ModelPatch BezierPatchThms BSplinePatchThms BSplinePatchThms2 ModelFit FitThms.
Import ListNotations.
Local Open Scope R_scope.

Section General.
  Context {A : Type} {d : nat} (n : nat) (B : A -> nat -> R) (params : list A).
  Context (vs x : list (vec R d)) (Hls : least_squares n (basis_matrix n B params) vs x) (Hlen : length params = length vs).
  Notation val x := (map (fun t => lin n (B t) x) params).

  Lemma fit_general : exists xs, val x = xs /\
    forall y, length y = n -> sqerr xs vs <= sqerr (val y) vs /\ (val y = vs -> xs = vs).
  Proof.
    exists (val x). split; [reflexivity|]. intros y Hy. split; [now apply best|]. intros E. now apply (best_exact n B params vs x y).
  Qed.

  Lemma deform_general old : length old = n -> length (add_points old x) = n /\
    forall z, length z = n ->
      sqerr (val (add_points old x)) (add_points (val old) vs) <= sqerr (val z) (add_points (val old) vs) /\
      (val z = add_points (val old) vs -> val (add_points old x) = add_points (val old) vs).
  Proof.
    intros Ho. assert (Hx : length x = n) by apply Hls.
    assert (Hl : length (add_points old x) = n) by (rewrite add_points_len; lia). split; [exact Hl|].
    intros z Hz. pose proof (best_deform n B params vs x old Hls Hlen Ho z Hz) as H. split; [exact H|].
    intros E. rewrite E, sqerr_refl in H. apply sqerr_0; [|exact H].
    rewrite add_points_len; rewrite !map_length; auto.
  Qed.
End General.

(** ** Bezier curves *)
Lemma bzt_basis d n (pts : list (vec R d)) t : length pts = S n ->
  bzt_evaluate (Z.of_nat n) (mk_bezier pts) t = Ok (lin (S n) (bezier_basis (S n) t) pts).
Proof.
  intros Hl. destruct (bzt_lin false t) as (u & Hw & _ & H). cbn in Hw. subst u.
  destruct (H d (Z.of_nat n) n pts) as (E & _); [split; [now right|discriminate]|exact Hl|].
  unfold mk_bezier. rewrite E. f_equal. unfold lin. apply psum_ext. intros i Hi. f_equal.
  unfold bezier_basis. rewrite bzW0_bernstein by lia. f_equal. lia.
Qed.

Lemma bz_basis d n (c : bezier (vec R d)) t : length (bz_pts c) = S n -> (bz_periodic c = true -> 0 <= t < 1) ->
  bz_evaluate c t = Ok (lin (S n) (bezier_basis (S n) t) (bz_pts c)).
Proof.
  intros Hl Hp. destruct c as [pts per]. cbn [bz_pts bz_periodic] in *.
  assert (E : bz_evaluate {| bz_pts := pts; bz_periodic := per |} t = bz_evaluate (mk_bezier pts) t).
  { destruct per; [|reflexivity]. specialize (Hp eq_refl).
    destruct (unwrap_wraps true t) as (u & (Hr & k & Hu) & Eu). 
    destruct (bz_at_wrap d pts true t u Eu) as (G0 & _). rewrite G0. f_equal.
    assert (-1 < k < 1)%Z by (split; apply lt_IZR; lra). assert (k = 0)%Z by lia. subst k. lra. }
  rewrite E. rewrite bezier_bernstein by (intros ->; discriminate). f_equal. unfold bernstein_curve, lin, bezier_basis.
  rewrite Hl. reflexivity.
Qed.

Lemma mapM_val {A d} (f : A -> res (vec R d)) n (B : A -> nat -> R) params pts :
  (forall t, In t params -> f t = Ok (lin n (B t) pts)) -> mapM f params = Ok (map (fun t => lin n (B t) pts) params).
Proof. apply mapM_Ok. Qed.

Lemma bezier_fit d (solve : list (list R) -> list (vec R d) -> list (vec R d)) (n : nat) (params : list R)
    (values : list (vec R d)) :
  let M := basis_matrix (S n) (bezier_basis (S n)) params in
  length params = length values -> least_squares (S n) M values (solve M values) ->
  exists c xs, bz_fit solve (Z.of_nat n) params values = Ok c /\
    length (bz_pts c) = S n /\ bz_periodic c = false /\ mapM (bz_evaluate c) params = Ok xs /\
    forall c' xs', length (bz_pts c') = S n -> bz_periodic c' = false -> mapM (bz_evaluate c') params = Ok xs' ->
      sqerr xs values <= sqerr xs' values /\ (xs' = values -> xs = values).
Proof.
  intros M Hl Hls. destruct (fit_general (S n) (bezier_basis (S n)) params values _ Hls Hl) as (xs & Ex & H).
  exists (mk_bezier (solve M values)), xs. assert (Hs : length (solve M values) = S n) by apply Hls.
  split.
  - unfold bz_fit, bz_lsq_matrix. rewrite (proj2 (Z.eqb_eq (zlen params) (zlen values))) by (unfold zlen; lia).
    cbn [assert_ bind]. replace (Z.of_nat n + 1)%Z with (Z.of_nat (S n)) by lia.
    rewrite (matrix_Ok (S n) (bezier_basis (S n))).
    + rewrite bind_Ok. fold M. rewrite (proj2 (Z.eqb_eq (zlen (solve M values)) (Z.of_nat (S n)))) by (unfold zlen; lia). reflexivity.
    + intros t _ pts Hp. apply bzt_basis. exact Hp.
    + intros j. apply zrange_in.
  - split; [exact Hs|]. split; [reflexivity|]. split.
    + rewrite (mapM_val _ (S n) (bezier_basis (S n)) params (solve M values)); [f_equal; exact Ex|].
      intros t _. apply (bz_basis d n (mk_bezier (solve M values))); [exact Hs|discriminate].
    + intros c' xs' Hc Hp E. rewrite (mapM_val _ (S n) (bezier_basis (S n)) params (bz_pts c')) in E.
      * assert (E' := f_equal (fun r => match r with Ok a => a | _ => [] end) E). cbn in E'. subst xs'. now apply H.
      * intros t _. apply bz_basis; [exact Hc|]. rewrite Hp. discriminate.
Qed.

Lemma bezier_deform d (solve : list (list R) -> list (vec R d) -> list (vec R d)) (n : nat) (c : bezier (vec R d))
    (params : list R) (changes : list (vec R d)) :
  let M := basis_matrix (S n) (bezier_basis (S n)) params in
  length (bz_pts c) = S n -> length params = length changes -> least_squares (S n) M changes (solve M changes) ->
  (bz_periodic c = true -> Forall (fun t => 0 <= t < 1) params) ->
  exists c' f olds news, bz_deform solve (Z.of_nat n) c params changes = Ok c' /\ bz_fit solve (Z.of_nat n) params changes = Ok f /\
    length (bz_pts c') = S n /\ bz_periodic c' = bz_periodic c /\
    (forall t, (bz_periodic c = true -> 0 <= t < 1) -> exists a b, bz_evaluate c t = Ok a /\ bz_evaluate f t = Ok b /\
       bz_evaluate c' t = Ok (padd a b)) /\
    mapM (bz_evaluate c) params = Ok olds /\ mapM (bz_evaluate c') params = Ok news /\
    forall c'' xs, length (bz_pts c'') = S n -> bz_periodic c'' = bz_periodic c -> mapM (bz_evaluate c'') params = Ok xs ->
      sqerr news (add_points olds changes) <= sqerr xs (add_points olds changes) /\
      (xs = add_points olds changes -> news = add_points olds changes).
Proof.
  intros M Hc Hl Hls Hp. destruct (bezier_fit d solve n params changes Hl Hls) as (f & xs0 & Ef & Lf & Pf & _).
  destruct (deform_general (S n) (bezier_basis (S n)) params changes _ Hls Hl (bz_pts c) Hc) as (Hs & H).
  set (V := fun pts : list (vec R d) => map (fun t => lin (S n) (bezier_basis (S n) t) pts) params).
  assert (Efp : bz_pts f = solve M changes).
  { unfold bz_fit in Ef. rewrite (proj2 (Z.eqb_eq (zlen params) (zlen changes))) in Ef by (unfold zlen; lia).
    cbn [assert_ bind] in Ef. apply bind_inv in Ef. destruct Ef as (m & Em & Ef).
    apply bind_inv in Ef. destruct Ef as (u & _ & Ef).
    assert (Ef' := f_equal (fun r => match r with Ok a => a | _ => f end) Ef). cbn in Ef'. rewrite <- Ef'. cbn [bz_pts mk_bezier].
    unfold bz_lsq_matrix in Em. replace (Z.of_nat n + 1)%Z with (Z.of_nat (S n)) in Em by lia.
    rewrite (matrix_Ok (S n) (bezier_basis (S n))) in Em.
    - assert (Em' := f_equal (fun r => match r with Ok a => a | _ => m end) Em). cbn in Em'. rewrite <- Em'. reflexivity.
    - intros t _ pts Hpp. apply bzt_basis. exact Hpp.
    - intros j. apply zrange_in. }
  set (c' := {| bz_pts := add_points (bz_pts c) (solve M changes); bz_periodic := bz_periodic c |}).
  exists c', f, (V (bz_pts c)), (V (bz_pts c')).
  split. { unfold bz_deform. rewrite Ef, bind_Ok. rewrite Efp, add_rows_Ok; [reflexivity|]. rewrite Hc. symmetry. apply Hls. }
  split; [exact Ef|]. split; [exact Hs|]. split; [reflexivity|]. split.
  { intros t Ht. do 2 eexists. split; [apply (bz_basis d n c t Hc Ht)|]. split.
    - apply (bz_basis d n f t Lf). rewrite Pf. discriminate.
    - rewrite (bz_basis d n c' t Hs Ht). f_equal. cbn [c' bz_pts]. rewrite Efp. apply lin_add; [exact Hc|apply Hls]. }
  assert (Hin : forall c'' : bezier (vec R d), length (bz_pts c'') = S n -> bz_periodic c'' = bz_periodic c ->
    mapM (bz_evaluate c'') params = Ok (V (bz_pts c''))).
  { intros c'' H1 H2. apply mapM_val. intros t Ht. apply bz_basis; [exact H1|]. rewrite H2. intros Hpp.
    specialize (Hp Hpp). rewrite Forall_forall in Hp. now apply Hp. }
  split; [now apply Hin|]. split; [now apply Hin|].
  intros c'' xs H1 H2 E. rewrite (Hin c'' H1 H2) in E.
  assert (E' := f_equal (fun r => match r with Ok a => a | _ => [] end) E). cbn in E'. subst xs. exact (H (bz_pts c'') H1).
Qed.

Lemma Ok_inj {X} (a b : X) : Ok a = Ok b -> a = b.
Proof. intros H. exact (f_equal (fun r => match r with Ok a => a | _ => a end) H). Qed.

(** ** B-spline curves *)
Lemma own_dunw per p knots t : valid_dir p knots -> own_param per p knots t -> dunw p knots per t = Ok t.
Proof.
  intros Hv [[[E|Hd] _] Hp]; [discriminate|]. destruct (dunw_Ok p knots Hv per t) as (u & Hw & Eu). rewrite Eu. f_equal.
  destruct per; [|exact Hw]. destruct Hw as [Hr (k & Hk)]. specialize (Hp eq_refl). destruct Hv as [_ _ Hlt].
  assert (-1 < k < 1)%Z.
  { split; apply lt_IZR; [|]; apply Rmult_lt_reg_r with (dir_hi p knots - dir_lo p knots); lra. }
  assert (k = 0)%Z by lia. subst k. lra.
Qed.

Lemma bs_basis d p knots (c : bspline R (vec R d)) t : valid_dir p knots -> knots_apart (/ IZR (10 ^ 16)) knots ->
  bs_knots c = knots -> length (bs_pts c) = dir_count p knots -> own_param (bs_periodic c) p knots t ->
  bs_evaluate c t = Ok (lin (dir_count p knots) (bspline_basis (dir_count p knots) knots t) (bs_pts c)).
Proof.
  intros Hv Ha Hk Hl Ho. destruct c as [pts ks per]. cbn [bs_knots bs_pts bs_periodic] in *. subst ks.
  pose proof (own_dunw per p knots t Hv Ho) as E. destruct Ho as [[[E'|Hd] Hs] _]; [discriminate|].
  apply (dir_eval_at p knots Hv d pts per t t Ha Hl E Hd). destruct Hs as [Hs|[_ Hs]]; auto.
Qed.

Section BSplineFit.
  Context (d : nat) (solve : list (list R) -> list (vec R d) -> list (vec R d)) (p : nat) (knots params : list R)
    (values : list (vec R d)).
  Let n := dir_count p knots.
  Let M := basis_matrix n (bspline_basis n knots) params.
  Context (Hv : valid_dir p knots) (Ha : knots_apart (/ IZR (10 ^ 16)) knots).
  Context (Hpar : Forall (dir_param false p knots) params) (Hl : length params = length values).

  Lemma bs_fit_Ok : bs_fit solve (Z.of_nat p) params values (Z.of_nat n) knots = Ok (mk_bspline (solve M values) knots).
  Proof.
    unfold bs_fit, bs_lsq_matrix. rewrite (proj2 (Z.eqb_eq (zlen params) (zlen values))) by (unfold zlen; lia).
    cbn [assert_ bind]. destruct (dir_len p knots Hv) as [L1 L2].
    rewrite (proj2 (Z.eqb_eq (zlen knots) (Z.of_nat n + Z.of_nat p + 1))) by (unfold zlen, n; lia). cbn [assert_ bind].
    rewrite (matrix_Ok n (bspline_basis n knots)); [reflexivity| |intros j; apply zrange_in].
    intros t Ht pts Hp. rewrite Forall_forall in Hpar.
    apply (bs_basis 1 p knots (mk_bspline pts knots) t Hv Ha eq_refl Hp). split; [now apply Hpar|discriminate].
  Qed.

  Context (Hls : least_squares n M values (solve M values)).

  Lemma bspline_fit : exists c xs, bs_fit solve (Z.of_nat p) params values (Z.of_nat n) knots = Ok c /\
    bs_knots c = knots /\ length (bs_pts c) = n /\ bs_periodic c = false /\ mapM (bs_evaluate c) params = Ok xs /\
    forall c' xs', bs_knots c' = knots -> length (bs_pts c') = n -> bs_periodic c' = false ->
      mapM (bs_evaluate c') params = Ok xs' ->
      sqerr xs values <= sqerr xs' values /\ (xs' = values -> xs = values).
  Proof.
    destruct (fit_general n (bspline_basis n knots) params values _ Hls Hl) as (xs & Ex & H).
    assert (Hs : length (solve M values) = n) by apply Hls.
    assert (Hin : forall c : bspline R (vec R d), bs_knots c = knots -> length (bs_pts c) = n -> bs_periodic c = false ->
      mapM (bs_evaluate c) params = Ok (map (fun t => lin n (bspline_basis n knots t) (bs_pts c)) params)).
    { intros c H1 H2 H3. apply mapM_val. intros t Ht. rewrite Forall_forall in Hpar.
      apply (bs_basis d p knots c t Hv Ha H1 H2). rewrite H3. split; [now apply Hpar|discriminate]. }
    exists (mk_bspline (solve M values) knots), xs. split; [apply bs_fit_Ok|]. split; [reflexivity|]. split; [exact Hs|].
    split; [reflexivity|]. split.
    - rewrite (Hin (mk_bspline (solve M values) knots) eq_refl Hs eq_refl). f_equal. exact Ex.
    - intros c' xs' H1 H2 H3 E. rewrite (Hin c' H1 H2 H3) in E. apply Ok_inj in E. subst xs'. now apply H.
  Qed.
End BSplineFit.

Lemma bspline_deform d (solve : list (list R) -> list (vec R d) -> list (vec R d)) (p : nat) (c : bspline R (vec R d))
    (params : list R) (changes : list (vec R d)) :
  let knots := bs_knots c in let n := dir_count p knots in
  let M := basis_matrix n (bspline_basis n knots) params in
  valid_dir p knots -> knots_apart (/ IZR (10 ^ 16)) knots -> length (bs_pts c) = n ->
  length params = length changes -> least_squares n M changes (solve M changes) ->
  Forall (own_param (bs_periodic c) p knots) params ->
  exists c' f olds news, bs_deform solve (Z.of_nat p) c params changes = Ok c' /\
    bs_fit solve (Z.of_nat p) params changes (Z.of_nat n) knots = Ok f /\
    bs_knots c' = knots /\ length (bs_pts c') = n /\ bs_periodic c' = bs_periodic c /\
    (forall t, own_param (bs_periodic c) p knots t -> exists a b, bs_evaluate c t = Ok a /\ bs_evaluate f t = Ok b /\
       bs_evaluate c' t = Ok (padd a b)) /\
    mapM (bs_evaluate c) params = Ok olds /\ mapM (bs_evaluate c') params = Ok news /\
    forall c'' xs, bs_knots c'' = knots -> length (bs_pts c'') = n -> bs_periodic c'' = bs_periodic c ->
      mapM (bs_evaluate c'') params = Ok xs ->
      sqerr news (add_points olds changes) <= sqerr xs (add_points olds changes) /\
      (xs = add_points olds changes -> news = add_points olds changes).
Proof.
  intros knots n M Hv Ha Hc Hl Hls Hown.
  assert (Hpar : Forall (dir_param false p knots) params) by (apply (Forall_impl _ (fun t (H : own_param (bs_periodic c) p knots t) => proj1 H) Hown)).
  pose proof (bs_fit_Ok d solve p knots params changes Hv Ha Hpar Hl) as Ef. fold n M in Ef.
  destruct (deform_general n (bspline_basis n knots) params changes _ Hls Hl (bs_pts c) Hc) as (Hs & H).
  set (V := fun pts : list (vec R d) => map (fun t => lin n (bspline_basis n knots t) pts) params).
  set (f := mk_bspline (solve M changes) knots).
  set (c' := {| bs_pts := add_points (bs_pts c) (solve M changes); bs_knots := knots; bs_periodic := bs_periodic c |}).
  exists c', f, (V (bs_pts c)), (V (bs_pts c')).
  split. { unfold bs_deform. fold knots. replace (zlen (bs_pts c)) with (Z.of_nat n) by (unfold zlen; lia).
    rewrite Ef, bind_Ok. cbn [bs_pts mk_bspline]. rewrite add_rows_Ok; [reflexivity|]. rewrite Hc. symmetry. apply Hls. }
  split; [exact Ef|]. split; [reflexivity|]. split; [exact Hs|]. split; [reflexivity|]. split.
  { intros t Ht. do 2 eexists. split; [apply (bs_basis d p knots c t Hv Ha eq_refl Hc Ht)|]. split.
    - apply (bs_basis d p knots f t Hv Ha eq_refl); [apply Hls|]. split; [apply Ht|discriminate].
    - rewrite (bs_basis d p knots c' t Hv Ha eq_refl Hs Ht). f_equal. cbn [c' f bs_pts mk_bspline].
      apply lin_add; [exact Hc|apply Hls]. }
  assert (Hin : forall c'' : bspline R (vec R d), bs_knots c'' = knots -> length (bs_pts c'') = n -> bs_periodic c'' = bs_periodic c ->
    mapM (bs_evaluate c'') params = Ok (V (bs_pts c''))).
  { intros c'' H1 H2 H3. apply mapM_val. intros t Ht. apply (bs_basis d p knots c'' t Hv Ha H1 H2). rewrite H3.
    rewrite Forall_forall in Hown. now apply Hown. }
  split; [now apply Hin|]. split; [now apply Hin|].
  intros c'' xs H1 H2 H3 E. rewrite (Hin c'' H1 H2 H3) in E. apply Ok_inj in E. subst xs. exact (H (bs_pts c'') H2).
Qed.
