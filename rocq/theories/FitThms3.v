(** Least squares fitting and deformation of patches. *)
From Coq Require Import Reals Lra Lia List ZArith Bool.
From Verif Require Import Monad MonadFacts LoopFacts Scalar ScalarFacts Spec SpecFacts SpecGeom SpecPatch SpecFit TensorFacts.
From Verif Require Import PrimitiveFacts PatchFacts ModelCurve CurveFacts ModelBezier BezierFacts BezierThms ModelBSpline BSplineFacts.
From Verif Require Import BSplineThms ModelPatchBase ModelPatch BezierPatchThms BSplinePatchThms BSplinePatchThms2 ModelFit SpecFit2 FitThms FitThms2.
Import ListNotations.
Local Open Scope R_scope.

Lemma wraps_01 per t u : wraps per 0 1 t u -> (per = true -> 0 <= t < 1) -> u = t.
Proof.
  intros Hw Hp. destruct per; [|exact Hw]. specialize (Hp eq_refl). destruct Hw as [Hr (k & Hk)].
  assert (-1 < k < 1)%Z by (split; apply lt_IZR; lra). assert (k = 0)%Z by lia. subst k. lra.
Qed.

Lemma bp_basis d n m pu pv (s : bpatch (vec R d)) uv : bp_like n m pu pv s ->
  (pu = true -> n <> 1%nat /\ 0 <= fst uv < 1) -> (pv = true -> m <> 1%nat /\ 0 <= snd uv < 1) ->
  bp_at s uv = Ok (lin (S n * S m) (bpB n m uv) (bp_grid s)).
Proof.
  intros (Hi & Tu & Tv & Du & Dv & Pu & Pv) Hu Hw.
  destruct (bpatch_evaluate d s (fst uv) (snd uv) Hi) as (u' & v' & W1 & W2 & E).
  - right; congruence.
  - right; congruence.
  - rewrite Pu, Tu. intros H. destruct (Hu H). lia.
  - rewrite Pv, Tv. intros H. destruct (Hw H). lia.
  - rewrite Du, Dv, !Nat2Z.id in E. rewrite Pu in W1. rewrite Pv in W2.
    apply wraps_01 in W1; [|intros H; apply (Hu H)]. apply wraps_01 in W2; [|intros H; apply (Hw H)]. subst u' v'.
    unfold bp_at. rewrite E. f_equal. apply tensor_lin.
Qed.

Lemma bp_make {d} n m pu pv tu tv du dv (g : list (vec R d)) : length g = (S n * S m)%nat -> tu = Z.of_nat n -> tv = Z.of_nat m ->
  du = Z.of_nat n -> dv = Z.of_nat m ->
  let s := {| bp_tu := tu; bp_tv := tv; bp_degu := du; bp_degv := dv; bp_grid := g; bp_peru := pu; bp_perv := pv |} in
  bp_like n m pu pv s.
Proof.
  intros Hg -> -> -> -> s. repeat split. unfold bp_initialize, checked_degree, s. cbn [bp_degu bp_degv bp_grid].
  rewrite !(proj2 (Z.leb_le 0 _)) by lia. cbn [assert_ bind]. rewrite !(proj2 (Z.ltb_ge _ 0)) by lia. cbn [orb].
  rewrite (proj2 (Z.eqb_eq _ _)); [reflexivity|]. unfold zlen. lia.
Qed.

Lemma bp_like_grid {d} n m pu pv (s : bpatch (vec R d)) : bp_like n m pu pv s -> length (bp_grid s) = (S n * S m)%nat.
Proof.
  intros (Hi & _ & _ & Du & Dv & _). unfold bp_initialize, checked_degree in Hi. rewrite Du, Dv in Hi.
  rewrite !(proj2 (Z.leb_le 0 _)) in Hi by lia. cbn [assert_ bind] in Hi.
  rewrite !(proj2 (Z.ltb_ge _ 0)) in Hi by lia. cbn [orb] in Hi.
  destruct (Z.eqb_spec (zlen (bp_grid s)) ((Z.of_nat n + 1) * (Z.of_nat m + 1))) as [E|]; [|discriminate].
  unfold zlen in E. lia.
Qed.

Section BezierPatchFit.
  Context (d : nat) (solve : list (list R) -> list (vec R d) -> list (vec R d)) (n m : nat) (params : list (R * R))
    (values : list (vec R d)).
  Let N := (S n * S m)%nat.
  Let M := basis_matrix N (bpB n m) params.
  Context (Hl : length params = length values) (Hls : least_squares N M values (solve M values)).

  Lemma bp_fit_Ok : bp_fit solve (Z.of_nat n) (Z.of_nat m) params values =
    Ok (bp_set_grid (bp_new (Z.of_nat n) (Z.of_nat m)) (solve M values)) /\
    bp_like n m false false (bp_set_grid (bp_new (Z.of_nat n) (Z.of_nat m)) (solve M values)).
  Proof.
    assert (Hlike : bp_like n m false false (bp_set_grid (bp_new (Z.of_nat n) (Z.of_nat m)) (solve M values)))
      by (apply bp_make; [apply Hls|reflexivity..]).
    split; [|exact Hlike].
    unfold bp_fit, bp_lsq_matrix. rewrite (proj2 (Z.eqb_eq (zlen params) (zlen values))) by (unfold zlen; lia).
    cbn [assert_ bind]. replace (Z.of_nat n + 1)%Z with (Z.of_nat (S n)) by lia.
    replace (Z.of_nat m + 1)%Z with (Z.of_nat (S m)) by lia. rewrite <- Nat2Z.inj_mul. fold N.
    rewrite (matrix_Ok N (bpB n m)).
    - rewrite bind_Ok. fold M. assert (Hs : length (solve M values) = N) by apply Hls.
      rewrite (proj2 (Z.eqb_eq (zlen (solve M values)) (Z.of_nat N))) by (unfold zlen; lia). cbn [assert_ bind].
      destruct Hlike as (Hi & _). exact Hi.
    - intros uv _ g Hg. 
      assert (Hk : bp_like n m false false (bp_set_grid (bp_new (Z.of_nat n) (Z.of_nat m)) g))
        by (apply bp_make; [exact Hg|reflexivity..]).
      pose proof Hk as (Hi & _). rewrite Hi, bind_Ok. apply (bp_basis 1 n m false false _ uv Hk); discriminate.
    - intros j. apply grid_order_in.
  Qed.

  Lemma bpatch_fit : exists s xs, bp_fit solve (Z.of_nat n) (Z.of_nat m) params values = Ok s /\
    bp_like n m false false s /\ mapM (bp_at s) params = Ok xs /\
    forall s' xs', bp_like n m false false s' -> mapM (bp_at s') params = Ok xs' ->
      sqerr xs values <= sqerr xs' values /\ (xs' = values -> xs = values).
  Proof.
    destruct (fit_general N (bpB n m) params values _ Hls Hl) as (xs & Ex & H). destruct bp_fit_Ok as [E K].
    assert (Hin : forall s : bpatch (vec R d), bp_like n m false false s ->
      mapM (bp_at s) params = Ok (map (fun t => lin N (bpB n m t) (bp_grid s)) params)).
    { intros s Hs. apply mapM_val. intros t _. apply (bp_basis d n m false false s t Hs); discriminate. }
    eexists. exists xs. split; [exact E|]. split; [exact K|]. split; [rewrite (Hin _ K); f_equal; exact Ex|].
    intros s' xs' Hs' E'. rewrite (Hin s' Hs') in E'. apply Ok_inj in E'. subst xs'. apply H. apply (bp_like_grid n m _ _ s' Hs').
  Qed.
End BezierPatchFit.

Lemma bpatch_deform d (solve : list (list R) -> list (vec R d) -> list (vec R d)) (n m : nat) (s : bpatch (vec R d))
    (params : list (R * R)) (changes : list (vec R d)) :
  let N := (S n * S m)%nat in
  let M := basis_matrix N (bpB n m) params in
  let pu := bp_peru s in let pv := bp_perv s in
  let own uv := (pu = true -> n <> 1%nat /\ 0 <= fst uv < 1) /\ (pv = true -> m <> 1%nat /\ 0 <= snd uv < 1) in
  bp_like n m pu pv s -> length params = length changes -> least_squares N M changes (solve M changes) ->
  Forall own params ->
  exists s' f olds news, bp_deform solve s params changes = Ok s' /\
    bp_fit solve (Z.of_nat n) (Z.of_nat m) params changes = Ok f /\ bp_like n m pu pv s' /\
    (forall uv, own uv -> exists a b, bp_at s uv = Ok a /\ bp_at f uv = Ok b /\ bp_at s' uv = Ok (padd a b)) /\
    mapM (bp_at s) params = Ok olds /\ mapM (bp_at s') params = Ok news /\
    forall s'' xs, bp_like n m pu pv s'' -> mapM (bp_at s'') params = Ok xs ->
      sqerr news (add_points olds changes) <= sqerr xs (add_points olds changes) /\
      (xs = add_points olds changes -> news = add_points olds changes).
Proof.
  intros N M pu pv own Hs Hl Hls Hown. destruct (bp_fit_Ok d solve n m params changes Hl Hls) as [Ef Kf]. fold N M in Ef, Kf.
  pose proof (bp_like_grid n m _ _ s Hs) as Hg. fold N in Hg.
  destruct (deform_general N (bpB n m) params changes _ Hls Hl (bp_grid s) Hg) as (Hs' & H).
  set (V := fun pts : list (vec R d) => map (fun t => lin N (bpB n m t) pts) params).
  set (f := bp_set_grid (bp_new (Z.of_nat n) (Z.of_nat m)) (solve M changes)) in *.
  set (s' := bp_set_grid s (add_points (bp_grid s) (solve M changes))).
  pose proof Hs as (_ & Tu & Tv & Du & Dv & _ & _).
  assert (Ks' : bp_like n m pu pv s') by (apply bp_make; assumption).
  exists s', f, (V (bp_grid s)), (V (bp_grid s')).
  split. { unfold bp_deform. rewrite Tu, Tv, Ef, bind_Ok. cbn [f bp_grid bp_set_grid].
    rewrite add_rows_Ok by (rewrite Hg; symmetry; apply Hls). rewrite bind_Ok. apply Ks'. }
  split; [exact Ef|]. split; [exact Ks'|]. split.
  { intros uv [O1 O2]. do 2 eexists. split; [apply (bp_basis d n m pu pv s uv Hs O1 O2)|]. split.
    - apply (bp_basis d n m false false f uv Kf); discriminate.
    - rewrite (bp_basis d n m pu pv s' uv Ks' O1 O2). f_equal. cbn [s' f bp_grid bp_set_grid].
      apply lin_add; [exact Hg|apply Hls]. }
  assert (Hin : forall s'' : bpatch (vec R d), bp_like n m pu pv s'' -> mapM (bp_at s'') params = Ok (V (bp_grid s''))).
  { intros s'' K. apply mapM_val. intros uv Huv. rewrite Forall_forall in Hown. destruct (Hown uv Huv) as [O1 O2].
    apply (bp_basis d n m pu pv s'' uv K O1 O2). }
  split; [now apply Hin|]. split; [now apply Hin|].
  intros s'' xs K E. rewrite (Hin s'' K) in E. apply Ok_inj in E. subst xs. exact (H (bp_grid s'') (bp_like_grid n m _ _ s'' K)).
Qed.

(** ** B-spline patches *)
  Lemma own_dir_param per r knots t : valid_dir r knots -> own_param per r knots t ->
    (per = true -> nth r knots 0 < nth (r + 1) knots 0) -> dir_param per r knots t.
  Proof.
    intros Hvd [[[E|H1] H2] H3] Hr; [discriminate|]. destruct per.
    - split; [now left|]. left. now apply Hr.
    - split; [now right|exact H2].
  Qed.

  Lemma wraps_own per r knots t u : valid_dir r knots -> own_param per r knots t ->
    wraps per (dir_lo r knots) (dir_hi r knots) t u -> u = t.
  Proof.
    intros Hvd [[[E|H1] H2] H3] Hw; [discriminate|]. destruct per; [|exact Hw]. destruct Hw as [Hr (k & Hk)].
    specialize (H3 eq_refl). destruct Hvd as [_ _ Hlt].
    assert (-1 < k < 1)%Z.
    { split; apply lt_IZR; apply Rmult_lt_reg_r with (dir_hi r knots - dir_lo r knots); lra. }
    assert (k = 0)%Z by lia. subst k. lra.
  Qed.
Lemma sp_basis d p q ku kv pu pv (s : spatch R (vec R d)) uv : good_dir p ku -> good_dir q kv ->
  sp_like p q ku kv pu pv s -> sp_own pu pv p q ku kv uv ->
  sp_at s uv = Ok (lin (dir_count p ku * dir_count q kv) (spB p q ku kv uv) (sp_grid s)).
Proof.
  intros [Vu Au] [Vv Av] (Hi & Tu & Tv & Du & Dv & Ku & Kv & Pu & Pv) [[O1 R1] [O2 R2]].
  pose proof (spatch_evaluate d s (fst uv) (snd uv)) as E. cbv zeta in E.
  rewrite Du, Dv, !Nat2Z.id, Ku, Kv, Pu, Pv in E.
  destruct (E Hi Vu Vv Au Av (own_dir_param _ _ _ _ Vu O1 R1) (own_dir_param _ _ _ _ Vv O2 R2)) as (u' & v' & W1 & W2 & Ev).
  apply (wraps_own _ _ _ _ _ Vu O1) in W1. apply (wraps_own _ _ _ _ _ Vv O2) in W2. subst u' v'.
  unfold sp_at. rewrite Ev. f_equal. apply tensor_lin.
Qed.

Lemma sp_build d p q ku kv pu pv tu tv du dv (g : list (vec R d)) iu iv : good_dir p ku -> good_dir q kv ->
  length g = (dir_count p ku * dir_count q kv)%nat -> tu = Z.of_nat p -> tv = Z.of_nat q -> du = Z.of_nat p -> dv = Z.of_nat q ->
  exists s, sp_initialize {| sp_tu := tu; sp_tv := tv; sp_degu := du; sp_degv := dv; sp_grid := g; sp_ku := ku; sp_kv := kv;
       sp_peru := pu; sp_perv := pv; sp_isou := iu; sp_isov := iv |} = Ok s /\ sp_like p q ku kv pu pv s /\ sp_grid s = g.
Proof.
  intros [Vu Au] [Vv Av] Hg -> -> -> ->.
  set (s0 := {| sp_tu := _ |}).
  assert (H : sfit s0 p q) by (split; try reflexivity; try assumption; cbn [s0 sp_grid sp_ku sp_kv]; unfold zlen; lia).
  destruct (sp_init_gen s0 p q H) as (s & E & F1 & F2 & F3 & F4 & F5 & F6 & F7 & F8 & F9 & F10).
  exists s. split; [exact E|]. split; [|exact F5]. repeat split; assumption.
Qed.

Lemma sp_like_grid d p q ku kv pu pv (s : spatch R (vec R d)) : good_dir p ku -> good_dir q kv -> sp_like p q ku kv pu pv s ->
  length (sp_grid s) = (dir_count p ku * dir_count q kv)%nat.
Proof.
  intros [Vu _] [Vv _] (Hi & _ & _ & Du & Dv & Ku & Kv & _).
  assert (H : sfit s (Z.to_nat (sp_degu s)) (Z.to_nat (sp_degv s))) by (apply sfit_init; [exact Hi|rewrite Du, Ku, Nat2Z.id; exact Vu|rewrite Dv, Kv, Nat2Z.id; exact Vv]).
  pose proof (sr_g _ _ _ H) as Hg. rewrite Du, Dv, !Nat2Z.id, Ku, Kv in Hg. unfold zlen in Hg. lia.
Qed.

Section BSplinePatchFit.
  Context (d : nat) (solve : list (list R) -> list (vec R d) -> list (vec R d)) (p q : nat) (ku kv : list R)
    (params : list (R * R)) (values : list (vec R d)).
  Let n := dir_count p ku.
  Let m := dir_count q kv.
  Let N := (n * m)%nat.
  Let M := basis_matrix N (spB p q ku kv) params.
  Context (Hu : good_dir p ku) (Hv : good_dir q kv).
  Context (Hpar : Forall (fun uv => dir_param false p ku (fst uv) /\ dir_param false q kv (snd uv)) params).
  Context (Hl : length params = length values) (Hls : least_squares N M values (solve M values)).

  Lemma param_own uv : dir_param false p ku (fst uv) /\ dir_param false q kv (snd uv) -> sp_own false false p q ku kv uv.
  Proof. intros [H1 H2]. repeat split; try apply H1; try apply H2; discriminate. Qed.

  Lemma sp_fit_Ok : exists s, sp_fit solve (Z.of_nat p) (Z.of_nat q) params values (Z.of_nat n) (Z.of_nat m) ku kv = Ok s /\
    sp_like p q ku kv false false s /\ sp_grid s = solve M values.
  Proof.
    unfold sp_fit, sp_lsq_matrix. rewrite (proj2 (Z.eqb_eq (zlen params) (zlen values))) by (unfold zlen; lia).
    cbn [assert_ bind]. rewrite <- Nat2Z.inj_mul. fold N.
    rewrite (matrix_Ok N (spB p q ku kv)).
    - rewrite bind_Ok. fold M. apply (sp_build d p q ku kv false false); auto. apply Hls.
    - intros uv Huv g Hg.
      destruct (sp_build 1 p q ku kv false false (Z.of_nat p) (Z.of_nat q) (Z.of_nat p) (Z.of_nat q) g [] []) as (s & E & K & Eg); auto.
      unfold sp_make. rewrite E, bind_Ok. rewrite Forall_forall in Hpar. rewrite <- Eg.
      apply (sp_basis 1 p q ku kv false false s uv Hu Hv K). apply param_own. now apply Hpar.
    - intros j. apply grid_order_in.
  Qed.

  Lemma spatch_fit : exists s xs, sp_fit solve (Z.of_nat p) (Z.of_nat q) params values (Z.of_nat n) (Z.of_nat m) ku kv = Ok s /\
    sp_like p q ku kv false false s /\ mapM (sp_at s) params = Ok xs /\
    forall s' xs', sp_like p q ku kv false false s' -> mapM (sp_at s') params = Ok xs' ->
      sqerr xs values <= sqerr xs' values /\ (xs' = values -> xs = values).
  Proof.
    destruct (fit_general N (spB p q ku kv) params values _ Hls Hl) as (xs & Ex & H). destruct sp_fit_Ok as (s & E & K & Eg).
    assert (Hin : forall s : spatch R (vec R d), sp_like p q ku kv false false s ->
      mapM (sp_at s) params = Ok (map (fun t => lin N (spB p q ku kv t) (sp_grid s)) params)).
    { intros s1 Hs. apply mapM_val. intros t Ht. rewrite Forall_forall in Hpar.
      apply (sp_basis d p q ku kv false false s1 t Hu Hv Hs). apply param_own. now apply Hpar. }
    exists s, xs. split; [exact E|]. split; [exact K|]. split; [rewrite (Hin _ K), Eg; f_equal; exact Ex|].
    intros s' xs' Hs' E'. rewrite (Hin s' Hs') in E'. apply Ok_inj in E'. subst xs'. apply H.
    apply (sp_like_grid d p q ku kv _ _ s' Hu Hv Hs').
  Qed.
End BSplinePatchFit.

Lemma spatch_deform d (solve : list (list R) -> list (vec R d) -> list (vec R d)) (p q : nat) (s : spatch R (vec R d))
    (params : list (R * R)) (changes : list (vec R d)) :
  let ku := sp_ku s in let kv := sp_kv s in
  let n := dir_count p ku in let m := dir_count q kv in
  let N := (n * m)%nat in
  let M := basis_matrix N (spB p q ku kv) params in
  let pu := sp_peru s in let pv := sp_perv s in
  good_dir p ku -> good_dir q kv ->
  sp_like p q ku kv pu pv s -> length params = length changes -> least_squares N M changes (solve M changes) ->
  Forall (sp_own pu pv p q ku kv) params ->
  exists s' f olds news, sp_deform solve s params changes = Ok s' /\
    sp_fit solve (Z.of_nat p) (Z.of_nat q) params changes (Z.of_nat n) (Z.of_nat m) ku kv = Ok f /\
    sp_like p q ku kv pu pv s' /\
    (forall uv, sp_own pu pv p q ku kv uv -> exists a b, sp_at s uv = Ok a /\ sp_at f uv = Ok b /\ sp_at s' uv = Ok (padd a b)) /\
    mapM (sp_at s) params = Ok olds /\ mapM (sp_at s') params = Ok news /\
    forall s'' xs, sp_like p q ku kv pu pv s'' -> mapM (sp_at s'') params = Ok xs ->
      sqerr news (add_points olds changes) <= sqerr xs (add_points olds changes) /\
      (xs = add_points olds changes -> news = add_points olds changes).
Proof.
  intros ku kv n m N M pu pv Hu Hv Hs Hl Hls Hown.
  assert (Hfree : forall uv, sp_own pu pv p q ku kv uv -> sp_own false false p q ku kv uv).
  { intros uv [[[O1 _] _] [[O2 _] _]]. apply param_own. now split. }
  assert (Hpar : Forall (fun uv => dir_param false p ku (fst uv) /\ dir_param false q kv (snd uv)) params).
  { apply (Forall_impl _ (fun uv (H : sp_own pu pv p q ku kv uv) => conj (proj1 (proj1 (proj1 H))) (proj1 (proj1 (proj2 H)))) Hown). }
  destruct (sp_fit_Ok d solve p q ku kv params changes Hu Hv Hpar Hl Hls) as (f & Ef & Kf & Gf). fold n m N M in Ef, Kf, Gf.
  pose proof (sp_like_grid d p q ku kv pu pv s Hu Hv Hs) as Hg. fold n m N in Hg.
  destruct (deform_general N (spB p q ku kv) params changes _ Hls Hl (sp_grid s) Hg) as (Hs' & H).
  set (V := fun pts : list (vec R d) => map (fun t => lin N (spB p q ku kv t) pts) params).
  pose proof Hs as (_ & Tu & Tv & Du & Dv & _).
  destruct (sp_build d p q ku kv pu pv (sp_tu s) (sp_tv s) (sp_degu s) (sp_degv s) (add_points (sp_grid s) (solve M changes))
    (sp_isou s) (sp_isov s) Hu Hv Hs' Tu Tv Du Dv) as (s' & Es' & Ks' & Gs').
  exists s', f, (V (sp_grid s)), (V (sp_grid s')).
  split. { unfold sp_deform, sp_nu, sp_nv, checked_degree. fold ku kv. rewrite Du, Dv.
    rewrite !(proj2 (Z.leb_le 0 _)) by lia. cbn [assert_ bind].
    destruct (dir_len p ku (proj1 Hu)) as [L1 L2]. destruct (dir_len q kv (proj1 Hv)) as [L3 L4].
    replace (zlen ku - Z.of_nat p - 1)%Z with (Z.of_nat n) by (unfold zlen, n; lia).
    replace (zlen kv - Z.of_nat q - 1)%Z with (Z.of_nat m) by (unfold zlen, m; lia).
    rewrite Tu, Tv, Ef, bind_Ok, Gf. rewrite add_rows_Ok by (rewrite Hg; symmetry; apply Hls). rewrite bind_Ok.
    rewrite Tu, Tv, Du, Dv in Es'. exact Es'. }
  split; [exact Ef|]. split; [exact Ks'|]. split.
  { intros uv Ho. do 2 eexists. split; [apply (sp_basis d p q ku kv pu pv s uv Hu Hv Hs Ho)|]. split.
    - apply (sp_basis d p q ku kv false false f uv Hu Hv Kf (Hfree uv Ho)).
    - rewrite (sp_basis d p q ku kv pu pv s' uv Hu Hv Ks' Ho). f_equal. rewrite Gs', Gf.
      apply lin_add; [exact Hg|apply Hls]. }
  assert (Hin : forall s'' : spatch R (vec R d), sp_like p q ku kv pu pv s'' -> mapM (sp_at s'') params = Ok (V (sp_grid s''))).
  { intros s'' K. apply mapM_val. intros uv Huv. rewrite Forall_forall in Hown.
    apply (sp_basis d p q ku kv pu pv s'' uv Hu Hv K). now apply Hown. }
  split; [now apply Hin|]. split; [now apply Hin|].
  intros s'' xs K E. rewrite (Hin s'' K) in E. apply Ok_inj in E. subst xs. rewrite Gs'.
  exact (H (sp_grid s'') (sp_like_grid d p q ku kv _ _ s'' Hu Hv K)).
Qed.
