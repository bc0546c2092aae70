From Coq Require Import List ZArith Reals Lra Lia Bool.
From Verif Require Import Monad MonadFacts Scalar ModelCurve ModelBezier ModelBSpline ModelRational ModelPatchBase ModelPatch ModelPatchRational.
From Verif Require Import LineThms ModelMsh SpecMsh.
Import ListNotations.
Local Open Scope Z_scope.

Lemma mklist_S {A} n (f : Z -> A) : 0 <= n -> mklist (n + 1) f = (mklist n f ++ [f n])%list.
Proof.
  intros Hn. unfold mklist. replace (Z.to_nat (n + 1)) with (S (Z.to_nat n)) by lia.
  rewrite seq_S, map_app. cbn. now rewrite Z2Nat.id by lia.
Qed.
Lemma mklist_0 {A} n (f : Z -> A) : n <= 0 -> mklist n f = [].
Proof. intros H. unfold mklist. replace (Z.to_nat n) with 0%nat by lia. reflexivity. Qed.

Section Entries.
  Context {A : Type} (e : Z) (g : Z -> list A) (He : 0 <= e).
  Lemma entries_len n : 0 <= n -> (forall i, 0 <= i < n -> zlen (g i) = e) -> zlen (concat (mklist n g)) = n * e.
  Proof.
    intros Hn. revert n Hn. apply (natlike_ind (fun n => (forall i, 0 <= i < n -> zlen (g i) = e) -> zlen (concat (mklist n g)) = n * e)).
    - reflexivity.
    - intros n Hn IH H. unfold Z.succ. rewrite mklist_S, concat_app by lia. unfold zlen in *. rewrite app_length. cbn. rewrite app_nil_r.
      rewrite Nat2Z.inj_add, IH, (H n) by (try lia; intros; apply H; lia). lia.
  Qed.
  Lemma get_entry n K i k : 0 <= n -> (forall i, 0 <= i < n -> zlen (g i) = e) -> 0 <= i < n -> 0 <= k < e ->
    get (concat (mklist n g) ++ K) (i * e + k) = get (g i) k.
  Proof.
    intros Hn. revert n Hn K i. apply (natlike_ind (fun n => forall K i, (forall i, 0 <= i < n -> zlen (g i) = e) -> 0 <= i < n -> 0 <= k < e ->
      get (concat (mklist n g) ++ K) (i * e + k) = get (g i) k)).
    - intros. lia.
    - intros n Hn IH K i H Hi Hk. unfold Z.succ in *. rewrite mklist_S, concat_app, <- app_assoc by lia. cbn. rewrite app_nil_r.
      assert (L : zlen (concat (mklist n g)) = n * e) by (apply entries_len; [lia|intros; apply H; lia]).
      destruct (Z.eq_dec i n) as [->|Hne].
      + rewrite get_app2 by (rewrite L; lia). rewrite L. replace (n * e + k - n * e) with k by lia. apply get_app1. rewrite H; lia.
      + apply IH; try lia. intros; apply H; lia.
  Qed.
  Lemma get_tail n K i : 0 <= n -> (forall i, 0 <= i < n -> zlen (g i) = e) -> 0 <= i -> get (concat (mklist n g) ++ K) (n * e + i) = get K i.
  Proof. intros Hn H Hi. rewrite get_app2, entries_len by (try rewrite entries_len; auto; lia). f_equal. lia. Qed.
End Entries.

Lemma concat_rows {A} nu nv (g : Z -> A) : 0 <= nu -> 0 <= nv ->
  concat (mklist nu (fun i => mklist nv (fun j => g (i * nv + j)))) = mklist (nu * nv) g.
Proof.
  intros Hu Hv. revert nu Hu. apply natlike_ind; [reflexivity|]. intros n Hn IH. unfold Z.succ. rewrite mklist_S, concat_app, IH by lia. cbn. rewrite app_nil_r.
  clear IH. revert nv Hv. apply natlike_ind.
  - rewrite app_nil_r. now replace ((n + 1) * 0) with (n * 0) by lia.
  - intros m Hm _. unfold Z.succ. apply nth_ext with (d := g 0) (d' := g 0).
    + rewrite app_length, !length_mklist. nia.
    + intros k Hk. rewrite app_length, !length_mklist in Hk. rewrite (nth_mklist ((n + 1) * (m + 1))) by nia.
      destruct (Nat.ltb_spec k (Z.to_nat (n * (m + 1)))) as [Hlt|Hge].
      * rewrite app_nth1 by (rewrite length_mklist; lia). apply nth_mklist. lia.
      * rewrite app_nth2, length_mklist, nth_mklist by (rewrite ?length_mklist; lia). f_equal. lia.
Qed.

Lemma tabulate_get {A} (l : list A) : tabulate (zlen l) (get l) = Ok l.
Proof.
  destruct l as [|a l]; [reflexivity|]. rewrite (tabulate_Ok _ _ (fun i => nth (Z.to_nat i) (a :: l) a)).
  - now rewrite <- list_eq_mklist.
  - unfold zlen; lia.
  - intros i Hi. now apply get_nth.
Qed.
Lemma tabulate_get_ext {A} (l : list A) n (f : Z -> res A) : n = zlen l -> (forall i, 0 <= i < n -> f i = get l i) -> tabulate n f = Ok l.
Proof.
  intros -> H. rewrite <- (tabulate_get l). destruct l as [|a l]; [reflexivity|].
  rewrite (tabulate_Ok _ f (fun i => nth (Z.to_nat i) (a :: l) a)), (tabulate_Ok _ (get _) (fun i => nth (Z.to_nat i) (a :: l) a)); try reflexivity; try (unfold zlen; lia).
  - intros i Hi. now apply get_nth.
  - intros i Hi. rewrite H by exact Hi. now apply get_nth.
Qed.

Lemma to_size_small z : 0 <= z < 2 ^ 64 -> to_size z = z.
Proof. intros H. unfold to_size. now apply Z.mod_small. Qed.
Lemma to_size_id z : to_size (to_size z) = to_size z.
Proof. unfold to_size. now rewrite Z.mod_mod by lia. Qed.
Lemma to_size_add a b : to_size (to_size a + b) = to_size (a + b).
Proof. unfold to_size. now rewrite Zplus_mod_idemp_l. Qed.
Lemma to_size_add_r a b : to_size (a + to_size b) = to_size (a + b).
Proof. unfold to_size. now rewrite Zplus_mod_idemp_r. Qed.
Lemma to_int_small z : 0 <= z < 2 ^ 31 -> to_int z = z.
Proof. intros H. unfold to_int. rewrite Z.mod_small; lia. Qed.

Section Generic.
  Context {T : Type} {SO : ScalarOps T}.

  Lemma in_space_3 (p : vec T 3) : in_space p = p.
  Proof. destruct p as [x [y [z []]]]. reflexivity. Qed.
  Lemma in_space_map (l : list (vec T 3)) : map in_space l = l.
  Proof. rewrite <- map_id. apply map_ext. exact in_space_3. Qed.
  Lemma point_data_ok d (p : vec T d) : d = 2%nat \/ d = 3%nat -> point_data p = coords 3 (in_space p).
  Proof.
    intros [-> | ->]; [destruct p as [x [y []]]|destruct p as [x [y [z []]]]]; reflexivity.
  Qed.
  Lemma coords_read (p : vec T 3) w : exists x y z, get (coords 3 p ++ w) 0 = Ok x /\ get (coords 3 p ++ w) 1 = Ok y /\ get (coords 3 p ++ w) 2 = Ok z /\
    ((x, (y, (z, tt))) : vec T 3) = p.
  Proof. destruct p as [x [y [z []]]]. exists x, y, z. repeat split. Qed.

  (** Records of control points written one after the other, each followed by its weight if there are weights. *)
  Section Block.
    Context (pts : list (vec T 3)) (ws K : list T) (weighted : bool).
    Hypothesis Hw : weighted = true -> zlen ws = zlen pts.
    Definition entry (i : Z) : list T :=
      match get pts i with Ok p => (coords 3 p ++ (if weighted then match get ws i with Ok w => [w] | _ => [] end else []))%list | _ => [] end.
    Definition block_data : list T := (concat (mklist (zlen pts) entry) ++ K)%list.
    Lemma entry_len i : 0 <= i < zlen pts -> zlen (entry i) = entry_size weighted.
    Proof.
      intros Hi. unfold entry. destruct (get_in_range pts i Hi) as (p & ->). destruct p as [x [y [z []]]].
      destruct weighted; [|reflexivity]. destruct (get_in_range ws i) as (w & ->); [now rewrite Hw|reflexivity].
    Qed.
    Lemma zlen_pos : 0 <= zlen pts.
    Proof. unfold zlen; lia. Qed.
    Lemma entry_size_pos : 3 <= entry_size weighted.
    Proof. unfold entry_size. destruct weighted; lia. Qed.
    Lemma block_points : extract_control_points (zlen pts) weighted block_data = Ok pts.
    Proof.
      unfold extract_control_points. apply tabulate_get_ext; [reflexivity|]. intros i Hi. fold (entry_size weighted).
      pose proof entry_size_pos. pose proof zlen_pos. unfold block_data.
      replace (i * entry_size weighted) with (i * entry_size weighted + 0) at 1 by lia.
      rewrite !(get_entry (entry_size weighted)) by (try exact entry_len; lia).
      unfold entry. destruct (get_in_range pts i Hi) as (p & ->).
      destruct (coords_read p (if weighted then match get ws i with Ok w => [w] | _ => [] end else [])) as (x & y & z & -> & -> & -> & E). cbn [bind]. now rewrite E.
    Qed.
    Lemma block_weights : weighted = true -> extract_weights (zlen pts) block_data = Ok ws.
    Proof.
      intros W. unfold extract_weights. apply tabulate_get_ext; [now rewrite Hw|]. intros i Hi.
      pose proof zlen_pos. unfold block_data. replace 4 with (entry_size weighted) by (now rewrite W).
      rewrite (get_entry (entry_size weighted)) by (try exact entry_len; try (unfold entry_size; rewrite W); lia).
      unfold entry. destruct (get_in_range pts i Hi) as (p & ->). rewrite W. destruct (get_in_range ws i) as (w & Ew); [now rewrite Hw|]. rewrite Ew.
      destruct p as [x [y [z []]]]. reflexivity.
    Qed.
    Lemma block_tail i : 0 <= i -> get block_data (zlen pts * entry_size weighted + i) = get K i.
    Proof. intros Hi. unfold block_data. apply get_tail; try exact entry_len; try exact zlen_pos; try lia. Qed.
    Lemma block_len : zlen block_data = zlen pts * entry_size weighted + zlen K.
    Proof.
      unfold block_data. pose proof (entries_len (entry_size weighted) entry (zlen pts) zlen_pos entry_len) as E. unfold zlen in *. rewrite app_length. lia.
    Qed.
    Lemma block_knots off k1 k2 : K = (k1 ++ k2)%list -> off = zlen pts * entry_size weighted -> extract_knots off (zlen k1) block_data = Ok k1.
    Proof.
      intros EK ->. unfold extract_knots. apply tabulate_get_ext; [reflexivity|]. intros i Hi. rewrite block_tail, EK by lia. apply get_app1. lia.
    Qed.
    Lemma block_knots2 off k1 k2 : K = (k1 ++ k2)%list -> off = zlen pts * entry_size weighted + zlen k1 -> extract_knots off (zlen k2) block_data = Ok k2.
    Proof.
      intros EK ->. unfold extract_knots. apply tabulate_get_ext; [reflexivity|]. intros i Hi. rewrite <- Z.add_assoc, block_tail, EK by (unfold zlen; lia).
      rewrite get_app2 by lia. f_equal. lia.
    Qed.
  End Block.

  Lemma zlen_map {A B} (f : A -> B) l : zlen (map f l) = zlen l.
  Proof. unfold zlen. now rewrite map_length. Qed.
  Lemma zlen_nonneg {A} (l : list A) : 0 <= zlen l.
  Proof. unfold zlen; lia. Qed.

  Section Dim.
    Context {d : nat} (Hd : d = 2%nat \/ d = 3%nat).
    Lemma dim_ok : negb (Nat.eqb d 3) && negb (Nat.eqb d 2) = false.
    Proof. destruct Hd as [-> | ->]; reflexivity. Qed.

    Lemma record_points (pts : list (vec T d)) ws weighted n (f : Z -> res (list T)) :
      n = zlen pts ->
      (weighted = true -> zlen ws = zlen pts) ->
      (forall i p, 0 <= i < n -> get pts i = Ok p -> f i = (do w <- (if weighted then do w <- get ws i; Ok [w] else Ok []); Ok (point_data p ++ w)%list)) ->
      tabulate n f = Ok (mklist (zlen (map in_space pts)) (entry (map in_space pts) ws weighted)).
    Proof.
      intros -> Hw Hf. rewrite zlen_map. apply tabulate_Ok; [apply zlen_nonneg|]. intros i Hi. unfold entry. rewrite get_map. destruct (get_in_range pts i Hi) as (p & Ep). rewrite (Hf i p Hi Ep), Ep. unfold res_map. cbn [bind].
      rewrite point_data_ok by exact Hd. destruct weighted; [|reflexivity]. destruct (get_in_range ws i) as (w & ->); [now rewrite Hw|]. reflexivity.
    Qed.

    Lemma curve_round_trip (c : curve T d) tag : saved_curve c ->
      exists r, curve_record c tag = Ok r /\ exists c', load_curve r = Ok c' /\ carries_curve c c'.
    Proof.
      intros Hs. unfold curve_record. rewrite dim_ok. destruct c as [c|c|c|c|ty]; cbn [saved_curve] in Hs.
      - (* Bezier *)
        cbn [curve_num_points curve_num_weights curve_point curve_num_knots curve_knot curve_type curve_degree]. unfold bz_degree.
        pose proof (zlen_nonneg (bz_pts c)) as Hp.
        rewrite (record_points (bz_pts c) [] false) by (try lia; try discriminate; intros i p Hi ->; reflexivity).
        cbn [bind]. change (tabulate 0 (fun _ : Z => Throw not_implemented_error)) with (Ok (@nil T)). cbn [bind]. eexists. split; [reflexivity|].
        exists (CBezier (mk_bezier (map in_space (bz_pts c)))). split; [|split; reflexivity].
        unfold load_curve. cbn [mc_type]. change (to_size CURVE_BEZIER =? CURVE_BEZIER) with true. cbn iota.
        unfold load_Bezier_curve. cbn [mc_num_knots mc_with_weights mc_num_points mc_degree mc_data]. change (to_size 0 =? 0) with true. change (0 <? 0) with false. cbn [assert_ bind negb].
        replace (zlen (bz_pts c) - 1 + 1) with (zlen (bz_pts c)) by lia.
        rewrite to_size_add. replace (zlen (bz_pts c) - 1 + 1) with (zlen (bz_pts c)) by lia. rewrite Z.eqb_refl. cbn [assert_ bind].
        rewrite (to_size_small (zlen (bz_pts c))) by lia. fold (block_data (map in_space (bz_pts c)) [] [] false).
        rewrite block_len by discriminate. cbn [entry_size]. rewrite zlen_map. change (zlen (@nil T)) with 0. rewrite Z.add_0_r, to_size_small, Z.eqb_refl by lia. cbn [assert_ bind].
        rewrite <- (zlen_map in_space), block_points by discriminate. reflexivity.
      - (* rational Bezier *)
        destruct Hs as (Hne & Hi & Hsz). cbn [curve_num_points curve_num_weights curve_point curve_num_knots curve_knot curve_type curve_degree curve_weight].
        unfold rb_initialize, homogenize in Hi. destruct (zlen (rb_pts c) =? zlen (rb_weights c)) eqn:EL; [|discriminate]. apply Z.eqb_eq in EL. clear Hi.
        assert (Hp : 0 < zlen (rb_pts c)) by (destruct (rb_pts c); [congruence|unfold zlen; cbn [length]; lia]).
        replace (0 <? zlen (rb_pts c) - 1 + 1) with true by (symmetry; apply Z.ltb_lt; lia).
        rewrite (record_points (rb_pts c) (rb_weights c) true) by (try lia; intros i p Hi Ep; unfold rb_get_control_point, rb_get_weight; rewrite Ep; reflexivity).
        cbn [bind]. change (tabulate 0 (fun _ : Z => Throw not_implemented_error)) with (Ok (@nil T)). cbn [bind]. eexists. split; [reflexivity|].
        eexists. split.
        + unfold load_curve. cbn [mc_type]. change (to_size CURVE_RATIONAL_BEZIER =? CURVE_BEZIER) with false. change (to_size CURVE_RATIONAL_BEZIER =? CURVE_BSPLINE) with false.
          change (to_size CURVE_RATIONAL_BEZIER =? CURVE_RATIONAL_BEZIER) with true. cbn iota.
          unfold load_rational_Bezier_curve. cbn [mc_num_knots mc_with_weights mc_num_points mc_degree mc_data]. change (to_size 0 =? 0) with true. cbn [assert_ bind negb].
          replace (zlen (rb_pts c) - 1 + 1) with (zlen (rb_pts c)) by lia.
          rewrite (to_size_small (zlen (rb_pts c))) by lia. fold (block_data (map in_space (rb_pts c)) (rb_weights c) [] true).
          rewrite block_len by (rewrite zlen_map; auto). cbn [entry_size]. rewrite zlen_map. change (zlen (@nil T)) with 0. rewrite Z.add_0_r, to_size_small, Z.eqb_refl by lia. cbn [assert_ bind].
          rewrite <- (zlen_map in_space), block_points, block_weights by (rewrite ?zlen_map; auto). cbn [bind].
          unfold rb_initialize, homogenize. cbn [rb_set_weights rb_set_control_points rb_empty rb_pts rb_weights rb_hom rb_periodic]. rewrite zlen_map, EL, Z.eqb_refl. cbn [bind]. reflexivity.
        + cbn [carries_curve rb_pts rb_weights rb_periodic]. repeat split. unfold rb_initialize, homogenize. cbn [rb_pts rb_weights rb_periodic]. rewrite zlen_map, EL, Z.eqb_refl. reflexivity.
      - (* B-spline *)
        cbn [curve_num_points curve_num_weights curve_point curve_num_knots curve_knot curve_type curve_degree].
        pose proof (zlen_nonneg (bs_pts c)) as Hp. pose proof (zlen_nonneg (bs_knots c)) as Hk.
        rewrite (record_points (bs_pts c) [] false) by (try lia; try discriminate; intros i p Hi ->; reflexivity).
        cbn [bind]. rewrite (tabulate_get_ext (bs_knots c)) by (auto; intros; reflexivity). cbn [bind]. eexists. split; [reflexivity|].
        exists (CBSpline (mk_bspline (map in_space (bs_pts c)) (bs_knots c))). split; [|repeat split].
        unfold load_curve. cbn [mc_type]. change (to_size CURVE_BSPLINE =? CURVE_BEZIER) with false. change (to_size CURVE_BSPLINE =? CURVE_BSPLINE) with true. cbn iota.
        unfold load_BSpline_curve. cbn [mc_num_knots mc_with_weights mc_num_points mc_degree mc_data]. change (0 <? 0) with false. cbn [assert_ bind negb].
        rewrite <- Z.add_assoc, to_size_add, Z.add_assoc, Z.add_comm, Z.add_assoc, to_size_add_r. unfold bs_degree.
        replace (1 + zlen (bs_pts c) + (zlen (bs_knots c) - zlen (bs_pts c) - 1)) with (zlen (bs_knots c)) by lia. rewrite Z.eqb_refl. cbn [assert_ bind].
        rewrite (to_size_small (zlen (bs_pts c))), (to_size_small (zlen (bs_knots c))), to_size_small by lia. fold (block_data (map in_space (bs_pts c)) [] (bs_knots c) false).
        rewrite block_len by discriminate. cbn [entry_size]. rewrite zlen_map, Z.eqb_refl. cbn [assert_ bind].
        rewrite <- (zlen_map in_space), block_points by discriminate. cbn [bind].
        rewrite (block_knots (map in_space (bs_pts c)) [] (bs_knots c) false ltac:(discriminate) _ (bs_knots c) []) by (rewrite ?app_nil_r; reflexivity). reflexivity.
      - (* NURBS *)
        destruct Hs as (Hne & Hi & Hsz). cbn [curve_num_points curve_num_weights curve_point curve_num_knots curve_knot curve_type curve_degree curve_weight].
        unfold nb_initialize, homogenize in Hi. destruct (zlen (nb_pts c) =? zlen (nb_weights c)) eqn:EL; [|discriminate]. apply Z.eqb_eq in EL. clear Hi.
        assert (Hp : 0 < zlen (nb_pts c)) by (destruct (nb_pts c); [congruence|unfold zlen; cbn [length]; lia]). pose proof (zlen_nonneg (nb_knots c)) as Hk.
        replace (0 <? zlen (nb_pts c)) with true by (symmetry; apply Z.ltb_lt; lia).
        rewrite (record_points (nb_pts c) (nb_weights c) true) by (try lia; intros i p Hi Ep; rewrite Ep; reflexivity).
        cbn [bind]. rewrite (tabulate_get_ext (nb_knots c)) by (auto; intros; reflexivity). cbn [bind]. eexists. split; [reflexivity|].
        eexists. split.
        + unfold load_curve. cbn [mc_type]. change (to_size CURVE_NURBS =? CURVE_BEZIER) with false. change (to_size CURVE_NURBS =? CURVE_BSPLINE) with false.
          change (to_size CURVE_NURBS =? CURVE_RATIONAL_BEZIER) with false. change (to_size CURVE_NURBS =? CURVE_NURBS) with true. cbn iota.
          unfold load_NURBS_curve. cbn [mc_num_knots mc_with_weights mc_num_points mc_degree mc_data]. cbn [assert_ bind negb].
          rewrite <- Z.add_assoc, to_size_add, Z.add_assoc, Z.add_comm, Z.add_assoc, to_size_add_r. unfold bs_degree. cbn [nb_base bs_knots bs_pts].
          replace (1 + zlen (nb_pts c) + (zlen (nb_knots c) - zlen (nb_pts c) - 1)) with (zlen (nb_knots c)) by lia. rewrite Z.eqb_refl. cbn [assert_ bind].
          rewrite (to_size_small (zlen (nb_pts c))), (to_size_small (zlen (nb_knots c))), to_size_small by lia. fold (block_data (map in_space (nb_pts c)) (nb_weights c) (nb_knots c) true).
          rewrite block_len by (rewrite zlen_map; auto). cbn [entry_size]. rewrite zlen_map, Z.eqb_refl. cbn [assert_ bind].
          rewrite <- (zlen_map in_space), block_points by (rewrite ?zlen_map; auto). cbn [bind].
          rewrite (block_knots (map in_space (nb_pts c)) (nb_weights c) (nb_knots c) true ltac:(rewrite zlen_map; auto) _ (nb_knots c) []) by (rewrite ?app_nil_r; reflexivity). cbn [bind].
          rewrite block_weights by (rewrite ?zlen_map; auto). cbn [bind].
          unfold nb_initialize, homogenize. cbn [nb_set_weights nb_set_knots nb_set_control_points nb_empty nb_pts nb_weights nb_hom nb_periodic nb_knots]. rewrite zlen_map, EL, Z.eqb_refl. cbn [bind]. reflexivity.
        + cbn [carries_curve nb_pts nb_weights nb_periodic nb_knots]. repeat split. unfold nb_initialize, homogenize. cbn [nb_pts nb_weights nb_periodic nb_knots]. rewrite zlen_map, EL, Z.eqb_refl. reflexivity.
      - destruct Hs.
    Qed.
  End Dim.
End Generic.
