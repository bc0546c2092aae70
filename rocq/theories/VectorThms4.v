(** Negative weights; PostScript. *)
From Coq Require Import Reals Lra Lia ZArith List Psatz String.
From Verif Require Import Monad MonadFacts Scalar ScalarFacts Spec SpecFacts ModelCurve ModelBezier ModelBSpline ModelRational ModelVector SpecVector AnalysisThms2 BezierThms RationalFacts RationalThms VectorThms VectorThms2 VectorThms3.
Import ListNotations.
Local Open Scope R_scope.

(** ** A rational curve outside of the hull of its control points *)
Definition neg_pts : list (vec R 2) := [(0, (0, tt)); (0, (1, tt)); (1, (0, tt))].
Definition neg_ws : list R := [1; - (1 / 4); 1].
Definition neg_rb : rbezier R 2 := {| rb_pts := neg_pts; rb_weights := neg_ws; rb_hom := mk_bezier []; rb_periodic := false |}.
Lemma neg_weight t : weight_sum 3 (bezier_basis 3 t) neg_ws = 1 - 5 / 2 * t + 5 / 2 * t ^ 2.
Proof. unfold weight_sum, bezier_basis, bernstein, neg_ws. cbn [rsum nth Nat.sub]. unfold C. cbn. field. Qed.
Lemma neg_picture : exists c file W H it, rb_initialize neg_rb = Ok c /\ (forall t, weight_sum 3 (bezier_basis 3 t) (rb_weights c) <> 0) /\
  save_svg (vc_rbezier c) = Ok file /\ In (SvgOpen W H) file /\ In it file /\ ~ fits W H it.
Proof.
  assert (Hw : forall t, weight_sum 3 (bezier_basis 3 t) neg_ws <> 0) by (intros t; rewrite neg_weight; pose proof (Rle_0_sqr (t - 1 / 2)) as Q; unfold Rsqr in Q; nra).
  set (f := fun t => weighted_mean 3 (bezier_basis 3 t) neg_ws neg_pts).
  pose proof (rb_init_ok neg_rb eq_refl) as Hi. match type of Hi with _ = Ok ?x => set (c := x) in Hi end.
  assert (Hr : runs (vc_rbezier c) f).
  { split; [cbn [vc_rbezier vc_lower vc_upper s0 s1 R_ops]; lra|]. intros t _. cbn [vc_rbezier vc_eval].
    destruct (rational_bezier_eval 2 neg_rb t ltac:(discriminate) eq_refl eq_refl) as (c' & Hi' & Ev & _). assert (Ec : c = c') by congruence. rewrite Ec. apply Ev, Hw. }
  pose proof (svg_file_value [vc_rbezier c] (fun _ => f) 0 0 1 1) as E. cbv zeta in E.
  assert (Em : Rmax (1 - 0) (1 - 0) = 1) by (rewrite Rmax_left; lra). rewrite !Em in E. specialize (E ltac:(intros b [<-|[]]; exact Hr) ltac:(lra)).
  assert (Es : save_svg (vc_rbezier c) = svg_file [vc_rbezier c] 0 0 1 1).
  { unfold save_svg. cbn [Nat.eqb assert_]. rewrite bind_Ok. unfold col_min, col_max. change (vc_pts (vc_rbezier c)) with neg_pts. unfold neg_pts.
    cbn [fold_left coord Nat.eqb fst snd]. rewrite !smin_R, !smax_R, !bind_Ok. cbn [coord fst snd].
    assert (M0 : Rmin 0 0 = 0) by (apply Rmin_left; lra). assert (M1 : Rmin 0 1 = 0) by (apply Rmin_left; lra). assert (X0 : Rmax 0 0 = 0) by (apply Rmax_left; lra).
    assert (X1 : Rmax 0 1 = 1) by (apply Rmax_right; lra). assert (X2 : Rmax 1 0 = 1) by (apply Rmax_left; lra). repeat rewrite ?M0, ?M1, ?X0, ?X1, ?X2. reflexivity. }
  rewrite <- Es in E. eexists c, _, _, _, _. split; [exact Hi|]. split; [exact Hw|]. split; [exact E|]. split; [left; reflexivity|].
  split; [right; right; left; reflexivity|].
  cbn [fits]. intros H. specialize (H (let q := place (-0 + 1 / 10, -0 + 1 / 10) (1000 / 1) (f (0 + INR 500 / INR 1000 * (1 - 0))) in LineTo (fst q) (snd q))).
  destruct H as (_ & _ & [H _]).
  - right. apply in_map_iff. exists 500%nat. split; [reflexivity|]. apply in_seq. lia.
  - cbv zeta in H. cbn [cmd_point snd fst place] in H.
    assert (Et : 0 + INR 500 / INR 1000 * (1 - 0) = 1 / 2) by (rewrite !INR_IZR_INZ; change (Z.of_nat 500) with 500%Z; change (Z.of_nat 1000) with 1000%Z; lra). rewrite Et in H.
    assert (Ey : coord 2 1 (f (1 / 2)) = - (1 / 3)).
    { unfold f, weighted_mean. rewrite coord_mul, coord_psum by lia. rewrite neg_weight. rewrite (rsum_ext 3 _ (fun i => bezier_basis 3 (1 / 2) i * nth i neg_ws 0 * coord 2 1 (nth i neg_pts p0))) by (intros; apply coord_mul; lia).
      unfold bezier_basis, bernstein, neg_ws, neg_pts. cbn [rsum nth Nat.sub]. unfold C. cbn. field. }
    rewrite Ey in H. cbn [sadd smul R_ops] in H. lra.
Qed.

(** ** PostScript *)
Definition harmless (tok : ps_token R) : Prop :=
  match tok with Num _ => True | Word w => w = "setrgbcolor" \/ w = "setlinewidth" \/ w = "moveto" \/ w = "lineto" end%string.
Lemma harmless_run pre rest s : Forall harmless pre -> let r := ps_run ps_operator (pre ++ Word "stoke" :: rest) s in fst r = false /\ ps_page (snd r) = ps_page s.
Proof.
  intros H. revert s. induction H as [|tok pre Ht H IH]; intros s; cbv zeta; cbn [app ps_run].
  - change (ps_operator "stoke" s) with (@None ps_state). split; reflexivity.
  - destruct tok as [x|w]; [apply (IH {| ps_stack := x :: ps_stack s; ps_path := ps_path s; ps_color := ps_color s; ps_width := ps_width s; ps_page := ps_page s |})|].
    destruct (ps_operator w s) as [s'|] eqn:E; [|split; reflexivity].
    assert (Ep : ps_page s' = ps_page s).
    { destruct Ht as [->|[->|[->| ->]]]; unfold ps_operator in E; cbn [String.eqb Ascii.eqb Bool.eqb] in E; destruct (ps_path s); destruct (ps_stack s) as [|a [|b [|e st]]]; try discriminate E; injection E as <-; reflexivity. }
    rewrite <- Ep. apply IH.
Qed.
Lemma path_harmless (l : list (R * R)) : Forall harmless (ps_path_of l).
Proof.
  destruct l as [|p l]; [constructor|]. cbn [ps_path_of]. apply Forall_app. split; [repeat constructor; cbn; tauto|]. apply Forall_concat, Forall_map, Forall_forall. intros q _. repeat constructor; cbn; tauto.
Qed.
Lemma eps_nothing d (c : vcurve R d) o s ctrl color width ctrl_color r n toks : to_eps c o s ctrl color width ctrl_color r n = Ok toks ->
  let run := ps_run ps_operator toks ps_start in fst run = false /\ ps_page (snd run) = [].
Proof.
  unfold to_eps. intros H. apply bind_inv in H as (_ & _ & H). apply bind_inv in H as (l & _ & H).
  assert (Hh : Forall harmless (map Num color ++ [Word "setrgbcolor"; Num width; Word "setlinewidth"] ++ ps_path_of l)%list).
  { apply Forall_app. split; [apply Forall_map, Forall_forall; intros; exact I|]. apply Forall_app. split; [repeat constructor; cbn; tauto|apply path_harmless]. }
  cbv zeta in H. destruct (negb ctrl); assert (Et : forall a b : list (ps_token R), Ok a = Ok b -> a = b) by congruence; apply Et in H; subst toks.
  - match goal with |- context [ps_run ps_operator (?a ++ ?b ++ ?e ++ [Word "stoke"])] => replace (a ++ b ++ e ++ [Word "stoke"])%list with ((a ++ b ++ e) ++ Word "stoke" :: [])%list by (rewrite <- !app_assoc; reflexivity) end.
    exact (harmless_run _ _ ps_start Hh).
  - match goal with |- context [(?a ++ ?b ++ ?e ++ [Word "stoke"]) ++ ?z] => replace ((a ++ b ++ e ++ [Word "stoke"]) ++ z)%list with ((a ++ b ++ e) ++ Word "stoke" :: z)%list by (rewrite <- !app_assoc; reflexivity) end.
    exact (harmless_run _ _ ps_start Hh).
Qed.

Lemma run_nums ops (xs : list R) toks s : ps_run ops (map Num xs ++ toks) s =
  ps_run ops toks {| ps_stack := rev xs ++ ps_stack s; ps_path := ps_path s; ps_color := ps_color s; ps_width := ps_width s; ps_page := ps_page s |}.
Proof.
  revert s. induction xs as [|x xs IH]; intros s; [now destruct s|]. cbn [map app ps_run rev]. rewrite IH. cbn [ps_stack ps_path ps_color ps_width ps_page]. now rewrite <- app_assoc.
Qed.
Lemma run_lines ops (l : list (R * R)) toks : (forall s, ops "lineto"%string s = ps_operator "lineto" s) -> forall s, ps_path s <> [] ->
  ps_run ops (concat (map (fun q => [Num (fst q); Num (snd q); Word "lineto"]) l) ++ toks) s =
  ps_run ops toks (ps_with_path s (ps_stack s) (ps_path s ++ map (fun q => PsLine (fst q) (snd q)) l)).
Proof.
  intros Ho. induction l as [|q l IH]; intros s Hs.
  - cbn [map concat app]. rewrite app_nil_r. now destruct s.
  - cbn [map concat app ps_run]. rewrite Ho. unfold ps_operator. cbn [String.eqb Ascii.eqb Bool.eqb ps_path ps_stack]. destruct (ps_path s) as [|e es] eqn:E; [congruence|].
    rewrite IH by (cbn; discriminate). f_equal. unfold ps_with_path. cbn [ps_stack ps_path ps_color ps_width ps_page]. f_equal. cbn [app]. now rewrite <- app_assoc.
Qed.
Lemma eps_repaired (c : vcurve R 2) f o s cr cg cb width r g b rad n : runs c f -> (0 < n)%nat ->
  let M := fun p => ((coord 2 0 p + fst o) * s, (coord 2 1 p + snd o) * s) in
  exists toks st, to_eps c o s true [cr; cg; cb] width [r; g; b] rad (Z.of_nat n) = Ok toks /\ ps_run with_stoke toks ps_start = (true, st) /\
    ps_page st = [Stroked (clamp01 cr, clamp01 cg, clamp01 cb) width
                   (PsMove (fst (M (f (vc_lower c)))) (snd (M (f (vc_lower c)))) ::
                    map (fun i => let q := M (f (vc_lower c + INR i / INR n * (vc_upper c - vc_lower c))) in PsLine (fst q) (snd q)) (seq 1 n));
                  Filled (clamp01 r, clamp01 g, clamp01 b) []] /\
    List.length (ps_stack st) = (5 * List.length (vc_pts c))%nat.
Proof.
  intros Hr Hn M. unfold to_eps. cbn [Nat.eqb assert_]. rewrite bind_Ok, (samples_value c f o s n Hr Hn), bind_Ok. cbn [negb].
  match goal with |- context [concat (map ?h (vc_pts c))] => set (discs := concat (map h (vc_pts c))) end.
  assert (Hd : exists xs, discs = map Num xs /\ List.length xs = (5 * List.length (vc_pts c))%nat).
  { unfold discs. clear. induction (vc_pts c) as [|p ps (xs & E & L)]; [exists []; split; reflexivity|]. cbn [map concat List.length]. rewrite E.
    eexists (_ :: _ :: _ :: _ :: _ :: xs). split; [reflexivity|]. cbn [List.length]. lia. }
  destruct Hd as (xs & -> & Hx).
  do 2 eexists. split; [reflexivity|]. split; [|split].
  - rewrite <- !app_assoc. rewrite run_nums. cbn [app ps_run rev]. unfold with_stoke at 1. cbn [String.eqb Ascii.eqb Bool.eqb].
    unfold ps_operator at 1. cbn [String.eqb Ascii.eqb Bool.eqb ps_stack ps_path ps_color ps_width ps_page app ps_start].
    unfold with_stoke at 1. cbn [String.eqb Ascii.eqb Bool.eqb]. unfold ps_operator at 1. cbn [String.eqb Ascii.eqb Bool.eqb ps_stack ps_path ps_color ps_width ps_page].
    cbn [seq map ps_path_of]. rewrite <- !app_assoc. cbn [app ps_run]. unfold with_stoke at 1. cbn [String.eqb Ascii.eqb Bool.eqb]. unfold ps_operator at 1. cbn [String.eqb Ascii.eqb Bool.eqb ps_stack ps_path ps_color ps_width ps_page].
    rewrite run_lines by (reflexivity || (cbn; discriminate)). unfold ps_with_path. cbn [app ps_run ps_stack ps_path ps_color ps_width ps_page].
    unfold with_stoke at 1. cbn [String.eqb Ascii.eqb Bool.eqb]. unfold ps_operator at 1. cbn [String.eqb Ascii.eqb Bool.eqb]. unfold ps_painting. cbn [ps_stack ps_path ps_color ps_width ps_page app].
    unfold with_stoke at 1. cbn [String.eqb Ascii.eqb Bool.eqb]. unfold ps_operator at 1. cbn [String.eqb Ascii.eqb Bool.eqb ps_stack ps_path ps_color ps_width ps_page].
    rewrite run_nums. cbn [app ps_run]. unfold with_stoke at 1. cbn [String.eqb Ascii.eqb Bool.eqb]. unfold ps_operator at 1. cbn [String.eqb Ascii.eqb Bool.eqb]. unfold ps_painting. cbn [ps_stack ps_path ps_color ps_width ps_page app].
    reflexivity.
  - cbn [ps_page]. rewrite map_map. simpl INR. unfold Rdiv. rewrite !Rmult_0_l, Rplus_0_r. reflexivity.
  - cbn [ps_stack]. rewrite app_nil_r, rev_length. exact Hx.
Qed.
