(** Bezier patches: split_u, split_v, split and subpatch. *)
From Coq Require Import Reals Lra Lia List ZArith Bool.
From Verif Require Import Monad MonadFacts LoopFacts Scalar ScalarFacts Spec SpecFacts Polar SpecPatch TensorFacts PatchFacts.
From Verif Require Import ModelCurve CurveFacts ModelBezier BezierThms BezierThms2 BezierConv ModelPatchBase ModelPatch BezierPatchThms.
Import ListNotations.
Local Open Scope R_scope.

Lemma tensor_by_cols {d} n m bu bu' bv (g g' : list (vec R d)) :
  (forall j, (j < m)%nat -> lin n bu (gcol g n m j) = lin n bu' (gcol g' n m j)) ->
  tensor_sum n m bu bv g = tensor_sum n m bu' bv g'.
Proof.
  intros H. rewrite <- !tensor_cols. apply psum_ext. intros j Hj. f_equal.
  specialize (H j Hj). unfold gcol in H. rewrite !lin_mklist in H.
  etransitivity; [|etransitivity; [exact H|]]; apply psum_ext; intros i Hi; f_equal; f_equal; lia.
Qed.

Lemma tensor_by_rows {d} n m bu bv bv' (g g' : list (vec R d)) :
  (forall i, (i < n)%nat -> lin m bv (grow g m i) = lin m bv' (grow g' m i)) ->
  tensor_sum n m bu bv g = tensor_sum n m bu bv' g'.
Proof.
  intros H. rewrite <- !tensor_rows. apply psum_ext. intros i Hi. f_equal.
  specialize (H i Hi). unfold grow in H. rewrite !lin_mklist in H.
  etransitivity; [|etransitivity; [exact H|]]; apply psum_ext; intros j Hj; f_equal; f_equal; lia.
Qed.

Lemma curve_lin {d} n (pts : list (vec R d)) t : length pts = S n ->
  bernstein_curve pts t = lin (S n) (fun i => bernstein n i t) pts.
Proof. intros H. unfold bernstein_curve, lin. rewrite H. cbn [Nat.sub]. rewrite Nat.sub_0_r. reflexivity. Qed.

(** ** Splitting one iso curve *)
Lemma split_per d (pts : list (vec R d)) per t : 0 < t < 1 ->
  let c := {| bz_pts := pts; bz_periodic := per |} in
  bz_split c t = bz_split (mk_bezier pts) t /\ bz1_split c t = bz1_split (mk_bezier pts) t /\
  bz2_split c t = bz2_split (mk_bezier pts) t /\ bz3_split c t = bz3_split (mk_bezier pts) t.
Proof.
  intros Ht c. unfold bz_split, bz1_split, bz2_split, bz3_split, is_split_point_valid, bz_lower, bz_upper.
  simpl sle. cbn [s0 s1 R_ops]. rewrite !Rleb_false by lra. repeat split.
Qed.

Lemma iso_split d tdeg n (pts : list (vec R d)) per t : bzt_ok tdeg n per \/ bzt_ok tdeg n false -> length pts = S n -> 0 < t < 1 ->
  exists l r, split_bezier (bzt_split tdeg) {| bz_pts := pts; bz_periodic := per |} t = Ok [mk_bezier l; mk_bezier r] /\
    length l = S n /\ length r = S n /\
    conv_pres pts l /\ conv_pres pts r /\
    forall x, lin (S n) (fun i => bernstein n i x) l = lin (S n) (fun i => bernstein n i (t * x)) pts /\
              lin (S n) (fun i => bernstein n i x) r = lin (S n) (fun i => bernstein n i (t + (1 - t) * x)) pts.
Proof.
  intros Hd Hn Ht.
  assert (Hdeg : (tdeg < 0 \/ tdeg = Z.of_nat n)%Z) by (destruct Hd as [[? _]|[? _]]; assumption). clear Hd.
  set (c := {| bz_pts := pts; bz_periodic := per |}).
  assert (E : bzt_split tdeg c t = bz_split (mk_bezier pts) t).
  { destruct (split_per d pts per t Ht) as (E0 & E1 & E2 & E3). fold c in E0, E1, E2, E3. unfold bzt_split, bzt.
    destruct (Z.eqb_spec tdeg 0) as [->|]; [exact E0|].
    destruct (Z.eqb_spec tdeg 1) as [->|].
    { rewrite E1. apply (bezier_deg1 d pts t). lia. }
    destruct (Z.eqb_spec tdeg 2) as [->|].
    { rewrite E2. apply (bezier_deg2 d pts t). lia. }
    destruct (Z.eqb_spec tdeg 3) as [->|].
    { rewrite E3. apply (bezier_deg3 d pts t). lia. }
    exact E0. }
  destruct (bezier_split d (mk_bezier pts) t) as (l & r & Es & Hl & Hr & Hv); [destruct pts; [discriminate|discriminate]|exact Ht|].
  cbn [bz_pts mk_bezier] in Hl, Hr, Hv. assert (Hl' : length l = S n) by (rewrite <- Hn; exact Hl).
  assert (Hr' : length r = S n) by (rewrite <- Hn; exact Hr).
  assert (Hne : bz_pts (mk_bezier pts) <> []) by (destruct pts; [discriminate|discriminate]).
  destruct (bezier_split_conv d (mk_bezier pts) t l r Hne Ht Es) as [Cl Cr].
  exists l, r. split; [|split; [exact Hl'|split; [exact Hr'|split; [exact Cl|split; [exact Cr|]]]]].
  - unfold split_bezier, bz_in_domain, bz_lower, bz_upper. pose proof seps_pos as Hp.
    generalize dependent (seps : R). intros e Hp. simpl sle; simpl seq_; simpl ssub; simpl sadd; cbn [s0 s1 R_ops].
    rewrite !Rleb_true, !Reqb_false by lra. cbn [andb negb]. rewrite E, Es. reflexivity.
  - intros x. rewrite <- !curve_lin by assumption. apply Hv.
Qed.

Lemma arr_of_len {P} {V : PointOps R P} (l : list P) n : length l = n -> arr l (Z.of_nat n) (fun i => nth (Z.to_nat i) l p0).
Proof. intros <-. apply (arr_nth l p0). Qed.

(** ** split_u *)
Lemma lin_gcol {d} (g : list (vec R d)) nu nv G (n m j : nat) b : garr g nu nv G -> nu = Z.of_nat n -> nv = Z.of_nat m ->
  (j < m)%nat -> lin n b (gcol g n m j) = psum n (fun i => pmul (b i) (G (Z.of_nat i) (Z.of_nat j))).
Proof.
  intros Hg -> -> Hj. unfold gcol. rewrite lin_mklist. apply psum_ext. intros i Hi. f_equal.
  rewrite <- (garr_nth g _ _ _ i j m Hg eq_refl ltac:(lia) Hj). f_equal. lia.
Qed.

Lemma lin_grow {d} (g : list (vec R d)) nu nv G (n m i : nat) b : garr g nu nv G -> nu = Z.of_nat n -> nv = Z.of_nat m ->
  (i < n)%nat -> lin m b (grow g m i) = psum m (fun j => pmul (b j) (G (Z.of_nat i) (Z.of_nat j))).
Proof.
  intros Hg -> -> Hi. unfold grow. rewrite lin_mklist. apply psum_ext. intros j Hj. f_equal.
  rewrite <- (garr_nth g _ _ _ i j m Hg eq_refl ltac:(lia) Hj). f_equal. lia.
Qed.

Lemma Forall_nth_p0 {d} (Q : vec R d -> Prop) l i : Forall Q l -> (i < length l)%nat -> Q (nth i l p0).
Proof. intros HF Hi. rewrite Forall_forall in HF. apply HF, nth_In, Hi. Qed.
Lemma bcol_Forall {d} (Q : vec R d -> Prop) (s : bpatch (vec R d)) n m j :
  zlen (bp_grid s) = (Z.of_nat (S n) * Z.of_nat (S m))%Z -> (0 <= j < Z.of_nat (S m))%Z ->
  Forall Q (bp_grid s) -> Forall Q (bcol s n m j).
Proof.
  intros Hg Hj HF. unfold bcol, mklist. apply Forall_map, Forall_forall. intros i Hi. apply in_seq in Hi.
  apply Forall_nth_p0; [exact HF|]. unfold zlen in Hg. nia.
Qed.
Lemma brow_Forall {d} (Q : vec R d -> Prop) (s : bpatch (vec R d)) n m i :
  zlen (bp_grid s) = (Z.of_nat (S n) * Z.of_nat (S m))%Z -> (0 <= i < Z.of_nat (S n))%Z ->
  Forall Q (bp_grid s) -> Forall Q (brow s m i).
Proof.
  intros Hg Hi HF. unfold brow, mklist. apply Forall_map, Forall_forall. intros j Hj. apply in_seq in Hj.
  apply Forall_nth_p0; [exact HF|]. unfold zlen in Hg. nia.
Qed.
Lemma garr_Forall {d} (Q : vec R d -> Prop) g nu nv G : garr g nu nv G -> (0 < nv)%Z ->
  (forall i j, (0 <= i < nu)%Z -> (0 <= j < nv)%Z -> Q (G i j)) -> Forall Q g.
Proof.
  intros Hg Hv HQ. apply Forall_forall. intros a Ha. destruct (In_nth _ _ p0 Ha) as (k & Hk & Ek).
  pose proof (proj1 Hg) as Hl. unfold zlen in Hl.
  set (i := (Z.of_nat k / nv)%Z). set (j := (Z.of_nat k mod nv)%Z).
  pose proof (Z.div_mod (Z.of_nat k) nv ltac:(lia)) as Ed. pose proof (Z.mod_pos_bound (Z.of_nat k) nv Hv) as Em. fold i j in Ed, Em.
  assert (Hi : (0 <= i < nu)%Z) by (split; [apply Z.div_pos; lia|apply Z.div_lt_upper_bound; nia]).
  rewrite <- Ek. replace k with (Z.to_nat i * Z.to_nat nv + Z.to_nat j)%nat by nia.
  rewrite (garr_nth g nu nv G (Z.to_nat i) (Z.to_nat j) (Z.to_nat nv) Hg); try lia. rewrite !Z2Nat.id by lia. now apply HQ.
Qed.

Definition is_piece {d} (s a : bpatch (vec R d)) (n m : nat) (fu fv : R -> R) : Prop :=
  bp_tu a = bp_tu s /\ bp_tv a = bp_tv s /\ bp_degu a = bp_tu s /\ bp_degv a = bp_tv s /\
  zlen (bp_grid a) = (Z.of_nat (S n) * Z.of_nat (S m))%Z /\
  bp_peru a = false /\ bp_perv a = false /\ conv_pres (bp_grid s) (bp_grid a) /\
  forall x y,
    tensor_sum (S n) (S m) (fun i => bernstein n i x) (fun j => bernstein m j y) (bp_grid a) =
    tensor_sum (S n) (S m) (fun i => bernstein n i (fu x)) (fun j => bernstein m j (fv y)) (bp_grid s).

Lemma psum_sel {d} n (b : nat -> R) (f g : nat -> vec R d) : (forall i, (i < n)%nat -> f i = g i) ->
  psum n (fun i => pmul (b i) (f i)) = psum n (fun i => pmul (b i) (g i)).
Proof. intros H. apply psum_ext. intros i Hi. now rewrite H. Qed.

Lemma bp_split_u_gen {d} (s : bpatch (vec R d)) n m u :
  bp_degu s = Z.of_nat n -> bp_degv s = Z.of_nat m -> zlen (bp_grid s) = (Z.of_nat (S n) * Z.of_nat (S m))%Z ->
  (bp_tu s < 0 \/ bp_tu s = Z.of_nat n)%Z -> 0 < u < 1 ->
  exists a b, bp_split_u s u = Ok [a; b] /\
    is_piece s a n m (fun x => u * x) (fun y => y) /\ is_piece s b n m (fun x => u + (1 - u) * x) (fun y => y).
Proof.
  intros Hdu Hdv Hg0 Htu Hu.
  unfold bp_split_u, in_domain_1, is_endpoint_1. pose proof seps_pos as Hp.
  replace (negb (sle (s0 - seps)%S u && sle u (s1 + seps)%S)) with false.
  2:{ symmetry. apply negb_false_iff, andb_true_intro. cbn [sle ssub sadd s0 s1 R_ops]. rewrite !Rleb_true by lra. auto. }
  replace (seq_ u s0 || seq_ u s1) with false.
  2:{ symmetry. cbn [seq_ s0 s1 R_ops]. rewrite !Reqb_false by lra. reflexivity. }
  assert (Hnu : bp_nu s = Ok (Z.of_nat (S n))).
  { unfold bp_nu, checked_degree. rewrite Hdu. replace (0 <=? Z.of_nat n)%Z with true by (symmetry; apply Z.leb_le; lia).
    cbn [assert_ bind]. f_equal. lia. }
  assert (Hnv : bp_nv s = Ok (Z.of_nat (S m))).
  { unfold bp_nv, checked_degree. rewrite Hdv. replace (0 <=? Z.of_nat m)%Z with true by (symmetry; apply Z.leb_le; lia).
    cbn [assert_ bind]. f_equal. lia. }
  assert (Hiso : bp_iso_curves_u s =
    Ok (mklist (Z.of_nat (S m)) (fun j => {| bz_pts := bcol s n m j; bz_periodic := bp_peru s |}))).
  { unfold bp_iso_curves_u. rewrite Hnu, Hnv, !bind_Ok. apply tabulate_Ok; [lia|]. intros j Hj.
    rewrite (check_rows_Ok (bp_tu s) n false) by (split; [exact Htu|discriminate]). rewrite bind_Ok.
    rewrite (tabulate_Ok _ _ (fun i => nth (Z.to_nat (i * Z.of_nat (S m) + j)) (bp_grid s) p0)); [reflexivity|lia|].
    intros i Hi. apply (garr_of _ _ _ Hg0); assumption. }
  rewrite Hiso, Hnu, Hnv, !bind_Ok.
  set (nu := Z.of_nat (S n)) in *. set (nv := Z.of_nat (S m)) in *.
  destruct (garr_alloc (p0 : vec R d) nu nv ltac:(lia) ltac:(lia)) as (ga & Ea & Hga).
  rewrite Ea, !bind_Ok.
  pose (good := fun (j : nat) (G : Z -> Z -> vec R d) (f : R -> R) =>
    (forall x, psum (S n) (fun i => pmul (bernstein n i x) (G (Z.of_nat i) (Z.of_nat j))) =
              lin (S n) (fun i => bernstein n i (f x)) (bcol s n m (Z.of_nat j))) /\
    forall Q : vec R d -> Prop, convexP Q -> Forall Q (bp_grid s) -> forall i, (0 <= i < nu)%Z -> Q (G i (Z.of_nat j))).
  match goal with |- context [for_up 0 nv ?b ?st] => set (body := b); set (st0 := st) end.
  destruct (for_up_inv (fun (k : Z) (st : list (vec R d) * list (vec R d)) =>
     exists G0 G1, garr (fst st) nu nv G0 /\ garr (snd st) nu nv G1 /\
       forall j, (Z.of_nat j < k)%Z -> (j < S m)%nat -> good j G0 (fun x => u * x) /\ good j G1 (fun x => u + (1 - u) * x))
     0 nv body st0 ltac:(lia)) as (st & Est & (G0 & G1 & H0 & H1 & Hgood)).
  - exists (fun _ _ => p0), (fun _ _ => p0). split; [exact Hga|]. split; [exact Hga|]. intros j Hj. lia.
  - intros vj [g0 g1] Hvj (G0 & G1 & H0 & H1 & Hgood). cbn [fst snd] in *. unfold body.
    rewrite get_mklist by assumption. rewrite bind_Ok.
    destruct (iso_split d (bp_tu s) n (bcol s n m vj) (bp_peru s) u) as (l & r & Es & Hl & Hr & Cl & Cr & Hlr);
      [right; split; [exact Htu|discriminate]|unfold bcol; rewrite length_mklist, Nat2Z.id; reflexivity|exact Hu|].
    rewrite Es, bind_Ok. change (get [mk_bezier l; mk_bezier r] 0) with (Ok (mk_bezier l)).
    change (get [mk_bezier l; mk_bezier r] 1) with (Ok (mk_bezier r)). rewrite !bind_Ok. cbn [bz_pts mk_bezier].
    destruct (copy_col_Ok nu nv vj l g0 G0 _ Hvj ltac:(lia) (arr_of_len l _ Hl) H0) as (g0' & E0 & H0').
    destruct (copy_col_Ok nu nv vj r g1 G1 _ Hvj ltac:(lia) (arr_of_len r _ Hr) H1) as (g1' & E1 & H1').
    rewrite E0, !bind_Ok. cbn [bz_pts mk_bezier]. rewrite E1, bind_Ok. exists (g0', g1'). split; [reflexivity|]. cbn [fst snd].
    eexists; eexists. split; [exact H0'|]. split; [exact H1'|]. intros j Hj Hjm.
    destruct (Z.eq_dec (Z.of_nat j) vj) as [Ej|Nj].
    + split; (split; [intros x|intros Q HQ HF i Hi]); rewrite Ej, Z.eqb_refl.
      * etransitivity; [|apply Hlr]. unfold lin. apply psum_ext. intros i Hi. now rewrite Nat2Z.id.
      * apply (Forall_nth_p0 Q l); [|lia]. apply (Cl Q HQ). apply (bcol_Forall Q s n m vj Hg0 Hvj HF).
      * etransitivity; [|apply Hlr]. unfold lin. apply psum_ext. intros i Hi. now rewrite Nat2Z.id.
      * apply (Forall_nth_p0 Q r); [|lia]. apply (Cr Q HQ). apply (bcol_Forall Q s n m vj Hg0 Hvj HF).
    + destruct (Hgood j ltac:(lia) Hjm) as [[A A'] [B B']].
      split; (split; [intros x|intros Q HQ HF i Hi]); (destruct (Z.eqb_spec (Z.of_nat j) vj); [contradiction|]); [apply A|now apply A'|apply B|now apply B'].
  - rewrite Est, bind_Ok. destruct st as [g0 g1]. cbn [fst snd] in *.
    eexists; eexists. split; [reflexivity|].
    assert (Hcol : forall j b, (j < S m)%nat -> lin (S n) b (bcol s n m (Z.of_nat j)) = lin (S n) b (gcol (bp_grid s) (S n) (S m) j)).
    { reflexivity. }
    split.
    + split; [reflexivity|]; split; [reflexivity|]; split; [reflexivity|]; split; [reflexivity|]; split; [apply H0|]; split; [reflexivity|]; split; [reflexivity|]; split.
      { intros Q HQ HF. apply (garr_Forall Q g0 nu nv G0 H0 ltac:(lia)). intros i j Hi Hj.
        destruct (Hgood (Z.to_nat j) ltac:(lia) ltac:(lia)) as [[_ A] _]. specialize (A Q HQ HF i Hi). rewrite Z2Nat.id in A by lia. exact A. }
      intros x y. cbn [bp_set_grid bp_grid]. apply tensor_by_cols. intros j Hj.
      rewrite (lin_gcol g0 nu nv G0 (S n) (S m) j _ H0 eq_refl eq_refl Hj).
      destruct (Hgood j ltac:(lia) Hj) as [[A _] _]. rewrite (A x). now apply Hcol.
    + split; [reflexivity|]; split; [reflexivity|]; split; [reflexivity|]; split; [reflexivity|]; split; [apply H1|]; split; [reflexivity|]; split; [reflexivity|]; split.
      { intros Q HQ HF. apply (garr_Forall Q g1 nu nv G1 H1 ltac:(lia)). intros i j Hi Hj.
        destruct (Hgood (Z.to_nat j) ltac:(lia) ltac:(lia)) as [_ [_ A]]. specialize (A Q HQ HF i Hi). rewrite Z2Nat.id in A by lia. exact A. }
      intros x y. cbn [bp_set_grid bp_grid]. apply tensor_by_cols. intros j Hj.
      rewrite (lin_gcol g1 nu nv G1 (S n) (S m) j _ H1 eq_refl eq_refl Hj).
      destruct (Hgood j ltac:(lia) Hj) as [_ [B _]]. rewrite (B x). now apply Hcol.
Qed.

Lemma bp_split_v_gen {d} (s : bpatch (vec R d)) n m v :
  bp_degu s = Z.of_nat n -> bp_degv s = Z.of_nat m -> zlen (bp_grid s) = (Z.of_nat (S n) * Z.of_nat (S m))%Z ->
  (bp_tv s < 0 \/ bp_tv s = Z.of_nat m)%Z -> 0 < v < 1 ->
  exists a b, bp_split_v s v = Ok [a; b] /\
    is_piece s a n m (fun x => x) (fun y => v * y) /\ is_piece s b n m (fun x => x) (fun y => v + (1 - v) * y).
Proof.
  intros Hdu Hdv Hg0 Htv Hv.
  unfold bp_split_v, in_domain_1, is_endpoint_1. pose proof seps_pos as Hp.
  replace (negb (sle (s0 - seps)%S v && sle v (s1 + seps)%S)) with false.
  2:{ symmetry. apply negb_false_iff, andb_true_intro. cbn [sle ssub sadd s0 s1 R_ops]. rewrite !Rleb_true by lra. auto. }
  replace (seq_ v s0 || seq_ v s1) with false.
  2:{ symmetry. cbn [seq_ s0 s1 R_ops]. rewrite !Reqb_false by lra. reflexivity. }
  assert (Hnu : bp_nu s = Ok (Z.of_nat (S n))).
  { unfold bp_nu, checked_degree. rewrite Hdu. replace (0 <=? Z.of_nat n)%Z with true by (symmetry; apply Z.leb_le; lia).
    cbn [assert_ bind]. f_equal. lia. }
  assert (Hnv : bp_nv s = Ok (Z.of_nat (S m))).
  { unfold bp_nv, checked_degree. rewrite Hdv. replace (0 <=? Z.of_nat m)%Z with true by (symmetry; apply Z.leb_le; lia).
    cbn [assert_ bind]. f_equal. lia. }
  assert (Hiso : bp_iso_curves_v s =
    Ok (mklist (Z.of_nat (S n)) (fun i => {| bz_pts := brow s m i; bz_periodic := bp_perv s |}))).
  { unfold bp_iso_curves_v. rewrite Hnu, Hnv, !bind_Ok. apply tabulate_Ok; [lia|]. intros i Hi.
    rewrite (check_rows_Ok (bp_tv s) m false) by (split; [exact Htv|discriminate]). rewrite bind_Ok.
    rewrite (tabulate_Ok _ _ (fun j => nth (Z.to_nat (i * Z.of_nat (S m) + j)) (bp_grid s) p0)); [reflexivity|lia|].
    intros j Hj. apply (garr_of _ _ _ Hg0); assumption. }
  rewrite Hiso, Hnu, Hnv, !bind_Ok.
  set (nu := Z.of_nat (S n)) in *. set (nv := Z.of_nat (S m)) in *.
  destruct (garr_alloc (p0 : vec R d) nu nv ltac:(lia) ltac:(lia)) as (ga & Ea & Hga).
  rewrite Ea, !bind_Ok.
  pose (good := fun (i : nat) (G : Z -> Z -> vec R d) (f : R -> R) =>
    (forall y, psum (S m) (fun j => pmul (bernstein m j y) (G (Z.of_nat i) (Z.of_nat j))) =
              lin (S m) (fun j => bernstein m j (f y)) (brow s m (Z.of_nat i))) /\
    forall Q : vec R d -> Prop, convexP Q -> Forall Q (bp_grid s) -> forall j, (0 <= j < nv)%Z -> Q (G (Z.of_nat i) j)).
  match goal with |- context [for_up 0 nu ?b ?st] => set (body := b); set (st0 := st) end.
  destruct (for_up_inv (fun (k : Z) (st : list (vec R d) * list (vec R d)) =>
     exists G0 G1, garr (fst st) nu nv G0 /\ garr (snd st) nu nv G1 /\
       forall i, (Z.of_nat i < k)%Z -> (i < S n)%nat -> good i G0 (fun y => v * y) /\ good i G1 (fun y => v + (1 - v) * y))
     0 nu body st0 ltac:(lia)) as (st & Est & (G0 & G1 & H0 & H1 & Hgood)).
  - exists (fun _ _ => p0), (fun _ _ => p0). split; [exact Hga|]. split; [exact Hga|]. intros j Hj. lia.
  - intros ui [g0 g1] Hui (G0 & G1 & H0 & H1 & Hgood). cbn [fst snd] in *. unfold body.
    rewrite get_mklist by assumption. rewrite bind_Ok.
    destruct (iso_split d (bp_tv s) m (brow s m ui) (bp_perv s) v) as (l & r & Es & Hl & Hr & Cl & Cr & Hlr);
      [right; split; [exact Htv|discriminate]|unfold brow; rewrite length_mklist, Nat2Z.id; reflexivity|exact Hv|].
    rewrite Es, bind_Ok. change (get [mk_bezier l; mk_bezier r] 0) with (Ok (mk_bezier l)).
    change (get [mk_bezier l; mk_bezier r] 1) with (Ok (mk_bezier r)). rewrite !bind_Ok. cbn [bz_pts mk_bezier].
    destruct (copy_row_Ok nu nv ui l g0 G0 _ Hui ltac:(lia) (arr_of_len l _ Hl) H0) as (g0' & E0 & H0').
    destruct (copy_row_Ok nu nv ui r g1 G1 _ Hui ltac:(lia) (arr_of_len r _ Hr) H1) as (g1' & E1 & H1').
    unfold linear_index. rewrite E0, !bind_Ok. cbn [bz_pts mk_bezier]. rewrite E1, bind_Ok. exists (g0', g1'). split; [reflexivity|]. cbn [fst snd].
    eexists; eexists. split; [exact H0'|]. split; [exact H1'|]. intros i Hi Him.
    destruct (Z.eq_dec (Z.of_nat i) ui) as [Ei|Ni].
    + split; (split; [intros x|intros Q HQ HF j Hj]); rewrite Ei, Z.eqb_refl.
      * etransitivity; [|apply Hlr]. unfold lin. apply psum_ext. intros j Hj. now rewrite Nat2Z.id.
      * apply (Forall_nth_p0 Q l); [|lia]. apply (Cl Q HQ). apply (brow_Forall Q s n m ui Hg0 Hui HF).
      * etransitivity; [|apply Hlr]. unfold lin. apply psum_ext. intros j Hj. now rewrite Nat2Z.id.
      * apply (Forall_nth_p0 Q r); [|lia]. apply (Cr Q HQ). apply (brow_Forall Q s n m ui Hg0 Hui HF).
    + destruct (Hgood i ltac:(lia) Him) as [[A A'] [B B']].
      split; (split; [intros x|intros Q HQ HF j Hj]); (destruct (Z.eqb_spec (Z.of_nat i) ui); [contradiction|]); [apply A|now apply A'|apply B|now apply B'].
  - rewrite Est, bind_Ok. destruct st as [g0 g1]. cbn [fst snd] in *.
    eexists; eexists. split; [reflexivity|].
    assert (Hrow : forall i b, (i < S n)%nat -> lin (S m) b (brow s m (Z.of_nat i)) = lin (S m) b (grow (bp_grid s) (S m) i)).
    { reflexivity. }
    split.
    + split; [reflexivity|]; split; [reflexivity|]; split; [reflexivity|]; split; [reflexivity|]; split; [apply H0|]; split; [reflexivity|]; split; [reflexivity|]; split.
      { intros Q HQ HF. apply (garr_Forall Q g0 nu nv G0 H0 ltac:(lia)). intros i j Hi Hj.
        destruct (Hgood (Z.to_nat i) ltac:(lia) ltac:(lia)) as [[_ A] _]. specialize (A Q HQ HF j Hj). rewrite Z2Nat.id in A by lia. exact A. }
      intros x y. cbn [bp_set_grid bp_grid]. apply tensor_by_rows. intros i Hi.
      rewrite (lin_grow g0 nu nv G0 (S n) (S m) i _ H0 eq_refl eq_refl Hi).
      destruct (Hgood i ltac:(lia) Hi) as [[A _] _]. rewrite (A y). now apply Hrow.
    + split; [reflexivity|]; split; [reflexivity|]; split; [reflexivity|]; split; [reflexivity|]; split; [apply H1|]; split; [reflexivity|]; split; [reflexivity|]; split.
      { intros Q HQ HF. apply (garr_Forall Q g1 nu nv G1 H1 ltac:(lia)). intros i j Hi Hj.
        destruct (Hgood (Z.to_nat i) ltac:(lia) ltac:(lia)) as [_ [_ A]]. specialize (A Q HQ HF j Hj). rewrite Z2Nat.id in A by lia. exact A. }
      intros x y. cbn [bp_set_grid bp_grid]. apply tensor_by_rows. intros i Hi.
      rewrite (lin_grow g1 nu nv G1 (S n) (S m) i _ H1 eq_refl eq_refl Hi).
      destruct (Hgood i ltac:(lia) Hi) as [_ [B _]]. rewrite (B y). now apply Hrow.
Qed.

(** ** Main statements *)
Definition flat {P} (s : bpatch P) : bpatch P := bp_set_periodic s false false.

(** A patch whose degrees are its template arguments. *)
Record bstat {d} (s : bpatch (vec R d)) (n m : nat) : Prop := {
  bs_u : bp_degu s = Z.of_nat n;
  bs_v : bp_degv s = Z.of_nat m;
  bs_g : zlen (bp_grid s) = (Z.of_nat (S n) * Z.of_nat (S m))%Z;
  bs_tu : bp_tu s = bp_degu s;
  bs_tv : bp_tv s = bp_degv s;
}.

Lemma bstat_flat {d} (s : bpatch (vec R d)) n m : bstat s n m -> bprep (flat s) n m.
Proof.
  intros [H1 H2 H3 H4 H5]. split; cbn; auto; (split; [|discriminate]); right; congruence.
Qed.

Lemma bstat_eval {d} (s : bpatch (vec R d)) n m x y : bstat s n m ->
  bp_evaluate (flat s) x y = Ok (tensor_sum (S n) (S m) (fun i => bernstein n i x) (fun j => bernstein m j y) (bp_grid s)).
Proof.
  intros H. destruct (bp_eval_all (flat s) n m (bstat_flat s n m H) x y) as (u' & v' & Wu & Wv & _ & _ & E & _).
  cbn in Wu, Wv. subst u' v'. rewrite E, tensor_bernstein. reflexivity.
Qed.

Lemma piece_stat {d} (s a : bpatch (vec R d)) n m fu fv : bstat s n m -> is_piece s a n m fu fv ->
  bstat a n m /\ flat a = a /\ forall x y, bp_evaluate a x y = bp_evaluate (flat s) (fu x) (fv y).
Proof.
  intros H (A1 & A2 & A3 & A4 & A5 & A6 & A7 & _ & A8).
  pose proof (bs_u _ _ _ H). pose proof (bs_v _ _ _ H). pose proof (bs_tu _ _ _ H). pose proof (bs_tv _ _ _ H).
  assert (Ha : bstat a n m) by (split; congruence).
  assert (Ef : flat a = a) by (destruct a; cbn in *; subst; reflexivity).
  split; [exact Ha|]. split; [exact Ef|]. intros x y.
  rewrite <- Ef at 1. rewrite (bstat_eval a n m x y Ha), (bstat_eval s n m (fu x) (fv y) H). now rewrite A8.
Qed.

Lemma bstat_init {d} (s : bpatch (vec R d)) n m : bstat s n m -> bp_initialize s = Ok s.
Proof.
  intros H. pose proof (bprep_initialize _ _ _ _ (bstat_flat s n m H)) as E.
  unfold bp_initialize in *. cbn in E. 
  destruct (checked_degree (bp_degu s)) as [du| | |]; cbn [bind] in *; try discriminate.
  destruct (checked_degree (bp_degv s)) as [dv| | |]; cbn [bind] in *; try discriminate.
  destruct (_ || _); [discriminate|]. destruct (negb _); [discriminate|]. reflexivity.
Qed.

Lemma init_stat {d} (s : bpatch (vec R d)) : bp_initialize s = Ok s -> bp_tu s = bp_degu s -> bp_tv s = bp_degv s ->
  bstat s (Z.to_nat (bp_degu s)) (Z.to_nat (bp_degv s)).
Proof.
  intros Hi H1 H2.
  unfold bp_initialize, checked_degree in Hi.
  destruct (Z.leb_spec 0 (bp_degu s)) as [Hu|]; [|discriminate]. cbn [assert_ bind] in Hi.
  destruct (Z.leb_spec 0 (bp_degv s)) as [Hv|]; [|discriminate]. cbn [assert_ bind] in Hi.
  destruct (_ || _) in Hi; [discriminate|].
  destruct (Z.eqb_spec (zlen (bp_grid s)) ((bp_degu s + 1) * (bp_degv s + 1))) as [Eg|]; [|discriminate].
  split; try assumption; lia.
Qed.

Lemma bpatch_split_u d (s : bpatch (vec R d)) u :
  bp_initialize s = Ok s -> bp_tu s = bp_degu s -> bp_tv s = bp_degv s -> 0 < u < 1 ->
  exists a b, bp_split_u s u = Ok [a; b] /\ bp_initialize a = Ok a /\ bp_initialize b = Ok b /\
    forall x y, bp_evaluate a x y = bp_evaluate (bp_set_periodic s false false) (u * x) y /\
                bp_evaluate b x y = bp_evaluate (bp_set_periodic s false false) (u + (1 - u) * x) y.
Proof.
  intros Hi H1 H2 Hu. pose proof (init_stat s Hi H1 H2) as H. destruct H as [A1 A2 A3 A4 A5].
  destruct (bp_split_u_gen s _ _ u A1 A2 A3) as (a & b & E & Ha & Hb); [right; congruence|exact Hu|].
  pose proof (init_stat s Hi H1 H2) as H.
  destruct (piece_stat _ _ _ _ _ _ H Ha) as (Sa & _ & Va). destruct (piece_stat _ _ _ _ _ _ H Hb) as (Sb & _ & Vb).
  exists a, b. split; [exact E|]. split; [eapply bstat_init; exact Sa|]. split; [eapply bstat_init; exact Sb|].
  intros x y. split; [apply Va|apply Vb].
Qed.

Lemma bpatch_split_v d (s : bpatch (vec R d)) v :
  bp_initialize s = Ok s -> bp_tu s = bp_degu s -> bp_tv s = bp_degv s -> 0 < v < 1 ->
  exists a b, bp_split_v s v = Ok [a; b] /\ bp_initialize a = Ok a /\ bp_initialize b = Ok b /\
    forall x y, bp_evaluate a x y = bp_evaluate (bp_set_periodic s false false) x (v * y) /\
                bp_evaluate b x y = bp_evaluate (bp_set_periodic s false false) x (v + (1 - v) * y).
Proof.
  intros Hi H1 H2 Hu. pose proof (init_stat s Hi H1 H2) as H. destruct H as [A1 A2 A3 A4 A5].
  destruct (bp_split_v_gen s _ _ v A1 A2 A3) as (a & b & E & Ha & Hb); [right; congruence|exact Hu|].
  pose proof (init_stat s Hi H1 H2) as H.
  destruct (piece_stat _ _ _ _ _ _ H Ha) as (Sa & _ & Va). destruct (piece_stat _ _ _ _ _ _ H Hb) as (Sb & _ & Vb).
  exists a, b. split; [exact E|]. split; [eapply bstat_init; exact Sa|]. split; [eapply bstat_init; exact Sb|].
  intros x y. split; [apply Va|apply Vb].
Qed.

Lemma is_endpoint_false (u : R) : 0 < u < 1 -> is_endpoint_1 s0 s1 u = false.
Proof. intros H. unfold is_endpoint_1. cbn [seq_ s0 s1 R_ops]. rewrite !Reqb_false by lra. reflexivity. Qed.
Lemma is_endpoint_true (u : R) : u = 0 \/ u = 1 -> is_endpoint_1 s0 s1 u = true.
Proof.
  intros [-> | ->]; unfold is_endpoint_1; cbn [seq_ s0 s1 R_ops].
  - rewrite Reqb_true by reflexivity. reflexivity.
  - rewrite (Reqb_true 1 1) by reflexivity. apply orb_true_r.
Qed.
Lemma in_domain_01 (u : R) : 0 <= u <= 1 -> in_domain_1 s0 s1 u = true.
Proof.
  intros H. unfold in_domain_1. pose proof seps_pos. cbn [sle ssub sadd s0 s1 R_ops]. rewrite !Rleb_true by lra. reflexivity.
Qed.

Lemma bpatch_split d (s : bpatch (vec R d)) u v :
  bp_initialize s = Ok s -> bp_tu s = bp_degu s -> bp_tv s = bp_degv s -> 0 < u < 1 -> 0 < v < 1 ->
  exists a b c e, bp_split s u v = Ok [a; b; c; e] /\
    bp_initialize a = Ok a /\ bp_initialize b = Ok b /\ bp_initialize c = Ok c /\ bp_initialize e = Ok e /\
    forall x y, let f := bp_evaluate (bp_set_periodic s false false) in
      bp_evaluate a x y = f (u * x) (v * y) /\ bp_evaluate b x y = f (u * x) (v + (1 - v) * y) /\
      bp_evaluate c x y = f (u + (1 - u) * x) (v * y) /\ bp_evaluate e x y = f (u + (1 - u) * x) (v + (1 - v) * y).
Proof.
  intros Hi H1 H2 Hu Hv. pose proof (init_stat s Hi H1 H2) as H. pose proof H as [A1 A2 A3 A4 A5].
  set (n := Z.to_nat (bp_degu s)) in *. set (m := Z.to_nat (bp_degv s)) in *.
  destruct (bp_split_u_gen s n m u A1 A2 A3) as (l & g & E & Hl & Hg); [right; congruence|exact Hu|].
  destruct (piece_stat _ _ _ _ _ _ H Hl) as (Sl & Fl & Vl). destruct (piece_stat _ _ _ _ _ _ H Hg) as (Sg & Fg & Vg).
  pose proof Sl as [L1 L2 L3 L4 L5]. pose proof Sg as [G1 G2 G3 G4 G5].
  destruct (bp_split_v_gen l n m v L1 L2 L3) as (a & b & E1 & Ha & Hb); [right; congruence|exact Hv|].
  destruct (bp_split_v_gen g n m v G1 G2 G3) as (c & e & E2 & Hc & He); [right; congruence|exact Hv|].
  destruct (piece_stat _ _ _ _ _ _ Sl Ha) as (Sa & _ & Va). destruct (piece_stat _ _ _ _ _ _ Sl Hb) as (Sb & _ & Vb).
  destruct (piece_stat _ _ _ _ _ _ Sg Hc) as (Sc & _ & Vc). destruct (piece_stat _ _ _ _ _ _ Sg He) as (Se & _ & Ve).
  exists a, b, c, e. split.
  { unfold bp_split. rewrite !is_endpoint_false by assumption. cbn [andb]. rewrite E.
    rewrite bind_Ok. change (get [l; g] 0) with (Ok l). change (get [l; g] 1) with (Ok g). rewrite !bind_Ok.
    rewrite E1, !bind_Ok, E2, !bind_Ok. reflexivity. }
  split; [eapply bstat_init; exact Sa|]. split; [eapply bstat_init; exact Sb|].
  split; [eapply bstat_init; exact Sc|]. split; [eapply bstat_init; exact Se|].
  intros x y f. unfold f. rewrite Va, Vb, Vc, Ve, Fl, Fg, !Vl, !Vg. repeat split.
Qed.

Lemma bpatch_split_border d (s : bpatch (vec R d)) u v :
  (u = 0 \/ u = 1 -> bp_split_u s u = Ok [s] /\ (v = 0 \/ v = 1 -> bp_split s u v = Ok [s]) /\
     (0 < v < 1 -> bp_split s u v = bp_split_v s v)) /\
  (v = 0 \/ v = 1 -> bp_split_v s v = Ok [s] /\ (0 < u < 1 -> bp_split s u v = bp_split_u s u)) /\
  (u < - / IZR (2 ^ 52) \/ 1 + / IZR (2 ^ 52) < u -> bp_split_u s u = Throw invalid_setting_error) /\
  (v < - / IZR (2 ^ 52) \/ 1 + / IZR (2 ^ 52) < v -> bp_split_v s v = Throw invalid_setting_error).
Proof.
  assert (Hb : forall t, t = 0 \/ t = 1 -> 0 <= t <= 1) by (intros t [-> | ->]; lra).
  split; [|split; [|split]].
  - intros Hu. unfold bp_split_u, bp_split. rewrite in_domain_01 by auto. rewrite (is_endpoint_true u Hu). cbn [negb].
    split; [reflexivity|]. split; intros Hv.
    + rewrite (is_endpoint_true v Hv). reflexivity.
    + rewrite (is_endpoint_false v Hv). reflexivity.
  - intros Hv. unfold bp_split_v, bp_split. rewrite in_domain_01 by auto. rewrite (is_endpoint_true v Hv). cbn [negb].
    split; [reflexivity|]. intros Hu. rewrite (is_endpoint_false u Hu). reflexivity.
  - rewrite <- seps_R. pose proof seps_pos as Hp. intros Hu. unfold bp_split_u, in_domain_1.
    generalize dependent (seps : R). intros e Hp Hu. cbn [sle ssub sadd s0 s1 R_ops].
    destruct Hu; [rewrite (Rleb_false (0 - e) u) by lra|rewrite (Rleb_false u (1 + e)) by lra; rewrite andb_false_r]; reflexivity.
  - rewrite <- seps_R. pose proof seps_pos as Hp. intros Hu. unfold bp_split_v, in_domain_1.
    generalize dependent (seps : R). intros e Hp Hu. cbn [sle ssub sadd s0 s1 R_ops].
    destruct Hu; [rewrite (Rleb_false (0 - e) v) by lra|rewrite (Rleb_false v (1 + e)) by lra; rewrite andb_false_r]; reflexivity.
Qed.

(** The pieces of a patch with a dynamic degree keep the degree -1 and cannot be evaluated. *)
Lemma bpatch_split_dynamic d (s : bpatch (vec R d)) u :
  bp_initialize s = Ok s -> (bp_tu s = -1)%Z -> 0 < u < 1 ->
  exists a b, bp_split_u s u = Ok [a; b] /\ forall x y, bp_evaluate a x y = Undef /\ bp_evaluate b x y = Undef.
Proof.
  intros Hi Ht Hu.
  assert (A : (0 <= bp_degu s /\ 0 <= bp_degv s /\ zlen (bp_grid s) = (bp_degu s + 1) * (bp_degv s + 1))%Z).
  { unfold bp_initialize, checked_degree in Hi.
    destruct (Z.leb_spec 0 (bp_degu s)) as [H1|]; [|discriminate]. cbn [assert_ bind] in Hi.
    destruct (Z.leb_spec 0 (bp_degv s)) as [H2|]; [|discriminate]. cbn [assert_ bind] in Hi.
    destruct (_ || _) in Hi; [discriminate|].
    destruct (Z.eqb_spec (zlen (bp_grid s)) ((bp_degu s + 1) * (bp_degv s + 1))) as [Eg|]; [auto|discriminate]. }
  destruct A as (A1 & A2 & A3).
  destruct (bp_split_u_gen s (Z.to_nat (bp_degu s)) (Z.to_nat (bp_degv s)) u) as (a & b & E & Ha & Hb); try lia; [exact Hu|].
  exists a, b. split; [exact E|].
  assert (K : forall z : bpatch (vec R d), bp_degu z = bp_tu s -> forall x y, bp_evaluate z x y = Undef).
  { intros z Hz x y. unfold bp_evaluate, bp_iso_curve_v, bp_iso_curve_u, bp_iso_curves_u.
    assert (En : bp_nu z = Undef) by (unfold bp_nu, checked_degree; rewrite Hz, Ht; reflexivity).
    rewrite En. destruct (Z.ltb (bp_degu z) (bp_degv z)); [|reflexivity].
    destruct (bp_nv z) eqn:Ev; cbn [bind]; try reflexivity.
    - unfold check_rows. destruct (_ || _); reflexivity.
    - unfold bp_nv, checked_degree in Ev. destruct (0 <=? bp_degv z)%Z; discriminate.
    - unfold bp_nv, checked_degree in Ev. destruct (0 <=? bp_degv z)%Z; discriminate. }
  intros x y. split; apply K; [apply Ha|apply Hb].
Qed.

(** ** subpatch *)
Lemma sub_step d (s : bpatch (vec R d)) n m u_min u_max : bstat s n m -> 0 <= u_min < u_max -> u_max <= 1 ->
  exists b, (do a <- (if is_endpoint_1 s0 s1 u_min then Ok s else do l <- bp_split_u s u_min; get l 1);
             (if is_endpoint_1 s0 s1 u_max then Ok a else do l <- bp_split_u a u_max; get l 0)) = Ok b /\
    bstat b n m /\ (flat s = s -> flat b = b) /\ forall x y, bp_evaluate (flat b) x y = bp_evaluate (flat s) (u_min + (1 - u_min) * u_max * x) y.
Proof.
  intros H H0 H1.
  assert (Hid : forall z : bpatch (vec R d), flat (flat z) = flat z) by reflexivity.
  assert (exists a, (if is_endpoint_1 s0 s1 u_min then Ok s else do l <- bp_split_u s u_min; get l 1) = Ok a /\
    bstat a n m /\ (flat s = s -> flat a = a) /\ forall x y, bp_evaluate (flat a) x y = bp_evaluate (flat s) (u_min + (1 - u_min) * x) y) as (a & Ea & Sa & Pa & Va).
  { destruct (Req_dec u_min 0) as [->|Hne].
    - rewrite is_endpoint_true by auto. exists s. split; [reflexivity|]. split; [exact H|]. split; [auto|]. intros x y. f_equal. ring.
    - rewrite is_endpoint_false by lra.
      destruct (bp_split_u_gen s n m u_min (bs_u _ _ _ H) (bs_v _ _ _ H) (bs_g _ _ _ H)) as (l & g & E & _ & Hg).
      { right. rewrite (bs_tu _ _ _ H). apply (bs_u _ _ _ H). } { lra. }
      rewrite E, bind_Ok. exists g. split; [reflexivity|].
      destruct (piece_stat _ _ _ _ _ _ H Hg) as (Sg & Fg & Vg). split; [exact Sg|]. split; [auto|]. intros x y. now rewrite Fg, Vg. }
  rewrite Ea, bind_Ok.
  destruct (Req_dec u_max 1) as [->|Hne].
  - rewrite is_endpoint_true by auto. exists a. split; [reflexivity|]. split; [exact Sa|]. split; [exact Pa|]. intros x y. rewrite Va. f_equal. ring.
  - rewrite is_endpoint_false by lra.
    destruct (bp_split_u_gen a n m u_max (bs_u _ _ _ Sa) (bs_v _ _ _ Sa) (bs_g _ _ _ Sa)) as (l & g & E & Hl & _).
    { right. rewrite (bs_tu _ _ _ Sa). apply (bs_u _ _ _ Sa). } { lra. }
    rewrite E, bind_Ok. exists l. split; [reflexivity|].
    destruct (piece_stat _ _ _ _ _ _ Sa Hl) as (Sl & Fl & Vl). split; [exact Sl|]. split; [auto|]. intros x y. rewrite Fl, Vl, Va. f_equal. ring.
Qed.

Lemma sub_step_v d (s : bpatch (vec R d)) n m v_min v_max : bstat s n m -> 0 <= v_min < v_max -> v_max <= 1 ->
  exists b, (do a <- (if is_endpoint_1 s0 s1 v_min then Ok s else do l <- bp_split_v s v_min; get l 1);
             (if is_endpoint_1 s0 s1 v_max then Ok a else do l <- bp_split_v a v_max; get l 0)) = Ok b /\
    bstat b n m /\ (flat s = s -> flat b = b) /\ forall x y, bp_evaluate (flat b) x y = bp_evaluate (flat s) x (v_min + (1 - v_min) * v_max * y).
Proof.
  intros H H0 H1.
  assert (exists a, (if is_endpoint_1 s0 s1 v_min then Ok s else do l <- bp_split_v s v_min; get l 1) = Ok a /\
    bstat a n m /\ (flat s = s -> flat a = a) /\ forall x y, bp_evaluate (flat a) x y = bp_evaluate (flat s) x (v_min + (1 - v_min) * y)) as (a & Ea & Sa & Pa & Va).
  { destruct (Req_dec v_min 0) as [->|Hne].
    - rewrite is_endpoint_true by auto. exists s. split; [reflexivity|]. split; [exact H|]. split; [auto|]. intros x y. f_equal. ring.
    - rewrite is_endpoint_false by lra.
      destruct (bp_split_v_gen s n m v_min (bs_u _ _ _ H) (bs_v _ _ _ H) (bs_g _ _ _ H)) as (l & g & E & _ & Hg).
      { right. rewrite (bs_tv _ _ _ H). apply (bs_v _ _ _ H). } { lra. }
      rewrite E, bind_Ok. exists g. split; [reflexivity|].
      destruct (piece_stat _ _ _ _ _ _ H Hg) as (Sg & Fg & Vg). split; [exact Sg|]. split; [auto|]. intros x y. now rewrite Fg, Vg. }
  rewrite Ea, bind_Ok.
  destruct (Req_dec v_max 1) as [->|Hne].
  - rewrite is_endpoint_true by auto. exists a. split; [reflexivity|]. split; [exact Sa|]. split; [exact Pa|]. intros x y. rewrite Va. f_equal. ring.
  - rewrite is_endpoint_false by lra.
    destruct (bp_split_v_gen a n m v_max (bs_u _ _ _ Sa) (bs_v _ _ _ Sa) (bs_g _ _ _ Sa)) as (l & g & E & Hl & _).
    { right. rewrite (bs_tv _ _ _ Sa). apply (bs_v _ _ _ Sa). } { lra. }
    rewrite E, bind_Ok. exists l. split; [reflexivity|].
    destruct (piece_stat _ _ _ _ _ _ Sa Hl) as (Sl & Fl & Vl). split; [exact Sl|]. split; [auto|]. intros x y. rewrite Fl, Vl, Va. f_equal. ring.
Qed.

Lemma bpatch_subpatch_actual d (s : bpatch (vec R d)) u_min u_max v_min v_max :
  bp_initialize s = Ok s -> bp_tu s = bp_degu s -> bp_tv s = bp_degv s ->
  bp_peru s = false -> bp_perv s = false ->
  0 <= u_min < u_max -> u_max <= 1 -> 0 <= v_min < v_max -> v_max <= 1 ->
  exists p, bp_subpatch s u_min u_max v_min v_max = Ok p /\
    forall x y, bp_evaluate p x y =
      bp_evaluate s (u_min + (1 - u_min) * u_max * x) (v_min + (1 - v_min) * v_max * y).
Proof.
  intros Hi H1 H2 P1 P2 Hu Hu1 Hv Hv1. pose proof (init_stat s Hi H1 H2) as H.
  set (n := Z.to_nat (bp_degu s)) in *. set (m := Z.to_nat (bp_degv s)) in *.
  unfold bp_subpatch. cbn [slt R_ops]. rewrite !Rltb_false by lra. rewrite !in_domain_01 by lra. cbn [negb orb].
  destruct (sub_step d s n m u_min u_max H Hu Hu1) as (b & E & Sb & Pb & Vb).
  destruct (sub_step_v d b n m v_min v_max Sb Hv Hv1) as (c & E' & Sc & Pc & Vc).
  exists c.
  destruct (if is_endpoint_1 s0 s1 u_min then Ok s else do l <- bp_split_u s u_min; get l 1) as [a| | |] eqn:Ea; cbn [bind] in E |- *; try discriminate.
  rewrite E. cbn [bind]. split; [exact E'|].
  assert (Fs : flat s = s) by (destruct s; cbn in *; subst; reflexivity).
  intros x y. rewrite <- (Pc (Pb Fs)), Vc, Vb, Fs. reflexivity.
Qed.

Lemma bpatch_subpatch_border d (s : bpatch (vec R d)) u_min u_max v_min v_max :
  bp_initialize s = Ok s -> bp_tu s = bp_degu s -> bp_tv s = bp_degv s ->
  bp_peru s = false -> bp_perv s = false ->
  0 <= u_min < u_max -> u_max <= 1 -> 0 <= v_min < v_max -> v_max <= 1 ->
  u_min = 0 \/ u_max = 1 -> v_min = 0 \/ v_max = 1 ->
  exists p, bp_subpatch s u_min u_max v_min v_max = Ok p /\
    forall x y, bp_evaluate p x y = bp_evaluate s (u_min + (u_max - u_min) * x) (v_min + (v_max - v_min) * y).
Proof.
  intros Hi H1 H2 P1 P2 Hu Hu1 Hv Hv1 Bu Bv.
  destruct (bpatch_subpatch_actual d s u_min u_max v_min v_max Hi H1 H2 P1 P2 Hu Hu1 Hv Hv1) as (p & E & V).
  exists p. split; [exact E|]. intros x y. rewrite V. f_equal.
  - destruct Bu as [-> | ->]; ring.
  - destruct Bv as [-> | ->]; ring.
Qed.

(** The bilinear patch (x,y) = (u,v), cut to [1/4,1/2] x [0,1], reaches u = 5/8. *)
Definition unit_patch : bpatch (vec R 2) :=
  {| bp_tu := 1; bp_tv := 1; bp_degu := 1; bp_degv := 1;
     bp_grid := [(0, (0, tt)); (0, (1, tt)); (1, (0, tt)); (1, (1, tt))]; bp_peru := false; bp_perv := false |}.

Lemma unit_patch_eval x y : bp_evaluate unit_patch x y = Ok (x, (y, tt)).
Proof.
  assert (H : bstat unit_patch 1 1) by (split; reflexivity).
  change unit_patch with (flat unit_patch). rewrite (bstat_eval unit_patch 1 1 x y H). f_equal.
  unfold tensor_sum, bernstein, C. cbn. f_equal; [field|f_equal; field].
Qed.

Lemma bpatch_subpatch_wrong :
  exists (s : bpatch (vec R 2)) p, bp_initialize s = Ok s /\ bp_tu s = bp_degu s /\ bp_tv s = bp_degv s /\
    bp_peru s = false /\ bp_perv s = false /\
    bp_subpatch s (1/4) (1/2) 0 1 = Ok p /\
    bp_evaluate p 1 0 = Ok (5/8, (0, tt)) /\ bp_evaluate s (1/2) 0 = Ok (1/2, (0, tt)) /\
    bp_evaluate p 1 0 <> bp_evaluate s (1/4 + (1/2 - 1/4) * 1) 0.
Proof.
  destruct (bpatch_subpatch_actual 2 unit_patch (1/4) (1/2) 0 1 eq_refl eq_refl eq_refl eq_refl eq_refl) as (p & E & V); try lra.
  exists unit_patch, p. repeat split; try reflexivity; try exact E.
  - rewrite V, unit_patch_eval. f_equal. f_equal; [lra|f_equal; lra].
  - apply unit_patch_eval.
  - rewrite V, !unit_patch_eval. intros K. injection K as K. lra.
Qed.
