(** Proofs about save_obj.h. *)
From Coq Require Import Reals Lra Lia ZArith List Bool.
From Verif Require Import Monad MonadFacts LoopFacts Scalar ScalarFacts ModelCurve ModelPatchBase ModelLine ModelExport SpecObj LineThms ArcLengthThms.
Import ListNotations.
Local Open Scope R_scope.

Section Lists.
  Context {P : Type}.
  Lemma points_app (a b : list (obj_line P)) : obj_points (a ++ b) = obj_points a ++ obj_points b.
  Proof. apply flat_map_app. Qed.
  Lemma segments_app (a b : list (obj_line P)) : obj_segments (a ++ b) = obj_segments a ++ obj_segments b.
  Proof. apply flat_map_app. Qed.
  Lemma faces_app (a b : list (obj_line P)) : obj_faces (a ++ b) = obj_faces a ++ obj_faces b.
  Proof. apply flat_map_app. Qed.
End Lists.

Lemma mapM_map {A B} (f : A -> res B) l r : mapM f l = Ok r -> Forall2 (fun a b => f a = Ok b) l r.
Proof.
  revert r. induction l as [|a l IH]; cbn; intros r E; [apply Ok_inj in E; subst; constructor|].
  apply bind_inv in E. destruct E as (b & Eb & E). apply bind_inv in E. destruct E as (r' & Er & E). apply Ok_inj in E. subst r. constructor; auto.
Qed.
Lemma tabulate_map {A} n (f : Z -> res A) l : tabulate n f = Ok l -> Forall2 (fun k b => f (Z.of_nat k) = Ok b) (seq 0 (Z.to_nat n)) l.
Proof. intros E. exact (mapM_map _ _ _ E). Qed.

Section Curve.
  Context {P : Type} (c : curve_ops R P) (N : Z).
  Lemma export_obj_spec offset ls off' : (1 <= N)%Z -> export_obj c N offset = Ok (ls, off') ->
    off' = (offset + N)%Z /\
    Forall2 (fun k p => c_eval c (IZR (Z.of_nat k) / IZR N) = Ok p) (seq 0 (Z.to_nat N)) (obj_points ls) /\
    obj_segments ls = chain (offset + 1) (Z.to_nat N - 1) /\ obj_faces ls = [].
  Proof.
    intros HN. unfold export_obj. intros E. apply bind_inv in E. destruct E as (vs & Ev & E). apply bind_inv in E. destruct E as (es & Ee & E).
    apply Ok_inj in E. pose proof (f_equal fst E) as E1. pose proof (f_equal snd E) as E2. cbn [fst snd] in E1, E2. subst ls off'. clear E.
    apply tabulate_map in Ev, Ee.
    assert (Hv : Forall2 (fun k p => c_eval c (IZR (Z.of_nat k) / IZR N) = Ok p) (seq 0 (Z.to_nat N)) (obj_points vs) /\ obj_segments vs = [] /\ obj_faces vs = []).
    { clear Ee. revert Ev. generalize (seq 0 (Z.to_nat N)). intros l. revert vs. induction l as [|k l IH]; intros vs H; inversion H; subst; [repeat split; constructor|].
      destruct (IH _ H4) as (F1 & F2 & F3). unfold ddiv in H2. cbn [seq_ s0 sofZ sdiv R_ops] in H2. rewrite Reqb_false in H2 by (apply not_0_IZR; lia). rewrite bind_Ok in H2.
      apply bind_inv in H2. destruct H2 as (p & Ep & H2). apply Ok_inj in H2. subst y. repeat split; [constructor; assumption|exact F2|exact F3]. }
    destruct Hv as (Hv1 & Hv2 & Hv3).
    assert (He : obj_points es = [] /\ obj_segments es = chain (offset + 1) (Z.to_nat N - 1) /\ obj_faces es = []).
    { replace (Z.to_nat (N - 1)) with (Z.to_nat N - 1)%nat in Ee by lia. unfold chain. revert Ee. generalize (seq 0 (Z.to_nat N - 1)). intros l. clear Hv1 Hv2 Hv3 Ev. revert es.
      induction l as [|k l IH]; intros es H; inversion H; subst; [repeat split|]. destruct (IH _ H4) as (F1 & F2 & F3). apply Ok_inj in H2. subst y.
      split; [exact F1|]. split; [|exact F3]. cbn [map]. change (obj_segments (ObjL (Z.of_nat k + offset + 1) (Z.of_nat k + offset + 2) :: l')) with ((Z.of_nat k + offset + 1, Z.of_nat k + offset + 2)%Z :: obj_segments l').
      rewrite F2. repeat (f_equal; try lia). }
    destruct He as (He1 & He2 & He3). rewrite points_app, segments_app, faces_app, He1, He2, He3, Hv2, Hv3, app_nil_r.
    split; [reflexivity|]. split; [exact Hv1|]. split; reflexivity.
  Qed.
End Curve.

Lemma Forall2_len {A B} (Q : A -> B -> Prop) l l' : Forall2 Q l l' -> length l = length l'.
Proof. induction 1; cbn; congruence. Qed.

Lemma Forall2_weaken {A B} (Q Q' : A -> B -> Prop) l l' : (forall a b, Q a b -> Q' a b) -> Forall2 Q l l' -> Forall2 Q' l l'.
Proof. intros H F. induction F; constructor; auto. Qed.
Lemma Forall2_nth_seq {B} (Q : nat -> B -> Prop) a n l k : Forall2 Q (seq a n) l -> (k < n)%nat -> exists b, nth_error l k = Some b /\ Q (a + k)%nat b.
Proof.
  revert a l k. induction n as [|n IH]; intros a l k H Hk; [lia|]. cbn in H. inversion H; subst. destruct k as [|k]; [exists y; rewrite Nat.add_0_r; auto|].
  destruct (IH _ _ k H4 ltac:(lia)) as (b & A & C). exists b. split; [exact A|]. now replace (a + S k)%nat with (S a + k)%nat by lia.
Qed.

Lemma export_counts {P} (c : curve_ops R P) offset ls off' : export_obj c 100 offset = Ok (ls, off') ->
  off' = (offset + 100)%Z /\ length (obj_points ls) = 100%nat /\ obj_segments ls = chain (offset + 1) 99.
Proof.
  intros E. apply export_obj_spec in E; [|lia]. destruct E as (A & B & C & _). split; [exact A|]. split; [|exact C]. apply Forall2_len in B. rewrite <- B. apply seq_length.
Qed.

Section Loop.
  Context {P A : Type} (export : A -> Z -> res (list (obj_line P) * Z)) (N : Z) (refs : list (obj_line P) -> Z -> Prop).
  Hypothesis HN : (0 < N)%Z.
  Hypothesis Hexp : forall c offset ls off', export c offset = Ok (ls, off') -> off' = (offset + N)%Z /\ Z.of_nat (length (obj_points ls)) = N /\ refs ls (offset + N)%Z.
  Hypothesis refs_app_l : forall a b k, refs a k -> refs (a ++ b) k.
  Hypothesis refs_app_r : forall a b k, refs b k -> refs (a ++ b) k.
  (** From offset [count] on, [n] items: the last one refers to a vertex past what has been written. *)
  Lemma loop_overflow cs count file : save_obj_loop export cs count = Ok file -> cs <> [] -> (0 <= count)%Z ->
    Z.of_nat (length (obj_points file)) = (Z.of_nat (length cs) * N)%Z /\
    refs file (2 ^ (Z.of_nat (length cs) - 1) * (count + N))%Z.
  Proof.
    revert count file. induction cs as [|c cs IH]; intros count file E Hne Hc; [congruence|]. cbn [save_obj_loop] in E.
    apply bind_inv in E. destruct E as ([ls n] & E1 & E). apply bind_inv in E. destruct E as (rest & E2 & E). apply Ok_inj in E. subst file.
    destruct (Hexp _ _ _ _ E1) as (En & El & Er). subst n. rewrite points_app, app_length.
    destruct cs as [|c' cs].
    - cbn in E2. apply Ok_inj in E2. subst rest. cbn [length obj_points flat_map]. split; [cbn [app length] in *; lia|]. apply refs_app_l.
      replace (2 ^ (Z.of_nat 1 - 1) * (count + N))%Z with (count + N)%Z by (change (2 ^ (Z.of_nat 1 - 1))%Z with 1%Z; lia). exact Er.
    - destruct (IH _ _ E2) as (Hl & Hr); [discriminate|lia|]. split; [cbn [length] in *; lia|]. apply refs_app_r.
      replace (2 ^ (Z.of_nat (length (c :: c' :: cs)) - 1) * (count + N))%Z with (2 ^ (Z.of_nat (length (c' :: cs)) - 1) * (count + (count + N) + N))%Z; [exact Hr|].
      cbn [length]. replace (Z.of_nat (S (S (length cs))) - 1)%Z with (Z.succ (Z.of_nat (S (length cs)) - 1))%Z by lia. rewrite Z.pow_succ_r by lia. ring.
  Qed.
  Lemma pow_beats n : (3 <= n)%nat -> (Z.of_nat n < 2 ^ (Z.of_nat n - 1))%Z.
  Proof.
    induction n as [|n IH]; [lia|]. intros Hn. destruct (Nat.eq_dec n 2) as [->|Hn2]; [reflexivity|].
    specialize (IH ltac:(lia)). replace (Z.of_nat (S n) - 1)%Z with (Z.succ (Z.of_nat n - 1))%Z by lia. rewrite Z.pow_succ_r by lia. lia.
  Qed.
  Lemma loop_bad cs file : save_obj_loop export cs 0 = Ok file -> (3 <= length cs)%nat -> exists k, refs file k /\ (Z.of_nat (length (obj_points file)) < k)%Z.
  Proof.
    intros E H. destruct (loop_overflow _ _ _ E) as (Hl & Hr); [intros ->; cbn in H; lia|lia|]. eexists. split; [exact Hr|]. rewrite Hl. pose proof (pow_beats _ H). nia.
  Qed.
End Loop.

Lemma save_curves_bad {P} (cs : list (curve_ops R P)) file : save_obj_curves cs = Ok file -> (3 <= length cs)%nat ->
  exists i j, In (i, j) (obj_segments file) /\ (Z.of_nat (length (obj_points file)) < j)%Z.
Proof.
  intros E H. unshelve epose proof (loop_bad _ 100 (fun f k => exists i, In (i, k) (obj_segments f)) _ _ _ _ cs file E H) as Hb; [lia| | | |destruct Hb as (k & [i Hi] & Hk); eauto].
  - intros c offset ls off' Ee. destruct (export_counts _ _ _ _ Ee) as (A & B & C). split; [exact A|]. split; [lia|].
    exists (offset + 1 + 98)%Z. rewrite C. unfold chain. apply in_map_iff. exists 98%nat. split; [f_equal; lia|]. apply in_seq. lia.
  - intros a b k [i Hi]. exists i. rewrite segments_app. apply in_app_iff. now left.
  - intros a b k [i Hi]. exists i. rewrite segments_app. apply in_app_iff. now right.
Qed.

Lemma save_curve_ok {P} (c : curve_ops R P) file : save_obj_curve c = Ok file ->
  Forall2 (fun k p => c_eval c (IZR (Z.of_nat k) / 100) = Ok p) (seq 0 100) (obj_points file) /\ obj_segments file = chain 1 99 /\ obj_faces file = [].
Proof.
  unfold save_obj_curve. intros E. apply bind_inv in E. destruct E as ([ls n] & E1 & E). apply Ok_inj in E. subst file.
  apply export_obj_spec in E1; [|lia]. destruct E1 as (_ & A & B & C). split; [exact A|]. split; [exact B|exact C].
Qed.
Lemma save_two_curves {P} (c1 c2 : curve_ops R P) file : save_obj_curves [c1; c2] = Ok file ->
  (exists l1 l2, obj_points file = l1 ++ l2 /\
    Forall2 (fun k p => c_eval c1 (IZR (Z.of_nat k) / 100) = Ok p) (seq 0 100) l1 /\
    Forall2 (fun k p => c_eval c2 (IZR (Z.of_nat k) / 100) = Ok p) (seq 0 100) l2) /\
  obj_segments file = chain 1 99 ++ chain 101 99.
Proof.
  unfold save_obj_curves. cbn [save_obj_loop]. intros E. apply bind_inv in E. destruct E as ([ls n] & E1 & E). apply bind_inv in E. destruct E as (rest & E2 & E). apply Ok_inj in E. subst file.
  apply bind_inv in E2. destruct E2 as ([ls2 n2] & E2 & E3). rewrite bind_Ok in E3. apply Ok_inj in E3. subst rest.
  apply export_obj_spec in E1; [|lia]. destruct E1 as (-> & A & B & _). apply export_obj_spec in E2; [|lia]. destruct E2 as (_ & A2 & B2 & _).
  rewrite app_nil_r, points_app, segments_app, B, B2. split; [|reflexivity]. eexists _, _. split; [reflexivity|]. split; assumption.
Qed.

(** Patches. *)
Lemma Forall2_concat {A B C} (f : A -> res (list B)) (Q : C -> Prop) (l : list A) r : Forall2 (fun a b => f a = Ok b) l r ->
  forall b, In b (concat r) <-> exists a lb, In a l /\ f a = Ok lb /\ In b lb.
Proof.
  induction 1 as [|a b l r Hab H IH]; intros x; cbn; [split; [tauto|intros (? & ? & [] & _)]|]. rewrite in_app_iff, IH. split.
  - intros [Hx|(a' & lb & Ha & Hf & Hx)]; [exists a, b; auto|exists a', lb; auto].
  - intros (a' & lb & [->|Ha] & Hf & Hx); [left; congruence|right; eauto].
Qed.
Lemma concat_nth {A} (d : A) m l i j : (forall x, In x l -> length x = m) -> (i < length l)%nat -> (j < m)%nat ->
  nth (i * m + j) (concat l) d = nth j (nth i l []) d /\ length (concat l) = (length l * m)%nat.
Proof.
  revert i. induction l as [|x l IH]; intros i Hl Hi Hj; cbn in Hi; [lia|]. cbn [concat]. rewrite app_length. assert (Hx : length x = m) by (apply Hl; now left).
  assert (Hlen : length (concat l) = (length l * m)%nat).
  { clear IH Hi. induction l as [|y l IH]; [reflexivity|]. cbn. rewrite app_length, (Hl y) by (right; now left). rewrite IH; [lia|]. intros z [->|Hz]; apply Hl; [now left|right; now right]. }
  split; [|cbn; lia]. destruct i as [|i]; [cbn [nth]; rewrite app_nth1 by lia; reflexivity|]. rewrite app_nth2 by nia. cbn [nth]. rewrite <- (proj1 (IH i ltac:(intros; apply Hl; now right) ltac:(lia) Hj)). f_equal. nia.
Qed.

Lemma ddiv_nz (x y : R) : y <> 0 -> ddiv x y = Ok (x / y).
Proof. intros H. unfold ddiv. cbn [seq_ s0 sdiv R_ops]. rewrite Reqb_false by exact H. reflexivity. Qed.

Section Patch.
  Context {P : Type} (s : patch_ops R P) (nu nv : Z).
  Hypothesis Hu : (2 <= nu)%Z.
  Hypothesis Hv : (2 <= nv)%Z.
  Definition grid_u (i : nat) : R := s_ulo s + (s_uhi s - s_ulo s) * (IZR (Z.of_nat i) / IZR (nu - 1)).
  Definition grid_v (j : nat) : R := s_vlo s + (s_vhi s - s_vlo s) * (IZR (Z.of_nat j) / IZR (nv - 1)).


  Lemma lift_row (g : nat -> res P) l y : Forall2 (fun k b => bind (g k) (fun p => Ok (ObjV p)) = Ok b) l y -> exists row, y = map ObjV row /\ Forall2 (fun k p => g k = Ok p) l row.
  Proof.
    revert y. induction l as [|k l IH]; intros y H; inversion H; subst; [exists []; split; [reflexivity|constructor]|]. destruct (IH _ H4) as (row & -> & R2).
    apply bind_inv in H2. destruct H2 as (p & Ep & H2). apply Ok_inj in H2. subst. exists (p :: row). split; [reflexivity|]. constructor; assumption.
  Qed.
  Lemma points_map (l : list P) : obj_points (map ObjV l) = l.
  Proof. induction l as [|p l IH]; [reflexivity|]. cbn. now rewrite <- IH at 2. Qed.
  Lemma segments_map (l : list P) : obj_segments (map ObjV l) = [].
  Proof. induction l as [|p l IH]; [reflexivity|]. exact IH. Qed.
  Lemma faces_map (l : list P) : obj_faces (map ObjV l) = [].
  Proof. induction l as [|p l IH]; [reflexivity|]. exact IH. Qed.
  Definition ObjF' (q : Z * Z * Z * Z) : obj_line P := let '(a, b, c, d) := q in ObjF a b c d.
  Lemma fpoints_map l : obj_points (map ObjF' l) = [].
  Proof. induction l as [|[[[? ?] ?] ?] l IH]; [reflexivity|]. exact IH. Qed.
  Lemma fsegments_map l : obj_segments (map ObjF' l) = [].
  Proof. induction l as [|[[[? ?] ?] ?] l IH]; [reflexivity|]. exact IH. Qed.
  Lemma ffaces_map l : obj_faces (map ObjF' l) = l.
  Proof. induction l as [|[[[? ?] ?] ?] l IH]; [reflexivity|]. cbn. now rewrite <- IH at 2. Qed.

  Lemma export_patch_spec offset ls off' : export_patch_obj s nu nv offset = Ok (ls, off') ->
    off' = (offset + nu * nv)%Z /\ length (obj_points ls) = (Z.to_nat nu * Z.to_nat nv)%nat /\
    (forall i j, (i < Z.to_nat nu)%nat -> (j < Z.to_nat nv)%nat -> exists p, nth_error (obj_points ls) (i * Z.to_nat nv + j) = Some p /\ s_eval s (grid_u i) (grid_v j) = Ok p) /\
    obj_segments ls = [] /\
    (forall a b c d, In (a, b, c, d) (obj_faces ls) <-> exists i j, (0 <= i < nu - 1)%Z /\ (0 <= j < nv - 1)%Z /\
      a = (offset + 1 + i * nv + j)%Z /\ b = (a + nv)%Z /\ c = (a + nv + 1)%Z /\ d = (a + 1)%Z) /\
    length (obj_faces ls) = (Z.to_nat (nu - 1) * Z.to_nat (nv - 1))%nat.
  Proof.
    unfold export_patch_obj. intros E. apply bind_inv in E. destruct E as (vs & Ev & E). apply bind_inv in E. destruct E as (fs & Ef & E).
    apply Ok_inj in E. pose proof (f_equal fst E) as E1. pose proof (f_equal snd E) as E2. cbn [fst snd] in E1, E2. subst ls off'. clear E.
    apply tabulate_map in Ev.
    assert (HV : exists rows : list (list P), concat vs = map ObjV (concat rows) /\
      Forall2 (fun k row => Forall2 (fun j p => s_eval s (grid_u k) (grid_v j) = Ok p) (seq 0 (Z.to_nat nv)) row) (seq 0 (Z.to_nat nu)) rows).
    { clear Ef. revert vs Ev. generalize (seq 0 (Z.to_nat nu)). induction l as [|k l IH]; intros vs H; inversion H; subst; [exists []; split; [reflexivity|constructor]|].
      destruct (IH _ H4) as (rows & R1 & R2). rewrite ddiv_nz in H2 by (cbn [sofZ R_ops]; apply not_0_IZR; lia). rewrite bind_Ok in H2. cbv zeta in H2. apply tabulate_map in H2.
      assert (H2' : Forall2 (fun j b => bind (s_eval s (grid_u k) (grid_v j)) (fun p => Ok (ObjV p)) = Ok b) (seq 0 (Z.to_nat nv)) y).
      { eapply Forall2_weaken; [|exact H2]. intros j b Hj. cbv beta in Hj. rewrite ddiv_nz in Hj by (cbn [sofZ R_ops]; apply not_0_IZR; lia). exact Hj. }
      apply lift_row in H2'. destruct H2' as (row & -> & R3). exists (row :: rows). cbn [concat]. rewrite R1, map_app. split; [reflexivity|]. constructor; assumption. }
    assert (HF : fs = mklist (nu - 1) (fun ui => map ObjF' (mklist (nv - 1) (fun vi => let a := (offset + 1 + ui * nv + vi)%Z in (a, a + nv, a + nv + 1, a + 1)%Z)))).
    { rewrite (tabulate_Ok _ _ (fun ui => map ObjF' (mklist (nv - 1) (fun vi => let a := (offset + 1 + ui * nv + vi)%Z in (a, a + nv, a + nv + 1, a + 1)%Z)))) in Ef; [apply Ok_inj in Ef; now symmetry|lia|].
      intros ui Hui. rewrite (tabulate_Ok _ _ (fun vi => ObjF' (let a := (offset + 1 + ui * nv + vi)%Z in (a, a + nv, a + nv + 1, a + 1)%Z))); [rewrite map_mklist; reflexivity|lia|].
      intros vi Hvi. cbn [ObjF']. f_equal. f_equal; ring. }
    destruct HV as (rows & HV1 & HV2). set (Fs := mklist (nu - 1) (fun ui => mklist (nv - 1) (fun vi => let a := (offset + 1 + ui * nv + vi)%Z in (a, a + nv, a + nv + 1, a + 1)%Z))).
    assert (HF' : concat fs = map ObjF' (concat Fs)) by (rewrite HF, <- map_mklist, concat_map; reflexivity).
    rewrite HV1, HF', points_app, segments_app, faces_app, points_map, segments_map, faces_map, fpoints_map, fsegments_map, ffaces_map, app_nil_r. cbn [app].
    assert (Hrl : length rows = Z.to_nat nu) by (apply Forall2_len in HV2; rewrite <- HV2; apply seq_length).
    assert (Hrow : forall x, In x rows -> length x = Z.to_nat nv).
    { clear -HV2. revert HV2. generalize (seq 0 (Z.to_nat nu)). intros l H. induction H as [|k row l rs Hk H IH]; intros x Hx; [destruct Hx|]. destruct Hx as [<-|Hx]; [apply Forall2_len in Hk; rewrite <- Hk; apply seq_length|now apply IH]. }
    split; [reflexivity|]. split; [|split; [|split; [reflexivity|split]]].
    - clear -Hrl Hrow. rewrite <- Hrl. clear Hrl. induction rows as [|r rows IH]; [reflexivity|]. cbn. rewrite app_length, (Hrow r) by now left. rewrite IH; [reflexivity|]. intros x Hx. apply Hrow. now right.
    - intros i j Hi Hj.
      assert (Hnr : exists row, nth_error rows i = Some row /\ Forall2 (fun j p => s_eval s (grid_u i) (grid_v j) = Ok p) (seq 0 (Z.to_nat nv)) row).
      { destruct (Forall2_nth_seq _ _ _ _ _ HV2 Hi) as (row & A & B). exists row. split; [exact A|exact B]. }
      destruct Hnr as (row & A & B). destruct (Forall2_nth_seq _ _ _ _ _ B Hj) as (p & Ap & Bp). exists p. split; [|exact Bp].
      clear -A Ap Hrow Hj. revert i A. induction rows as [|r rows IH]; intros i A; [destruct i; discriminate|]. cbn [concat]. assert (Hr : length r = Z.to_nat nv) by (apply Hrow; now left).
      destruct i as [|i]; cbn in A; [injection A as ->; cbn [Nat.mul Nat.add]; rewrite nth_error_app1 by lia; exact Ap|].
      rewrite nth_error_app2 by nia. replace (S i * Z.to_nat nv + j - length r)%nat with (i * Z.to_nat nv + j)%nat by nia. apply IH; [|exact A]. intros x Hx. apply Hrow. now right.
    - intros a b c d. unfold Fs, mklist. rewrite in_concat. split.
      + intros (x & Hx & Hin). apply in_map_iff in Hx. destruct Hx as (i & <- & Hi). apply in_map_iff in Hin. destruct Hin as (j & Hj & Hj'). apply in_seq in Hi, Hj'.
        cbv zeta in Hj. injection Hj as <- <- <- <-. exists (Z.of_nat i), (Z.of_nat j). repeat split; try lia; try reflexivity.
      + intros (i & j & Hi & Hj & -> & -> & -> & ->). eexists. split; [apply in_map_iff; exists (Z.to_nat i); split; [reflexivity|apply in_seq; lia]|].
        apply in_map_iff. exists (Z.to_nat j). rewrite !Z2Nat.id by lia. split; [reflexivity|apply in_seq; lia].
    - unfold Fs, mklist. generalize (seq_length (Z.to_nat (nu - 1)) 0). generalize (seq 0 (Z.to_nat (nu - 1))). generalize (Z.to_nat (nu - 1)). clear. intros n l. revert n. induction l as [|k l IH]; intros n <-; [reflexivity|].
      cbn [map concat length]. rewrite app_length, map_length, seq_length, (IH _ eq_refl). reflexivity.
  Qed.
End Patch.

Lemma save_patch_ok {P} (s : patch_ops R P) nu nv file : (2 <= nu)%Z -> (2 <= nv)%Z -> save_patch_obj s nu nv = Ok file ->
  length (obj_points file) = (Z.to_nat nu * Z.to_nat nv)%nat /\
  (forall i j, (i < Z.to_nat nu)%nat -> (j < Z.to_nat nv)%nat -> exists p, nth_error (obj_points file) (i * Z.to_nat nv + j) = Some p /\
     s_eval s (s_ulo s + (s_uhi s - s_ulo s) * (IZR (Z.of_nat i) / IZR (nu - 1))) (s_vlo s + (s_vhi s - s_vlo s) * (IZR (Z.of_nat j) / IZR (nv - 1))) = Ok p) /\
  (forall a b c d, In (a, b, c, d) (obj_faces file) <-> exists i j, (0 <= i < nu - 1)%Z /\ (0 <= j < nv - 1)%Z /\
      a = (1 + i * nv + j)%Z /\ b = (a + nv)%Z /\ c = (a + nv + 1)%Z /\ d = (a + 1)%Z) /\
  length (obj_faces file) = (Z.to_nat (nu - 1) * Z.to_nat (nv - 1))%nat.
Proof.
  intros Hu Hv E. unfold save_patch_obj in E. apply bind_inv in E. destruct E as ([ls n] & E1 & E). apply Ok_inj in E. subst file.
  apply (export_patch_spec s nu nv Hu Hv) in E1. destruct E1 as (_ & A & B & _ & C & D). auto.
Qed.
Lemma save_patches_bad {P} (ss : list (patch_ops R P)) file : save_patches_obj ss = Ok file -> (3 <= length ss)%nat ->
  exists a b c d, In (a, b, c, d) (obj_faces file) /\ (Z.of_nat (length (obj_points file)) < c)%Z.
Proof.
  intros E H. unshelve epose proof (loop_bad _ 10000 (fun f k => exists a b d, In (a, b, k, d) (obj_faces f)) _ _ _ _ ss file E H) as Hb; [lia| | | |destruct Hb as (k & (a & b & d & Hi) & Hk); exists a, b, k, d; split; assumption].
  - intros c offset ls off' Ee. apply (export_patch_spec c 100 100) in Ee; [|lia|lia]. destruct Ee as (A & B & _ & _ & C & _). split; [exact A|]. split; [rewrite B; lia|].
    do 3 eexists. apply C. exists 98%Z, 98%Z. repeat split; try lia; try reflexivity.
  - intros a b k (x & y & z & Hi). exists x, y, z. rewrite faces_app. apply in_app_iff. now left.
  - intros a b k (x & y & z & Hi). exists x, y, z. rewrite faces_app. apply in_app_iff. now right.
Qed.

Lemma Forall2_in_r {A B} (Q : A -> B -> Prop) l l' b : Forall2 Q l l' -> In b l' -> exists a, In a l /\ Q a b.
Proof. induction 1 as [|x y l l' Hxy H IH]; intros Hb; [destruct Hb|]. destruct Hb as [<-|Hb]; [exists x; split; [now left|exact Hxy]|]. destruct (IH Hb) as (a & Ha & Hq). exists a. split; [now right|exact Hq]. Qed.
Lemma save_curve_range {P} (c : curve_ops R P) file : save_obj_curve c = Ok file ->
  forall p, In p (obj_points file) -> exists t, 0 <= t < 1 /\ c_eval c t = Ok p.
Proof.
  intros E p Hp. destruct (save_curve_ok _ _ E) as (F & _). destruct (Forall2_in_r _ _ _ _ F Hp) as (k & Hk & Ek). apply in_seq in Hk.
  exists (IZR (Z.of_nat k) / 100). split; [|exact Ek]. rewrite <- INR_IZR_INZ. pose proof (pos_INR k). assert (INR k < 100) by (replace 100 with (INR 100) by (rewrite INR_IZR_INZ; reflexivity); apply lt_INR; lia). split; lra.
Qed.

Definition shifted : line R (vec R 2) := {| ln_location := ((0, (0, tt)) : vec R 2); ln_direction := ((1, (0, tt)) : vec R 2); ln_lower := 2; ln_upper := 3 |}.
Lemma save_curve_off : exists (c : line R (vec R 2)) file, ln_lower c = 2 /\ ln_upper c = 3 /\ save_obj_curve (ln_ops c) = Ok file /\
  forall p t, In p (obj_points file) -> ln_in_domain c t = true -> ln_evaluate c t <> Ok p.
Proof.
  assert (He : exists file, save_obj_curve (ln_ops shifted) = Ok file).
  { unfold save_obj_curve, export_obj.
    rewrite (tabulate_Ok 100 _ (fun i => ObjV (padd (ln_location shifted) (pmul (IZR i / 100) (ln_direction shifted))))); [|lia|intros i Hi; rewrite ddiv_nz by (cbn [sofZ R_ops]; lra); reflexivity].
    rewrite bind_Ok. rewrite (tabulate_Ok (100 - 1) _ (fun i => ObjL (i + 0 + 1) (i + 0 + 2))) by (try lia; reflexivity). rewrite !bind_Ok. eexists. reflexivity. }
  destruct He as (file & E). exists shifted, file. split; [reflexivity|]. split; [reflexivity|]. split; [exact E|].
  intros p t Hp Ht Ev. destruct (save_curve_range _ _ E _ Hp) as (x & Hx & Ex). unfold ln_in_domain in Ht. cbn [ln_lower ln_upper shifted sle R_ops] in Ht.
  apply andb_prop in Ht. destruct Ht as (H2 & H3). assert (2 <= t) by (destruct (Rleb_spec 2 t); [assumption|discriminate]).
  cbn [ln_ops c_eval] in Ex. rewrite <- Ev in Ex. unfold ln_evaluate in Ex. apply Ok_inj in Ex. apply (f_equal fst) in Ex. cbn in Ex. lra.
Qed.
Lemma save_patch_corners {P} (s : patch_ops R P) nu nv file : (2 <= nu)%Z -> (2 <= nv)%Z -> save_patch_obj s nu nv = Ok file ->
  exists p00 p01 p10 p11, s_eval s (s_ulo s) (s_vlo s) = Ok p00 /\ s_eval s (s_ulo s) (s_vhi s) = Ok p01 /\
    s_eval s (s_uhi s) (s_vlo s) = Ok p10 /\ s_eval s (s_uhi s) (s_vhi s) = Ok p11 /\
    In p00 (obj_points file) /\ In p01 (obj_points file) /\ In p10 (obj_points file) /\ In p11 (obj_points file).
Proof.
  intros Hu Hv E. destruct (save_patch_ok _ _ _ _ Hu Hv E) as (_ & H & _).
  assert (Hg : forall lo hi n, (2 <= n)%Z -> lo + (hi - lo) * (IZR (Z.of_nat 0) / IZR (n - 1)) = lo /\ lo + (hi - lo) * (IZR (Z.of_nat (Z.to_nat n - 1)) / IZR (n - 1)) = hi).
  { intros lo hi n Hn. assert (Hz : IZR (n - 1) <> 0) by (apply not_0_IZR; lia). split; [cbn; field; exact Hz|]. replace (Z.of_nat (Z.to_nat n - 1)) with (n - 1)%Z by lia. field. exact Hz. }
  destruct (Hg (s_ulo s) (s_uhi s) nu Hu) as (U0 & U1). destruct (Hg (s_vlo s) (s_vhi s) nv Hv) as (V0 & V1).
  destruct (H 0%nat 0%nat ltac:(lia) ltac:(lia)) as (p00 & N00 & E00). destruct (H 0%nat (Z.to_nat nv - 1)%nat ltac:(lia) ltac:(lia)) as (p01 & N01 & E01).
  destruct (H (Z.to_nat nu - 1)%nat 0%nat ltac:(lia) ltac:(lia)) as (p10 & N10 & E10). destruct (H (Z.to_nat nu - 1)%nat (Z.to_nat nv - 1)%nat ltac:(lia) ltac:(lia)) as (p11 & N11 & E11).
  rewrite U0, V0 in E00. rewrite U0, V1 in E01. rewrite U1, V0 in E10. rewrite U1, V1 in E11. exists p00, p01, p10, p11.
  repeat (split; [assumption|]). repeat split; eapply nth_error_In; eassumption.
Qed.
