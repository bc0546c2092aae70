From Coq Require Import List ZArith Reals Lra Lia Bool.
From Verif Require Import Monad MonadFacts Scalar ScalarFacts ModelCurve ModelPatchBase.
From Verif Require Import LineThms ModelMsh SpecMsh ModelExport ExportThms MshThms2.
Import ListNotations.
Local Open Scope Z_scope.

Lemma consecutive_app a n m : (consecutive a n ++ consecutive (a + Z.of_nat n) m)%list = consecutive a (n + m).
Proof.
  unfold consecutive. rewrite seq_app, map_app. f_equal. cbn [Nat.add].
  replace (seq n m) with (map (fun k => (n + k)%nat) (seq 0 m)).
  - rewrite map_map. apply map_ext. intros k. lia.
  - clear. induction m as [|m IH] using nat_ind; [reflexivity|]. rewrite !seq_S, map_app, IH. cbn. f_equal.
Qed.
Lemma consecutive_len a n : length (consecutive a n) = n.
Proof. unfold consecutive. now rewrite map_length, seq_length. Qed.
Lemma consecutive_nth a n k : (k < n)%nat -> nth k (consecutive a n) 0 = a + Z.of_nat k + 1.
Proof.
  intros H. unfold consecutive. rewrite (nth_indep _ 0 (a + Z.of_nat 0 + 1)) by (rewrite map_length, seq_length; lia).
  rewrite (map_nth (fun k => a + Z.of_nat k + 1)), seq_nth by lia. reflexivity.
Qed.

Lemma entries_added l n off tag : l <> [] -> 0 <= n ->
  concat (map ed_entries (add_entries l n off tag)) = (concat (map ed_entries l) ++ map (fun k => (off + Z.of_nat k + 1, tag)) (seq 0 (Z.to_nat n)))%list /\
  (Forall (fun e => ed_num e = zlen (ed_entries e)) l -> Forall (fun e => ed_num e = zlen (ed_entries e)) (add_entries l n off tag)).
Proof.
  intros Hne Hn. destruct (exists_last Hne) as (l0 & e & ->). unfold add_entries. rewrite rev_app_distr. cbn [rev app]. rewrite rev_involutive. split.
  - rewrite !map_app, !concat_app. cbn. rewrite !app_nil_r, app_assoc. reflexivity.
  - intros F. apply Forall_app in F. destruct F as (F1 & F2). apply Forall_app. split; [exact F1|]. inversion F2; subst. constructor; [|constructor]. cbn. unfold zlen in *. rewrite app_length, map_length, seq_length. lia.
Qed.

Lemma sample_step lo hi n i : (0 < n)%nat -> sample_at lo hi (Z.of_nat n) (Z.of_nat i) = Ok (step_at lo hi n i).
Proof.
  intros Hn. unfold sample_at. cbn [sofZ R_ops]. rewrite ddiv_nz; [|apply not_0_IZR; lia]. cbn [bind]. f_equal. unfold step_at. rewrite !INR_IZR_INZ. cbn [sadd smul ssub s1 R_ops]. ring.
Qed.
Lemma sample_zero lo hi i : sample_at lo hi 0 i = @NonFinite R.
Proof. unfold sample_at, ddiv. cbn [sofZ R_ops seq_ s0]. unfold Reqb. destruct (Req_EM_T (IZR 0) 0); [reflexivity|congruence]. Qed.

Section Mesh.
  Context {d : nat} (Hd : d = 2%nat \/ d = 3%nat).
  Lemma node_data_ok (p : vec R d) : node_data p = Ok (node p).
  Proof. destruct Hd as [-> | ->]; [destruct p as [x [y []]]|destruct p as [x [y [z []]]]]; reflexivity. Qed.

  Lemma numbered_empty : numbered empty_spec [].
  Proof. repeat split; try reflexivity; try constructor; cbn; lia. Qed.
  Lemma numbered_same (s s' : msh_spec R) bl : numbered s bl ->
    ms_node_blocks s' = ms_node_blocks s -> ms_num_node_blocks s' = ms_num_node_blocks s -> ms_num_nodes s' = ms_num_nodes s -> ms_max_node s' = ms_max_node s ->
    ms_element_blocks s' = ms_element_blocks s -> ms_num_element_blocks s' = ms_num_element_blocks s -> ms_num_elements s' = ms_num_elements s ->
    ms_max_element s' = ms_max_element s -> ms_element_data s' = ms_element_data s -> numbered s' bl.
  Proof. unfold numbered. intros H -> -> -> -> -> -> -> -> ->. exact H. Qed.

  (** Appending a part whose nodes and elements continue the numbering. *)
  Lemma numbered_app (s s' : msh_spec R) bl b data n m tag :
    numbered s bl -> well_cut b ->
    kb_tags (part_nodes b) = consecutive (ms_num_nodes s) n -> part_numbers b = consecutive (ms_num_elements s) m -> eb_tag (part_elements b) = tag ->
    ms_node_blocks s' = (ms_node_blocks s ++ [part_nodes b])%list -> ms_element_blocks s' = (ms_element_blocks s ++ [part_elements b])%list ->
    ms_num_node_blocks s' = ms_num_node_blocks s + 1 -> ms_num_element_blocks s' = ms_num_element_blocks s + 1 ->
    ms_num_nodes s' = ms_num_nodes s + Z.of_nat n -> ms_max_node s' = ms_max_node s + Z.of_nat n ->
    ms_num_elements s' = ms_num_elements s + Z.of_nat m -> ms_max_element s' = ms_max_element s + Z.of_nat m ->
    data <> [] -> concat (map ed_entries data) = concat (map ed_entries (ms_element_data s)) -> Forall (fun e => ed_num e = zlen (ed_entries e)) data ->
    ms_element_data s' = add_entries data (Z.of_nat m) (ms_num_elements s) tag ->
    numbered s' (bl ++ [b]).
  Proof.
    intros (A1 & A2 & A3 & A4 & A5 & A6 & A7 & A8 & A9 & A10 & A11 & A12 & A13) W Hn Hm Ht E1 E2 E3 E4 E5 E6 E7 E8 D1 D2 D3 E9. unfold numbered.
    rewrite E1, E2, E3, E4, E5, E6, E7, E8, !map_app, !concat_app, A1, A2, A3, A4. cbn [map concat]. rewrite !app_nil_r. unfold zlen. rewrite app_length. cbn [length].
    destruct (entries_added data (Z.of_nat m) (ms_num_elements s) tag D1 ltac:(lia)) as (X1 & X2). rewrite Nat2Z.id in X1.
    repeat split; try lia.
    - apply Forall_app. split; [exact A5|]. constructor; [exact W|constructor].
    - rewrite A6, Hn. rewrite <- (Z2Nat.id (ms_num_nodes s)) at 2 by lia. etransitivity; [apply (consecutive_app 0)|]. f_equal. lia.
    - rewrite A9, Hm. rewrite <- (Z2Nat.id (ms_num_elements s)) at 2 by lia. etransitivity; [apply (consecutive_app 0)|]. f_equal. lia.
    - rewrite E9, X1, D2, A12. f_equal. unfold part_entries. rewrite Hm, Ht. unfold consecutive. rewrite map_map. reflexivity.
    - rewrite E9. apply X2. exact D3.
  Qed.

  Lemma forall2_split {A B C} (f : A -> B) (Q : A -> C -> Prop) (g : A -> res (B * C)) l r :
    (forall a y, g a = Ok y -> fst y = f a /\ Q a (snd y)) ->
    Forall2 (fun a y => g a = Ok y) l r -> map fst r = map f l /\ Forall2 Q l (map snd r).
  Proof.
    intros H. induction 1 as [|a y l r Hay _ (IH1 & IH2)]; [split; constructor|]. destruct (H _ _ Hay) as (E & HQ). cbn. rewrite E, IH1. split; [reflexivity|constructor; assumption].
  Qed.

  Lemma curve_step (s s' : msh_spec R) ops n tag bl : (0 < n)%nat -> numbered s bl -> add_curve_sampled s ops (Z.of_nat n) tag = Ok s' ->
    exists b, numbered s' (bl ++ [b]) /\ samples_curve (d := d) n tag ops b.
  Proof.
    intros Hn Hs. unfold add_curve_sampled. destruct (tabulate _ _) as [nodes| | |] eqn:Et; cbn [bind]; try discriminate. intros H. apply Ok_inj in H.
    unfold tabulate in Et. apply mapM_map in Et. replace (Z.to_nat (Z.of_nat n + 1)) with (S n) in Et by lia.
    apply (forall2_split (fun k => ms_max_node s + Z.of_nat k + 1) (fun i x => exists p, c_eval ops (step_at (c_lower ops) (c_upper ops) n i) = Ok p /\
        x = (node p ++ [step_at (c_lower ops) (c_upper ops) n i])%list)) in Et.
    2:{ intros i y. rewrite sample_step by exact Hn. cbn [bind]. destruct (c_eval ops _) as [p| | |]; cbn [bind]; try discriminate. rewrite node_data_ok. cbn [bind].
        intros E. apply Ok_inj in E. subst y. split; [reflexivity|]. exists p. split; reflexivity. }
    destruct Et as (T1 & T2).
    pose proof Hs as (_ & _ & _ & _ & _ & _ & Hmx & _ & _ & Hme & _).
    set (pieces := map (fun k => let i := Z.of_nat k in [ms_max_element s + i + 1; ms_max_node s + i + 1; ms_max_node s + i + 2]) (seq 0 (Z.to_nat (Z.of_nat n)))) in *.
    eexists (( {| kb_dim := 1; kb_tag := tag; kb_num := Z.of_nat n + 1; kb_tags := map fst nodes; kb_data := concat (map snd nodes) |},
              {| eb_dim := 1; eb_tag := tag; eb_type := 1; eb_num := Z.of_nat n; eb_data := concat pieces |}), pieces).
    assert (Tg : map fst nodes = consecutive (ms_num_nodes s) (S n)) by (rewrite T1, Hmx; reflexivity).
    split.
    - eapply (numbered_app s s' bl _ (match ms_element_data s with [] => [{| ed_patch := false; ed_num := 0; ed_entries := [] |}] | l => l end) (S n) n tag Hs); try (rewrite <- H; cbn; try reflexivity; lia).
      + unfold well_cut. cbn. repeat split.
        * unfold pieces, zlen. rewrite map_length, seq_length. lia.
        * rewrite Tg. unfold zlen. rewrite consecutive_len. lia.
      + cbn. exact Tg.
      + cbn. unfold part_numbers, consecutive. cbn. unfold pieces. rewrite map_map, Nat2Z.id, Hme. reflexivity.
      + reflexivity.
      + destruct (ms_element_data s); discriminate.
      + destruct (ms_element_data s); reflexivity.
      + destruct Hs as (_ & _ & _ & _ & _ & _ & _ & _ & _ & _ & _ & _ & F). destruct (ms_element_data s); [|exact F]. constructor; [reflexivity|constructor].
      + rewrite <- H. cbn. rewrite Hme. reflexivity.
    - unfold samples_curve. cbn. repeat split.
      + exists (map snd nodes). split; [exact T2|reflexivity].
      + rewrite Tg. apply consecutive_len.
      + rewrite Tg. unfold pieces. rewrite map_map, Nat2Z.id. apply map_ext_in. intros k Hk. apply in_seq in Hk. cbn [tl]. rewrite !consecutive_nth by lia. rewrite Hmx. repeat (f_equal; try lia).
  Qed.

  Lemma flat_concat {A B} (f : A -> list B) l : flat_map f l = concat (map f l).
  Proof. induction l as [|a l IH]; [reflexivity|]. cbn. rewrite IH. reflexivity. Qed.
  (** Rows of consecutive numbers make consecutive numbers. *)
  Lemma consecutive_rows a n m : concat (map (fun i => map (fun j => a + Z.of_nat i * Z.of_nat m + Z.of_nat j + 1) (seq 0 m)) (seq 0 n)) = consecutive a (n * m).
  Proof.
    induction n as [|n IH]; [reflexivity|]. rewrite seq_S, map_app, concat_app, IH. cbn [map concat Nat.add]. rewrite app_nil_r.
    replace (S n * m)%nat with (n * m + m)%nat by lia. rewrite <- consecutive_app. f_equal. unfold consecutive. apply map_ext. intros k. lia.
  Qed.
  Lemma rows_len {A B} (f : A -> list B) l m : (forall a, In a l -> length (f a) = m) -> length (concat (map f l)) = (length l * m)%nat.
  Proof. induction l as [|a l IH]; intros H; [reflexivity|]. cbn [map concat]. rewrite app_length, IH, (H a); [reflexivity|now left|]. intros b Hb. apply H. now right. Qed.
  Lemma map_concat {A B} (f : A -> B) l : map f (concat l) = concat (map (map f) l).
  Proof. induction l as [|a l IH]; [reflexivity|]. cbn. rewrite map_app, IH. reflexivity. Qed.

  Lemma patch_step (s s' : msh_spec R) ops nu nv tag bl : (0 < nu)%nat -> (0 < nv)%nat -> numbered s bl ->
    add_patch_sampled s ops (Z.of_nat nu) (Z.of_nat nv) tag = Ok s' ->
    exists b, numbered s' (bl ++ [b]) /\ samples_patch (d := d) nu nv tag ops b.
  Proof.
    intros Hnu Hnv Hs. unfold add_patch_sampled. destruct (tabulate _ _) as [nodes| | |] eqn:Et; cbn [bind]; try discriminate. intros H. apply Ok_inj in H.
    unfold tabulate in Et at 1. apply mapM_map in Et. replace (Z.to_nat (Z.of_nat nu + 1)) with (S nu) in Et by lia.
    assert (Ht : map (map fst) nodes = map (fun i => map (fun j => ms_max_node s + Z.of_nat i * Z.of_nat (S nv) + Z.of_nat j + 1) (seq 0 (S nv))) (seq 0 (S nu)) /\
      Forall2 (fun i row => Forall2 (fun j x => exists p,
          s_eval ops (step_at (s_ulo ops) (s_uhi ops) nu i) (step_at (s_vlo ops) (s_vhi ops) nv j) = Ok p /\
          x = (node p ++ [step_at (s_ulo ops) (s_uhi ops) nu i; step_at (s_vlo ops) (s_vhi ops) nv j])%list)
        (seq 0 (S nv)) row) (seq 0 (S nu)) (map (map snd) nodes)).
    { clear H. induction Et as [|i row l rows Hrow _ (IH1 & IH2)]; [split; constructor|]. rewrite sample_step in Hrow by exact Hnu. cbn [bind] in Hrow.
      unfold tabulate in Hrow. apply mapM_map in Hrow. replace (Z.to_nat (Z.of_nat nv + 1)) with (S nv) in Hrow by lia.
      apply (forall2_split (fun j => ms_max_node s + Z.of_nat i * Z.of_nat (S nv) + Z.of_nat j + 1) (fun j x => exists p,
          s_eval ops (step_at (s_ulo ops) (s_uhi ops) nu i) (step_at (s_vlo ops) (s_vhi ops) nv j) = Ok p /\
          x = (node p ++ [step_at (s_ulo ops) (s_uhi ops) nu i; step_at (s_vlo ops) (s_vhi ops) nv j])%list)) in Hrow.
      2:{ intros j y. rewrite sample_step by exact Hnv. cbn [bind]. destruct (s_eval ops _ _) as [p| | |]; cbn [bind]; try discriminate. rewrite node_data_ok. cbn [bind].
          intros E. apply Ok_inj in E. subst y. split; [cbn [fst]; lia|]. exists p. split; reflexivity. }
      destruct Hrow as (R1 & R2). cbn [map]. rewrite R1, IH1. split; [reflexivity|]. constructor; assumption. }
    destruct Ht as (T1 & T2).
    pose proof Hs as (_ & _ & _ & _ & _ & _ & Hmx & _ & _ & Hme & _).
    match type of H with context [flat_map ?f ?l] => set (pieces := flat_map f l) in * end.
    assert (Hp : pieces = concat (map (fun k => map (fun m => [ms_max_element s + Z.of_nat k * Z.of_nat nv + Z.of_nat m + 1;
           ms_max_node s + Z.of_nat k * (Z.of_nat nv + 1) + Z.of_nat m + 1;
           ms_max_node s + (Z.of_nat k + 1) * (Z.of_nat nv + 1) + Z.of_nat m + 1;
           ms_max_node s + (Z.of_nat k + 1) * (Z.of_nat nv + 1) + Z.of_nat m + 2;
           ms_max_node s + Z.of_nat k * (Z.of_nat nv + 1) + Z.of_nat m + 2]) (seq 0 nv)) (seq 0 nu))).
    { unfold pieces. rewrite flat_concat, !Nat2Z.id. reflexivity. }
    eexists (( {| kb_dim := 2; kb_tag := tag; kb_num := (Z.of_nat nu + 1) * (Z.of_nat nv + 1); kb_tags := map fst (concat nodes); kb_data := concat (map snd (concat nodes)) |},
              {| eb_dim := 2; eb_tag := tag; eb_type := 3; eb_num := Z.of_nat nu * Z.of_nat nv; eb_data := concat pieces |}), pieces).
    assert (Tg : map fst (concat nodes) = consecutive (ms_num_nodes s) (S nu * S nv)) by (rewrite map_concat, T1, Hmx; apply consecutive_rows).
    split.
    - eapply (numbered_app s s' bl _ (if (length (ms_element_data s) <=? 1)%nat then (ms_element_data s ++ [{| ed_patch := true; ed_num := 0; ed_entries := [] |}])%list else ms_element_data s)
        (S nu * S nv) (nu * nv) tag Hs); try (rewrite <- H; cbn -[Z.mul Z.add Nat.mul Z.of_nat]; try reflexivity; lia).
      + unfold well_cut. cbn -[Z.mul Z.add Nat.mul Z.of_nat]. repeat split.
        * rewrite Hp. unfold zlen. rewrite (rows_len _ _ nv), seq_length by (intros; rewrite map_length, seq_length; reflexivity). lia.
        * rewrite Tg. unfold zlen. rewrite consecutive_len. lia.
      + exact Tg.
      + unfold part_numbers. cbn [part_pieces snd]. rewrite Hp, map_concat, map_map. rewrite <- consecutive_rows. f_equal. apply map_ext. intros i. rewrite map_map. apply map_ext. intros j. cbn [hd]. lia.
      + reflexivity.
      + destruct (_ <=? _)%nat eqn:E; [destruct (ms_element_data s); discriminate|]. destruct (ms_element_data s); [discriminate|discriminate].
      + destruct (_ <=? _)%nat; [|reflexivity]. rewrite map_app, concat_app. cbn. now rewrite app_nil_r.
      + destruct Hs as (_ & _ & _ & _ & _ & _ & _ & _ & _ & _ & _ & _ & F). destruct (_ <=? _)%nat; [|exact F]. apply Forall_app. split; [exact F|]. constructor; [reflexivity|constructor].
      + rewrite <- H. cbn [ms_element_data]. rewrite Hme. f_equal. lia.
    - unfold samples_patch. cbn [part_nodes part_elements part_pieces fst snd kb_tag kb_dim kb_tags kb_data eb_type]. repeat split.
      + exists (map (map snd) nodes). split; [exact T2|]. rewrite <- map_concat. reflexivity.
      + rewrite Tg. apply consecutive_len.
      + rewrite Tg, Hp, map_concat, map_map. f_equal. apply map_ext_in. intros i Hi. apply in_seq in Hi. rewrite map_map. apply map_ext_in. intros j Hj. apply in_seq in Hj. cbn [tl].
        rewrite !consecutive_nth by nia. rewrite Hmx. repeat (f_equal; try lia).
  Qed.

  Lemma add_curve_mesh (s s' : msh_spec R) (c : curve R d) tag bl : numbered s bl -> add_curve s c tag = Ok s' -> numbered s' bl.
  Proof.
    intros Hs. unfold add_curve. destruct (curve_record _ _); cbn [bind]; try discriminate. intros H. apply Ok_inj in H. subst s'. eapply numbered_same; [exact Hs|..]; reflexivity.
  Qed.
  Lemma add_patch_mesh (s s' : msh_spec R) (c : patch R d) tag bl : numbered s bl -> add_patch s c tag = Ok s' -> numbered s' bl.
  Proof.
    intros Hs. unfold add_patch. destruct (patch_record _ _); cbn [bind]; try discriminate. intros H. apply Ok_inj in H. subst s'. eapply numbered_same; [exact Hs|..]; reflexivity.
  Qed.

  Lemma curves_mesh (cs : list (curve R d * curve_ops R (vec R d))) : forall (s s' : msh_spec R) tag bl, numbered s bl -> save_curves s cs true tag = Ok s' ->
    exists bc, numbered s' (bl ++ bc) /\ length bc = length cs /\
      forall k c b, nth_error cs k = Some c -> nth_error bc k = Some b -> samples_curve 100 (tag + Z.of_nat k) (snd c) b.
  Proof.
    induction cs as [|[c ops] cs IH]; intros s s' tag bl Hs H; cbn [save_curves] in H.
    - apply Ok_inj in H. subst. exists []. rewrite app_nil_r. split; [exact Hs|]. split; [reflexivity|]. intros [|k]; discriminate.
    - destruct (add_curve _ _ _) as [s1| | |] eqn:E1; cbn [bind] in H; try discriminate. apply (add_curve_mesh _ _ _ _ bl Hs) in E1.
      change 100 with (Z.of_nat 100) in H. destruct (add_curve_sampled _ _ _ _) as [s2| | |] eqn:E2; cbn [bind] in H; try discriminate. eapply (curve_step _ _ _ _ _ bl) in E2; [|lia|exact E1]. destruct E2 as (b & E2 & Hb).
      destruct (IH _ _ _ _ E2 H) as (bc & E3 & L & Hbc). exists (b :: bc). rewrite <- app_assoc in E3. split; [exact E3|]. split; [cbn; lia|].
      intros [|k] c0 b0; cbn [nth_error]; intros X Y.
      + injection X as <-. injection Y as <-. rewrite Z.add_0_r. exact Hb.
      + specialize (Hbc k _ _ X Y). replace (tag + Z.of_nat (S k)) with (tag + 1 + Z.of_nat k) by lia. exact Hbc.
  Qed.
  Lemma patches_mesh (ps : list (patch R d * (patch_ops R (vec R d) * (Z * Z)))) : forall (s s' : msh_spec R) tag bl,
    Forall (fun p => 0 < fst (snd (snd p)) < 2 ^ 31 /\ 0 < snd (snd (snd p)) < 2 ^ 31) ps ->
    numbered s bl -> save_patches s ps true tag = Ok s' ->
    exists bp, numbered s' (bl ++ bp) /\ length bp = length ps /\
      forall k p b, nth_error ps k = Some p -> nth_error bp k = Some b ->
        samples_patch (2 * Z.to_nat (fst (snd (snd p)))) (2 * Z.to_nat (snd (snd (snd p)))) (tag + Z.of_nat k) (fst (snd p)) b.
  Proof.
    induction ps as [|[c [ops [ru rv]]] ps IH]; intros s s' tag bl F Hs H; cbn [save_patches] in H.
    - apply Ok_inj in H. subst. exists []. rewrite app_nil_r. split; [exact Hs|]. split; [reflexivity|]. intros [|k]; discriminate.
    - inversion F as [|? ? F0 F']; subst. cbn [fst snd] in F0. destruct F0 as (Fu & Fv).
      destruct (add_patch _ _ _) as [s1| | |] eqn:E1; cbn [bind] in H; try discriminate. apply (add_patch_mesh _ _ _ _ bl Hs) in E1.
      assert (Eu : to_size ru * 2 = Z.of_nat (2 * Z.to_nat ru)) by (unfold to_size; rewrite Z.mod_small; lia).
      assert (Ev : to_size rv * 2 = Z.of_nat (2 * Z.to_nat rv)) by (unfold to_size; rewrite Z.mod_small; lia). rewrite Eu, Ev in H.
      destruct (add_patch_sampled _ _ _ _ _) as [s2| | |] eqn:E2; cbn [bind] in H; try discriminate. eapply (patch_step _ _ _ _ _ _ bl) in E2; [|lia|lia|exact E1]. destruct E2 as (b & E2 & Hb).
      destruct (IH _ _ _ _ F' E2 H) as (bc & E3 & L & Hbc). exists (b :: bc). rewrite <- app_assoc in E3. split; [exact E3|]. split; [cbn; lia|].
      intros [|k] c0 b0; cbn [nth_error]; intros X Y.
      + injection X as <-. injection Y as <-. rewrite Z.add_0_r. exact Hb.
      + specialize (Hbc k _ _ X Y). replace (tag + Z.of_nat (S k)) with (tag + 1 + Z.of_nat k) by lia. exact Hbc.
  Qed.

  Lemma msh_mesh (cs : list (curve R d * curve_ops R (vec R d))) (ps : list (patch R d * (patch_ops R (vec R d) * (Z * Z)))) spec :
    Forall (fun p => 0 < fst (snd (snd p)) < 2 ^ 31 /\ 0 < snd (snd (snd p)) < 2 ^ 31) ps ->
    save_msh cs ps true = Ok spec ->
    exists bc bp, numbered spec (bc ++ bp) /\ length bc = length cs /\ length bp = length ps /\
      (forall k c b, nth_error cs k = Some c -> nth_error bc k = Some b -> samples_curve 100 (1 + Z.of_nat k) (snd c) b) /\
      (forall k p b, nth_error ps k = Some p -> nth_error bp k = Some b ->
        samples_patch (2 * Z.to_nat (fst (snd (snd p)))) (2 * Z.to_nat (snd (snd (snd p)))) (1 + Z.of_nat k) (fst (snd p)) b).
  Proof.
    intros F. unfold save_msh. destruct (save_curves _ _ _ _) as [s1| | |] eqn:E; cbn [bind]; try discriminate. intros H.
    destruct (curves_mesh cs _ _ _ _ numbered_empty E) as (bc & E1 & L1 & H1). destruct (patches_mesh ps _ _ _ _ F E1 H) as (bp & E2 & L2 & H2).
    exists bc, bp. split; [exact E2|]. split; [exact L1|]. split; [exact L2|]. split; [exact H1|exact H2].
  Qed.

  (** When every evaluation the sampling makes succeeds, so does the sampling. *)
  Lemma curve_sampled_ok (s : msh_spec R) (ops : curve_ops R (vec R d)) n tag : (0 < n)%nat ->
    (forall i, (i <= n)%nat -> exists p, c_eval ops (step_at (c_lower ops) (c_upper ops) n i) = Ok p) -> exists s', add_curve_sampled s ops (Z.of_nat n) tag = Ok s'.
  Proof.
    intros Hn H. unfold add_curve_sampled. destruct (tabulate_exists (Z.of_nat n + 1) (fun i => do t <- sample_at (c_lower ops) (c_upper ops) (Z.of_nat n) i; do p <- c_eval ops t; do x <- node_data p; Ok (ms_max_node s + i + 1, (x ++ [t])%list))) as (l & E).
    - lia.
    - intros i Hi. replace i with (Z.of_nat (Z.to_nat i)) by lia. rewrite sample_step by exact Hn. cbn [bind]. destruct (H (Z.to_nat i) ltac:(lia)) as (p & ->). cbn [bind]. rewrite node_data_ok. cbn [bind]. eexists. reflexivity.
    - rewrite E. cbn [bind]. eexists. reflexivity.
  Qed.
  Lemma patch_sampled_ok (s : msh_spec R) (ops : patch_ops R (vec R d)) nu nv tag : (0 < nu)%nat -> (0 < nv)%nat ->
    (forall i j, (i <= nu)%nat -> (j <= nv)%nat -> exists p, s_eval ops (step_at (s_ulo ops) (s_uhi ops) nu i) (step_at (s_vlo ops) (s_vhi ops) nv j) = Ok p) ->
    exists s', add_patch_sampled s ops (Z.of_nat nu) (Z.of_nat nv) tag = Ok s'.
  Proof.
    intros Hnu Hnv H. unfold add_patch_sampled.
    match goal with |- context [tabulate ?n ?f] => destruct (tabulate_exists n f) as (l & E) end.
    - lia.
    - intros i Hi. replace i with (Z.of_nat (Z.to_nat i)) by lia. rewrite sample_step by exact Hnu. cbn [bind].
      match goal with |- context [tabulate ?n ?f] => destruct (tabulate_exists n f) as (l & E) end.
      + lia.
      + intros j Hj. replace j with (Z.of_nat (Z.to_nat j)) by lia. rewrite sample_step by exact Hnv. cbn [bind].
        destruct (H (Z.to_nat i) (Z.to_nat j) ltac:(lia) ltac:(lia)) as (p & ->). cbn [bind]. rewrite node_data_ok. cbn [bind]. eexists. reflexivity.
      + rewrite E. eexists. reflexivity.
    - rewrite E. cbn [bind]. eexists. reflexivity.
  Qed.
End Mesh.
