(** Bezier simplices: enumeration of the multi-indices, weights, evaluation, elevation, derivative. *)
From Coq Require Import Reals Lra Lia List Arith Permutation Sorted Psatz.
From Verif Require Import Monad MonadFacts Scalar ScalarFacts Spec SpecFacts SpecSimplex ModelSimplex.
Import ListNotations.
Local Open Scope nat_scope.

(** ** Binomial coefficients *)
Fixpoint bin (n k : nat) : nat := match k, n with O, _ => 1 | S _, O => 0 | S k', S n' => bin n' k' + bin n' k end.
Lemma bin_0 n : bin n 0 = 1.  Proof. destruct n; reflexivity. Qed.
Lemma bin_SS n k : bin (S n) (S k) = bin n k + bin n (S k).  Proof. reflexivity. Qed.
Lemma bin_gt n : forall k, n < k -> bin n k = 0.
Proof. induction n; intros [|k] H; try lia; [reflexivity|]. rewrite bin_SS, !IHn by lia. reflexivity. Qed.
Lemma bin_nn n : bin n n = 1.
Proof. induction n; [reflexivity|]. rewrite bin_SS, IHn, bin_gt by lia. reflexivity. Qed.
Lemma bin_absorb n : forall k, S k * bin (S n) (S k) = S n * bin n k.
Proof.
  induction n; intros k.
  - destruct k; [reflexivity|]. rewrite !bin_gt by lia. lia.
  - rewrite bin_SS. destruct k as [|k]; [rewrite !bin_0; specialize (IHn 0); rewrite bin_0 in IHn; lia|].
    pose proof (IHn (S k)) as H1. pose proof (IHn k) as H2. pose proof (bin_SS n k) as H3. set (X := bin (S n) (S k)) in *. set (Y := bin (S n) (S (S k))) in *. clearbody X Y. nia.
Qed.
Lemma bin_sym n : forall k, k <= n -> bin n (n - k) = bin n k.
Proof.
  induction n; intros k H; [replace k with 0 by lia; reflexivity|]. destruct k as [|k].
  - rewrite Nat.sub_0_r, bin_nn, bin_0. reflexivity.
  - cbn [Nat.sub]. destruct (Nat.eq_dec k n) as [->|]; [rewrite Nat.sub_diag, bin_0, bin_nn; reflexivity|].
    replace (n - k) with (S (n - S k)) by lia. rewrite !bin_SS, (IHn (S k)) by lia. replace (S (n - S k)) with (n - k) by lia. rewrite IHn by lia. lia.
Qed.
Lemma choose_loop_ok k r : choose_loop k r = bin (r + k) k.
Proof.
  induction k; [rewrite bin_0; reflexivity|]. cbn [choose_loop]. rewrite IHk. rewrite Nat.add_succ_r. symmetry. apply Nat.div_unique_exact; [lia|]. rewrite bin_absorb. lia.
Qed.
Lemma choose_ok n r : r <= n -> choose n r = bin n r.
Proof.
  intros H. unfold choose. destruct (Nat.ltb_spec r (n - r)).
  - rewrite choose_loop_ok. f_equal; lia.
  - rewrite choose_loop_ok. replace (r + (n - r)) with n by lia. apply bin_sym. exact H.
Qed.
Lemma bin_C n : forall k, k <= n -> INR (bin n k) = C n k.
Proof.
  induction n; intros k H.
  - replace k with 0 by lia. rewrite C_n_0. reflexivity.
  - destruct k as [|k]; [rewrite C_n_0, bin_0; reflexivity|]. rewrite bin_SS, plus_INR. destruct (Nat.eq_dec k n) as [->|].
    + rewrite (bin_gt n (S n)), bin_nn, C_n_n by lia. cbn. apply Rplus_0_r.
    + rewrite !IHn by lia. apply pascal. lia.
Qed.
Lemma hockey n d : list_sum (map (fun e => bin (n + e) e) (seq 0 (d + 1))) = bin (S n + d) d.
Proof.
  induction d.
  - cbn. rewrite !bin_0. reflexivity.
  - replace (S d + 1) with ((d + 1) + 1) by lia. rewrite seq_app, map_app, list_sum_app, IHd. cbn [seq map list_sum fold_right]. rewrite Nat.add_0_r. replace (0 + (d + 1)) with (S d) by lia. rewrite !Nat.add_succ_r. rewrite (bin_SS (S n + d) d).
    f_equal.
Qed.

(** ** The multi-indices *)
Fixpoint idx (n d : nat) : list (list nat) :=
  match n with
  | O => [[d]]
  | S n' => flat_map (fun e => map (cons (d - e)) (idx n' e)) (seq 0 (d + 1))
  end.
Lemma idx_length n : forall d, length (idx n d) = bin (n + d) d.
Proof.
  induction n; intros d; [cbn; rewrite bin_nn; reflexivity|]. cbn [idx]. rewrite <- hockey.
  induction (seq 0 (d + 1)) as [|e l IH]; [reflexivity|]. cbn [flat_map map list_sum fold_right]. rewrite app_length, map_length, IHn, IH. reflexivity.
Qed.
Lemma loop_inv {S} (I : nat -> S -> Prop) n body (s : S) : I 0 s -> (forall i s, i < n -> I i s -> exists s', body i s = Ok s' /\ I (Datatypes.S i) s') ->
  exists s', loop n body s = Ok s' /\ I n s'.
Proof.
  intros H0 Hs. induction n; [exists s; auto|]. destruct IHn as (s1 & E & H1); [intros; apply Hs; auto; lia|]. cbn [loop]. rewrite E. cbn [bind]. apply Hs; [lia|exact H1].
Qed.
Lemma loop_eq {S} (F : nat -> S) n body : (forall i, i < n -> body i (F i) = Ok (F (Datatypes.S i))) -> loop n body (F 0) = Ok (F n).
Proof. intros H. destruct (loop_inv (fun i s => s = F i) n body (F 0) eq_refl) as (s & E & ->); [|exact E]. intros i s Hi ->. eauto. Qed.

Lemma generate_ok n : forall d, generate_multi_indices n d (bin (n + d) d) = Ok (idx n d).
Proof.
  induction n; intros d; cbn [generate_multi_indices].
  - rewrite choose_ok by lia. rewrite Nat.eqb_refl. cbn [assert_ bind]. cbn [Nat.add]. rewrite bin_nn. reflexivity.
  - rewrite choose_ok by lia. rewrite Nat.eqb_refl. cbn [assert_ bind].
    set (F := fun k => flat_map (fun e => map (cons (d - e)) (idx n e)) (seq 0 k)).
    assert (HL : forall k, k <= d + 1 -> length (F k) <= bin (S n + d) d /\ length (F k) = list_sum (map (fun e => bin (n + e) e) (seq 0 k))).
    { intros k Hk. assert (E : length (F k) = list_sum (map (fun e => bin (n + e) e) (seq 0 k))).
      { unfold F. induction (seq 0 k) as [|e l IH]; [reflexivity|]. cbn [flat_map map list_sum fold_right]. rewrite app_length, map_length, idx_length, IH. reflexivity. }
      split; [|exact E]. rewrite E, <- hockey. replace (d + 1) with (k + (d + 1 - k)) by lia. rewrite seq_app, map_app, list_sum_app. lia. }
    change (@nil (list nat)) with (F 0). rewrite (loop_eq F).
    + cbn [bind]. assert (E : length (F (d + 1)) = bin (S n + d) d) by (destruct (HL (d + 1)) as (_ & ->); [lia|apply hockey]). rewrite E, Nat.eqb_refl. reflexivity.
    + intros e He. replace (S n + e - 1) with (n + e) by lia. rewrite choose_ok by lia.
      assert (ES : F (S e) = F e ++ map (cons (d - e)) (idx n e)).
      { unfold F. replace (S e) with (e + 1) by lia. rewrite seq_app, flat_map_app. cbn [seq flat_map]. rewrite app_nil_r. reflexivity. }
      destruct (HL (S e)) as (L & _); [lia|]. rewrite ES, app_length, map_length, idx_length in L.
      destruct (Nat.leb_spec (length (F e) + bin (n + e) e) (bin (S n + d) d)); [|lia]. cbn [assert_ bind]. rewrite IHn. cbn [bind]. rewrite ES. reflexivity.
Qed.
Lemma num_ok n d : num_control_points n d = length (idx n d).
Proof. unfold num_control_points. rewrite choose_ok, idx_length by lia. rewrite (Nat.add_comm d n). rewrite <- (bin_sym (n + d) n) by lia. f_equal. lia. Qed.
Lemma multi_indices_ok n d : multi_indices n d = Ok (idx n d).
Proof. unfold multi_indices. rewrite num_ok, idx_length. apply generate_ok. Qed.

Lemma idx_in n : forall d a, In a (idx n d) <-> multi_index n d a.
Proof.
  induction n; intros d a; cbn [idx].
  - split.
    + intros [<-|[]]. split; [reflexivity|]. cbn. lia.
    + intros [H1 H2]. destruct a as [|x [|y a]]; cbn in *; try lia. left. f_equal. lia.
  - rewrite in_flat_map. split.
    + intros (e & He & Ha). apply in_seq in He. apply in_map_iff in Ha. destruct Ha as (c & <- & Hc). apply IHn in Hc. destruct Hc as [H1 H2]. split; [cbn [length]; lia|]. change (d - e + list_sum c = d). lia.
    + intros [H1 H2]. destruct a as [|x a]; [cbn in H1; lia|]. cbn [length] in H1. change (x + list_sum a = d) in H2. exists (list_sum a). split; [apply in_seq; lia|].
      apply in_map_iff. exists a. split; [f_equal; lia|]. apply IHn. split; [lia|reflexivity].
Qed.
Lemma lex_cons x a b : lex_before a b -> lex_before (x :: a) (x :: b).
Proof. intros (k & E & H1 & H2 & H3). exists (S k). cbn. rewrite E. repeat split; auto; lia. Qed.
Lemma lex_head x y a b : y < x -> lex_before (x :: a) (y :: b).
Proof. intros H. exists 0. cbn. repeat split; auto; lia. Qed.
Lemma sorted_app {A} (R : A -> A -> Prop) l l' : StronglySorted R l -> StronglySorted R l' -> (forall a b, In a l -> In b l' -> R a b) -> StronglySorted R (l ++ l').
Proof.
  intros H H' X. induction l; [exact H'|]. inversion H; subst. cbn. constructor.
  - apply IHl; [assumption|]. intros; apply X; [right|]; assumption.
  - apply Forall_app. split; [assumption|]. apply Forall_forall. intros b Hb. apply X; [left; reflexivity|assumption].
Qed.
Lemma idx_sorted n : forall d, StronglySorted lex_before (idx n d).
Proof.
  induction n; intros d; cbn [idx]; [repeat constructor|].
  assert (G : forall k s, s + k <= d + 1 -> StronglySorted lex_before (flat_map (fun e => map (cons (d - e)) (idx n e)) (seq s k))).
  { induction k; intros s Hs; [constructor|]. cbn [seq flat_map]. apply sorted_app.
    - specialize (IHn s). induction IHn; [constructor|]. cbn. constructor; [assumption|]. apply Forall_map. eapply Forall_impl; [|exact H]. intros. apply lex_cons. assumption.
    - apply IHk. lia.
    - intros a b Ha Hb. apply in_map_iff in Ha. destruct Ha as (a' & <- & _). apply in_flat_map in Hb. destruct Hb as (e & He & Hb). apply in_seq in He.
      apply in_map_iff in Hb. destruct Hb as (b' & <- & _). apply lex_head. lia. }
  apply G. lia.
Qed.
Lemma lex_irrefl a : ~ lex_before a a.
Proof. intros (k & _ & _ & _ & H). lia. Qed.
Lemma sorted_nodup {A} (R : A -> A -> Prop) l : (forall a, ~ R a a) -> StronglySorted R l -> NoDup l.
Proof. intros I H. induction H; constructor; [|assumption]. intros Ha. rewrite Forall_forall in H0. exact (I _ (H0 _ Ha)). Qed.
Lemma idx_nodup n d : NoDup (idx n d).
Proof. eapply sorted_nodup; [exact lex_irrefl|apply idx_sorted]. Qed.
Lemma idx_enumerates n d : enumerates n d (idx n d).
Proof. split; [apply idx_nodup|apply idx_in]. Qed.
Lemma enumerates_perm n d l : enumerates n d l -> Permutation l (idx n d).
Proof. intros [N H]. apply NoDup_Permutation; [exact N|apply idx_nodup|]. intros a. rewrite H, idx_in. reflexivity. Qed.
Lemma indices_thm n d : exists l, multi_indices n d = Ok l /\ enumerates n d l /\ StronglySorted lex_before l /\ INR (length l) = C (n + d) d.
Proof.
  exists (idx n d). split; [apply multi_indices_ok|]. split; [apply idx_enumerates|]. split; [apply idx_sorted|]. rewrite idx_length. apply bin_C. lia.
Qed.

(** ** Sums over lists *)
Local Open Scope R_scope.
Definition sumL {A} (f : A -> R) (l : list A) : R := sumR (map f l).
Lemma sumL_cons {A} (f : A -> R) a l : sumL f (a :: l) = f a + sumL f l.  Proof. reflexivity. Qed.
Lemma sumL_app {A} (f : A -> R) l l' : sumL f (l ++ l') = sumL f l + sumL f l'.
Proof. induction l; cbn [app]; [unfold sumL; cbn; lra|]. rewrite !sumL_cons, IHl. lra. Qed.
Lemma sumL_ext {A} (f g : A -> R) l : (forall a, In a l -> f a = g a) -> sumL f l = sumL g l.
Proof. intros H. induction l; [reflexivity|]. rewrite !sumL_cons, H, IHl; [reflexivity| |left; reflexivity]. intros; apply H; right; assumption. Qed.
Lemma sumL_plus {A} (f g : A -> R) l : sumL (fun a => f a + g a) l = sumL f l + sumL g l.
Proof. induction l; [unfold sumL; cbn; lra|]. rewrite !sumL_cons, IHl. lra. Qed.
Lemma sumL_scal {A} c (f : A -> R) l : sumL (fun a => c * f a) l = c * sumL f l.
Proof. induction l; [unfold sumL; cbn; lra|]. rewrite !sumL_cons, IHl. lra. Qed.
Lemma sumL_0 {A} (f : A -> R) l : (forall a, In a l -> f a = 0) -> sumL f l = 0.
Proof. intros H. induction l; [reflexivity|]. rewrite sumL_cons, H, IHl; [lra| |left; reflexivity]. intros; apply H; right; assumption. Qed.
Lemma sumL_nonneg {A} (f : A -> R) l : (forall a, In a l -> 0 <= f a) -> 0 <= sumL f l.
Proof.
  intros H. induction l; [unfold sumL; cbn; lra|]. rewrite sumL_cons. assert (0 <= f a) by (apply H; left; reflexivity).
  assert (0 <= sumL f l) by (apply IHl; intros; apply H; right; assumption). lra.
Qed.
Lemma sumL_perm {A} (f : A -> R) l l' : Permutation l l' -> sumL f l = sumL f l'.
Proof. intros H. induction H; rewrite ?sumL_cons; try lra; reflexivity. Qed.
Lemma sumL_swap {A B} (f : A -> B -> R) l l' : sumL (fun a => sumL (f a) l') l = sumL (fun b => sumL (fun a => f a b) l) l'.
Proof.
  induction l; [symmetry; apply sumL_0; reflexivity|]. rewrite sumL_cons, IHl, <- sumL_plus. apply sumL_ext. intros. rewrite sumL_cons. reflexivity.
Qed.
Lemma sumL_rsum_swap {A} (f : A -> nat -> R) l n : sumL (fun a => rsum n (f a)) l = rsum n (fun k => sumL (fun a => f a k) l).
Proof. induction n; [apply sumL_0; reflexivity|]. rewrite rsum_S, <- IHn, <- sumL_plus. apply sumL_ext. intros. rewrite rsum_S. reflexivity. Qed.
Lemma sumL_seq f n : sumL f (seq 0 n) = rsum n f.
Proof. induction n; [reflexivity|]. replace (S n) with (n + 1)%nat at 1 by lia. rewrite seq_app, sumL_app, IHn, rsum_S. unfold sumL. cbn. lra. Qed.
Lemma sumL_flat {A B} (f : B -> R) (g : A -> list B) l : sumL f (flat_map g l) = sumL (fun a => sumL f (g a)) l.
Proof. induction l; [reflexivity|]. cbn [flat_map]. rewrite sumL_app, IHl, sumL_cons. reflexivity. Qed.
Lemma sumL_map {A B} (f : B -> R) (g : A -> B) l : sumL f (map g l) = sumL (fun a => f (g a)) l.
Proof. unfold sumL. rewrite map_map. reflexivity. Qed.
Notation leq := (list_eq_dec Nat.eq_dec).
Lemma sumL_one (g : list nat -> R) l x : NoDup l -> In x l -> sumL (fun a => if leq x a then g a else 0) l = g x.
Proof.
  intros N H. induction N as [|a l Ha N IH]; [destruct H|]. rewrite sumL_cons. destruct H as [->|H].
  - destruct (leq x x); [|congruence]. rewrite sumL_0; [lra|]. intros b Hb. destruct (leq x b) as [->|]; [contradiction|reflexivity].
  - rewrite IH by exact H. destruct (leq x a) as [->|]; [contradiction|lra].
Qed.
Lemma rsum_map_nth {A} (f : A -> R) l (x : A) : rsum (length l) (fun i => f (nth i l x)) = sumL f l.
Proof. induction l; [reflexivity|]. cbn [length]. rewrite rsum_shift. cbn [nth]. rewrite IHl. reflexivity. Qed.

(** ** Weights *)
Lemma getn_nth {A} (l : list A) i x : (i < length l)%nat -> getn l i = Ok (nth i l x).
Proof. intros H. unfold getn. rewrite (nth_error_nth' l x H). reflexivity. Qed.
Lemma factorials_length d : length (factorials d) = (d + 1)%nat.
Proof. induction d; [reflexivity|]. cbn [factorials]. rewrite app_length, IHd. cbn. lia. Qed.
Lemma factorials_last d : last (factorials d) 0%nat = fact d.
Proof. induction d; [reflexivity|]. cbn [factorials]. rewrite last_last, IHd. cbn [fact]. lia. Qed.
Lemma factorials_nth d : forall k, (k <= d)%nat -> nth k (factorials d) 0%nat = fact k.
Proof.
  induction d; intros k H; [replace k with 0%nat by lia; reflexivity|]. cbn [factorials]. destruct (Nat.eq_dec k (S d)) as [->|].
  - rewrite app_nth2; rewrite factorials_length; [|lia]. replace (S d - (d + 1))%nat with 0%nat by lia. cbn [nth]. rewrite factorials_last. cbn [fact]. lia.
  - rewrite app_nth1 by (rewrite factorials_length; lia). apply IHd. lia.
Qed.
Lemma getn_fact d k : (k <= d)%nat -> getn (factorials d) k = Ok (fact k).
Proof. intros H. rewrite (getn_nth _ _ 0%nat) by (rewrite factorials_length; lia). rewrite factorials_nth by exact H. reflexivity. Qed.
Lemma pow_R (x : R) k : pow_ x k = x ^ k.
Proof. induction k; [reflexivity|]. cbn [pow_ pow]. rewrite IHk. cbn. ring. Qed.
Lemma INR_fact_pos k : 0 < INR (fact k).
Proof. apply lt_0_INR. apply lt_O_fact. Qed.
Lemma sofZ_INR k : sofZ (Z.of_nat k) = INR k :> R.
Proof. cbn. symmetry. apply INR_IZR_INZ. Qed.
Lemma monomial_app a k b x : length a = length b -> monomial (a ++ [k]) (b ++ [x]) = monomial a b * (x ^ k / INR (fact k)).
Proof.
  revert b. induction a; intros [|y b] H; try discriminate; cbn [app monomial]; [ring|]. rewrite IHa by (cbn in H; lia). ring.
Qed.
Lemma firstn_S {A} (l : list A) k x : (k < length l)%nat -> firstn (S k) l = firstn k l ++ [nth k l x].
Proof. revert k. induction l; intros [|k] H; cbn in *; try lia; [reflexivity|]. f_equal. apply IHl. lia. Qed.
Lemma bernstein_ok n d a b : length a = (n + 1)%nat -> length b = (n + 1)%nat -> (forall k, In k a -> (k <= d)%nat) ->
  evaluate_bernstein n d a b = Ok (bern_weight d a b).
Proof.
  intros La Lb Ha. unfold evaluate_bernstein. rewrite getn_fact by lia. cbn [bind].
  set (F := fun j => INR (fact d) * monomial (firstn j a) (firstn j b)).
  replace (sofZ (Z.of_nat (fact d))) with (F 0%nat) by (rewrite sofZ_INR; unfold F; cbn; ring).
  rewrite (loop_eq F).
  - unfold F, bern_weight. rewrite !firstn_all2 by lia. reflexivity.
  - intros j Hj. rewrite (getn_nth a j 0%nat) by lia. cbn [bind]. rewrite getn_fact by (apply Ha; apply nth_In; lia). cbn [bind].
    rewrite ddiv_R by (rewrite sofZ_INR; pose proof (INR_fact_pos (nth j a 0%nat)); lra). cbn [bind]. rewrite (getn_nth b j 0) by lia. cbn [bind]. f_equal.
    unfold F. rewrite (firstn_S a j 0%nat), (firstn_S b j 0) by lia. rewrite monomial_app by (rewrite !firstn_length; lia). rewrite pow_R, sofZ_INR. cbn [smul R_ops]. unfold Rdiv. ring.
Qed.
Lemma idx_le n d a : In a (idx n d) -> forall k, In k a -> (k <= d)%nat.
Proof.
  intros H. apply idx_in in H. destruct H as [_ H]. rewrite <- H. clear. intros k Hk. induction a; [destruct Hk|]. change (k <= a + list_sum a0)%nat. destruct Hk as [->|Hk]; [lia|]. specialize (IHa Hk). lia.
Qed.
Lemma idx_len n d a : In a (idx n d) -> length a = (n + 1)%nat.
Proof. intros H. apply idx_in in H. apply H. Qed.
Lemma multinomial n : forall d b, length b = (n + 1)%nat -> INR (fact d) * sumL (fun a => monomial a b) (idx n d) = sumR b ^ d.
Proof.
  induction n; intros d b L.
  - destruct b as [|x [|y b]]; cbn in L; try lia. unfold sumL. cbn. rewrite !Rplus_0_r. field. apply Rgt_not_eq. apply INR_fact_pos.
  - destruct b as [|x b]; cbn [length] in L; [lia|]. cbn [idx sumR]. rewrite sumL_flat. rewrite sumL_seq, Nat.add_1_r.
    rewrite (Rplus_comm x), (binomial (sumR b) x d). rewrite <- rsum_scal.
    assert (E : forall m f, sum_f_R0 f m = rsum (S m) f) by (induction m; intros f; [cbn; unfold rsum; cbn; lra|cbn [sum_f_R0]; rewrite IHm, (rsum_S (S m)); reflexivity]).
    rewrite E. apply rsum_ext. intros e He. rewrite sumL_map. cbn [monomial]. rewrite sumL_scal. rewrite <- (IHn e b) by lia. unfold C, Rdiv.
    field. pose proof (INR_fact_pos e). pose proof (INR_fact_pos (d - e)). split; apply Rgt_not_eq; lra.
Qed.
Lemma weights_sum n d b : length b = (n + 1)%nat -> sumL (fun a => bern_weight d a b) (idx n d) = sumR b ^ d.
Proof. intros L. unfold bern_weight. rewrite sumL_scal. apply multinomial. exact L. Qed.
Lemma monomial_nonneg a : forall b, (forall x, In x b -> 0 <= x) -> 0 <= monomial a b.
Proof.
  induction a; intros [|x b] H; cbn [monomial]; try lra. apply Rmult_le_pos; [|apply IHa; intros; apply H; right; assumption].
  apply Rmult_le_pos; [apply pow_le; apply H; left; reflexivity|]. left. apply Rinv_0_lt_compat. apply INR_fact_pos.
Qed.
Lemma weight_nonneg d a b : (forall x, In x b -> 0 <= x) -> 0 <= bern_weight d a b.
Proof. intros H. apply Rmult_le_pos; [left; apply INR_fact_pos|apply monomial_nonneg; exact H]. Qed.
Lemma mapM_ok {A B} (f : A -> res B) g l : (forall a, In a l -> f a = Ok (g a)) -> mapM f l = Ok (map g l).
Proof. intros H. induction l; [reflexivity|]. cbn [mapM map]. rewrite H by (left; reflexivity). cbn [bind]. rewrite IHl by (intros; apply H; right; assumption). reflexivity. Qed.
Lemma partition_thm n d b : length b = (n + 1)%nat -> sumR b = 1 -> exists l ws, multi_indices n d = Ok l /\ mapM (fun a => evaluate_bernstein n d a b) l = Ok ws /\ sumR ws = 1 /\
  ((forall x, In x b -> 0 <= x) -> forall w, In w ws -> 0 <= w).
Proof.
  intros L S1. exists (idx n d), (map (fun a => bern_weight d a b) (idx n d)). split; [apply multi_indices_ok|]. split; [|split].
  - apply mapM_ok. intros a Ha. apply bernstein_ok; [eapply idx_len; exact Ha|exact L|eapply idx_le; exact Ha].
  - change (sumL (fun a => bern_weight d a b) (idx n d) = 1). rewrite weights_sum by exact L. rewrite S1. apply pow1.
  - intros Hb w Hw. apply in_map_iff in Hw. destruct Hw as (a & <- & _). apply weight_nonneg. exact Hb.
Qed.
Lemma control_points_thm n d : (0 < d)%nat -> exists l pts, multi_indices n d = Ok l /\ sx_control_points n d = Ok pts /\ pts = map (map (fun k => INR k / INR d)) l /\
  forall p, In p pts -> length p = (n + 1)%nat /\ sumR p = 1 /\ forall x, In x p -> 0 <= x <= 1.
Proof.
  intros Hd. assert (HD : 0 < INR d) by (apply lt_0_INR; exact Hd). exists (idx n d), (map (map (fun k => INR k / INR d)) (idx n d)). split; [apply multi_indices_ok|]. split; [|split; [reflexivity|]].
  - unfold sx_control_points. destruct (Nat.eqb_spec d 0); [lia|]. rewrite multi_indices_ok. cbn [bind]. apply mapM_ok. intros a _. apply mapM_ok. intros k _. rewrite !sofZ_INR. apply ddiv_R. lra.
  - intros p Hp. apply in_map_iff in Hp. destruct Hp as (a & <- & Ha). split; [rewrite map_length; eapply idx_len; exact Ha|].
    pose proof (idx_le _ _ _ Ha) as Hle. apply idx_in in Ha. destruct Ha as [_ Hs]. split.
    + change (sumL (fun k => INR k / INR d) a = 1). assert (E : sumL (fun k => INR k / INR d) a = INR (list_sum a) / INR d).
      { clear - HD. induction a; [unfold sumL; cbn; lra|]. rewrite sumL_cons, IHa. change (list_sum (a :: a0)) with (a + list_sum a0)%nat. rewrite plus_INR. field. lra. }
      rewrite E, Hs. field. lra.
    + intros x Hx. apply in_map_iff in Hx. destruct Hx as (k & <- & Hk). specialize (Hle k Hk). apply le_INR in Hle. pose proof (pos_INR k).
      split; [apply Rmult_le_pos; [lra|left; apply Rinv_0_lt_compat; lra]|]. apply (Rmult_le_reg_r (INR d)); [lra|]. unfold Rdiv. rewrite Rmult_assoc, Rinv_l by lra. lra.
Qed.

(** ** Evaluation *)
Lemma coord_psumL {A m} (f : A -> vec R m) l i : (i < m)%nat -> coord m i (psumL f l) = sumL (fun a => coord m i (f a)) l.
Proof. intros Hi. induction l; cbn [psumL]; [rewrite coord_0 by exact Hi; reflexivity|]. rewrite coord_add, IHl by exact Hi. reflexivity. Qed.
Lemma coord_psum' {m} (f : nat -> vec R m) n i : (i < m)%nat -> coord m i (psum n f) = rsum n (fun k => coord m i (f k)).
Proof. intros Hi. induction n; cbn [psum]; [rewrite coord_0 by exact Hi; reflexivity|]. rewrite coord_add, IHn by exact Hi. rewrite rsum_S. reflexivity. Qed.
(** The loop over all control points. *)
Lemma sum_loop {m} (l : list (list nat)) (o : list nat -> vec R m) (wf : list nat -> res R) (w : list nat -> R) :
  (forall a, In a l -> wf a = Ok (w a)) ->
  loop (length l) (fun i result => do mi <- getn l i; do coeff <- wf mi; do x <- getn (map o l) i; Ok (padd result (pmul coeff x))) p0
  = Ok (psumL (fun a => pmul (w a) (o a)) l).
Proof.
  intros H. set (F := fun k => psum k (fun i => pmul (w (nth i l [])) (o (nth i l [])))).
  change (@p0 R (vec R m) _) with (F 0%nat). rewrite (loop_eq F).
  - f_equal. unfold F. apply vec_ext. intros j Hj. rewrite coord_psum', coord_psumL by exact Hj. apply (rsum_map_nth (fun a => coord m j (pmul (w a) (o a)))).
  - intros i Hi. rewrite (getn_nth l i []) by exact Hi. cbn [bind]. rewrite H by (apply nth_In; exact Hi). cbn [bind].
    rewrite (getn_nth (map o l) i (o [])) by (rewrite map_length; exact Hi). cbn [bind]. rewrite map_nth. reflexivity.
Qed.

Section Net.
  Context {m : nat} (s : simplex (vec R m)) (o : list nat -> vec R m).
  Notation n := (sx_dim s).
  Notation d := (sx_degree s).
  Context (Hc : (0 < sx_cols s)%nat) (Ho : sx_ordinates s = map o (idx n d)).

  Lemma set_ok {A} (x : res A) : (if negb (length (sx_ordinates s) =? num_control_points n d)%nat || (sx_cols s =? 0)%nat then Throw runtime_error else x) = x.
  Proof. rewrite Ho, map_length, num_ok, Nat.eqb_refl. destruct (Nat.eqb_spec (sx_cols s) 0); [lia|]. reflexivity. Qed.
  Definition value (b : list R) : vec R m := psumL (fun a => pmul (bern_weight d a b) (o a)) (idx n d).
  Lemma evaluate_ok b : length b = (n + 1)%nat -> sx_evaluate s b = Ok (value b).
  Proof.
    intros L. unfold sx_evaluate. cbv zeta. rewrite set_ok, multi_indices_ok. cbn [bind]. rewrite num_ok, Ho.
    apply (sum_loop (idx n d) o (fun a => evaluate_bernstein n d a b)). intros a Ha. apply bernstein_ok; [eapply idx_len; exact Ha|exact L|eapply idx_le; exact Ha].
  Qed.
  Lemma value_enum b l : enumerates n d l -> value b = psumL (fun a => pmul (bern_weight d a b) (o a)) l.
  Proof. intros H. unfold value. apply vec_ext. intros i Hi. rewrite !coord_psumL by exact Hi. symmetry. apply sumL_perm. apply enumerates_perm. exact H. Qed.

  (** *** The directional derivative *)
  Fixpoint dmon (a : list nat) (b dir : list R) : R :=
    match a, b, dir with
    | k :: a', x :: b', y :: dir' => y * match k with O => 0 | S k' => x ^ k' / INR (fact k') end * monomial a' b' + x ^ k / INR (fact k) * dmon a' b' dir'
    | _, _, _ => 0
    end.
  Lemma monomial_move a : forall b dir, length b = length dir -> derivable_pt_lim (fun t => monomial a (move b dir t)) 0 (dmon a b dir).
  Proof.
    induction a as [|k a IH]; intros b dir L.
    - destruct b; cbn [monomial dmon]; apply derivable_pt_lim_const.
    - destruct b as [|x b], dir as [|y dir]; try discriminate L; cbn [move monomial dmon]; [apply derivable_pt_lim_const|].
      assert (L' : length b = length dir) by (cbn in L; lia). specialize (IH b dir L').
      assert (Eb : move b dir 0 = b) by (clear - L'; revert dir L'; induction b; intros [|z dir] L; try discriminate; [reflexivity|]; cbn [move]; rewrite Rmult_0_l, Rplus_0_r, IHb by (cbn in L; lia); reflexivity).
      assert (D1 : derivable_pt_lim (fun t => (x + t * y) ^ k / INR (fact k)) 0 (y * match k with O => 0 | S k' => x ^ k' / INR (fact k') end)).
      { pose proof (INR_fact_pos k) as HF. destruct k as [|k].
        - rewrite Rmult_0_r. cbn. apply derivable_pt_lim_const.
        - pose proof (INR_fact_pos k) as HF'. assert (D : derivable_pt_lim (fun t => x + t * y) 0 y).
          { pose proof (derivable_pt_lim_plus (fun _ => x) (id * (fun _ => y))%F 0 _ _ (derivable_pt_lim_const x 0) (derivable_pt_lim_mult id (fun _ => y) 0 _ _ (derivable_pt_lim_id 0) (derivable_pt_lim_const y 0))) as D.
            unfold id in D. replace (0 + (1 * y + 0 * 0)) with y in D by ring. exact D. }
          pose proof (derivable_pt_lim_comp (fun t => x + t * y) (fun z => z ^ (S k)) 0 y _ D (derivable_pt_lim_pow _ (S k))) as D2.
          pose proof (derivable_pt_lim_scal _ (/ INR (fact (S k))) _ _ D2) as D3. eapply derivable_pt_lim_ext; [|match type of D3 with derivable_pt_lim _ _ ?l => replace (y * (x ^ k / INR (fact k))) with l; [exact D3|] end].
          + intros t. unfold mult_real_fct, comp. unfold Rdiv. ring.
          + rewrite Rmult_0_l, Rplus_0_r. cbn [pred]. change (fact (S k)) with (S k * fact k)%nat. rewrite mult_INR. field. split; [lra|]. apply not_0_INR. lia. }
      pose proof (derivable_pt_lim_mult _ _ _ _ _ D1 IH) as D. cbv beta in D. rewrite Eb, Rmult_0_l, Rplus_0_r in D.
      eapply derivable_pt_lim_ext; [|exact D]. intros t. reflexivity.
  Qed.
  Lemma dmon_sum a : forall b dir, length a = length b -> length b = length dir ->
    dmon a b dir = rsum (length a) (fun j => (if (nth j a 0%nat =? 0)%nat then 0 else monomial (upd_nat a j (nth j a 0 - 1)%nat) b) * nth j dir 0).
  Proof.
    induction a as [|k a IH]; intros b dir L1 L2; [reflexivity|]. destruct b as [|x b], dir as [|y dir]; try discriminate. cbn [dmon length]. rewrite rsum_shift. cbn [nth upd_nat].
    rewrite (IH b dir) by (cbn in *; lia). f_equal.
    - destruct k; cbn [Nat.eqb]; [ring|]. cbn [Nat.sub monomial]. rewrite Nat.sub_0_r. ring.
    - rewrite <- rsum_scal. apply rsum_ext. intros i Hi. cbn [nth]. destruct (Nat.eqb_spec (nth i a 0%nat) 0); [ring|]. cbn [monomial]. ring.
  Qed.
  Lemma weight_derivative a b dir : length a = (n + 1)%nat -> length b = (n + 1)%nat -> length dir = (n + 1)%nat -> (forall k, In k a -> (k <= d)%nat) ->
    loop (n + 1) (fun j coeff => do e <- evaluate_bernstein_derivative n d a b j; do x <- getn dir j; Ok (sadd coeff (smul e x))) s0 = Ok (INR (fact d) * dmon a b dir).
  Proof.
    intros La Lb Ld Ha. rewrite dmon_sum by lia.
    set (f := fun j => (if (nth j a 0%nat =? 0)%nat then 0 else monomial (upd_nat a j (nth j a 0 - 1)%nat) b) * nth j dir 0).
    set (F := fun k => INR (fact d) * rsum k f). replace (s0 : R) with (F 0%nat) by (unfold F, rsum; cbn; ring). rewrite (loop_eq F).
    - unfold F. rewrite La. reflexivity.
    - intros j Hj. assert (E : evaluate_bernstein_derivative n d a b j = Ok (INR (fact d) * (if (nth j a 0%nat =? 0)%nat then 0 else monomial (upd_nat a j (nth j a 0 - 1)%nat) b))).
      { unfold evaluate_bernstein_derivative. rewrite (getn_nth a j 0%nat) by lia. cbn [bind]. destruct (Nat.eqb_spec (nth j a 0%nat) 0); [f_equal; cbn; ring|].
        apply bernstein_ok; [rewrite upd_nat_length; exact La|exact Lb|]. intros k Hk. apply (In_nth _ _ 0%nat) in Hk. destruct Hk as (i & Hi & <-). rewrite upd_nat_length in Hi.
        assert (Hn : forall l q v i, nth i (upd_nat l q v) 0%nat = v \/ nth i (upd_nat l q v) 0%nat = nth i l 0%nat).
        { clear. induction l; intros q v i; [right; reflexivity|]. destruct q, i; cbn; auto. }
        destruct (Hn a j (nth j a 0 - 1)%nat i) as [->| ->].
        - assert (nth j a 0 <= d)%nat by (apply Ha; apply nth_In; lia). lia.
        - apply Ha. apply nth_In. exact Hi. }
      rewrite E. cbn [bind]. rewrite (getn_nth dir j 0) by lia. cbn [bind sadd smul R_ops]. f_equal. unfold F. rewrite rsum_S. unfold f. ring.
  Qed.
  Lemma derivative_ok b dir : length b = (n + 1)%nat -> length dir = (n + 1)%nat ->
    exists q, sx_evaluate_directional_derivative s b dir = Ok q /\ vderiv (fun t => value (move b dir t)) 0 q.
  Proof.
    intros Lb Ld. exists (psumL (fun a => pmul (INR (fact d) * dmon a b dir) (o a)) (idx n d)). split.
    - unfold sx_evaluate_directional_derivative. cbv zeta. rewrite set_ok, multi_indices_ok. cbn [bind]. rewrite num_ok, Ho.
      apply (sum_loop (idx n d) o (fun a => loop (n + 1) (fun j coeff => do e <- evaluate_bernstein_derivative n d a b j; do x <- getn dir j; Ok (sadd coeff (smul e x))) s0)).
      intros a Ha. apply weight_derivative; [eapply idx_len; exact Ha|exact Lb|exact Ld|eapply idx_le; exact Ha].
    - intros i Hi. rewrite coord_psumL by exact Hi. unfold value.
      eapply derivable_pt_lim_ext; [intros t; symmetry; apply coord_psumL; exact Hi|].
      generalize (idx n d). intros l. induction l as [|a l IH]; [apply derivable_pt_lim_const|]. rewrite sumL_cons.
      eapply derivable_pt_lim_ext; [intros t; symmetry; apply sumL_cons|]. apply (derivable_pt_lim_plus (fun t => coord m i (pmul (bern_weight d a (move b dir t)) (o a))) _ 0 _ _); [|exact IH].
      rewrite coord_mul by exact Hi. pose proof (monomial_move a b dir ltac:(lia)) as D. apply (derivable_pt_lim_scal _ (INR (fact d) * coord m i (o a))) in D.
      eapply derivable_pt_lim_ext; [|match type of D with derivable_pt_lim _ _ ?l => replace (INR (fact d) * dmon a b dir * coord m i (o a)) with l by ring; exact D end].
      intros t. rewrite coord_mul by exact Hi. unfold mult_real_fct, bern_weight. ring.
  Qed.
End Net.

(** ** Raising an index *)
Lemma raise_upd a : forall k, (k < length a)%nat -> upd_nat a k (nth k a 0 + 1)%nat = raise a k.
Proof. induction a as [|x a IH]; intros [|k] H; cbn [length] in H; try lia; cbn [upd_nat raise nth]; f_equal; [lia|]. apply IH. lia. Qed.
Lemma raise_length a : forall k, length (raise a k) = length a.
Proof. induction a; intros [|k]; cbn [raise length]; auto. Qed.
Lemma raise_sum a : forall k, (k < length a)%nat -> list_sum (raise a k) = S (list_sum a).
Proof. induction a as [|x a IH]; intros [|k] H; cbn [length] in H; try lia; cbn [raise]; [reflexivity|]. change (x + list_sum (raise a k) = S (x + list_sum a))%nat. rewrite IH by lia. lia. Qed.
Lemma raise_nth a : forall k, (k < length a)%nat -> nth k (raise a k) 0%nat = S (nth k a 0%nat).
Proof. induction a as [|x a IH]; intros [|k] H; cbn [length] in H; try lia; [reflexivity|]. cbn [raise nth]. apply IH. lia. Qed.
Lemma raise_inj a : forall b k, raise a k = raise b k -> a = b.
Proof. induction a as [|x a IH]; intros [|y b] [|k] H; cbn [raise] in H; try discriminate; try reflexivity; injection H as H1 H2; [congruence|]. f_equal; [exact H1|]. eapply IH. exact H2. Qed.
Lemma raise_lower a : forall k, (k < length a)%nat -> nth k a 0%nat <> 0%nat -> exists a', raise a' k = a.
Proof.
  induction a as [|x a IH]; intros [|k] H H0; cbn [length nth] in *; try lia.
  - exists ((x - 1)%nat :: a). cbn [raise]. f_equal. lia.
  - destruct (IH k) as (a' & <-); [lia|exact H0|]. exists (x :: a'). reflexivity.
Qed.
Lemma raise_in n d a k : (k < n + 1)%nat -> In a (idx n d) <-> In (raise a k) (idx n (S d)).
Proof.
  intros Hk. rewrite !idx_in. unfold multi_index. rewrite raise_length. split; intros [L S1]; (split; [exact L|]); rewrite raise_sum in * by lia; lia.
Qed.
Lemma monomial_raise a : forall b k, length a = length b -> (k < length a)%nat -> INR (S (nth k a 0%nat)) * monomial (raise a k) b = nth k b 0 * monomial a b.
Proof.
  induction a as [|x a IH]; intros [|y b] [|k] L H; cbn [length] in *; try lia; cbn [nth raise monomial].
  - change (fact (S x)) with (S x * fact x)%nat. rewrite mult_INR. cbn [pow]. field. split; [apply Rgt_not_eq, INR_fact_pos|apply not_0_INR; lia].
  - transitivity (y ^ x / INR (fact x) * (INR (S (nth k a 0%nat)) * monomial (raise a k) b)); [ring|]. rewrite IH by lia. ring.
Qed.
Lemma weight_raise d a b k : length a = length b -> (k < length a)%nat -> INR (S (nth k a 0%nat)) * bern_weight (S d) (raise a k) b = INR (S d) * (nth k b 0 * bern_weight d a b).
Proof.
  intros L H. unfold bern_weight. change (fact (S d)) with (S d * fact d)%nat. rewrite mult_INR. transitivity (INR (S d) * INR (fact d) * (INR (S (nth k a 0%nat)) * monomial (raise a k) b)); [ring|].
  rewrite monomial_raise by assumption. ring.
Qed.
Lemma rsum_nth_sumR b : rsum (length b) (fun k => nth k b 0) = sumR b.
Proof. induction b; [reflexivity|]. cbn [length]. rewrite rsum_shift. cbn [nth]. rewrite IHb. reflexivity. Qed.
Lemma rsum_nth_list_sum a : rsum (length a) (fun k => INR (nth k a 0%nat)) = INR (list_sum a).
Proof. induction a as [|x a IH]; [reflexivity|]. cbn [length]. rewrite rsum_shift. cbn [nth]. rewrite IH. change (list_sum (x :: a)) with (x + list_sum a)%nat. rewrite plus_INR. reflexivity. Qed.

(** de Casteljau's algorithm gives the sum of Bernstein polynomials. *)
Lemma casteljau_step n d k (G : list nat -> R) : (k < n + 1)%nat ->
  sumL (fun a => G (raise a k)) (idx n d) = sumL (fun c => if (nth k c 0%nat =? 0)%nat then 0 else G c) (idx n (S d)).
Proof.
  intros Hk. transitivity (sumL (fun a => sumL (fun c => if leq (raise a k) c then G c else 0) (idx n (S d))) (idx n d)).
  - apply sumL_ext. intros a Ha. symmetry. apply sumL_one; [apply idx_nodup|]. apply raise_in; assumption.
  - rewrite sumL_swap. apply sumL_ext. intros c Hc. destruct (Nat.eqb_spec (nth k c 0%nat) 0).
    + apply sumL_0. intros a Ha. destruct (leq (raise a k) c) as [<-|]; [|reflexivity]. rewrite raise_nth in e by (rewrite (idx_len _ _ _ Ha); exact Hk). discriminate.
    + destruct (raise_lower c k) as (a & <-); [rewrite (idx_len _ _ _ Hc); exact Hk|assumption|].
      etransitivity; [|apply (sumL_one (fun _ => G (raise a k)) (idx n d) a (idx_nodup n d)); eapply raise_in; eassumption]. apply sumL_ext. intros a' _.
      destruct (leq (raise a' k) (raise a k)) as [E|E], (leq a a') as [E'|E']; try reflexivity; exfalso; [apply raise_inj in E; apply E'; symmetry; exact E|apply E; rewrite E'; reflexivity].
Qed.
Lemma casteljau_ok {m} n b : length b = (n + 1)%nat -> forall d (o : list nat -> vec R m), casteljau n d o b = psumL (fun a => pmul (bern_weight d a b) (o a)) (idx n d).
Proof.
  intros Lb. induction d; intros o.
  - assert (E : idx n 0 = [repeat 0%nat (n + 1)]).
    { clear. induction n; [reflexivity|]. cbn [idx Nat.add seq flat_map]. rewrite IHn. reflexivity. }
    rewrite E. cbn [casteljau psumL]. assert (W : forall k b, bern_weight 0 (repeat 0%nat k) b = 1).
    { clear. unfold bern_weight. intros k. induction k; intros b; [cbn; ring|]. destruct b; [cbn; ring|]. specialize (IHk b). cbn [repeat monomial]. rewrite <- IHk. cbn. field. }
    rewrite W. apply vec_ext. intros i Hi. rewrite coord_add, coord_mul, coord_0 by exact Hi. ring.
  - cbn [casteljau]. apply vec_ext. intros i Hi. rewrite coord_psum', coord_psumL by exact Hi.
    set (G := fun c => coord m i (o c)).
    transitivity (rsum (n + 1) (fun k => sumL (fun a => nth k b 0 * bern_weight d a b * G (raise a k)) (idx n d))).
    { apply rsum_ext. intros k Hk. rewrite coord_mul by exact Hi. rewrite IHd, coord_psumL by exact Hi. rewrite <- sumL_scal. apply sumL_ext. intros a _. rewrite coord_mul by exact Hi. unfold G. ring. }
    transitivity (rsum (n + 1) (fun k => sumL (fun c => INR (nth k c 0%nat) / INR (S d) * (bern_weight (S d) c b * G c)) (idx n (S d)))).
    { apply rsum_ext. intros k Hk.
      transitivity (sumL (fun a => (fun c => INR (nth k c 0%nat) / INR (S d) * (bern_weight (S d) c b * G c)) (raise a k)) (idx n d)).
      - apply sumL_ext. intros a Ha. cbv beta. pose proof (idx_len _ _ _ Ha) as La. rewrite raise_nth by lia. pose proof (weight_raise d a b k ltac:(lia) ltac:(lia)) as W.
        assert (HS : INR (S d) <> 0) by (apply not_0_INR; lia). apply (Rmult_eq_reg_l (INR (S d))); [|exact HS].
        transitivity (INR (S d) * (nth k b 0 * bern_weight d a b) * G (raise a k)); [ring|]. rewrite <- W. field. exact HS.
      - rewrite (casteljau_step n d k (fun c => INR (nth k c 0%nat) / INR (S d) * (bern_weight (S d) c b * G c)) Hk). apply sumL_ext. intros c _. destruct (Nat.eqb_spec (nth k c 0%nat) 0) as [->|]; [|reflexivity]. cbn [INR]. unfold Rdiv. ring. }
    rewrite <- sumL_rsum_swap. apply sumL_ext. intros c Hc. rewrite coord_mul by exact Hi. fold (G c).
    rewrite (rsum_ext _ _ (fun k => (bern_weight (S d) c b * G c / INR (S d)) * INR (nth k c 0%nat))) by (intros; unfold Rdiv; ring).
    rewrite rsum_scal. rewrite <- (idx_len _ _ _ Hc), rsum_nth_list_sum. apply idx_in in Hc. destruct Hc as [_ ->]. field. apply not_0_INR. lia.
Qed.

(** ** Elevation *)
Section Elevate.
  Context {m : nat} (s : simplex (vec R m)) (o : list nat -> vec R m).
  Notation n := (sx_dim s).
  Notation d := (sx_degree s).
  Context (Hc : (0 < sx_cols s)%nat) (Ho : sx_ordinates s = map o (idx n d)).
  Definition row_sum (e : list nat) : vec R m :=
    psumL (fun a => psum (n + 1) (fun k => if leq (raise a k) e then pmul (INR (nth k e 0%nat)) (o a) else p0)) (idx n d).
  Lemma elevated_row_ok e : length e = (n + 1)%nat -> sx_elevated_row s (idx n d) e = Ok (pmul (/ INR (d + 1)) (row_sum e)).
  Proof.
    intros Le. unfold sx_elevated_row.
    set (g := fun a => psum (n + 1) (fun k => if leq (raise a k) e then pmul (INR (nth k e 0%nat)) (o a) else p0)).
    set (F := fun i => psumL g (firstn i (idx n d))). change (@p0 R (vec R m) _) with (F 0%nat) at 1. rewrite num_ok.
    rewrite (loop_eq F).
    - cbn [bind]. unfold F. rewrite firstn_all. fold (row_sum e). unfold pdivs. rewrite sofZ_INR. cbn [seq_ s0 s1 sdiv R_ops]. rewrite Reqb_false by (apply not_0_INR; lia). f_equal. f_equal. unfold Rdiv. ring.
    - intros i Hi. rewrite (getn_nth _ _ []) by exact Hi. cbn [bind]. set (a := nth i (idx n d) []). assert (Ha : In a (idx n d)) by (apply nth_In; exact Hi). pose proof (idx_len _ _ _ Ha) as La.
      set (H := fun k => padd (F i) (psum k (fun k => if leq (raise a k) e then pmul (INR (nth k e 0%nat)) (o a) else p0))).
      assert (E0 : F i = H 0%nat) by (unfold H; cbn [psum]; apply vec_ext; intros j Hj; rewrite coord_add, coord_0 by exact Hj; ring).
      rewrite E0 at 1. rewrite (loop_eq H).
      + f_equal. unfold H. fold (g a). unfold F. rewrite (firstn_S _ _ []) by exact Hi. fold a. apply vec_ext. intros j Hj. rewrite coord_add, !coord_psumL, sumL_app by exact Hj. unfold sumL at 3. cbn. lra.
      + intros k Hk. rewrite (getn_nth a k 0%nat), (getn_nth e k 0%nat) by lia. cbn [bind]. rewrite raise_upd by lia. unfold H. cbn [psum]. destruct (leq (raise a k) e).
        * rewrite (getn_nth _ _ (o [])) by (rewrite Ho, map_length; exact Hi). cbn [bind]. rewrite Ho, map_nth, sofZ_INR. fold a. f_equal. apply vec_ext. intros j Hj. rewrite !coord_add by exact Hj. ring.
        * f_equal. apply vec_ext. intros j Hj. rewrite !coord_add, coord_0 by exact Hj. ring.
  Qed.
  Lemma elevate_ok : exists s' o', sx_elevate_degree s = Ok s' /\ sx_dim s' = n /\ sx_degree s' = (d + 1)%nat /\ sx_cols s' = sx_cols s /\ sx_ordinates s' = map o' (idx n (d + 1)) /\
    forall b, length b = (n + 1)%nat -> value s' o' b = pmul (sumR b) (value s o b).
  Proof.
    set (o' := fun e => pmul (/ INR (d + 1)) (row_sum e)).
    exists {| sx_dim := n; sx_degree := (d + 1)%nat; sx_cols := sx_cols s; sx_ordinates := map o' (idx n (d + 1)) |}, o'. split; [|split; [|split; [|split; [|split]]]]; try reflexivity.
    - unfold sx_elevate_degree. rewrite !multi_indices_ok. cbn [bind]. rewrite (mapM_ok _ o'); [reflexivity|]. intros e He. apply elevated_row_ok. eapply idx_len. exact He.
    - intros b Lb. unfold value. cbn [sx_dim sx_degree]. apply vec_ext. intros i Hi. rewrite coord_mul, !coord_psumL by exact Hi.
      assert (HD : INR (d + 1) <> 0) by (apply not_0_INR; lia).
      transitivity (sumL (fun e => sumL (fun a => rsum (n + 1) (fun k => if leq (raise a k) e then bern_weight (d + 1) e b * INR (nth k e 0%nat) / INR (d + 1) * coord m i (o a) else 0)) (idx n d)) (idx n (d + 1))).
      { apply sumL_ext. intros e He. rewrite coord_mul by exact Hi. unfold o', row_sum. rewrite coord_mul, coord_psumL by exact Hi. rewrite <- !sumL_scal. apply sumL_ext. intros a Ha.
        rewrite coord_psum', <- !rsum_scal by exact Hi. apply rsum_ext. intros k Hk. destruct (leq (raise a k) e); [rewrite coord_mul by exact Hi; field; exact HD|rewrite coord_0 by exact Hi; ring]. }
      rewrite sumL_swap, <- sumL_scal. apply sumL_ext. intros a Ha. pose proof (idx_len _ _ _ Ha) as La. rewrite sumL_rsum_swap, coord_mul by exact Hi.
      transitivity (rsum (n + 1) (fun k => bern_weight d a b * coord m i (o a) * nth k b 0)).
      + apply rsum_ext. intros k Hk. replace (d + 1)%nat with (S d) in * by lia.
        rewrite (sumL_one (fun e => bern_weight (S d) e b * INR (nth k e 0%nat) / INR (S d) * coord m i (o a))) by (apply idx_nodup || (apply raise_in; assumption)).
        rewrite raise_nth by lia. pose proof (weight_raise d a b k ltac:(lia) ltac:(lia)) as W. rewrite (Rmult_comm (bern_weight (S d) _ _)), W. field. exact HD.
      + rewrite rsum_scal, <- Lb, rsum_nth_sumR. ring.
  Qed.
End Elevate.
