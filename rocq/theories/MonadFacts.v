(** Facts about checked arrays and loops. *)
From Verif Require Import Monad.

Lemma bind_Ok {A B} (a : A) (f : A -> res B) : bind (Ok a) f = f a.
Proof. reflexivity. Qed.

Lemma zlen_nonneg {A} (l : list A) : 0 <= zlen l.
Proof. unfold zlen; lia. Qed.

Lemma zlen_cons {A} (a : A) l : zlen (a :: l) = zlen l + 1.
Proof. unfold zlen; simpl length; lia. Qed.

Lemma zlen_nil {A} : zlen (@nil A) = 0.
Proof. reflexivity. Qed.

Lemma zlen_app {A} (l l' : list A) : zlen (l ++ l') = zlen l + zlen l'.
Proof. unfold zlen; rewrite app_length; lia. Qed.

Lemma zlen_map {A B} (f : A -> B) l : zlen (map f l) = zlen l.
Proof. unfold zlen; now rewrite map_length. Qed.

Lemma zlen_repeat {A} (a : A) n : zlen (repeat a n) = Z.of_nat n.
Proof. unfold zlen; now rewrite repeat_length. Qed.

Lemma get_nth {A} (l : list A) (i : Z) (d : A) :
  0 <= i < zlen l -> get l i = Ok (nth (Z.to_nat i) l d).
Proof.
  intros H. unfold get.
  destruct (Z.ltb_spec i 0); [lia|].
  assert (Hn : (Z.to_nat i < length l)%nat) by (unfold zlen in H; lia).
  rewrite (nth_error_nth' l d Hn). reflexivity.
Qed.

Lemma get_Ok_range {A} (l : list A) i a : get l i = Ok a -> 0 <= i < zlen l.
Proof.
  unfold get. destruct (Z.ltb_spec i 0); [discriminate|].
  destruct (nth_error l (Z.to_nat i)) eqn:E; [|discriminate].
  intros _. assert (Hn : nth_error l (Z.to_nat i) <> None) by congruence.
  apply nth_error_Some in Hn. unfold zlen; lia.
Qed.

Lemma get_out {A} (l : list A) i : i < 0 \/ zlen l <= i -> get l i = Undef.
Proof.
  intros H. unfold get. destruct (Z.ltb_spec i 0); [reflexivity|].
  destruct (nth_error l (Z.to_nat i)) eqn:E; [|reflexivity].
  assert (Hn : nth_error l (Z.to_nat i) <> None) by congruence.
  apply nth_error_Some in Hn. unfold zlen in H; lia.
Qed.

Lemma get_in_range {A} (l : list A) i : 0 <= i < zlen l -> exists a, get l i = Ok a.
Proof.
  intros H. destruct l as [|a l]; [unfold zlen in H; simpl in H; lia|].
  exists (nth (Z.to_nat i) (a :: l) a). now apply get_nth.
Qed.

Lemma get_map {A B} (f : A -> B) l i : get (map f l) i = res_map f (get l i).
Proof.
  unfold get. destruct (Z.ltb_spec i 0); [reflexivity|].
  rewrite nth_error_map. destruct (nth_error l (Z.to_nat i)); reflexivity.
Qed.

Lemma get_app1 {A} (l l' : list A) i : i < zlen l -> get (l ++ l') i = get l i.
Proof.
  intros H. unfold get. destruct (Z.ltb_spec i 0); [reflexivity|].
  rewrite nth_error_app1; [reflexivity|]. unfold zlen in H; lia.
Qed.

Lemma get_app2 {A} (l l' : list A) i : zlen l <= i -> get (l ++ l') i = get l' (i - zlen l).
Proof.
  intros H. unfold zlen in H. unfold get, zlen.
  destruct (Z.ltb_spec i 0); [lia|].
  destruct (Z.ltb_spec (i - Z.of_nat (length l)) 0); [lia|].
  rewrite nth_error_app2 by lia.
  replace (Z.to_nat (i - Z.of_nat (length l))) with (Z.to_nat i - length l)%nat by lia.
  reflexivity.
Qed.

Lemma upd_nat_length {A} (l : list A) n v : length (upd_nat l n v) = length l.
Proof. revert n; induction l as [|a l IH]; intros [|n]; simpl; auto. Qed.

Lemma nth_error_upd_nat {A} (l : list A) n v m :
  (n < length l)%nat ->
  nth_error (upd_nat l n v) m = if Nat.eqb m n then Some v else nth_error l m.
Proof.
  revert n m; induction l as [|a l IH]; intros [|n] [|m] H; simpl in *; try lia; auto.
  apply IH; lia.
Qed.

Lemma set_Ok {A} (l : list A) i v :
  0 <= i < zlen l -> set l i v = Ok (upd_nat l (Z.to_nat i) v).
Proof.
  intros H. unfold set. destruct (Z.leb_spec 0 i); [|lia].
  destruct (Z.ltb_spec i (zlen l)); [reflexivity|lia].
Qed.

(** [fupd f i v]: pointwise function update. *)
Definition fupd {A} (f : Z -> A) (i : Z) (v : A) : Z -> A := fun j => if j =? i then v else f j.

Lemma fupd_eq {A} (f : Z -> A) i v : fupd f i v i = v.
Proof. unfold fupd; now rewrite Z.eqb_refl. Qed.
Lemma fupd_neq {A} (f : Z -> A) i v j : j <> i -> fupd f i v j = f j.
Proof. intros H; unfold fupd; destruct (Z.eqb_spec j i); [contradiction|reflexivity]. Qed.

(** [arr l n f]: the array [l] has [n] entries and entry [i] is [f i]. *)
Definition arr {A} (l : list A) (n : Z) (f : Z -> A) : Prop :=
  zlen l = n /\ forall i, 0 <= i < n -> get l i = Ok (f i).

Lemma arr_len {A} (l : list A) n f : arr l n f -> zlen l = n.
Proof. intros [H _]; exact H. Qed.

Lemma arr_get {A} (l : list A) n f i : arr l n f -> 0 <= i < n -> get l i = Ok (f i).
Proof. intros [_ H]; apply H. Qed.

Lemma arr_nonneg {A} (l : list A) n f : arr l n f -> 0 <= n.
Proof. intros [H _]; rewrite <- H; apply zlen_nonneg. Qed.

Lemma arr_ext {A} (l : list A) n f g :
  arr l n f -> (forall i, 0 <= i < n -> f i = g i) -> arr l n g.
Proof. intros [H1 H2] E; split; auto. intros i Hi; rewrite H2, E; auto. Qed.

Lemma arr_set {A} (l : list A) n f i v :
  arr l n f -> 0 <= i < n ->
  exists l', set l i v = Ok l' /\ arr l' n (fupd f i v).
Proof.
  intros [H1 H2] Hi. exists (upd_nat l (Z.to_nat i) v). split.
  - apply set_Ok; lia.
  - split; [unfold zlen in *; now rewrite upd_nat_length|].
    intros j Hj. specialize (H2 j Hj). unfold get in *.
    destruct (Z.ltb_spec j 0); [lia|].
    rewrite nth_error_upd_nat by (unfold zlen in H1; lia).
    unfold fupd. destruct (Z.eqb_spec j i) as [->|Hne].
    + now rewrite Nat.eqb_refl.
    + destruct (Nat.eqb_spec (Z.to_nat j) (Z.to_nat i)); [lia|exact H2].
Qed.

Lemma arr_nth {A} (l : list A) (d : A) : arr l (zlen l) (fun i => nth (Z.to_nat i) l d).
Proof. split; [reflexivity|]. intros i Hi; now apply get_nth. Qed.

Lemma arr_alloc {A} (d : A) n : 0 <= n -> exists l, alloc d n = Ok l /\ arr l n (fun _ => d).
Proof.
  intros H. exists (repeat d (Z.to_nat n)). unfold alloc.
  destruct (Z.leb_spec 0 n); [|lia]. split; [reflexivity|].
  split; [rewrite zlen_repeat; lia|]. intros i Hi.
  rewrite (get_nth _ _ d) by (rewrite zlen_repeat; lia).
  now rewrite nth_repeat.
Qed.

Lemma arr_uniq {A} (l l' : list A) n f : arr l n f -> arr l' n f -> l = l'.
Proof.
  intros [H1 H2] [H1' H2'].
  assert (HL : length l = length l') by (unfold zlen in *; lia).
  apply nth_ext with (d := f 0) (d' := f 0); [exact HL|].
  intros k Hk.
  assert (Hr : 0 <= Z.of_nat k < n) by (unfold zlen in H1; lia).
  specialize (H2 _ Hr). specialize (H2' _ Hr).
  rewrite (get_nth l (Z.of_nat k) (f 0)) in H2 by lia.
  rewrite (get_nth l' (Z.of_nat k) (f 0)) in H2' by lia.
  rewrite Nat2Z.id in *.
  congruence.
Qed.

(** [mklist n f] is the array of length [n] with entries [f 0 .. f (n-1)]. *)
Definition mklist {A} (n : Z) (f : Z -> A) : list A :=
  map (fun k => f (Z.of_nat k)) (seq 0 (Z.to_nat n)).

Lemma arr_mklist {A} n (f : Z -> A) : 0 <= n -> arr (mklist n f) n f.
Proof.
  intros Hn. unfold mklist. split.
  - rewrite zlen_map. unfold zlen. rewrite seq_length. lia.
  - intros i Hi. rewrite get_map. unfold get.
    destruct (Z.ltb_spec i 0); [lia|].
    rewrite nth_error_nth' with (d := O) by (rewrite seq_length; lia).
    rewrite seq_nth by lia. simpl. f_equal. f_equal. lia.
Qed.

Lemma arr_eq {A} (l : list A) n f : arr l n f -> l = mklist n f.
Proof.
  intros H. apply (arr_uniq l (mklist n f) n f H). apply arr_mklist.
  eapply arr_nonneg; eauto.
Qed.

Lemma mklist_ext {A} n (f g : Z -> A) :
  (forall i, 0 <= i < n -> f i = g i) -> mklist n f = mklist n g.
Proof.
  intros H. unfold mklist. apply map_ext_in. intros k Hk. apply in_seq in Hk. apply H. lia.
Qed.

Lemma zlen_mklist {A} n (f : Z -> A) : 0 <= n -> zlen (mklist n f) = n.
Proof. intros H. apply (arr_len _ _ f). now apply arr_mklist. Qed.

Lemma get_mklist {A} n (f : Z -> A) i : 0 <= i < n -> get (mklist n f) i = Ok (f i).
Proof. intros H. apply (arr_get _ n f); [apply arr_mklist; lia|exact H]. Qed.

Lemma list_eq_mklist {A} (l : list A) (d : A) :
  l = mklist (zlen l) (fun i => nth (Z.to_nat i) l d).
Proof. apply arr_eq. apply arr_nth. Qed.

Lemma nth_mklist {A} n (f : Z -> A) k d :
  (k < Z.to_nat n)%nat -> nth k (mklist n f) d = f (Z.of_nat k).
Proof.
  intros H. unfold mklist.
  rewrite nth_indep with (d' := f (Z.of_nat O)) by (rewrite map_length, seq_length; lia).
  rewrite (map_nth (fun k => f (Z.of_nat k)) (seq 0 (Z.to_nat n)) O).
  rewrite seq_nth by lia. reflexivity.
Qed.

Lemma map_mklist {A B} (g : A -> B) n (f : Z -> A) : map g (mklist n f) = mklist n (fun i => g (f i)).
Proof. unfold mklist. rewrite map_map. reflexivity. Qed.

Lemma length_mklist {A} n (f : Z -> A) : length (mklist n f) = Z.to_nat n.
Proof. unfold mklist. now rewrite map_length, seq_length. Qed.

(** Blocks *)
Lemma get_firstn {A} (l : list A) n i : 0 <= i < n -> get (firstn (Z.to_nat n) l) i = get l i.
Proof.
  intros H. unfold get. destruct (Z.ltb_spec i 0); [lia|].
  assert (E : nth_error (firstn (Z.to_nat n) l) (Z.to_nat i) = nth_error l (Z.to_nat i)).
  { assert (Hlt : (Z.to_nat i < Z.to_nat n)%nat) by lia.
    revert Hlt. generalize (Z.to_nat i) as k, (Z.to_nat n) as m. clear.
    intros k m; revert l k; induction m as [|m IH]; intros l k H; [lia|].
    destruct l as [|a l]; simpl; [now destruct k|].
    destruct k; simpl; [reflexivity|]. apply IH; lia. }
  now rewrite E.
Qed.

Lemma get_skipn {A} (l : list A) n i : 0 <= i -> 0 <= n ->
  get (skipn (Z.to_nat n) l) i = get l (n + i).
Proof.
  intros Hi Hn. unfold get. destruct (Z.ltb_spec i 0); [lia|]. destruct (Z.ltb_spec (n + i) 0); [lia|].
  replace (Z.to_nat (n + i)) with (Z.to_nat n + Z.to_nat i)%nat by lia.
  assert (E : nth_error (skipn (Z.to_nat n) l) (Z.to_nat i) = nth_error l (Z.to_nat n + Z.to_nat i)).
  { generalize (Z.to_nat i) as k, (Z.to_nat n) as m. clear.
    intros k m; revert l; induction m as [|m IH]; intros l; [reflexivity|].
    destruct l as [|a l]; simpl; [now destruct k|]. apply IH. }
  now rewrite E.
Qed.

Lemma arr_block {A} (l : list A) n f i k :
  arr l n f -> 0 <= i -> 0 <= k -> i + k <= n ->
  exists l', block l i k = Ok l' /\ arr l' k (fun j => f (i + j)).
Proof.
  intros [H1 H2] Hi Hk Hik. unfold block.
  destruct (Z.leb_spec 0 i); [|lia]. destruct (Z.leb_spec 0 k); [|lia].
  destruct (Z.leb_spec (i + k) (zlen l)); [|lia]. simpl.
  eexists; split; [reflexivity|]. split.
  - unfold zlen in *. rewrite firstn_length, skipn_length. lia.
  - intros j Hj. rewrite get_firstn by lia. rewrite get_skipn by lia. apply H2. lia.
Qed.

Lemma arr_blit {A} (l : list A) n f i src k g :
  arr l n f -> arr src k g -> 0 <= i -> i + k <= n ->
  exists l', blit l i src = Ok l' /\
    arr l' n (fun j => if (i <=? j) && (j <? i + k) then g (j - i) else f j).
Proof.
  intros [H1 H2] [K1 K2] Hi Hik. unfold blit.
  pose proof (zlen_nonneg src) as Hpos.
  destruct (Z.leb_spec 0 i); [|lia].
  destruct (Z.leb_spec (i + zlen src) (zlen l)); [|lia]. simpl.
  eexists; split; [reflexivity|].
  assert (L1 : zlen (firstn (Z.to_nat i) l) = i).
  { unfold zlen in *. rewrite firstn_length. lia. }
  split.
  - rewrite !zlen_app, L1. unfold zlen in *. rewrite skipn_length. lia.
  - intros j Hj.
    destruct (Z.leb_spec i j); simpl.
    + rewrite get_app2 by lia. rewrite L1.
      destruct (Z.ltb_spec j (i + k)).
      * rewrite get_app1 by lia. apply K2; lia.
      * rewrite get_app2 by lia.
        replace (Z.to_nat i + length src)%nat with (Z.to_nat (i + k)) by (unfold zlen in *; lia).
        rewrite get_skipn by lia. rewrite <- H2 by lia. f_equal. lia.
    + rewrite get_app1 by lia. rewrite get_firstn by lia. apply H2; lia.
Qed.

Lemma arr_topRows {A} (l : list A) n f k :
  arr l n f -> 0 <= k <= n -> exists l', topRows l k = Ok l' /\ arr l' k f.
Proof.
  intros H Hk. destruct (arr_block l n f 0 k H) as (l' & E & Hl'); try lia.
  exists l'; split; [exact E|]. eapply arr_ext; [exact Hl'|]. intros i Hi; reflexivity.
Qed.

Lemma arr_bottomRows {A} (l : list A) n f k :
  arr l n f -> 0 <= k <= n ->
  exists l', bottomRows l k = Ok l' /\ arr l' k (fun j => f (n - k + j)).
Proof.
  intros H Hk. unfold bottomRows. rewrite (arr_len _ _ _ H).
  apply (arr_block l n f (n - k) k H); lia.
Qed.

(** Loop rules *)
Lemma for_nat_inv {S} (Inv : Z -> S -> Prop) n lo body (s : S) :
  Inv lo s ->
  (forall i s, lo <= i < lo + Z.of_nat n -> Inv i s -> exists s', body i s = Ok s' /\ Inv (i + 1) s') ->
  exists s', for_nat n lo body s = Ok s' /\ Inv (lo + Z.of_nat n) s'.
Proof.
  revert lo s; induction n as [|n IH]; intros lo s H0 Hs.
  - exists s. simpl. split; [reflexivity|]. now rewrite Z.add_0_r.
  - destruct (Hs lo s) as (s1 & E1 & H1); [lia|exact H0|].
    destruct (IH (lo + 1) s1 H1) as (s2 & E2 & H2).
    { intros i s' Hi. apply Hs. lia. }
    exists s2. cbn [for_nat ford_nat bind]. rewrite E1. cbn [bind]. rewrite E2. split; [reflexivity|].
    replace (lo + Z.of_nat (Datatypes.S n)) with (lo + 1 + Z.of_nat n) by lia. exact H2.
Qed.

Lemma for_up_inv {S} (Inv : Z -> S -> Prop) lo hi body (s : S) :
  lo <= hi -> Inv lo s ->
  (forall i s, lo <= i < hi -> Inv i s -> exists s', body i s = Ok s' /\ Inv (i + 1) s') ->
  exists s', for_up lo hi body s = Ok s' /\ Inv hi s'.
Proof.
  intros Hle H0 Hs. unfold for_up.
  destruct (for_nat_inv Inv (Z.to_nat (hi - lo)) lo body s H0) as (s' & E & H').
  - intros i s1 Hi. apply Hs. lia.
  - exists s'. split; [exact E|]. replace hi with (lo + Z.of_nat (Z.to_nat (hi - lo))) by lia. exact H'.
Qed.

Lemma for_up_empty {S} lo hi body (s : S) : hi <= lo -> for_up lo hi body s = Ok s.
Proof. intros H. unfold for_up. replace (Z.to_nat (hi - lo)) with O by lia. reflexivity. Qed.

Lemma ford_nat_inv {S} (Inv : Z -> S -> Prop) n hi body (s : S) :
  Inv hi s ->
  (forall i s, hi - Z.of_nat n < i <= hi -> Inv i s -> exists s', body i s = Ok s' /\ Inv (i - 1) s') ->
  exists s', ford_nat n hi body s = Ok s' /\ Inv (hi - Z.of_nat n) s'.
Proof.
  revert hi s; induction n as [|n IH]; intros hi s H0 Hs.
  - exists s. simpl. split; [reflexivity|]. now rewrite Z.sub_0_r.
  - destruct (Hs hi s) as (s1 & E1 & H1); [lia|exact H0|].
    destruct (IH (hi - 1) s1 H1) as (s2 & E2 & H2).
    { intros i s' Hi. apply Hs. lia. }
    exists s2. cbn [for_nat ford_nat bind]. rewrite E1. cbn [bind]. rewrite E2. split; [reflexivity|].
    replace (hi - Z.of_nat (Datatypes.S n)) with (hi - 1 - Z.of_nat n) by lia. exact H2.
Qed.

(** Descending loop; the invariant at [lo - 1] is the result. *)
Lemma for_down_inv {S} (Inv : Z -> S -> Prop) hi lo body (s : S) :
  lo - 1 <= hi -> Inv hi s ->
  (forall i s, lo <= i <= hi -> Inv i s -> exists s', body i s = Ok s' /\ Inv (i - 1) s') ->
  exists s', for_down hi lo body s = Ok s' /\ Inv (lo - 1) s'.
Proof.
  intros Hle H0 Hs. unfold for_down.
  destruct (ford_nat_inv Inv (Z.to_nat (hi - lo + 1)) hi body s H0) as (s' & E & H').
  - intros i s1 Hi. apply Hs. lia.
  - exists s'. split; [exact E|].
    replace (lo - 1) with (hi - Z.of_nat (Z.to_nat (hi - lo + 1))) by lia. exact H'.
Qed.

(** A loop that may return early: either it runs to the end with the invariant or it returns a
    value satisfying [Q]. *)
Lemma forb_nat_inv {S B} (Inv : Z -> S -> Prop) (Q : B -> Prop) n lo body (s : S) :
  Inv lo s ->
  (forall i s, lo <= i < lo + Z.of_nat n -> Inv i s ->
     exists x, body i s = Ok x /\ match x with inl s' => Inv (i + 1) s' | inr b => Q b end) ->
  exists x, forb_nat n lo body s = Ok x /\
    match x with inl s' => Inv (lo + Z.of_nat n) s' | inr b => Q b end.
Proof.
  revert lo s; induction n as [|n IH]; intros lo s H0 Hs.
  - exists (inl s). simpl. split; [reflexivity|]. now rewrite Z.add_0_r.
  - destruct (Hs lo s) as (x & E1 & H1); [lia|exact H0|].
    cbn [forb_nat bind]. rewrite E1. cbn [bind]. destruct x as [s1|b].
    + destruct (IH (lo + 1) s1 H1) as (y & E2 & H2).
      { intros i s' Hi. apply Hs. lia. }
      exists y. rewrite E2. split; [reflexivity|]. destruct y as [s2|b]; [|exact H2].
      replace (lo + Z.of_nat (Datatypes.S n)) with (lo + 1 + Z.of_nat n) by lia. exact H2.
    + exists (inr b). split; [reflexivity|exact H1].
Qed.

Lemma forb_up_inv {S B} (Inv : Z -> S -> Prop) (Q : B -> Prop) lo hi body (s : S) :
  lo <= hi -> Inv lo s ->
  (forall i s, lo <= i < hi -> Inv i s ->
     exists x, body i s = Ok x /\ match x with inl s' => Inv (i + 1) s' | inr b => Q b end) ->
  exists x, forb_up lo hi body s = Ok x /\ match x with inl s' => Inv hi s' | inr b => Q b end.
Proof.
  intros Hle H0 Hs. unfold forb_up.
  destruct (forb_nat_inv Inv Q (Z.to_nat (hi - lo)) lo body s H0) as (x & E & H').
  - intros i s1 Hi. apply Hs. lia.
  - exists x. split; [exact E|]. destruct x as [s'|b]; [|exact H'].
    replace hi with (lo + Z.of_nat (Z.to_nat (hi - lo))) by lia. exact H'.
Qed.

(** Weak (partial correctness) version: if the loop returns, the result satisfies the invariant. *)
Lemma forb_nat_post {S B} (Inv : S -> Prop) (Q : B -> Prop) n lo body (s : S) x :
  Inv s ->
  (forall i s y, Inv s -> body i s = Ok y -> match y with inl s' => Inv s' | inr b => Q b end) ->
  forb_nat n lo body s = Ok x -> match x with inl s' => Inv s' | inr b => Q b end.
Proof.
  revert lo s; induction n as [|n IH]; intros lo s H0 Hs E; simpl in E.
  - inversion E; subst; exact H0.
  - destruct (body lo s) as [y| | |] eqn:Eb; simpl in E; try discriminate.
    specialize (Hs lo s y H0 Eb) as Hy. destruct y as [s'|b].
    + eapply IH; eauto.
    + inversion E; subst; exact Hy.
Qed.

Lemma for_nat_post {S} (Inv : S -> Prop) n lo body (s : S) x :
  Inv s ->
  (forall i s s', lo <= i < lo + Z.of_nat n -> Inv s -> body i s = Ok s' -> Inv s') ->
  for_nat n lo body s = Ok x -> Inv x.
Proof.
  revert lo s; induction n as [|n IH]; intros lo s H0 Hs E; simpl in E.
  - inversion E; subst; exact H0.
  - destruct (body lo s) as [y| | |] eqn:Eb; simpl in E; try discriminate.
    eapply (IH (lo + 1) y); [eapply (Hs lo); eauto; lia| |exact E].
    intros i s1 s2 Hi. apply Hs. lia.
Qed.

Lemma for_up_post {S} (Inv : S -> Prop) lo hi body (s : S) x :
  Inv s ->
  (forall i s s', lo <= i < hi -> Inv s -> body i s = Ok s' -> Inv s') ->
  for_up lo hi body s = Ok x -> Inv x.
Proof.
  intros H0 Hs. unfold for_up. apply for_nat_post; auto.
  intros i s1 s2 Hi. apply Hs. lia.
Qed.

Lemma bind_inv {A B} (x : res A) (f : A -> res B) b :
  bind x f = Ok b -> exists a, x = Ok a /\ f a = Ok b.
Proof. destruct x; simpl; intros H; try discriminate; eauto. Qed.

Lemma mapM_Ok {A B} (f : A -> res B) (g : A -> B) l :
  (forall a, In a l -> f a = Ok (g a)) -> mapM f l = Ok (map g l).
Proof.
  induction l as [|a l IH]; intros H; simpl; [reflexivity|].
  rewrite H by (left; reflexivity). simpl. rewrite IH by (intros b Hb; apply H; now right).
  reflexivity.
Qed.

Lemma tabulate_Ok {A} n (f : Z -> res A) g :
  0 <= n -> (forall i, 0 <= i < n -> f i = Ok (g i)) -> tabulate n f = Ok (mklist n g).
Proof.
  intros Hn H. unfold tabulate, mklist. apply mapM_Ok. intros k Hk. apply in_seq in Hk. apply H. lia.
Qed.

(** While loop with a decreasing measure. *)
Lemma while_inv {S} (Inv : S -> Prop) (m : S -> nat) fuel c body (s : S) :
  Inv s -> (m s < fuel)%nat ->
  (forall s, Inv s -> exists b, c s = Ok b) ->
  (forall s, Inv s -> c s = Ok true -> exists s', body s = Ok s' /\ Inv s' /\ (m s' < m s)%nat) ->
  exists s', while fuel c body s = Ok s' /\ Inv s' /\ c s' = Ok false.
Proof.
  intros H0 Hf Hc Hb. revert s H0 Hf. induction fuel as [|f IH]; intros s H0 Hf; [lia|].
  destruct (Hc s H0) as [b Eb]. simpl. rewrite Eb. simpl. destruct b.
  - destruct (Hb s H0 Eb) as (s' & E & H' & Hm). rewrite E. simpl. apply IH; [exact H'|lia].
  - exists s. auto.
Qed.
