(** PolynomialRootFinder.h, degree three and more: the eigenvalues of the companion matrix are the complex roots of the
    polynomial (C30). *)
From Coq Require Import Reals Lra Lia ZArith QArith List.
From Coquelicot Require Import Complex.
From Verif Require Import Monad MonadFacts Scalar ScalarFacts ModelRoots LineThms SpecRoots.
Import ListNotations.
Local Open Scope nat_scope.

Lemma csum_ext n f g : (forall i, i < n -> f i = g i) -> csum n f = csum n g.
Proof. induction n as [|n IH]; intros H; [reflexivity|]. cbn [csum]. rewrite IH by (intros; apply H; lia). now rewrite H by lia. Qed.
Lemma csum_0 n f : (forall i, i < n -> f i = (RtoC 0)) -> csum n f = (RtoC 0).
Proof. induction n as [|n IH]; intros H; [reflexivity|]. cbn [csum]. rewrite IH by (intros; apply H; lia). rewrite H by lia. ring. Qed.
Lemma csum_add n f g : csum n (fun i => (f i + g i)%C) = (csum n f + csum n g)%C.
Proof. induction n as [|n IH]; cbn [csum]; [ring|]. rewrite IH. ring. Qed.
Lemma csum_mul n c f : csum n (fun i => (c * f i)%C) = (c * csum n f)%C.
Proof. induction n as [|n IH]; cbn [csum]; [ring|]. rewrite IH. ring. Qed.
Lemma csum_shift n f : csum (S n) f = (f 0 + csum n (fun i => f (S i)))%C.
Proof. induction n as [|n IH]; [cbn [csum]; ring|]. cbn [csum] in *. rewrite IH. ring. Qed.

(** Product of row i of the companion matrix of order n = S m with a vector. *)
Definition comp_entry (m : nat) (c : nat -> C) i j : C := if j =? m then c i else if i =? S j then (RtoC 1) else (RtoC 0).
Lemma csum_delta m i (v : nat -> C) : i <= m -> csum m (fun j => ((if i =? S j then RtoC 1 else RtoC 0) * v j)%C) = match i with O => (RtoC 0) | S k => v k end.
Proof.
  induction m as [|m IH]; intros H.
  - assert (i = 0) by lia. now subst i.
  - cbn [csum]. destruct (Nat.eq_dec i (S m)) as [->|Hi].
    + rewrite Nat.eqb_refl. rewrite csum_0; [ring|]. intros j Hj. destruct (Nat.eqb_spec (S m) (S j)); [lia|ring].
    + rewrite IH by lia. destruct (Nat.eqb_spec i (S m)); [lia|]. ring.
Qed.
Lemma comp_row m c v i : i <= m -> csum (S m) (fun j => (comp_entry m c i j * v j)%C) = (match i with O => RtoC 0 | S k => v k end + c i * v m)%C.
Proof.
  intros Hi. cbn [csum]. unfold comp_entry at 2. rewrite Nat.eqb_refl.
  rewrite (csum_ext m _ (fun j => ((if i =? S j then RtoC 1 else RtoC 0) * v j)%C)).
  - now rewrite csum_delta by exact Hi.
  - intros j Hj. unfold comp_entry. destruct (Nat.eqb_spec j m); [lia|reflexivity].
Qed.

(** Eigenvalues of the companion matrix of z^(m+1) - c_m z^m - ... - c_0. *)
Lemma comp_eigen m (c : nat -> C) z :
  (exists v : nat -> C, (exists i, i < S m /\ v i <> (RtoC 0)) /\
     forall i, i < S m -> csum (S m) (fun j => (comp_entry m c i j * v j)%C) = (z * v i)%C) <->
  cpow z (S m) = csum (S m) (fun i => (c i * cpow z i)%C).
Proof.
  split.
  - intros (v & Hnz & Hv).
    assert (Hr : forall i, i <= m -> (match i with O => RtoC 0 | S k => v k end + c i * v m)%C = (z * v i)%C) by (intros i Hi; rewrite <- comp_row by exact Hi; apply Hv; lia).
    assert (Hm : v m <> (RtoC 0)).
    { intros E. assert (Z : forall k, k <= m -> v (m - k)%nat = (RtoC 0)).
      { induction k as [|k IH]; intros Hk; [now rewrite Nat.sub_0_r|]. pose proof (Hr (m - k) ltac:(lia)) as H. rewrite IH in H by lia.
        replace (m - k) with (S (m - S k)) in H by lia. rewrite E in H. replace (v (m - S k)%nat) with (v (m - S k)%nat + c (S (m - S k))%nat * RtoC 0)%C by ring. rewrite H. ring. }
      destruct Hnz as (i & Hi & Hn). apply Hn. replace i with (m - (m - i)) by lia. apply Z. lia. }
    (* partial sums: z^(k+1) v_k = sum_{i<=k} c_i z^i v_m *)
    assert (P : forall k, k <= m -> (cpow z (S k) * v k)%C = (csum (S k) (fun i => (c i * cpow z i)%C) * v m)%C).
    { induction k as [|k IH]; intros Hk.
      - pose proof (Hr 0 Hk) as H. cbn [csum cpow]. replace (z * RtoC 1 * v 0%nat)%C with (z * v 0%nat)%C by ring. rewrite <- H. ring.
      - pose proof (Hr (S k) Hk) as H. specialize (IH ltac:(lia)). change (csum (S (S k)) (fun i => (c i * cpow z i)%C)) with (csum (S k) (fun i => (c i * cpow z i)%C) + c (S k) * cpow z (S k))%C.
        change (cpow z (S (S k))) with (z * cpow z (S k))%C. replace (z * cpow z (S k) * v (S k))%C with (cpow z (S k) * (z * v (S k)))%C by ring.
        rewrite <- H. rewrite Cmult_plus_distr_l, IH. ring. }
    pose proof (P m (le_n m)) as H.
    assert (X : (v m * (cpow z (S m) - csum (S m) (fun i => c i * cpow z i)))%C = (RtoC 0)).
    { replace (v m * (cpow z (S m) - csum (S m) (fun i => c i * cpow z i)))%C with (cpow z (S m) * v m - csum (S m) (fun i => c i * cpow z i) * v m)%C by ring. rewrite H. ring. }
    destruct (Ceq_dec (cpow z (S m) - csum (S m) (fun i => c i * cpow z i))%C (RtoC 0)) as [E|E].
    + replace (cpow z (S m)) with (cpow z (S m) - csum (S m) (fun i => c i * cpow z i) + csum (S m) (fun i => c i * cpow z i))%C by ring. rewrite E. ring.
    + exfalso. exact (Cmult_neq_0 _ _ Hm E X).
  - intros Hp.
    (* v_(m-k) = z^k - sum_{i<k} c_(m-k+1+i) z^i *)
    set (w := fix w (k : nat) : C := match k with O => (RtoC 1) | S k' => (z * w k' - c (m - k')%nat)%C end).
    exists (fun i => w (m - i)%nat). split.
    + exists m. split; [lia|]. rewrite Nat.sub_diag. cbn [w]. intros E. apply RtoC_inj in E. lra.
    + intros i Hi. rewrite comp_row by lia. rewrite Nat.sub_diag. change (w 0) with ((RtoC 1)). destruct i as [|i].
      * (* Horner *)
        assert (H : forall k, k <= m -> (csum (m - k)%nat (fun i => (c i * cpow z i)%C) + cpow z (m - k)%nat * (z * w k - c (m - k)%nat)%C)%C
                   = (cpow z (S m) - csum (S m) (fun i => (c i * cpow z i)%C) + ((RtoC 1 + RtoC 1) * csum (m - k)%nat (fun i => c i * cpow z i)))%C).
        { induction k as [|k IH]; intros Hk.
          - rewrite Nat.sub_0_r. cbn [w csum cpow]. ring.
          - specialize (IH ltac:(lia)). change (w (S k)) with (z * w k - c (m - k)%nat)%C. replace (m - k) with (S (m - S k)) in IH |- * by lia.
            change (csum (S (m - S k))%nat (fun i => (c i * cpow z i)%C)) with (csum (m - S k)%nat (fun i => (c i * cpow z i)%C) + c (m - S k)%nat * cpow z (m - S k)%nat)%C in IH.
            change (cpow z (S (m - S k))%nat) with (z * cpow z (m - S k)%nat)%C in IH.
            set (A := csum (m - S k)%nat (fun i => (c i * cpow z i)%C)) in *. set (B := cpow z (m - S k)%nat) in *. set (D := (cpow z (S m) - csum (S m) (fun i => c i * cpow z i))%C) in *.
            set (W := w k) in *. set (c1 := c (S (m - S k))%nat) in *. set (c2 := c (m - S k)%nat) in *.
            replace (A + B * (z * (z * W - c1) - c2))%C with ((A + c2 * B) + z * B * (z * W - c1) - (RtoC 1 + RtoC 1) * (c2 * B))%C by ring.
            rewrite IH. ring. }
        specialize (H m (le_n m)). rewrite Nat.sub_diag in H. cbn [csum cpow] in H. rewrite Nat.sub_0_r.
        cbn [csum cpow] in Hp. rewrite Hp in H. replace (z * w m)%C with (RtoC 0 + RtoC 1 * (z * w m - c 0%nat) + c 0%nat)%C by ring. rewrite H. ring.
      * replace (m - i) with (S (m - S i)) by lia. change (w (S (m - S i))%nat) with (z * w (m - S i)%nat - c (m - (m - S i))%nat)%C. replace (m - (m - S i)) with (S i) by lia. ring.
Qed.

(** * The companion matrix of the code *)
Definition comp_matrix (n : nat) (coeffs : list R) : list (list R) :=
  mklist (Z.of_nat n) (fun i => mklist (Z.of_nat n) (fun j =>
    if (j =? Z.of_nat n - 1)%Z then (- nth (Z.to_nat i) coeffs 0 / nth n coeffs 0)%R else if (i =? j + 1)%Z then 1%R else 0%R)).
Lemma companion_ok n coeffs : n < length coeffs -> nth n coeffs 0%R <> 0%R -> companion (Z.of_nat n) coeffs = Ok (comp_matrix n coeffs).
Proof.
  intros Hl Hn. unfold companion, comp_matrix. apply tabulate_Ok; [lia|]. intros i Hi. apply tabulate_Ok; [lia|]. intros j Hj.
  assert (Hz : zlen coeffs = Z.of_nat (length coeffs)) by reflexivity.
  rewrite (get_nth coeffs i 0%R), (get_nth coeffs (Z.of_nat n) 0%R) by lia. rewrite !bind_Ok, Nat2Z.id.
  destruct (j =? _)%Z; [|destruct (i =? _)%Z; reflexivity]. rewrite ddiv_R by exact Hn. reflexivity.
Qed.
Lemma companion_eigen n coeffs (z : C) : 1 <= n -> nth n coeffs 0%R <> 0%R ->
  eigenvalue (comp_matrix n coeffs) z <-> cpoly n coeffs z = RtoC 0.
Proof.
  intros H1 Hn. destruct n as [|m]; [lia|]. clear H1. set (cn := nth (S m) coeffs 0%R) in *.
  assert (Hc : RtoC cn <> RtoC 0) by (intros E; apply RtoC_inj in E; contradiction).
  set (c := fun i => RtoC (- nth i coeffs 0 / cn)%R).
  assert (L : length (comp_matrix (S m) coeffs) = S m) by (unfold comp_matrix; now rewrite length_mklist, Nat2Z.id).
  assert (En : forall i j, i < S m -> j < S m -> RtoC (nth j (nth i (comp_matrix (S m) coeffs) []) 0%R) = comp_entry m c i j).
  { intros i j Hi Hj. unfold comp_matrix. rewrite nth_mklist by lia. rewrite nth_mklist by lia. unfold comp_entry, c. rewrite Nat2Z.id.
    destruct (Z.eqb_spec (Z.of_nat j) (Z.of_nat (S m) - 1)), (Nat.eqb_spec j m); try lia; [reflexivity|].
    destruct (Z.eqb_spec (Z.of_nat i) (Z.of_nat j + 1)), (Nat.eqb_spec i (S j)); try lia; reflexivity. }
  transitivity (exists v : nat -> C, (exists i, i < S m /\ v i <> RtoC 0) /\
     forall i, i < S m -> csum (S m) (fun j => (comp_entry m c i j * v j)%C) = (z * v i)%C).
  { unfold eigenvalue. rewrite L. split; intros (v & Hv & H); exists v; (split; [exact Hv|]); intros i Hi; rewrite <- (H i Hi); apply csum_ext; intros j Hj; now rewrite En. }
  rewrite comp_eigen.
  assert (Ep : cpoly (S m) coeffs z = (RtoC cn * (cpow z (S m) - csum (S m) (fun i => c i * cpow z i)))%C).
  { unfold cpoly. change (csum (S (S m)) (fun i => (RtoC (nth i coeffs 0%R) * cpow z i)%C)) with (csum (S m) (fun i => (RtoC (nth i coeffs 0%R) * cpow z i)%C) + RtoC cn * cpow z (S m))%C.
    rewrite (csum_ext _ _ (fun i => ((- RtoC cn) * (c i * cpow z i))%C)).
    - rewrite csum_mul. ring.
    - intros i Hi. unfold c. rewrite RtoC_div by exact Hn. rewrite RtoC_opp. field. exact Hc. }
  rewrite Ep. split; intros H.
  - rewrite H. ring.
  - destruct (Ceq_dec (cpow z (S m) - csum (S m) (fun i => c i * cpow z i))%C (RtoC 0)) as [E|E]; [|exfalso; exact (Cmult_neq_0 _ _ Hc E H)].
    replace (cpow z (S m)) with (cpow z (S m) - csum (S m) (fun i => c i * cpow z i) + csum (S m) (fun i => c i * cpow z i))%C by ring. rewrite E. ring.
Qed.

Lemma cpow_R x n : cpow (RtoC x) n = RtoC (x ^ n).
Proof. induction n as [|n IH]; [reflexivity|]. cbn [cpow pow]. now rewrite IH, RtoC_mult. Qed.
Lemma csum_R n f : csum n (fun i => RtoC (f i)) = RtoC (Spec.rsum n f).
Proof. induction n as [|n IH]; [reflexivity|]. cbn [csum]. rewrite IH. unfold Spec.rsum. cbn [Spec.psum padd scal_point_ops sadd R_ops]. now rewrite RtoC_plus. Qed.
Lemma cpoly_R n coeffs x : cpoly n coeffs (RtoC x) = RtoC (Spec.rsum (S n) (fun i => (nth i coeffs 0 * x ^ i)%R)).
Proof. unfold cpoly. rewrite <- csum_R. apply csum_ext. intros i _. now rewrite cpow_R, RtoC_mult. Qed.

Lemma fold_companion_iff t0 t1 eps vals roots x :
  In x (fold_left (fun acc lam => if slt eps (sabs (ssub (sabs (complex_abs lam)) (sabs (fst lam)))) then acc else push_in t0 t1 (fst lam) acc) vals roots) <->
  In x roots \/ ((t0 <= x <= t1)%R /\ exists y, In (x, y) vals /\ (sqrt (x * x + y * y) - Rabs x <= eps)%R).
Proof.
  revert roots. induction vals as [|[a b] vals IH]; intros roots; cbn [fold_left].
  - split; [now left|]. intros [H|(_ & y & [] & _)]. exact H.
  - rewrite IH. clear IH.
    assert (E : sabs (ssub (sabs (complex_abs (a, b))) (sabs (fst (a, b)))) = (sqrt (a * a + b * b) - Rabs a)%R).
    { unfold complex_abs. cbn [fst snd]. rewrite !sabs_R. cbn [ssqrt sadd smul ssub R_ops]. rewrite (Rabs_right (sqrt _)) by (apply Rle_ge, sqrt_pos).
      apply Rabs_right. apply Rle_ge. pose proof (Rle_0_sqr b) as B. unfold Rsqr in B. rewrite <- sqrt_Rsqr_abs. unfold Rsqr.
      enough (sqrt (a * a) <= sqrt (a * a + b * b))%R by lra. apply sqrt_le_1_alt. lra. }
    rewrite E. cbn [fst slt R_ops]. destruct (Rltb_spec eps (sqrt (a * a + b * b) - Rabs a)%R) as [H|H].
    + split; intros [G|(G1 & y & G2 & G3)]; [now left|right; split; [exact G1|]; exists y; split; [now right|exact G3]|now left|].
      destruct G2 as [G2|G2]; [injection G2 as <- <-; lra|]. right. split; [exact G1|]. now exists y.
    + rewrite In_push. split.
      * intros [[G|[-> G]]|(G1 & y & G2 & G3)]; [now left|right; split; [exact G|]; exists b; split; [now left|lra]|right; split; [exact G1|]; exists y; split; [now right|exact G3]].
      * intros [G|(G1 & y & G2 & G3)]; [left; now left|]. destruct G2 as [G2|G2]; [injection G2 as <- <-; left; right; now split|]. right. split; [exact G1|]. now exists y.
Qed.

Lemma find_roots_high eigen n coeffs roots t0 t1 eps : 3 <= n -> n < length coeffs -> (t0 < t1)%R ->
  find_roots eigen n coeffs roots t0 t1 eps =
  if Rlt_dec (Rabs (nth n coeffs 0%R)) eps then find_roots eigen (n - 1) coeffs roots t0 t1 eps else find_roots_companion eigen (Z.of_nat n) coeffs roots t0 t1 eps.
Proof.
  intros Hn Hl Ht. destruct n as [|[|[|n]]]; [lia|lia|lia|].
  change (find_roots eigen (S (S (S n))) coeffs roots t0 t1 eps) with
    (do a <- get coeffs (Z.of_nat (S (S (S n)))); do _ <- assert_ (slt t0 t1);
     if slt (sabs a) eps then find_roots eigen (S (S n)) coeffs roots t0 t1 eps
     else find_roots_companion eigen (Z.of_nat (S (S (S n)))) coeffs roots t0 t1 eps).
  assert (Hz : zlen coeffs = Z.of_nat (length coeffs)) by reflexivity.
  rewrite (get_nth coeffs _ 0%R) by lia. rewrite bind_Ok, Nat2Z.id, sabs_R. cbn [slt R_ops]. rewrite (Rltb_true t0 t1) by exact Ht. unfold assert_. rewrite bind_Ok.
  replace (S (S (S n)) - 1) with (S (S n)) by lia. unfold Rltb. destruct (Rlt_dec _ eps); reflexivity.
Qed.

Section High.
  Variables (eigen : list (list R) -> res (list (R * R))) (n : nat) (coeffs roots : list R) (t0 t1 eps : R).
  Hypothesis Hn : 3 <= n.
  Hypothesis Hl : n < length coeffs.
  Hypothesis Ht : (t0 < t1)%R.
  Hypothesis He : (0 < eps)%R.
  Hypothesis Hlead : (eps <= Rabs (nth n coeffs 0))%R.
  Lemma lead_nz : nth n coeffs 0%R <> 0%R.
  Proof. intros E. rewrite E, Rabs_R0 in Hlead. lra. Qed.
  Lemma high_roots l : eigenvalue_solver Ok eigen -> find_roots eigen n coeffs roots t0 t1 eps = Ok l ->
    forall x, In x l <-> In x roots \/ ((t0 <= x <= t1)%R /\ exists y, cpoly n coeffs (x, y) = RtoC 0 /\ (sqrt (x * x + y * y) - Rabs x <= eps)%R).
  Proof.
    intros Hs E x. rewrite find_roots_high in E by assumption. destruct (Rlt_dec _ _) in E; [lra|].
    unfold find_roots_companion in E. rewrite (companion_ok n coeffs Hl lead_nz), bind_Ok in E. apply bind_inv in E. destruct E as (vals & Ev & E). injection E as <-.
    rewrite fold_companion_iff. pose proof (Hs _ _ Ev) as V. split; (intros [G|(G1 & y & G2 & G3)]; [now left|right; split; [exact G1|]; exists y; split; [|exact G3]]).
    - apply (companion_eigen n coeffs (x, y)); [lia|exact lead_nz|]. now apply V.
    - apply V. apply companion_eigen; [lia|exact lead_nz|exact G2].
  Qed.
  (** Complex roots that are clearly not real: exactly the real roots. *)
  Lemma high_real_roots l : eigenvalue_solver Ok eigen ->
    (forall x y, cpoly n coeffs (x, y) = RtoC 0 -> y <> 0%R -> (t0 <= x <= t1)%R -> (eps < sqrt (x * x + y * y) - Rabs x)%R) ->
    find_roots eigen n coeffs roots t0 t1 eps = Ok l ->
    forall x, In x l <-> In x roots \/ ((t0 <= x <= t1)%R /\ Spec.rsum (S n) (fun i => (nth i coeffs 0 * x ^ i)%R) = 0%R).
  Proof.
    intros Hs Hc E x. rewrite (high_roots l Hs E). split; (intros [G|[G1 G]]; [now left|right; split; [exact G1|]]).
    - destruct G as (y & G2 & G3). destruct (Req_EM_T y 0) as [->|Hy]; [|specialize (Hc x y G2 Hy G1); lra].
      change (x, 0%R) with (RtoC x) in G2. rewrite cpoly_R in G2. now apply RtoC_inj in G2.
    - exists 0%R. split; [change (x, 0%R) with (RtoC x); now rewrite cpoly_R, G|]. replace (x * x + 0 * 0)%R with (Rsqr x) by (unfold Rsqr; ring). rewrite sqrt_Rsqr_abs. lra.
  Qed.
  (** Every real root is reported, in any case. *)
  Lemma high_complete l : eigenvalue_solver Ok eigen -> find_roots eigen n coeffs roots t0 t1 eps = Ok l ->
    forall x, (t0 <= x <= t1)%R -> Spec.rsum (S n) (fun i => (nth i coeffs 0 * x ^ i)%R) = 0%R -> In x l.
  Proof.
    intros Hs E x G1 G. apply (high_roots l Hs E). right. split; [exact G1|].
    exists 0%R. split; [change (x, 0%R) with (RtoC x); now rewrite cpoly_R, G|]. replace (x * x + 0 * 0)%R with (Rsqr x) by (unfold Rsqr; ring). rewrite sqrt_Rsqr_abs. lra.
  Qed.
  (** A solver for this polynomial, given all its complex roots. *)
  Lemma high_solver vals : (forall a b, In (a, b) vals <-> cpoly n coeffs (a, b) = RtoC 0) ->
    exists eigen l, eigenvalue_solver Ok eigen /\ (forall m e, eigen m <> Throw e) /\ find_roots eigen n coeffs roots t0 t1 eps = Ok l.
  Proof.
    intros Hv. exists (fun m => if list_eq_dec (list_eq_dec Req_EM_T) m (comp_matrix n coeffs) then Ok vals else Undef). eexists. split.
    - intros m vs E. destruct (list_eq_dec _ m _) as [->|] in E; [|discriminate]. injection E as <-. intros a b. rewrite Hv. symmetry. apply companion_eigen; [lia|exact lead_nz].
    - split; [intros m e; destruct (list_eq_dec _ _ _); discriminate|]. rewrite find_roots_high by assumption. destruct (Rlt_dec _ _); [exfalso; lra|]. unfold find_roots_companion. rewrite (companion_ok n coeffs Hl lead_nz), bind_Ok.
      destruct (list_eq_dec _ _ _); [|contradiction]. rewrite bind_Ok. reflexivity.
  Qed.
End High.
Lemma high_drop eigen n coeffs roots t0 t1 eps : 3 <= n -> n < length coeffs -> (t0 < t1)%R -> (Rabs (nth n coeffs 0) < eps)%R ->
  find_roots eigen n coeffs roots t0 t1 eps = find_roots eigen (n - 1) coeffs roots t0 t1 eps.
Proof. intros Hn Hl Ht H. rewrite find_roots_high by assumption. destruct (Rlt_dec _ _); [reflexivity|contradiction]. Qed.

(** (x + 2) ((x - 1/2)^2 + 1e-10): no real root in [0,1], 1/2 is reported. *)
Definition near_real : list R := [2 * (1 / 4 + / 10 ^ 10); (1 / 4 + / 10 ^ 10) - 2; 1; 1]%R.
Lemma near_real_poly z : cpoly 3 near_real z = ((z + RtoC 2) * ((z - RtoC (1 / 2)) * (z - RtoC (1 / 2)) + RtoC (/ 10 ^ 10)))%C.
Proof.
  unfold cpoly, near_real. cbn [csum nth cpow]. rewrite RtoC_mult, RtoC_minus, RtoC_plus.
  replace (RtoC (1 / 2)) with (RtoC 1 / (RtoC 1 + RtoC 1))%C by (rewrite <- RtoC_plus, <- RtoC_div by lra; f_equal; lra).
  replace (RtoC (1 / 4)) with (RtoC 1 / ((RtoC 1 + RtoC 1) * (RtoC 1 + RtoC 1)))%C by (rewrite <- RtoC_plus, <- RtoC_mult, <- RtoC_div by lra; f_equal; field).
  replace (RtoC 2) with (RtoC 1 + RtoC 1)%C by (rewrite <- RtoC_plus; f_equal; lra). field.
  split; intros E; apply (f_equal fst) in E; cbn [fst RtoC] in E; lra.
Qed.
Lemma near_real_roots a b : In (a, b) [(-2, 0); (1 / 2, / 10 ^ 5); (1 / 2, - / 10 ^ 5)]%R <-> cpoly 3 near_real (a, b) = RtoC 0.
Proof.
  rewrite near_real_poly. split.
  - intros [E|[E|[E|[]]]]; injection E as <- <-; unfold Cmult, Cplus, Cminus, Copp, RtoC; apply injective_projections; cbv [Cmult Cplus Cminus Copp RtoC fst snd]; field.
  - intros H. destruct (Ceq_dec ((a, b) + RtoC 2)%C (RtoC 0)) as [E|E].
    + injection E as E1 E2. left. f_equal; lra.
    + destruct (Ceq_dec (((a, b) - RtoC (1 / 2)) * ((a, b) - RtoC (1 / 2)) + RtoC (/ 10 ^ 10))%C (RtoC 0)) as [E'|E']; [|exfalso; exact (Cmult_neq_0 _ _ E E' H)].
      clear H E. cbv [Cmult Cplus Cminus Copp RtoC fst snd] in E'. injection E' as E1 E2.
      assert (X : (2 * ((a - 1 / 2) * b) = 0)%R) by lra.
      destruct (Req_EM_T b 0) as [->|Hb].
      { exfalso. pose proof (Rle_0_sqr (a + - (1 / 2))) as P. unfold Rsqr in P. assert (0 < / 10 ^ 10)%R by (apply Rinv_0_lt_compat, pow_lt; lra). lra. }
      assert (Ha : (a = 1 / 2)%R). { apply Rmult_integral in X. destruct X as [X|X]; [lra|]. apply Rmult_integral in X. destruct X; [lra|contradiction]. }
      subst a. right. assert (Y : ((b - / 10 ^ 5) * (b + / 10 ^ 5) = 0)%R).
      { replace ((b - / 10 ^ 5) * (b + / 10 ^ 5))%R with (b * b - / 10 ^ 5 * / 10 ^ 5)%R by ring. replace (/ 10 ^ 5 * / 10 ^ 5)%R with (/ 10 ^ 10)%R by field. lra. }
      apply Rmult_integral in Y. destruct Y; [left|right; left]; f_equal; lra.
Qed.
Lemma near_real_refuted : exists coeffs eigen l, (1 / 10 ^ 8 <= Rabs (nth 3 coeffs 0))%R /\ eigenvalue_solver Ok eigen /\
  find_roots eigen 3 coeffs [] 0%R 1%R (1 / 10 ^ 8)%R = Ok l /\ In (1 / 2)%R l /\
  forall x, (0 <= x <= 1)%R -> Spec.rsum 4 (fun i => (nth i coeffs 0 * x ^ i)%R) <> 0%R.
Proof.
  assert (Hlead : (1 / 10 ^ 8 <= Rabs (nth 3 near_real 0))%R) by (cbn [near_real nth]; rewrite Rabs_R1; lra).
  destruct (high_solver 3 near_real [] 0%R 1%R (1 / 10 ^ 8)%R (le_n 3) ltac:(cbn; lia) ltac:(lra) ltac:(lra) Hlead _ near_real_roots) as (eigen & l & Hs & _ & E).
  exists near_real, eigen, l. split; [exact Hlead|]. split; [exact Hs|]. split; [exact E|]. split.
  - apply (high_roots eigen 3 near_real [] 0%R 1%R (1 / 10 ^ 8)%R (le_n 3) ltac:(cbn; lia) ltac:(lra) ltac:(lra) Hlead l Hs E). right. split; [lra|].
    exists (/ 10 ^ 5)%R. split; [apply near_real_roots; cbn; auto|]. rewrite (Rabs_right (1 / 2)) by lra.
    enough (sqrt (1 / 2 * (1 / 2) + / 10 ^ 5 * / 10 ^ 5) <= sqrt (Rsqr (1 / 2 + 1 / 10 ^ 8)))%R as G by (rewrite sqrt_Rsqr in G; lra).
    apply sqrt_le_1_alt. unfold Rsqr. lra.
  - intros x Hx H. pose proof (cpoly_R 3 near_real x) as P. rewrite H in P. change (RtoC x) with (x, 0%R) in P. apply near_real_roots in P.
    destruct P as [P|[P|[P|[]]]]; pose proof (f_equal fst P) as P1; pose proof (f_equal snd P) as P2; cbn [fst snd] in P1, P2; lra.
Qed.

(** (x - 1)(x - 2)(x - 3) *)
Definition three_roots : list R := [-6; 11; -6; 1]%R.
Lemma three_roots_all a b : In (a, b) [(1, 0); (2, 0); (3, 0)]%R <-> cpoly 3 three_roots (a, b) = RtoC 0.
Proof.
  assert (F : forall z, cpoly 3 three_roots z = ((z - RtoC 1) * ((z - RtoC 2) * (z - RtoC 3)))%C).
  { intros z. unfold cpoly, three_roots. cbn [csum nth cpow]. destruct z as [x y]. cbv [Cmult Cplus Cminus Copp RtoC fst snd]. apply injective_projections; cbv [fst snd]; ring. }
  rewrite F. split.
  - intros [E|[E|[E|[]]]]; injection E as <- <-; cbv [Cmult Cplus Cminus Copp RtoC fst snd]; apply injective_projections; cbv [fst snd]; ring.
  - intros H. assert (G : forall r, ((a, b) - RtoC r)%C = RtoC 0 -> (r, 0%R) = (a, b)).
    { intros r E. cbv [Cminus Cplus Copp RtoC fst snd] in E. injection E as E1 E2. f_equal; lra. }
    destruct (Ceq_dec ((a, b) - RtoC 1)%C (RtoC 0)) as [E|E1]; [left; now apply G|].
    destruct (Ceq_dec ((a, b) - RtoC 2)%C (RtoC 0)) as [E|E2]; [right; left; now apply G|].
    destruct (Ceq_dec ((a, b) - RtoC 3)%C (RtoC 0)) as [E|E3]; [right; right; left; now apply G|].
    exfalso. exact (Cmult_neq_0 _ _ E1 (Cmult_neq_0 _ _ E2 E3) H).
Qed.
Lemma three_roots_case : exists eigen l, eigenvalue_solver Ok eigen /\ find_roots eigen 3 three_roots [] 0%R (5 / 2)%R (1 / 10 ^ 8)%R = Ok l /\
  (forall x y, cpoly 3 three_roots (x, y) = RtoC 0 -> y <> 0%R -> (0 <= x <= 5 / 2)%R -> (1 / 10 ^ 8 < sqrt (x * x + y * y) - Rabs x)%R) /\
  (1 / 10 ^ 8 <= Rabs (nth 3 three_roots 0))%R.
Proof.
  assert (Hlead : (1 / 10 ^ 8 <= Rabs (nth 3 three_roots 0))%R) by (cbn [three_roots nth]; rewrite Rabs_R1; lra).
  destruct (high_solver 3 three_roots [] 0%R (5 / 2)%R (1 / 10 ^ 8)%R (le_n 3) ltac:(cbn; lia) ltac:(lra) ltac:(lra) Hlead _ three_roots_all) as (eigen & l & Hs & _ & E).
  exists eigen, l. split; [exact Hs|]. split; [exact E|]. split; [|exact Hlead]. intros x y H Hy _. exfalso. apply three_roots_all in H.
  destruct H as [H|[H|[H|[]]]]; injection H as _ H; now apply Hy.
Qed.
