(** Facts about the curve base class. *)
From Coq Require Import Reals Lra Lia ZArith List.
From Verif Require Import Monad MonadFacts Scalar ScalarFacts ModelCurve.
Import ListNotations.
Local Open Scope R_scope.

Lemma sfmod_R (x p : R) : 0 < p ->
  exists k : Z, sfmod x p = Ok (x - IZR k * p) /\
    (0 <= x -> 0 <= x - IZR k * p < p) /\ (x <= 0 -> - p < x - IZR k * p <= 0).
Proof.
  intros Hp. unfold sfmod. rewrite ddiv_R by lra. rewrite bind_Ok. exists (strunc (x / p)). split; [reflexivity|].
  assert (Hq : x = x / p * p) by (field; lra).
  set (q := x / p) in *. unfold strunc. simpl slt. cbn [s0 R_ops].
  destruct (Rltb_spec q 0) as [Hneg|Hpos].
  - rewrite opp_IZR. pose proof (sfloor_R (- q)) as Hf. simpl sopp. set (z := IZR (sfloor (- q))) in *.
    assert (Hx : x < 0) by (rewrite Hq; nra). split; intros Hs; [lra|].
    rewrite Hq. replace (q * p - - z * p) with ((q + z) * p) by ring. split; nra.
  - pose proof (sfloor_R q) as Hf. set (z := IZR (sfloor q)) in *.
    assert (Hx : 0 <= x) by (rewrite Hq; nra).
    assert (Hr : x - z * p = (q - z) * p) by (rewrite Hq at 1; ring).
    rewrite Hr. split; intros Hs; [split; nra|].
    assert (Hq0 : q = 0) by nra.
    assert (Hz0 : z = 0).
    { unfold z. rewrite (sfloor_R_uniq q 0) by lra. reflexivity. }
    rewrite Hz0, Hq0. split; nra.
Qed.

Lemma unwrap_correct (a b t : R) : a < b ->
  exists (u : R) (k : Z), unwrap_parameter true a b t = Ok u /\ u = t - IZR k * (b - a) /\ a <= u < b.
Proof.
  intros Hab. unfold unwrap_parameter. cbn [assert_]. rewrite bind_Ok. simpl ssub. simpl sadd. simpl slt. simpl sle.
  destruct (sfmod_R (t - a) (b - a)) as (k & E & Hp & Hn); [lra|]. rewrite E, bind_Ok.
  set (f := t - a - IZR k * (b - a)) in *.
  destruct (Rltb_spec (f + a) a) as [H|H].
  - assert (Hf : - (b - a) < f).
    { destruct (Rle_dec 0 (t - a)) as [H0|H0]; [specialize (Hp H0); lra|]. apply Hn. lra. }
    rewrite !Rleb_true by lra. cbn [andb assert_]. rewrite bind_Ok.
    exists (f + a + (b - a)), (k - 1)%Z. split; [reflexivity|]. rewrite minus_IZR. split; [unfold f; ring|lra].
  - assert (Hf : f < b - a).
    { destruct (Rle_dec 0 (t - a)) as [H0|H0]; [apply Hp; lra|]. specialize (Hn ltac:(lra)). lra. }
    rewrite !Rleb_true by lra. cbn [andb assert_]. rewrite bind_Ok.
    exists (f + a), k. split; [reflexivity|]. split; [unfold f; ring|lra].
Qed.

Lemma wrap_unique (a b u v : R) (k : Z) : a < b -> a <= u < b -> a <= v < b -> u = v + IZR k * (b - a) -> u = v.
Proof.
  intros Hab Hu Hv E.
  assert (Hk : (k = 0)%Z).
  { assert (-1 < k)%Z by (apply lt_IZR; nra). assert (k < 1)%Z by (apply lt_IZR; nra). lia. }
  subst k. lra.
Qed.

Lemma unwrap_in (a b t : R) : a <= t < b -> unwrap_parameter true a b t = Ok t.
Proof.
  intros H. destruct (unwrap_correct a b t ltac:(lra)) as (u & k & E & Hu & Hr). rewrite E. f_equal.
  symmetry. apply (wrap_unique a b t u k); lra.
Qed.

Lemma unwrap_periodic (a b t : R) (m : Z) : a < b ->
  unwrap_parameter true a b (t + IZR m * (b - a)) = unwrap_parameter true a b t.
Proof.
  intros H. destruct (unwrap_correct a b t H) as (u & k & E & Hu & Hr).
  destruct (unwrap_correct a b (t + IZR m * (b - a)) H) as (u' & k' & E' & Hu' & Hr').
  rewrite E, E'. f_equal. apply (wrap_unique a b u' u (m + k - k')); try assumption.
  rewrite minus_IZR, plus_IZR. rewrite Hu', Hu. ring.
Qed.
