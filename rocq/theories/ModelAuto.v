(** The coefficient polynomials of internal/auto_*_Bezier.h (generated by sympy in the repository), translated token by token.
    Each C++ function passes these coefficients (constant term first) to PolynomialRootFinder<Scalar, N> with N + 1 the
    length of the list and tolerance 1e-8; the callers are in ModelAnalysis.v. *)
From Verif Require Import Monad Scalar.

Section Auto.
  Context {T : Type} {SO : ScalarOps T}.
  (* The operations of [SO], written out so that the long terms below elaborate quickly. *)
  Local Notation "x + y" := (@sadd T SO x y).
  Local Notation "x - y" := (@ssub T SO x y).
  Local Notation "x * y" := (@smul T SO x y).
  Local Notation "- x" := (@sopp T SO x).
  Local Notation sofZ := (@sofZ T SO).

  (** internal/auto_inflection_Bezier.h:18-31 compute_Bezier_degree_2_inflections *)
  Definition infl_2 (cx0 cy0 cx1 cy1 cx2 cy2 : T) : list T :=
    [- sofZ 4 * cx0 * cy1 + sofZ 4 * cx0 * cy2 + sofZ 4 * cx1 * cy0 - sofZ 4 * cx1 * cy2 - sofZ 4 * cx2 * cy0 + sofZ 4 * cx2 * cy1].

  (** internal/auto_inflection_Bezier.h:35-50 compute_Bezier_degree_3_inflections *)
  Definition infl_3 (cx0 cy0 cx1 cy1 cx2 cy2 cx3 cy3 : T) : list T :=
    [- sofZ 18 * cx0 * cy1 + sofZ 18 * cx0 * cy2 + sofZ 18 * cx1 * cy0 - sofZ 18 * cx1 * cy2 - sofZ 18 * cx2 * cy0 + sofZ 18 * cx2 * cy1;
     sofZ 36 * cx0 * cy1 - sofZ 54 * cx0 * cy2 + sofZ 18 * cx0 * cy3 - sofZ 36 * cx1 * cy0 + sofZ 54 * cx1 * cy2 - sofZ 18 * cx1 * cy3 + sofZ 54 * cx2 * cy0 - sofZ 54 * cx2 * cy1 - sofZ 18 * cx3 * cy0 + sofZ 18 * cx3 * cy1;
     - sofZ 18 * cx0 * cy1 + sofZ 36 * cx0 * cy2 - sofZ 18 * cx0 * cy3 + sofZ 18 * cx1 * cy0 - sofZ 54 * cx1 * cy2 + sofZ 36 * cx1 * cy3 - sofZ 36 * cx2 * cy0 + sofZ 54 * cx2 * cy1 - sofZ 18 * cx2 * cy3 + sofZ 18 * cx3 * cy0 - sofZ 36 * cx3 * cy1 + sofZ 18 * cx3 * cy2].

  (** internal/auto_inflection_Bezier.h:54-71 compute_Bezier_degree_4_inflections *)
  Definition infl_4 (cx0 cy0 cx1 cy1 cx2 cy2 cx3 cy3 cx4 cy4 : T) : list T :=
    [- sofZ 48 * cx0 * cy1 + sofZ 48 * cx0 * cy2 + sofZ 48 * cx1 * cy0 - sofZ 48 * cx1 * cy2 - sofZ 48 * cx2 * cy0 + sofZ 48 * cx2 * cy1;
     sofZ 192 * cx0 * cy1 - sofZ 288 * cx0 * cy2 + sofZ 96 * cx0 * cy3 - sofZ 192 * cx1 * cy0 + sofZ 288 * cx1 * cy2 - sofZ 96 * cx1 * cy3 + sofZ 288 * cx2 * cy0 - sofZ 288 * cx2 * cy1 - sofZ 96 * cx3 * cy0 + sofZ 96 * cx3 * cy1;
     - sofZ 288 * cx0 * cy1 + sofZ 576 * cx0 * cy2 - sofZ 336 * cx0 * cy3 + sofZ 48 * cx0 * cy4 + sofZ 288 * cx1 * cy0 - sofZ 720 * cx1 * cy2 + sofZ 480 * cx1 * cy3 - sofZ 48 * cx1 * cy4 - sofZ 576 * cx2 * cy0 + sofZ 720 * cx2 * cy1 - sofZ 144 * cx2 * cy3 + sofZ 336 * cx3 * cy0 - sofZ 480 * cx3 * cy1 + sofZ 144 * cx3 * cy2 - sofZ 48 * cx4 * cy0 + sofZ 48 * cx4 * cy1;
     sofZ 192 * cx0 * cy1 - sofZ 480 * cx0 * cy2 + sofZ 384 * cx0 * cy3 - sofZ 96 * cx0 * cy4 - sofZ 192 * cx1 * cy0 + sofZ 768 * cx1 * cy2 - sofZ 768 * cx1 * cy3 + sofZ 192 * cx1 * cy4 + sofZ 480 * cx2 * cy0 - sofZ 768 * cx2 * cy1 + sofZ 384 * cx2 * cy3 - sofZ 96 * cx2 * cy4 - sofZ 384 * cx3 * cy0 + sofZ 768 * cx3 * cy1 - sofZ 384 * cx3 * cy2 + sofZ 96 * cx4 * cy0 - sofZ 192 * cx4 * cy1 + sofZ 96 * cx4 * cy2;
     - sofZ 48 * cx0 * cy1 + sofZ 144 * cx0 * cy2 - sofZ 144 * cx0 * cy3 + sofZ 48 * cx0 * cy4 + sofZ 48 * cx1 * cy0 - sofZ 288 * cx1 * cy2 + sofZ 384 * cx1 * cy3 - sofZ 144 * cx1 * cy4 - sofZ 144 * cx2 * cy0 + sofZ 288 * cx2 * cy1 - sofZ 288 * cx2 * cy3 + sofZ 144 * cx2 * cy4 + sofZ 144 * cx3 * cy0 - sofZ 384 * cx3 * cy1 + sofZ 288 * cx3 * cy2 - sofZ 48 * cx3 * cy4 - sofZ 48 * cx4 * cy0 + sofZ 144 * cx4 * cy1 - sofZ 144 * cx4 * cy2 + sofZ 48 * cx4 * cy3].

  (** internal/auto_inflection_Bezier.h:75-94 compute_Bezier_degree_5_inflections *)
  Definition infl_5 (cx0 cy0 cx1 cy1 cx2 cy2 cx3 cy3 cx4 cy4 cx5 cy5 : T) : list T :=
    [- sofZ 100 * cx0 * cy1 + sofZ 100 * cx0 * cy2 + sofZ 100 * cx1 * cy0 - sofZ 100 * cx1 * cy2 - sofZ 100 * cx2 * cy0 + sofZ 100 * cx2 * cy1;
     sofZ 600 * cx0 * cy1 - sofZ 900 * cx0 * cy2 + sofZ 300 * cx0 * cy3 - sofZ 600 * cx1 * cy0 + sofZ 900 * cx1 * cy2 - sofZ 300 * cx1 * cy3 + sofZ 900 * cx2 * cy0 - sofZ 900 * cx2 * cy1 - sofZ 300 * cx3 * cy0 + sofZ 300 * cx3 * cy1;
     - sofZ 1500 * cx0 * cy1 + sofZ 3000 * cx0 * cy2 - sofZ 1800 * cx0 * cy3 + sofZ 300 * cx0 * cy4 + sofZ 1500 * cx1 * cy0 - sofZ 3600 * cx1 * cy2 + sofZ 2400 * cx1 * cy3 - sofZ 300 * cx1 * cy4 - sofZ 3000 * cx2 * cy0 + sofZ 3600 * cx2 * cy1 - sofZ 600 * cx2 * cy3 + sofZ 1800 * cx3 * cy0 - sofZ 2400 * cx3 * cy1 + sofZ 600 * cx3 * cy2 - sofZ 300 * cx4 * cy0 + sofZ 300 * cx4 * cy1;
     sofZ 2000 * cx0 * cy1 - sofZ 5000 * cx0 * cy2 + sofZ 4200 * cx0 * cy3 - sofZ 1300 * cx0 * cy4 + sofZ 100 * cx0 * cy5 - sofZ 2000 * cx1 * cy0 + sofZ 7400 * cx1 * cy2 - sofZ 7400 * cx1 * cy3 + sofZ 2100 * cx1 * cy4 - sofZ 100 * cx1 * cy5 + sofZ 5000 * cx2 * cy0 - sofZ 7400 * cx2 * cy1 + sofZ 3200 * cx2 * cy3 - sofZ 800 * cx2 * cy4 - sofZ 4200 * cx3 * cy0 + sofZ 7400 * cx3 * cy1 - sofZ 3200 * cx3 * cy2 + sofZ 1300 * cx4 * cy0 - sofZ 2100 * cx4 * cy1 + sofZ 800 * cx4 * cy2 - sofZ 100 * cx5 * cy0 + sofZ 100 * cx5 * cy1;
     - sofZ 1500 * cx0 * cy1 + sofZ 4500 * cx0 * cy2 - sofZ 4800 * cx0 * cy3 + sofZ 2100 * cx0 * cy4 - sofZ 300 * cx0 * cy5 + sofZ 1500 * cx1 * cy0 - sofZ 8100 * cx1 * cy2 + sofZ 10800 * cx1 * cy3 - sofZ 4800 * cx1 * cy4 + sofZ 600 * cx1 * cy5 - sofZ 4500 * cx2 * cy0 + sofZ 8100 * cx2 * cy1 - sofZ 6600 * cx2 * cy3 + sofZ 3300 * cx2 * cy4 - sofZ 300 * cx2 * cy5 + sofZ 4800 * cx3 * cy0 - sofZ 10800 * cx3 * cy1 + sofZ 6600 * cx3 * cy2 - sofZ 600 * cx3 * cy4 - sofZ 2100 * cx4 * cy0 + sofZ 4800 * cx4 * cy1 - sofZ 3300 * cx4 * cy2 + sofZ 600 * cx4 * cy3 + sofZ 300 * cx5 * cy0 - sofZ 600 * cx5 * cy1 + sofZ 300 * cx5 * cy2;
     sofZ 600 * cx0 * cy1 - sofZ 2100 * cx0 * cy2 + sofZ 2700 * cx0 * cy3 - sofZ 1500 * cx0 * cy4 + sofZ 300 * cx0 * cy5 - sofZ 600 * cx1 * cy0 + sofZ 4500 * cx1 * cy2 - sofZ 7500 * cx1 * cy3 + sofZ 4500 * cx1 * cy4 - sofZ 900 * cx1 * cy5 + sofZ 2100 * cx2 * cy0 - sofZ 4500 * cx2 * cy1 + sofZ 6000 * cx2 * cy3 - sofZ 4500 * cx2 * cy4 + sofZ 900 * cx2 * cy5 - sofZ 2700 * cx3 * cy0 + sofZ 7500 * cx3 * cy1 - sofZ 6000 * cx3 * cy2 + sofZ 1500 * cx3 * cy4 - sofZ 300 * cx3 * cy5 + sofZ 1500 * cx4 * cy0 - sofZ 4500 * cx4 * cy1 + sofZ 4500 * cx4 * cy2 - sofZ 1500 * cx4 * cy3 - sofZ 300 * cx5 * cy0 + sofZ 900 * cx5 * cy1 - sofZ 900 * cx5 * cy2 + sofZ 300 * cx5 * cy3;
     - sofZ 100 * cx0 * cy1 + sofZ 400 * cx0 * cy2 - sofZ 600 * cx0 * cy3 + sofZ 400 * cx0 * cy4 - sofZ 100 * cx0 * cy5 + sofZ 100 * cx1 * cy0 - sofZ 1000 * cx1 * cy2 + sofZ 2000 * cx1 * cy3 - sofZ 1500 * cx1 * cy4 + sofZ 400 * cx1 * cy5 - sofZ 400 * cx2 * cy0 + sofZ 1000 * cx2 * cy1 - sofZ 2000 * cx2 * cy3 + sofZ 2000 * cx2 * cy4 - sofZ 600 * cx2 * cy5 + sofZ 600 * cx3 * cy0 - sofZ 2000 * cx3 * cy1 + sofZ 2000 * cx3 * cy2 - sofZ 1000 * cx3 * cy4 + sofZ 400 * cx3 * cy5 - sofZ 400 * cx4 * cy0 + sofZ 1500 * cx4 * cy1 - sofZ 2000 * cx4 * cy2 + sofZ 1000 * cx4 * cy3 - sofZ 100 * cx4 * cy5 + sofZ 100 * cx5 * cy0 - sofZ 400 * cx5 * cy1 + sofZ 600 * cx5 * cy2 - sofZ 400 * cx5 * cy3 + sofZ 100 * cx5 * cy4].

  (** internal/auto_inflection_Bezier.h:98-119 compute_Bezier_degree_6_inflections *)
  Definition infl_6 (cx0 cy0 cx1 cy1 cx2 cy2 cx3 cy3 cx4 cy4 cx5 cy5 cx6 cy6 : T) : list T :=
    [- sofZ 180 * cx0 * cy1 + sofZ 180 * cx0 * cy2 + sofZ 180 * cx1 * cy0 - sofZ 180 * cx1 * cy2 - sofZ 180 * cx2 * cy0 + sofZ 180 * cx2 * cy1;
     sofZ 1440 * cx0 * cy1 - sofZ 2160 * cx0 * cy2 + sofZ 720 * cx0 * cy3 - sofZ 1440 * cx1 * cy0 + sofZ 2160 * cx1 * cy2 - sofZ 720 * cx1 * cy3 + sofZ 2160 * cx2 * cy0 - sofZ 2160 * cx2 * cy1 - sofZ 720 * cx3 * cy0 + sofZ 720 * cx3 * cy1;
     - sofZ 5040 * cx0 * cy1 + sofZ 10080 * cx0 * cy2 - sofZ 6120 * cx0 * cy3 + sofZ 1080 * cx0 * cy4 + sofZ 5040 * cx1 * cy0 - sofZ 11880 * cx1 * cy2 + sofZ 7920 * cx1 * cy3 - sofZ 1080 * cx1 * cy4 - sofZ 10080 * cx2 * cy0 + sofZ 11880 * cx2 * cy1 - sofZ 1800 * cx2 * cy3 + sofZ 6120 * cx3 * cy0 - sofZ 7920 * cx3 * cy1 + sofZ 1800 * cx3 * cy2 - sofZ 1080 * cx4 * cy0 + sofZ 1080 * cx4 * cy1;
     sofZ 10080 * cx0 * cy1 - sofZ 25200 * cx0 * cy2 + sofZ 21600 * cx0 * cy3 - sofZ 7200 * cx0 * cy4 + sofZ 720 * cx0 * cy5 - sofZ 10080 * cx1 * cy0 + sofZ 36000 * cx1 * cy2 - sofZ 36000 * cx1 * cy3 + sofZ 10800 * cx1 * cy4 - sofZ 720 * cx1 * cy5 + sofZ 25200 * cx2 * cy0 - sofZ 36000 * cx2 * cy1 + sofZ 14400 * cx2 * cy3 - sofZ 3600 * cx2 * cy4 - sofZ 21600 * cx3 * cy0 + sofZ 36000 * cx3 * cy1 - sofZ 14400 * cx3 * cy2 + sofZ 7200 * cx4 * cy0 - sofZ 10800 * cx4 * cy1 + sofZ 3600 * cx4 * cy2 - sofZ 720 * cx5 * cy0 + sofZ 720 * cx5 * cy1;
     - sofZ 12600 * cx0 * cy1 + sofZ 37800 * cx0 * cy2 - sofZ 41400 * cx0 * cy3 + sofZ 19800 * cx0 * cy4 - sofZ 3780 * cx0 * cy5 + sofZ 180 * cx0 * cy6 + sofZ 12600 * cx1 * cy0 - sofZ 64800 * cx1 * cy2 + sofZ 86400 * cx1 * cy3 - sofZ 40500 * cx1 * cy4 + sofZ 6480 * cx1 * cy5 - sofZ 180 * cx1 * cy6 - sofZ 37800 * cx2 * cy0 + sofZ 64800 * cx2 * cy1 - sofZ 48600 * cx2 * cy3 + sofZ 24300 * cx2 * cy4 - sofZ 2700 * cx2 * cy5 + sofZ 41400 * cx3 * cy0 - sofZ 86400 * cx3 * cy1 + sofZ 48600 * cx3 * cy2 - sofZ 3600 * cx3 * cy4 - sofZ 19800 * cx4 * cy0 + sofZ 40500 * cx4 * cy1 - sofZ 24300 * cx4 * cy2 + sofZ 3600 * cx4 * cy3 + sofZ 3780 * cx5 * cy0 - sofZ 6480 * cx5 * cy1 + sofZ 2700 * cx5 * cy2 - sofZ 180 * cx6 * cy0 + sofZ 180 * cx6 * cy1;
     sofZ 10080 * cx0 * cy1 - sofZ 35280 * cx0 * cy2 + sofZ 46800 * cx0 * cy3 - sofZ 28800 * cx0 * cy4 + sofZ 7920 * cx0 * cy5 - sofZ 720 * cx0 * cy6 - sofZ 10080 * cx1 * cy0 + sofZ 71280 * cx1 * cy2 - sofZ 118800 * cx1 * cy3 + sofZ 75600 * cx1 * cy4 - sofZ 19440 * cx1 * cy5 + sofZ 1440 * cx1 * cy6 + sofZ 35280 * cx2 * cy0 - sofZ 71280 * cx2 * cy1 + sofZ 86400 * cx2 * cy3 - sofZ 64800 * cx2 * cy4 + sofZ 15120 * cx2 * cy5 - sofZ 720 * cx2 * cy6 - sofZ 46800 * cx3 * cy0 + sofZ 118800 * cx3 * cy1 - sofZ 86400 * cx3 * cy2 + sofZ 18000 * cx3 * cy4 - sofZ 3600 * cx3 * cy5 + sofZ 28800 * cx4 * cy0 - sofZ 75600 * cx4 * cy1 + sofZ 64800 * cx4 * cy2 - sofZ 18000 * cx4 * cy3 - sofZ 7920 * cx5 * cy0 + sofZ 19440 * cx5 * cy1 - sofZ 15120 * cx5 * cy2 + sofZ 3600 * cx5 * cy3 + sofZ 720 * cx6 * cy0 - sofZ 1440 * cx6 * cy1 + sofZ 720 * cx6 * cy2;
     - sofZ 5040 * cx0 * cy1 + sofZ 20160 * cx0 * cy2 - sofZ 31320 * cx0 * cy3 + sofZ 23400 * cx0 * cy4 - sofZ 8280 * cx0 * cy5 + sofZ 1080 * cx0 * cy6 + sofZ 5040 * cx1 * cy0 - sofZ 47160 * cx1 * cy2 + sofZ 94320 * cx1 * cy3 - sofZ 75600 * cx1 * cy4 + sofZ 26640 * cx1 * cy5 - sofZ 3240 * cx1 * cy6 - sofZ 20160 * cx2 * cy0 + sofZ 47160 * cx2 * cy1 - sofZ 84600 * cx2 * cy3 + sofZ 84600 * cx2 * cy4 - sofZ 30240 * cx2 * cy5 + sofZ 3240 * cx2 * cy6 + sofZ 31320 * cx3 * cy0 - sofZ 94320 * cx3 * cy1 + sofZ 84600 * cx3 * cy2 - sofZ 34200 * cx3 * cy4 + sofZ 13680 * cx3 * cy5 - sofZ 1080 * cx3 * cy6 - sofZ 23400 * cx4 * cy0 + sofZ 75600 * cx4 * cy1 - sofZ 84600 * cx4 * cy2 + sofZ 34200 * cx4 * cy3 - sofZ 1800 * cx4 * cy5 + sofZ 8280 * cx5 * cy0 - sofZ 26640 * cx5 * cy1 + sofZ 30240 * cx5 * cy2 - sofZ 13680 * cx5 * cy3 + sofZ 1800 * cx5 * cy4 - sofZ 1080 * cx6 * cy0 + sofZ 3240 * cx6 * cy1 - sofZ 3240 * cx6 * cy2 + sofZ 1080 * cx6 * cy3;
     sofZ 1440 * cx0 * cy1 - sofZ 6480 * cx0 * cy2 + sofZ 11520 * cx0 * cy3 - sofZ 10080 * cx0 * cy4 + sofZ 4320 * cx0 * cy5 - sofZ 720 * cx0 * cy6 - sofZ 1440 * cx1 * cy0 + sofZ 17280 * cx1 * cy2 - sofZ 40320 * cx1 * cy3 + sofZ 38880 * cx1 * cy4 - sofZ 17280 * cx1 * cy5 + sofZ 2880 * cx1 * cy6 + sofZ 6480 * cx2 * cy0 - sofZ 17280 * cx2 * cy1 + sofZ 43200 * cx2 * cy3 - sofZ 54000 * cx2 * cy4 + sofZ 25920 * cx2 * cy5 - sofZ 4320 * cx2 * cy6 - sofZ 11520 * cx3 * cy0 + sofZ 40320 * cx3 * cy1 - sofZ 43200 * cx3 * cy2 + sofZ 28800 * cx3 * cy4 - sofZ 17280 * cx3 * cy5 + sofZ 2880 * cx3 * cy6 + sofZ 10080 * cx4 * cy0 - sofZ 38880 * cx4 * cy1 + sofZ 54000 * cx4 * cy2 - sofZ 28800 * cx4 * cy3 + sofZ 4320 * cx4 * cy5 - sofZ 720 * cx4 * cy6 - sofZ 4320 * cx5 * cy0 + sofZ 17280 * cx5 * cy1 - sofZ 25920 * cx5 * cy2 + sofZ 17280 * cx5 * cy3 - sofZ 4320 * cx5 * cy4 + sofZ 720 * cx6 * cy0 - sofZ 2880 * cx6 * cy1 + sofZ 4320 * cx6 * cy2 - sofZ 2880 * cx6 * cy3 + sofZ 720 * cx6 * cy4;
     - sofZ 180 * cx0 * cy1 + sofZ 900 * cx0 * cy2 - sofZ 1800 * cx0 * cy3 + sofZ 1800 * cx0 * cy4 - sofZ 900 * cx0 * cy5 + sofZ 180 * cx0 * cy6 + sofZ 180 * cx1 * cy0 - sofZ 2700 * cx1 * cy2 + sofZ 7200 * cx1 * cy3 - sofZ 8100 * cx1 * cy4 + sofZ 4320 * cx1 * cy5 - sofZ 900 * cx1 * cy6 - sofZ 900 * cx2 * cy0 + sofZ 2700 * cx2 * cy1 - sofZ 9000 * cx2 * cy3 + sofZ 13500 * cx2 * cy4 - sofZ 8100 * cx2 * cy5 + sofZ 1800 * cx2 * cy6 + sofZ 1800 * cx3 * cy0 - sofZ 7200 * cx3 * cy1 + sofZ 9000 * cx3 * cy2 - sofZ 9000 * cx3 * cy4 + sofZ 7200 * cx3 * cy5 - sofZ 1800 * cx3 * cy6 - sofZ 1800 * cx4 * cy0 + sofZ 8100 * cx4 * cy1 - sofZ 13500 * cx4 * cy2 + sofZ 9000 * cx4 * cy3 - sofZ 2700 * cx4 * cy5 + sofZ 900 * cx4 * cy6 + sofZ 900 * cx5 * cy0 - sofZ 4320 * cx5 * cy1 + sofZ 8100 * cx5 * cy2 - sofZ 7200 * cx5 * cy3 + sofZ 2700 * cx5 * cy4 - sofZ 180 * cx5 * cy6 - sofZ 180 * cx6 * cy0 + sofZ 900 * cx6 * cy1 - sofZ 1800 * cx6 * cy2 + sofZ 1800 * cx6 * cy3 - sofZ 900 * cx6 * cy4 + sofZ 180 * cx6 * cy5].

  (** internal/auto_inflection_Bezier.h:123-146 compute_Bezier_degree_7_inflections *)
  Definition infl_7 (cx0 cy0 cx1 cy1 cx2 cy2 cx3 cy3 cx4 cy4 cx5 cy5 cx6 cy6 cx7 cy7 : T) : list T :=
    [- sofZ 294 * cx0 * cy1 + sofZ 294 * cx0 * cy2 + sofZ 294 * cx1 * cy0 - sofZ 294 * cx1 * cy2 - sofZ 294 * cx2 * cy0 + sofZ 294 * cx2 * cy1;
     sofZ 2940 * cx0 * cy1 - sofZ 4410 * cx0 * cy2 + sofZ 1470 * cx0 * cy3 - sofZ 2940 * cx1 * cy0 + sofZ 4410 * cx1 * cy2 - sofZ 1470 * cx1 * cy3 + sofZ 4410 * cx2 * cy0 - sofZ 4410 * cx2 * cy1 - sofZ 1470 * cx3 * cy0 + sofZ 1470 * cx3 * cy1;
     - sofZ 13230 * cx0 * cy1 + sofZ 26460 * cx0 * cy2 - sofZ 16170 * cx0 * cy3 + sofZ 2940 * cx0 * cy4 + sofZ 13230 * cx1 * cy0 - sofZ 30870 * cx1 * cy2 + sofZ 20580 * cx1 * cy3 - sofZ 2940 * cx1 * cy4 - sofZ 26460 * cx2 * cy0 + sofZ 30870 * cx2 * cy1 - sofZ 4410 * cx2 * cy3 + sofZ 16170 * cx3 * cy0 - sofZ 20580 * cx3 * cy1 + sofZ 4410 * cx3 * cy2 - sofZ 2940 * cx4 * cy0 + sofZ 2940 * cx4 * cy1;
     sofZ 35280 * cx0 * cy1 - sofZ 88200 * cx0 * cy2 + sofZ 76440 * cx0 * cy3 - sofZ 26460 * cx0 * cy4 + sofZ 2940 * cx0 * cy5 - sofZ 35280 * cx1 * cy0 + sofZ 123480 * cx1 * cy2 - sofZ 123480 * cx1 * cy3 + sofZ 38220 * cx1 * cy4 - sofZ 2940 * cx1 * cy5 + sofZ 88200 * cx2 * cy0 - sofZ 123480 * cx2 * cy1 + sofZ 47040 * cx2 * cy3 - sofZ 11760 * cx2 * cy4 - sofZ 76440 * cx3 * cy0 + sofZ 123480 * cx3 * cy1 - sofZ 47040 * cx3 * cy2 + sofZ 26460 * cx4 * cy0 - sofZ 38220 * cx4 * cy1 + sofZ 11760 * cx4 * cy2 - sofZ 2940 * cx5 * cy0 + sofZ 2940 * cx5 * cy1;
     - sofZ 61740 * cx0 * cy1 + sofZ 185220 * cx0 * cy2 - sofZ 205800 * cx0 * cy3 + sofZ 102900 * cx0 * cy4 - sofZ 22050 * cx0 * cy5 + sofZ 1470 * cx0 * cy6 + sofZ 61740 * cx1 * cy0 - sofZ 308700 * cx1 * cy2 + sofZ 411600 * cx1 * cy3 - sofZ 198450 * cx1 * cy4 + sofZ 35280 * cx1 * cy5 - sofZ 1470 * cx1 * cy6 - sofZ 185220 * cx2 * cy0 + sofZ 308700 * cx2 * cy1 - sofZ 220500 * cx2 * cy3 + sofZ 110250 * cx2 * cy4 - sofZ 13230 * cx2 * cy5 + sofZ 205800 * cx3 * cy0 - sofZ 411600 * cx3 * cy1 + sofZ 220500 * cx3 * cy2 - sofZ 14700 * cx3 * cy4 - sofZ 102900 * cx4 * cy0 + sofZ 198450 * cx4 * cy1 - sofZ 110250 * cx4 * cy2 + sofZ 14700 * cx4 * cy3 + sofZ 22050 * cx5 * cy0 - sofZ 35280 * cx5 * cy1 + sofZ 13230 * cx5 * cy2 - sofZ 1470 * cx6 * cy0 + sofZ 1470 * cx6 * cy1;
     sofZ 74088 * cx0 * cy1 - sofZ 259308 * cx0 * cy2 + sofZ 349860 * cx0 * cy3 - sofZ 226380 * cx0 * cy4 + sofZ 70560 * cx0 * cy5 - sofZ 9114 * cx0 * cy6 + sofZ 294 * cx0 * cy7 - sofZ 74088 * cx1 * cy0 + sofZ 506268 * cx1 * cy2 - sofZ 843780 * cx1 * cy3 + sofZ 552720 * cx1 * cy4 - sofZ 156996 * cx1 * cy5 + sofZ 16170 * cx1 * cy6 - sofZ 294 * cx1 * cy7 + sofZ 259308 * cx2 * cy0 - sofZ 506268 * cx2 * cy1 + sofZ 582120 * cx2 * cy3 - sofZ 436590 * cx2 * cy4 + sofZ 108486 * cx2 * cy5 - sofZ 7056 * cx2 * cy6 - sofZ 349860 * cx3 * cy0 + sofZ 843780 * cx3 * cy1 - sofZ 582120 * cx3 * cy2 + sofZ 110250 * cx3 * cy4 - sofZ 22050 * cx3 * cy5 + sofZ 226380 * cx4 * cy0 - sofZ 552720 * cx4 * cy1 + sofZ 436590 * cx4 * cy2 - sofZ 110250 * cx4 * cy3 - sofZ 70560 * cx5 * cy0 + sofZ 156996 * cx5 * cy1 - sofZ 108486 * cx5 * cy2 + sofZ 22050 * cx5 * cy3 + sofZ 9114 * cx6 * cy0 - sofZ 16170 * cx6 * cy1 + sofZ 7056 * cx6 * cy2 - sofZ 294 * cx7 * cy0 + sofZ 294 * cx7 * cy1;
     - sofZ 61740 * cx0 * cy1 + sofZ 246960 * cx0 * cy2 - sofZ 391020 * cx0 * cy3 + sofZ 308700 * cx0 * cy4 - sofZ 124950 * cx0 * cy5 + sofZ 23520 * cx0 * cy6 - sofZ 1470 * cx0 * cy7 + sofZ 61740 * cx1 * cy0 - sofZ 555660 * cx1 * cy2 + sofZ 1111320 * cx1 * cy3 - sofZ 918750 * cx1 * cy4 + sofZ 358680 * cx1 * cy5 - sofZ 60270 * cx1 * cy6 + sofZ 2940 * cx1 * cy7 - sofZ 246960 * cx2 * cy0 + sofZ 555660 * cx2 * cy1 - sofZ 940800 * cx2 * cy3 + sofZ 940800 * cx2 * cy4 - sofZ 357210 * cx2 * cy5 + sofZ 49980 * cx2 * cy6 - sofZ 1470 * cx2 * cy7 + sofZ 391020 * cx3 * cy0 - sofZ 1111320 * cx3 * cy1 + sofZ 940800 * cx3 * cy2 - sofZ 345450 * cx3 * cy4 + sofZ 138180 * cx3 * cy5 - sofZ 13230 * cx3 * cy6 - sofZ 308700 * cx4 * cy0 + sofZ 918750 * cx4 * cy1 - sofZ 940800 * cx4 * cy2 + sofZ 345450 * cx4 * cy3 - sofZ 14700 * cx4 * cy5 + sofZ 124950 * cx5 * cy0 - sofZ 358680 * cx5 * cy1 + sofZ 357210 * cx5 * cy2 - sofZ 138180 * cx5 * cy3 + sofZ 14700 * cx5 * cy4 - sofZ 23520 * cx6 * cy0 + sofZ 60270 * cx6 * cy1 - sofZ 49980 * cx6 * cy2 + sofZ 13230 * cx6 * cy3 + sofZ 1470 * cx7 * cy0 - sofZ 2940 * cx7 * cy1 + sofZ 1470 * cx7 * cy2;
     sofZ 35280 * cx0 * cy1 - sofZ 158760 * cx0 * cy2 + sofZ 288120 * cx0 * cy3 - sofZ 267540 * cx0 * cy4 + sofZ 132300 * cx0 * cy5 - sofZ 32340 * cx0 * cy6 + sofZ 2940 * cx0 * cy7 - sofZ 35280 * cx1 * cy0 + sofZ 405720 * cx1 * cy2 - sofZ 946680 * cx1 * cy3 + sofZ 943740 * cx1 * cy4 - sofZ 467460 * cx1 * cy5 + sofZ 108780 * cx1 * cy6 - sofZ 8820 * cx1 * cy7 + sofZ 158760 * cx2 * cy0 - sofZ 405720 * cx2 * cy1 + sofZ 952560 * cx2 * cy3 - sofZ 1190700 * cx2 * cy4 + sofZ 608580 * cx2 * cy5 - sofZ 132300 * cx2 * cy6 + sofZ 8820 * cx2 * cy7 - sofZ 288120 * cx3 * cy0 + sofZ 946680 * cx3 * cy1 - sofZ 952560 * cx3 * cy2 + sofZ 573300 * cx3 * cy4 - sofZ 343980 * cx3 * cy5 + sofZ 67620 * cx3 * cy6 - sofZ 2940 * cx3 * cy7 + sofZ 267540 * cx4 * cy0 - sofZ 943740 * cx4 * cy1 + sofZ 1190700 * cx4 * cy2 - sofZ 573300 * cx4 * cy3 + sofZ 70560 * cx4 * cy5 - sofZ 11760 * cx4 * cy6 - sofZ 132300 * cx5 * cy0 + sofZ 467460 * cx5 * cy1 - sofZ 608580 * cx5 * cy2 + sofZ 343980 * cx5 * cy3 - sofZ 70560 * cx5 * cy4 + sofZ 32340 * cx6 * cy0 - sofZ 108780 * cx6 * cy1 + sofZ 132300 * cx6 * cy2 - sofZ 67620 * cx6 * cy3 + sofZ 11760 * cx6 * cy4 - sofZ 2940 * cx7 * cy0 + sofZ 8820 * cx7 * cy1 - sofZ 8820 * cx7 * cy2 + sofZ 2940 * cx7 * cy3;
     - sofZ 13230 * cx0 * cy1 + sofZ 66150 * cx0 * cy2 - sofZ 135240 * cx0 * cy3 + sofZ 144060 * cx0 * cy4 - sofZ 83790 * cx0 * cy5 + sofZ 24990 * cx0 * cy6 - sofZ 2940 * cx0 * cy7 + sofZ 13230 * cx1 * cy0 - sofZ 189630 * cx1 * cy2 + sofZ 505680 * cx1 * cy3 - sofZ 589470 * cx1 * cy4 + sofZ 352800 * cx1 * cy5 - sofZ 104370 * cx1 * cy6 + sofZ 11760 * cx1 * cy7 - sofZ 66150 * cx2 * cy0 + sofZ 189630 * cx2 * cy1 - sofZ 590940 * cx2 * cy3 + sofZ 886410 * cx2 * cy4 - sofZ 568890 * cx2 * cy5 + sofZ 167580 * cx2 * cy6 - sofZ 17640 * cx2 * cy7 + sofZ 135240 * cx3 * cy0 - sofZ 505680 * cx3 * cy1 + sofZ 590940 * cx3 * cy2 - sofZ 529200 * cx3 * cy4 + sofZ 423360 * cx3 * cy5 - sofZ 126420 * cx3 * cy6 + sofZ 11760 * cx3 * cy7 - sofZ 144060 * cx4 * cy0 + sofZ 589470 * cx4 * cy1 - sofZ 886410 * cx4 * cy2 + sofZ 529200 * cx4 * cy3 - sofZ 127890 * cx4 * cy5 + sofZ 42630 * cx4 * cy6 - sofZ 2940 * cx4 * cy7 + sofZ 83790 * cx5 * cy0 - sofZ 352800 * cx5 * cy1 + sofZ 568890 * cx5 * cy2 - sofZ 423360 * cx5 * cy3 + sofZ 127890 * cx5 * cy4 - sofZ 4410 * cx5 * cy6 - sofZ 24990 * cx6 * cy0 + sofZ 104370 * cx6 * cy1 - sofZ 167580 * cx6 * cy2 + sofZ 126420 * cx6 * cy3 - sofZ 42630 * cx6 * cy4 + sofZ 4410 * cx6 * cy5 + sofZ 2940 * cx7 * cy0 - sofZ 11760 * cx7 * cy1 + sofZ 17640 * cx7 * cy2 - sofZ 11760 * cx7 * cy3 + sofZ 2940 * cx7 * cy4;
     sofZ 2940 * cx0 * cy1 - sofZ 16170 * cx0 * cy2 + sofZ 36750 * cx0 * cy3 - sofZ 44100 * cx0 * cy4 + sofZ 29400 * cx0 * cy5 - sofZ 10290 * cx0 * cy6 + sofZ 1470 * cx0 * cy7 - sofZ 2940 * cx1 * cy0 + sofZ 51450 * cx1 * cy2 - sofZ 154350 * cx1 * cy3 + sofZ 205800 * cx1 * cy4 - sofZ 144060 * cx1 * cy5 + sofZ 51450 * cx1 * cy6 - sofZ 7350 * cx1 * cy7 + sofZ 16170 * cx2 * cy0 - sofZ 51450 * cx2 * cy1 + sofZ 205800 * cx2 * cy3 - sofZ 360150 * cx2 * cy4 + sofZ 277830 * cx2 * cy5 - sofZ 102900 * cx2 * cy6 + sofZ 14700 * cx2 * cy7 - sofZ 36750 * cx3 * cy0 + sofZ 154350 * cx3 * cy1 - sofZ 205800 * cx3 * cy2 + sofZ 257250 * cx3 * cy4 - sofZ 257250 * cx3 * cy5 + sofZ 102900 * cx3 * cy6 - sofZ 14700 * cx3 * cy7 + sofZ 44100 * cx4 * cy0 - sofZ 205800 * cx4 * cy1 + sofZ 360150 * cx4 * cy2 - sofZ 257250 * cx4 * cy3 + sofZ 102900 * cx4 * cy5 - sofZ 51450 * cx4 * cy6 + sofZ 7350 * cx4 * cy7 - sofZ 29400 * cx5 * cy0 + sofZ 144060 * cx5 * cy1 - sofZ 277830 * cx5 * cy2 + sofZ 257250 * cx5 * cy3 - sofZ 102900 * cx5 * cy4 + sofZ 10290 * cx5 * cy6 - sofZ 1470 * cx5 * cy7 + sofZ 10290 * cx6 * cy0 - sofZ 51450 * cx6 * cy1 + sofZ 102900 * cx6 * cy2 - sofZ 102900 * cx6 * cy3 + sofZ 51450 * cx6 * cy4 - sofZ 10290 * cx6 * cy5 - sofZ 1470 * cx7 * cy0 + sofZ 7350 * cx7 * cy1 - sofZ 14700 * cx7 * cy2 + sofZ 14700 * cx7 * cy3 - sofZ 7350 * cx7 * cy4 + sofZ 1470 * cx7 * cy5;
     - sofZ 294 * cx0 * cy1 + sofZ 1764 * cx0 * cy2 - sofZ 4410 * cx0 * cy3 + sofZ 5880 * cx0 * cy4 - sofZ 4410 * cx0 * cy5 + sofZ 1764 * cx0 * cy6 - sofZ 294 * cx0 * cy7 + sofZ 294 * cx1 * cy0 - sofZ 6174 * cx1 * cy2 + sofZ 20580 * cx1 * cy3 - sofZ 30870 * cx1 * cy4 + sofZ 24696 * cx1 * cy5 - sofZ 10290 * cx1 * cy6 + sofZ 1764 * cx1 * cy7 - sofZ 1764 * cx2 * cy0 + sofZ 6174 * cx2 * cy1 - sofZ 30870 * cx2 * cy3 + sofZ 61740 * cx2 * cy4 - sofZ 55566 * cx2 * cy5 + sofZ 24696 * cx2 * cy6 - sofZ 4410 * cx2 * cy7 + sofZ 4410 * cx3 * cy0 - sofZ 20580 * cx3 * cy1 + sofZ 30870 * cx3 * cy2 - sofZ 51450 * cx3 * cy4 + sofZ 61740 * cx3 * cy5 - sofZ 30870 * cx3 * cy6 + sofZ 5880 * cx3 * cy7 - sofZ 5880 * cx4 * cy0 + sofZ 30870 * cx4 * cy1 - sofZ 61740 * cx4 * cy2 + sofZ 51450 * cx4 * cy3 - sofZ 30870 * cx4 * cy5 + sofZ 20580 * cx4 * cy6 - sofZ 4410 * cx4 * cy7 + sofZ 4410 * cx5 * cy0 - sofZ 24696 * cx5 * cy1 + sofZ 55566 * cx5 * cy2 - sofZ 61740 * cx5 * cy3 + sofZ 30870 * cx5 * cy4 - sofZ 6174 * cx5 * cy6 + sofZ 1764 * cx5 * cy7 - sofZ 1764 * cx6 * cy0 + sofZ 10290 * cx6 * cy1 - sofZ 24696 * cx6 * cy2 + sofZ 30870 * cx6 * cy3 - sofZ 20580 * cx6 * cy4 + sofZ 6174 * cx6 * cy5 - sofZ 294 * cx6 * cy7 + sofZ 294 * cx7 * cy0 - sofZ 1764 * cx7 * cy1 + sofZ 4410 * cx7 * cy2 - sofZ 5880 * cx7 * cy3 + sofZ 4410 * cx7 * cy4 - sofZ 1764 * cx7 * cy5 + sofZ 294 * cx7 * cy6].

  (** internal/auto_inflection_Bezier.h:150-175 compute_Bezier_degree_8_inflections *)
  Definition infl_8 (cx0 cy0 cx1 cy1 cx2 cy2 cx3 cy3 cx4 cy4 cx5 cy5 cx6 cy6 cx7 cy7 cx8 cy8 : T) : list T :=
    [- sofZ 448 * cx0 * cy1 + sofZ 448 * cx0 * cy2 + sofZ 448 * cx1 * cy0 - sofZ 448 * cx1 * cy2 - sofZ 448 * cx2 * cy0 + sofZ 448 * cx2 * cy1;
     sofZ 5376 * cx0 * cy1 - sofZ 8064 * cx0 * cy2 + sofZ 2688 * cx0 * cy3 - sofZ 5376 * cx1 * cy0 + sofZ 8064 * cx1 * cy2 - sofZ 2688 * cx1 * cy3 + sofZ 8064 * cx2 * cy0 - sofZ 8064 * cx2 * cy1 - sofZ 2688 * cx3 * cy0 + sofZ 2688 * cx3 * cy1;
     - sofZ 29568 * cx0 * cy1 + sofZ 59136 * cx0 * cy2 - sofZ 36288 * cx0 * cy3 + sofZ 6720 * cx0 * cy4 + sofZ 29568 * cx1 * cy0 - sofZ 68544 * cx1 * cy2 + sofZ 45696 * cx1 * cy3 - sofZ 6720 * cx1 * cy4 - sofZ 59136 * cx2 * cy0 + sofZ 68544 * cx2 * cy1 - sofZ 9408 * cx2 * cy3 + sofZ 36288 * cx3 * cy0 - sofZ 45696 * cx3 * cy1 + sofZ 9408 * cx3 * cy2 - sofZ 6720 * cx4 * cy0 + sofZ 6720 * cx4 * cy1;
     sofZ 98560 * cx0 * cy1 - sofZ 246400 * cx0 * cy2 + sofZ 215040 * cx0 * cy3 - sofZ 76160 * cx0 * cy4 + sofZ 8960 * cx0 * cy5 - sofZ 98560 * cx1 * cy0 + sofZ 340480 * cx1 * cy2 - sofZ 340480 * cx1 * cy3 + sofZ 107520 * cx1 * cy4 - sofZ 8960 * cx1 * cy5 + sofZ 246400 * cx2 * cy0 - sofZ 340480 * cx2 * cy1 + sofZ 125440 * cx2 * cy3 - sofZ 31360 * cx2 * cy4 - sofZ 215040 * cx3 * cy0 + sofZ 340480 * cx3 * cy1 - sofZ 125440 * cx3 * cy2 + sofZ 76160 * cx4 * cy0 - sofZ 107520 * cx4 * cy1 + sofZ 31360 * cx4 * cy2 - sofZ 8960 * cx5 * cy0 + sofZ 8960 * cx5 * cy1;
     - sofZ 221760 * cx0 * cy1 + sofZ 665280 * cx0 * cy2 - sofZ 745920 * cx0 * cy3 + sofZ 383040 * cx0 * cy4 - sofZ 87360 * cx0 * cy5 + sofZ 6720 * cx0 * cy6 + sofZ 221760 * cx1 * cy0 - sofZ 1088640 * cx1 * cy2 + sofZ 1451520 * cx1 * cy3 - sofZ 712320 * cx1 * cy4 + sofZ 134400 * cx1 * cy5 - sofZ 6720 * cx1 * cy6 - sofZ 665280 * cx2 * cy0 + sofZ 1088640 * cx2 * cy1 - sofZ 752640 * cx2 * cy3 + sofZ 376320 * cx2 * cy4 - sofZ 47040 * cx2 * cy5 + sofZ 745920 * cx3 * cy0 - sofZ 1451520 * cx3 * cy1 + sofZ 752640 * cx3 * cy2 - sofZ 47040 * cx3 * cy4 - sofZ 383040 * cx4 * cy0 + sofZ 712320 * cx4 * cy1 - sofZ 376320 * cx4 * cy2 + sofZ 47040 * cx4 * cy3 + sofZ 87360 * cx5 * cy0 - sofZ 134400 * cx5 * cy1 + sofZ 47040 * cx5 * cy2 - sofZ 6720 * cx6 * cy0 + sofZ 6720 * cx6 * cy1;
     sofZ 354816 * cx0 * cy1 - sofZ 1241856 * cx0 * cy2 + sofZ 1693440 * cx0 * cy3 - sofZ 1128960 * cx0 * cy4 + sofZ 376320 * cx0 * cy5 - sofZ 56448 * cx0 * cy6 + sofZ 2688 * cx0 * cy7 - sofZ 354816 * cx1 * cy0 + sofZ 2370816 * cx1 * cy2 - sofZ 3951360 * cx1 * cy3 + sofZ 2634240 * cx1 * cy4 - sofZ 790272 * cx1 * cy5 + sofZ 94080 * cx1 * cy6 - sofZ 2688 * cx1 * cy7 + sofZ 1241856 * cx2 * cy0 - sofZ 2370816 * cx2 * cy1 + sofZ 2634240 * cx2 * cy3 - sofZ 1975680 * cx2 * cy4 + sofZ 508032 * cx2 * cy5 - sofZ 37632 * cx2 * cy6 - sofZ 1693440 * cx3 * cy0 + sofZ 3951360 * cx3 * cy1 - sofZ 2634240 * cx3 * cy2 + sofZ 470400 * cx3 * cy4 - sofZ 94080 * cx3 * cy5 + sofZ 1128960 * cx4 * cy0 - sofZ 2634240 * cx4 * cy1 + sofZ 1975680 * cx4 * cy2 - sofZ 470400 * cx4 * cy3 - sofZ 376320 * cx5 * cy0 + sofZ 790272 * cx5 * cy1 - sofZ 508032 * cx5 * cy2 + sofZ 94080 * cx5 * cy3 + sofZ 56448 * cx6 * cy0 - sofZ 94080 * cx6 * cy1 + sofZ 37632 * cx6 * cy2 - sofZ 2688 * cx7 * cy0 + sofZ 2688 * cx7 * cy1;
     - sofZ 413952 * cx0 * cy1 + sofZ 1655808 * cx0 * cy2 - sofZ 2653056 * cx0 * cy3 + sofZ 2163840 * cx0 * cy4 - sofZ 940800 * cx0 * cy5 + sofZ 206976 * cx0 * cy6 - sofZ 19264 * cx0 * cy7 + sofZ 448 * cx0 * cy8 + sofZ 413952 * cx1 * cy0 - sofZ 3631488 * cx1 * cy2 + sofZ 7262976 * cx1 * cy3 - sofZ 6115200 * cx1 * cy4 + sofZ 2521344 * cx1 * cy5 - sofZ 486080 * cx1 * cy6 + sofZ 34944 * cx1 * cy7 - sofZ 448 * cx1 * cy8 - sofZ 1655808 * cx2 * cy0 + sofZ 3631488 * cx2 * cy1 - sofZ 5927040 * cx2 * cy3 + sofZ 5927040 * cx2 * cy4 - sofZ 2323776 * cx2 * cy5 + sofZ 363776 * cx2 * cy6 - sofZ 15680 * cx2 * cy7 + sofZ 2653056 * cx3 * cy0 - sofZ 7262976 * cx3 * cy1 + sofZ 5927040 * cx3 * cy2 - sofZ 2054080 * cx3 * cy4 + sofZ 821632 * cx3 * cy5 - sofZ 84672 * cx3 * cy6 - sofZ 2163840 * cx4 * cy0 + sofZ 6115200 * cx4 * cy1 - sofZ 5927040 * cx4 * cy2 + sofZ 2054080 * cx4 * cy3 - sofZ 78400 * cx4 * cy5 + sofZ 940800 * cx5 * cy0 - sofZ 2521344 * cx5 * cy1 + sofZ 2323776 * cx5 * cy2 - sofZ 821632 * cx5 * cy3 + sofZ 78400 * cx5 * cy4 - sofZ 206976 * cx6 * cy0 + sofZ 486080 * cx6 * cy1 - sofZ 363776 * cx6 * cy2 + sofZ 84672 * cx6 * cy3 + sofZ 19264 * cx7 * cy0 - sofZ 34944 * cx7 * cy1 + sofZ 15680 * cx7 * cy2 - sofZ 448 * cx8 * cy0 + sofZ 448 * cx8 * cy1;
     sofZ 354816 * cx0 * cy1 - sofZ 1596672 * cx0 * cy2 + sofZ 2935296 * cx0 * cy3 - sofZ 2822400 * cx0 * cy4 + sofZ 1505280 * cx0 * cy5 - sofZ 432768 * cx0 * cy6 + sofZ 59136 * cx0 * cy7 - sofZ 2688 * cx0 * cy8 - sofZ 354816 * cx1 * cy0 + sofZ 3967488 * cx1 * cy2 - sofZ 9257472 * cx1 * cy3 + sofZ 9408000 * cx1 * cy4 - sofZ 4929792 * cx1 * cy5 + sofZ 1317120 * cx1 * cy6 - sofZ 155904 * cx1 * cy7 + sofZ 5376 * cx1 * cy8 + sofZ 1596672 * cx2 * cy0 - sofZ 3967488 * cx2 * cy1 + sofZ 8956416 * cx2 * cy3 - sofZ 11195520 * cx2 * cy4 + sofZ 5908224 * cx2 * cy5 - sofZ 1430016 * cx2 * cy6 + sofZ 134400 * cx2 * cy7 - sofZ 2688 * cx2 * cy8 - sofZ 2935296 * cx3 * cy0 + sofZ 9257472 * cx3 * cy1 - sofZ 8956416 * cx3 * cy2 + sofZ 5080320 * cx3 * cy4 - sofZ 3048192 * cx3 * cy5 + sofZ 639744 * cx3 * cy6 - sofZ 37632 * cx3 * cy7 + sofZ 2822400 * cx4 * cy0 - sofZ 9408000 * cx4 * cy1 + sofZ 11195520 * cx4 * cy2 - sofZ 5080320 * cx4 * cy3 + sofZ 564480 * cx4 * cy5 - sofZ 94080 * cx4 * cy6 - sofZ 1505280 * cx5 * cy0 + sofZ 4929792 * cx5 * cy1 - sofZ 5908224 * cx5 * cy2 + sofZ 3048192 * cx5 * cy3 - sofZ 564480 * cx5 * cy4 + sofZ 432768 * cx6 * cy0 - sofZ 1317120 * cx6 * cy1 + sofZ 1430016 * cx6 * cy2 - sofZ 639744 * cx6 * cy3 + sofZ 94080 * cx6 * cy4 - sofZ 59136 * cx7 * cy0 + sofZ 155904 * cx7 * cy1 - sofZ 134400 * cx7 * cy2 + sofZ 37632 * cx7 * cy3 + sofZ 2688 * cx8 * cy0 - sofZ 5376 * cx8 * cy1 + sofZ 2688 * cx8 * cy2;
     - sofZ 221760 * cx0 * cy1 + sofZ 1108800 * cx0 * cy2 - sofZ 2298240 * cx0 * cy3 + sofZ 2540160 * cx0 * cy4 - sofZ 1599360 * cx0 * cy5 + sofZ 564480 * cx0 * cy6 - sofZ 100800 * cx0 * cy7 + sofZ 6720 * cx0 * cy8 + sofZ 221760 * cx1 * cy0 - sofZ 3084480 * cx1 * cy2 + sofZ 8225280 * cx1 * cy3 - sofZ 9784320 * cx1 * cy4 + sofZ 6209280 * cx1 * cy5 - sofZ 2116800 * cx1 * cy6 + sofZ 349440 * cx1 * cy7 - sofZ 20160 * cx1 * cy8 - sofZ 1108800 * cx2 * cy0 + sofZ 3084480 * cx2 * cy1 - sofZ 9219840 * cx2 * cy3 + sofZ 13829760 * cx2 * cy4 - sofZ 9172800 * cx2 * cy5 + sofZ 3010560 * cx2 * cy6 - sofZ 443520 * cx2 * cy7 + sofZ 20160 * cx2 * cy8 + sofZ 2298240 * cx3 * cy0 - sofZ 8225280 * cx3 * cy1 + sofZ 9219840 * cx3 * cy2 - sofZ 7761600 * cx3 * cy4 + sofZ 6209280 * cx3 * cy5 - sofZ 1975680 * cx3 * cy6 + sofZ 241920 * cx3 * cy7 - sofZ 6720 * cx3 * cy8 - sofZ 2540160 * cx4 * cy0 + sofZ 9784320 * cx4 * cy1 - sofZ 13829760 * cx4 * cy2 + sofZ 7761600 * cx4 * cy3 - sofZ 1693440 * cx4 * cy5 + sofZ 564480 * cx4 * cy6 - sofZ 47040 * cx4 * cy7 + sofZ 1599360 * cx5 * cy0 - sofZ 6209280 * cx5 * cy1 + sofZ 9172800 * cx5 * cy2 - sofZ 6209280 * cx5 * cy3 + sofZ 1693440 * cx5 * cy4 - sofZ 47040 * cx5 * cy6 - sofZ 564480 * cx6 * cy0 + sofZ 2116800 * cx6 * cy1 - sofZ 3010560 * cx6 * cy2 + sofZ 1975680 * cx6 * cy3 - sofZ 564480 * cx6 * cy4 + sofZ 47040 * cx6 * cy5 + sofZ 100800 * cx7 * cy0 - sofZ 349440 * cx7 * cy1 + sofZ 443520 * cx7 * cy2 - sofZ 241920 * cx7 * cy3 + sofZ 47040 * cx7 * cy4 - sofZ 6720 * cx8 * cy0 + sofZ 20160 * cx8 * cy1 - sofZ 20160 * cx8 * cy2 + sofZ 6720 * cx8 * cy3;
     sofZ 98560 * cx0 * cy1 - sofZ 542080 * cx0 * cy2 + sofZ 1249920 * cx0 * cy3 - sofZ 1559040 * cx0 * cy4 + sofZ 1128960 * cx0 * cy5 - sofZ 470400 * cx0 * cy6 + sofZ 103040 * cx0 * cy7 - sofZ 8960 * cx0 * cy8 - sofZ 98560 * cx1 * cy0 + sofZ 1671040 * cx1 * cy2 - sofZ 5013120 * cx1 * cy3 + sofZ 6827520 * cx1 * cy4 - sofZ 5080320 * cx1 * cy5 + sofZ 2101120 * cx1 * cy6 - sofZ 443520 * cx1 * cy7 + sofZ 35840 * cx1 * cy8 + sofZ 542080 * cx2 * cy0 - sofZ 1671040 * cx2 * cy1 + sofZ 6397440 * cx2 * cy3 - sofZ 11195520 * cx2 * cy4 + sofZ 8937600 * cx2 * cy5 - sofZ 3700480 * cx2 * cy6 + sofZ 743680 * cx2 * cy7 - sofZ 53760 * cx2 * cy8 - sofZ 1249920 * cx3 * cy0 + sofZ 5013120 * cx3 * cy1 - sofZ 6397440 * cx3 * cy2 + sofZ 7495040 * cx3 * cy4 - sofZ 7495040 * cx3 * cy5 + sofZ 3198720 * cx3 * cy6 - sofZ 600320 * cx3 * cy7 + sofZ 35840 * cx3 * cy8 + sofZ 1559040 * cx4 * cy0 - sofZ 6827520 * cx4 * cy1 + sofZ 11195520 * cx4 * cy2 - sofZ 7495040 * cx4 * cy3 + sofZ 2696960 * cx4 * cy5 - sofZ 1348480 * cx4 * cy6 + sofZ 228480 * cx4 * cy7 - sofZ 8960 * cx4 * cy8 - sofZ 1128960 * cx5 * cy0 + sofZ 5080320 * cx5 * cy1 - sofZ 8937600 * cx5 * cy2 + sofZ 7495040 * cx5 * cy3 - sofZ 2696960 * cx5 * cy4 + sofZ 219520 * cx5 * cy6 - sofZ 31360 * cx5 * cy7 + sofZ 470400 * cx6 * cy0 - sofZ 2101120 * cx6 * cy1 + sofZ 3700480 * cx6 * cy2 - sofZ 3198720 * cx6 * cy3 + sofZ 1348480 * cx6 * cy4 - sofZ 219520 * cx6 * cy5 - sofZ 103040 * cx7 * cy0 + sofZ 443520 * cx7 * cy1 - sofZ 743680 * cx7 * cy2 + sofZ 600320 * cx7 * cy3 - sofZ 228480 * cx7 * cy4 + sofZ 31360 * cx7 * cy5 + sofZ 8960 * cx8 * cy0 - sofZ 35840 * cx8 * cy1 + sofZ 53760 * cx8 * cy2 - sofZ 35840 * cx8 * cy3 + sofZ 8960 * cx8 * cy4;
     - sofZ 29568 * cx0 * cy1 + sofZ 177408 * cx0 * cy2 - sofZ 450240 * cx0 * cy3 + sofZ 624960 * cx0 * cy4 - sofZ 510720 * cx0 * cy5 + sofZ 244608 * cx0 * cy6 - sofZ 63168 * cx0 * cy7 + sofZ 6720 * cx0 * cy8 + sofZ 29568 * cx1 * cy0 - sofZ 600768 * cx1 * cy2 + sofZ 2002560 * cx1 * cy3 - sofZ 3071040 * cx1 * cy4 + sofZ 2618112 * cx1 * cy5 - sofZ 1270080 * cx1 * cy6 + sofZ 325248 * cx1 * cy7 - sofZ 33600 * cx1 * cy8 - sofZ 177408 * cx2 * cy0 + sofZ 600768 * cx2 * cy1 - sofZ 2869440 * cx2 * cy3 + sofZ 5738880 * cx2 * cy4 - sofZ 5353152 * cx2 * cy5 + sofZ 2671872 * cx2 * cy6 - sofZ 678720 * cx2 * cy7 + sofZ 67200 * cx2 * cy8 + sofZ 450240 * cx3 * cy0 - sofZ 2002560 * cx3 * cy1 + sofZ 2869440 * cx3 * cy2 - sofZ 4468800 * cx3 * cy4 + sofZ 5362560 * cx3 * cy5 - sofZ 2869440 * cx3 * cy6 + sofZ 725760 * cx3 * cy7 - sofZ 67200 * cx3 * cy8 - sofZ 624960 * cx4 * cy0 + sofZ 3071040 * cx4 * cy1 - sofZ 5738880 * cx4 * cy2 + sofZ 4468800 * cx4 * cy3 - sofZ 2399040 * cx4 * cy5 + sofZ 1599360 * cx4 * cy6 - sofZ 409920 * cx4 * cy7 + sofZ 33600 * cx4 * cy8 + sofZ 510720 * cx5 * cy0 - sofZ 2618112 * cx5 * cy1 + sofZ 5353152 * cx5 * cy2 - sofZ 5362560 * cx5 * cy3 + sofZ 2399040 * cx5 * cy4 - sofZ 385728 * cx5 * cy6 + sofZ 110208 * cx5 * cy7 - sofZ 6720 * cx5 * cy8 - sofZ 244608 * cx6 * cy0 + sofZ 1270080 * cx6 * cy1 - sofZ 2671872 * cx6 * cy2 + sofZ 2869440 * cx6 * cy3 - sofZ 1599360 * cx6 * cy4 + sofZ 385728 * cx6 * cy5 - sofZ 9408 * cx6 * cy7 + sofZ 63168 * cx7 * cy0 - sofZ 325248 * cx7 * cy1 + sofZ 678720 * cx7 * cy2 - sofZ 725760 * cx7 * cy3 + sofZ 409920 * cx7 * cy4 - sofZ 110208 * cx7 * cy5 + sofZ 9408 * cx7 * cy6 - sofZ 6720 * cx8 * cy0 + sofZ 33600 * cx8 * cy1 - sofZ 67200 * cx8 * cy2 + sofZ 67200 * cx8 * cy3 - sofZ 33600 * cx8 * cy4 + sofZ 6720 * cx8 * cy5;
     sofZ 5376 * cx0 * cy1 - sofZ 34944 * cx0 * cy2 + sofZ 96768 * cx0 * cy3 - sofZ 147840 * cx0 * cy4 + sofZ 134400 * cx0 * cy5 - sofZ 72576 * cx0 * cy6 + sofZ 21504 * cx0 * cy7 - sofZ 2688 * cx0 * cy8 - sofZ 5376 * cx1 * cy0 + sofZ 129024 * cx1 * cy2 - sofZ 473088 * cx1 * cy3 + sofZ 806400 * cx1 * cy4 - sofZ 774144 * cx1 * cy5 + sofZ 430080 * cx1 * cy6 - sofZ 129024 * cx1 * cy7 + sofZ 16128 * cx1 * cy8 + sofZ 34944 * cx2 * cy0 - sofZ 129024 * cx2 * cy1 + sofZ 752640 * cx2 * cy3 - sofZ 1693440 * cx2 * cy4 + sofZ 1806336 * cx2 * cy5 - sofZ 1053696 * cx2 * cy6 + sofZ 322560 * cx2 * cy7 - sofZ 40320 * cx2 * cy8 - sofZ 96768 * cx3 * cy0 + sofZ 473088 * cx3 * cy1 - sofZ 752640 * cx3 * cy2 + sofZ 1505280 * cx3 * cy4 - sofZ 2107392 * cx3 * cy5 + sofZ 1354752 * cx3 * cy6 - sofZ 430080 * cx3 * cy7 + sofZ 53760 * cx3 * cy8 + sofZ 147840 * cx4 * cy0 - sofZ 806400 * cx4 * cy1 + sofZ 1693440 * cx4 * cy2 - sofZ 1505280 * cx4 * cy3 + sofZ 1128960 * cx4 * cy5 - sofZ 940800 * cx4 * cy6 + sofZ 322560 * cx4 * cy7 - sofZ 40320 * cx4 * cy8 - sofZ 134400 * cx5 * cy0 + sofZ 774144 * cx5 * cy1 - sofZ 1806336 * cx5 * cy2 + sofZ 2107392 * cx5 * cy3 - sofZ 1128960 * cx5 * cy4 + sofZ 301056 * cx5 * cy6 - sofZ 129024 * cx5 * cy7 + sofZ 16128 * cx5 * cy8 + sofZ 72576 * cx6 * cy0 - sofZ 430080 * cx6 * cy1 + sofZ 1053696 * cx6 * cy2 - sofZ 1354752 * cx6 * cy3 + sofZ 940800 * cx6 * cy4 - sofZ 301056 * cx6 * cy5 + sofZ 21504 * cx6 * cy7 - sofZ 2688 * cx6 * cy8 - sofZ 21504 * cx7 * cy0 + sofZ 129024 * cx7 * cy1 - sofZ 322560 * cx7 * cy2 + sofZ 430080 * cx7 * cy3 - sofZ 322560 * cx7 * cy4 + sofZ 129024 * cx7 * cy5 - sofZ 21504 * cx7 * cy6 + sofZ 2688 * cx8 * cy0 - sofZ 16128 * cx8 * cy1 + sofZ 40320 * cx8 * cy2 - sofZ 53760 * cx8 * cy3 + sofZ 40320 * cx8 * cy4 - sofZ 16128 * cx8 * cy5 + sofZ 2688 * cx8 * cy6;
     - sofZ 448 * cx0 * cy1 + sofZ 3136 * cx0 * cy2 - sofZ 9408 * cx0 * cy3 + sofZ 15680 * cx0 * cy4 - sofZ 15680 * cx0 * cy5 + sofZ 9408 * cx0 * cy6 - sofZ 3136 * cx0 * cy7 + sofZ 448 * cx0 * cy8 + sofZ 448 * cx1 * cy0 - sofZ 12544 * cx1 * cy2 + sofZ 50176 * cx1 * cy3 - sofZ 94080 * cx1 * cy4 + sofZ 100352 * cx1 * cy5 - sofZ 62720 * cx1 * cy6 + sofZ 21504 * cx1 * cy7 - sofZ 3136 * cx1 * cy8 - sofZ 3136 * cx2 * cy0 + sofZ 12544 * cx2 * cy1 - sofZ 87808 * cx2 * cy3 + sofZ 219520 * cx2 * cy4 - sofZ 263424 * cx2 * cy5 + sofZ 175616 * cx2 * cy6 - sofZ 62720 * cx2 * cy7 + sofZ 9408 * cx2 * cy8 + sofZ 9408 * cx3 * cy0 - sofZ 50176 * cx3 * cy1 + sofZ 87808 * cx3 * cy2 - sofZ 219520 * cx3 * cy4 + sofZ 351232 * cx3 * cy5 - sofZ 263424 * cx3 * cy6 + sofZ 100352 * cx3 * cy7 - sofZ 15680 * cx3 * cy8 - sofZ 15680 * cx4 * cy0 + sofZ 94080 * cx4 * cy1 - sofZ 219520 * cx4 * cy2 + sofZ 219520 * cx4 * cy3 - sofZ 219520 * cx4 * cy5 + sofZ 219520 * cx4 * cy6 - sofZ 94080 * cx4 * cy7 + sofZ 15680 * cx4 * cy8 + sofZ 15680 * cx5 * cy0 - sofZ 100352 * cx5 * cy1 + sofZ 263424 * cx5 * cy2 - sofZ 351232 * cx5 * cy3 + sofZ 219520 * cx5 * cy4 - sofZ 87808 * cx5 * cy6 + sofZ 50176 * cx5 * cy7 - sofZ 9408 * cx5 * cy8 - sofZ 9408 * cx6 * cy0 + sofZ 62720 * cx6 * cy1 - sofZ 175616 * cx6 * cy2 + sofZ 263424 * cx6 * cy3 - sofZ 219520 * cx6 * cy4 + sofZ 87808 * cx6 * cy5 - sofZ 12544 * cx6 * cy7 + sofZ 3136 * cx6 * cy8 + sofZ 3136 * cx7 * cy0 - sofZ 21504 * cx7 * cy1 + sofZ 62720 * cx7 * cy2 - sofZ 100352 * cx7 * cy3 + sofZ 94080 * cx7 * cy4 - sofZ 50176 * cx7 * cy5 + sofZ 12544 * cx7 * cy6 - sofZ 448 * cx7 * cy8 - sofZ 448 * cx8 * cy0 + sofZ 3136 * cx8 * cy1 - sofZ 9408 * cx8 * cy2 + sofZ 15680 * cx8 * cy3 - sofZ 15680 * cx8 * cy4 + sofZ 9408 * cx8 * cy5 - sofZ 3136 * cx8 * cy6 + sofZ 448 * cx8 * cy7].

  (** internal/auto_inflection_Bezier.h:179-206 compute_Bezier_degree_9_inflections *)
  Definition infl_9 (cx0 cy0 cx1 cy1 cx2 cy2 cx3 cy3 cx4 cy4 cx5 cy5 cx6 cy6 cx7 cy7 cx8 cy8 cx9 cy9 : T) : list T :=
    [- sofZ 648 * cx0 * cy1 + sofZ 648 * cx0 * cy2 + sofZ 648 * cx1 * cy0 - sofZ 648 * cx1 * cy2 - sofZ 648 * cx2 * cy0 + sofZ 648 * cx2 * cy1;
     sofZ 9072 * cx0 * cy1 - sofZ 13608 * cx0 * cy2 + sofZ 4536 * cx0 * cy3 - sofZ 9072 * cx1 * cy0 + sofZ 13608 * cx1 * cy2 - sofZ 4536 * cx1 * cy3 + sofZ 13608 * cx2 * cy0 - sofZ 13608 * cx2 * cy1 - sofZ 4536 * cx3 * cy0 + sofZ 4536 * cx3 * cy1;
     - sofZ 58968 * cx0 * cy1 + sofZ 117936 * cx0 * cy2 - sofZ 72576 * cx0 * cy3 + sofZ 13608 * cx0 * cy4 + sofZ 58968 * cx1 * cy0 - sofZ 136080 * cx1 * cy2 + sofZ 90720 * cx1 * cy3 - sofZ 13608 * cx1 * cy4 - sofZ 117936 * cx2 * cy0 + sofZ 136080 * cx2 * cy1 - sofZ 18144 * cx2 * cy3 + sofZ 72576 * cx3 * cy0 - sofZ 90720 * cx3 * cy1 + sofZ 18144 * cx3 * cy2 - sofZ 13608 * cx4 * cy0 + sofZ 13608 * cx4 * cy1;
     sofZ 235872 * cx0 * cy1 - sofZ 589680 * cx0 * cy2 + sofZ 517104 * cx0 * cy3 - sofZ 185976 * cx0 * cy4 + sofZ 22680 * cx0 * cy5 - sofZ 235872 * cx1 * cy0 + sofZ 807408 * cx1 * cy2 - sofZ 807408 * cx1 * cy3 + sofZ 258552 * cx1 * cy4 - sofZ 22680 * cx1 * cy5 + sofZ 589680 * cx2 * cy0 - sofZ 807408 * cx2 * cy1 + sofZ 290304 * cx2 * cy3 - sofZ 72576 * cx2 * cy4 - sofZ 517104 * cx3 * cy0 + sofZ 807408 * cx3 * cy1 - sofZ 290304 * cx3 * cy2 + sofZ 185976 * cx4 * cy0 - sofZ 258552 * cx4 * cy1 + sofZ 72576 * cx4 * cy2 - sofZ 22680 * cx5 * cy0 + sofZ 22680 * cx5 * cy1;
     - sofZ 648648 * cx0 * cy1 + sofZ 1945944 * cx0 * cy2 - sofZ 2195424 * cx0 * cy3 + sofZ 1147608 * cx0 * cy4 - sofZ 272160 * cx0 * cy5 + sofZ 22680 * cx0 * cy6 + sofZ 648648 * cx1 * cy0 - sofZ 3143448 * cx1 * cy2 + sofZ 4191264 * cx1 * cy3 - sofZ 2082024 * cx1 * cy4 + sofZ 408240 * cx1 * cy5 - sofZ 22680 * cx1 * cy6 - sofZ 1945944 * cx2 * cy0 + sofZ 3143448 * cx2 * cy1 - sofZ 2122848 * cx2 * cy3 + sofZ 1061424 * cx2 * cy4 - sofZ 136080 * cx2 * cy5 + sofZ 2195424 * cx3 * cy0 - sofZ 4191264 * cx3 * cy1 + sofZ 2122848 * cx3 * cy2 - sofZ 127008 * cx3 * cy4 - sofZ 1147608 * cx4 * cy0 + sofZ 2082024 * cx4 * cy1 - sofZ 1061424 * cx4 * cy2 + sofZ 127008 * cx4 * cy3 + sofZ 272160 * cx5 * cy0 - sofZ 408240 * cx5 * cy1 + sofZ 136080 * cx5 * cy2 - sofZ 22680 * cx6 * cy0 + sofZ 22680 * cx6 * cy1;
     sofZ 1297296 * cx0 * cy1 - sofZ 4540536 * cx0 * cy2 + sofZ 6237000 * cx0 * cy3 - sofZ 4241160 * cx0 * cy4 + sofZ 1474200 * cx0 * cy5 - sofZ 240408 * cx0 * cy6 + sofZ 13608 * cx0 * cy7 - sofZ 1297296 * cx1 * cy0 + sofZ 8532216 * cx1 * cy2 - sofZ 14220360 * cx1 * cy3 + sofZ 9593640 * cx1 * cy4 - sofZ 2980152 * cx1 * cy5 + sofZ 385560 * cx1 * cy6 - sofZ 13608 * cx1 * cy7 + sofZ 4540536 * cx2 * cy0 - sofZ 8532216 * cx2 * cy1 + sofZ 9253440 * cx2 * cy3 - sofZ 6940080 * cx2 * cy4 + sofZ 1823472 * cx2 * cy5 - sofZ 145152 * cx2 * cy6 - sofZ 6237000 * cx3 * cy0 + sofZ 14220360 * cx3 * cy1 - sofZ 9253440 * cx3 * cy2 + sofZ 1587600 * cx3 * cy4 - sofZ 317520 * cx3 * cy5 + sofZ 4241160 * cx4 * cy0 - sofZ 9593640 * cx4 * cy1 + sofZ 6940080 * cx4 * cy2 - sofZ 1587600 * cx4 * cy3 - sofZ 1474200 * cx5 * cy0 + sofZ 2980152 * cx5 * cy1 - sofZ 1823472 * cx5 * cy2 + sofZ 317520 * cx5 * cy3 + sofZ 240408 * cx6 * cy0 - sofZ 385560 * cx6 * cy1 + sofZ 145152 * cx6 * cy2 - sofZ 13608 * cx7 * cy0 + sofZ 13608 * cx7 * cy1;
     - sofZ 1945944 * cx0 * cy1 + sofZ 7783776 * cx0 * cy2 - sofZ 12573792 * cx0 * cy3 + sofZ 10478160 * cx0 * cy4 - sofZ 4762800 * cx0 * cy5 + sofZ 1143072 * cx0 * cy6 - sofZ 127008 * cx0 * cy7 + sofZ 4536 * cx0 * cy8 + sofZ 1945944 * cx1 * cy0 - sofZ 16765056 * cx1 * cy2 + sofZ 33530112 * cx1 * cy3 - sofZ 28576800 * cx1 * cy4 + sofZ 12192768 * cx1 * cy5 - sofZ 2540160 * cx1 * cy6 + sofZ 217728 * cx1 * cy7 - sofZ 4536 * cx1 * cy8 - sofZ 7783776 * cx2 * cy0 + sofZ 16765056 * cx2 * cy1 - sofZ 26671680 * cx2 * cy3 + sofZ 26671680 * cx2 * cy4 - sofZ 10668672 * cx2 * cy5 + sofZ 1778112 * cx2 * cy6 - sofZ 90720 * cx2 * cy7 + sofZ 12573792 * cx3 * cy0 - sofZ 33530112 * cx3 * cy1 + sofZ 26671680 * cx3 * cy2 - sofZ 8890560 * cx3 * cy4 + sofZ 3556224 * cx3 * cy5 - sofZ 381024 * cx3 * cy6 - sofZ 10478160 * cx4 * cy0 + sofZ 28576800 * cx4 * cy1 - sofZ 26671680 * cx4 * cy2 + sofZ 8890560 * cx4 * cy3 - sofZ 317520 * cx4 * cy5 + sofZ 4762800 * cx5 * cy0 - sofZ 12192768 * cx5 * cy1 + sofZ 10668672 * cx5 * cy2 - sofZ 3556224 * cx5 * cy3 + sofZ 317520 * cx5 * cy4 - sofZ 1143072 * cx6 * cy0 + sofZ 2540160 * cx6 * cy1 - sofZ 1778112 * cx6 * cy2 + sofZ 381024 * cx6 * cy3 + sofZ 127008 * cx7 * cy0 - sofZ 217728 * cx7 * cy1 + sofZ 90720 * cx7 * cy2 - sofZ 4536 * cx8 * cy0 + sofZ 4536 * cx8 * cy1;
     sofZ 2223936 * cx0 * cy1 - sofZ 10007712 * cx0 * cy2 + sofZ 18561312 * cx0 * cy3 - sofZ 18261936 * cx0 * cy4 + sofZ 10206000 * cx0 * cy5 - sofZ 3211488 * cx0 * cy6 + sofZ 526176 * cx0 * cy7 - sofZ 36936 * cx0 * cy8 + sofZ 648 * cx0 * cy9 - sofZ 2223936 * cx1 * cy0 + sofZ 24377760 * cx1 * cy2 - sofZ 56881440 * cx1 * cy3 + sofZ 58541616 * cx1 * cy4 - sofZ 31761072 * cx1 * cy5 + sofZ 9162720 * cx1 * cy6 - sofZ 1283040 * cx1 * cy7 + sofZ 68040 * cx1 * cy8 - sofZ 648 * cx1 * cy9 + sofZ 10007712 * cx2 * cy0 - sofZ 24377760 * cx2 * cy1 + sofZ 53561088 * cx2 * cy3 - sofZ 66951360 * cx2 * cy4 + sofZ 36033984 * cx2 * cy5 - sofZ 9253440 * cx2 * cy6 + sofZ 1010880 * cx2 * cy7 - sofZ 31104 * cx2 * cy8 - sofZ 18561312 * cx3 * cy0 + sofZ 56881440 * cx3 * cy1 - sofZ 53561088 * cx3 * cy2 + sofZ 29211840 * cx3 * cy4 - sofZ 17527104 * cx3 * cy5 + sofZ 3810240 * cx3 * cy6 - sofZ 254016 * cx3 * cy7 + sofZ 18261936 * cx4 * cy0 - sofZ 58541616 * cx4 * cy1 + sofZ 66951360 * cx4 * cy2 - sofZ 29211840 * cx4 * cy3 + sofZ 3048192 * cx4 * cy5 - sofZ 508032 * cx4 * cy6 - sofZ 10206000 * cx5 * cy0 + sofZ 31761072 * cx5 * cy1 - sofZ 36033984 * cx5 * cy2 + sofZ 17527104 * cx5 * cy3 - sofZ 3048192 * cx5 * cy4 + sofZ 3211488 * cx6 * cy0 - sofZ 9162720 * cx6 * cy1 + sofZ 9253440 * cx6 * cy2 - sofZ 3810240 * cx6 * cy3 + sofZ 508032 * cx6 * cy4 - sofZ 526176 * cx7 * cy0 + sofZ 1283040 * cx7 * cy1 - sofZ 1010880 * cx7 * cy2 + sofZ 254016 * cx7 * cy3 + sofZ 36936 * cx8 * cy0 - sofZ 68040 * cx8 * cy1 + sofZ 31104 * cx8 * cy2 - sofZ 648 * cx9 * cy0 + sofZ 648 * cx9 * cy1;
     - sofZ 1945944 * cx0 * cy1 + sofZ 9729720 * cx0 * cy2 - sofZ 20357568 * cx0 * cy3 + sofZ 23051952 * cx0 * cy4 - sofZ 15240960 * cx0 * cy5 + sofZ 5905872 * cx0 * cy6 - sofZ 1270080 * cx0 * cy7 + sofZ 131544 * cx0 * cy8 - sofZ 4536 * cx0 * cy9 + sofZ 1945944 * cx1 * cy0 - sofZ 26494776 * cx1 * cy2 + sofZ 70652736 * cx1 * cy3 - sofZ 85158864 * cx1 * cy4 + sofZ 56010528 * cx1 * cy5 - sofZ 20638800 * cx1 * cy6 + sofZ 4027968 * cx1 * cy7 - sofZ 353808 * cx1 * cy8 + sofZ 9072 * cx1 * cy9 - sofZ 9729720 * cx2 * cy0 + sofZ 26494776 * cx2 * cy1 - sofZ 76966848 * cx2 * cy3 + sofZ 115450272 * cx2 * cy4 - sofZ 78109920 * cx2 * cy5 + sofZ 27179712 * cx2 * cy6 - sofZ 4626720 * cx2 * cy7 + sofZ 312984 * cx2 * cy8 - sofZ 4536 * cx2 * cy9 + sofZ 20357568 * cx3 * cy0 - sofZ 70652736 * cx3 * cy1 + sofZ 76966848 * cx3 * cy2 - sofZ 62233920 * cx3 * cy4 + sofZ 49787136 * cx3 * cy5 - sofZ 16384032 * cx3 * cy6 + sofZ 2249856 * cx3 * cy7 - sofZ 90720 * cx3 * cy8 - sofZ 23051952 * cx4 * cy0 + sofZ 85158864 * cx4 * cy1 - sofZ 115450272 * cx4 * cy2 + sofZ 62233920 * cx4 * cy3 - sofZ 12764304 * cx4 * cy5 + sofZ 4254768 * cx4 * cy6 - sofZ 381024 * cx4 * cy7 + sofZ 15240960 * cx5 * cy0 - sofZ 56010528 * cx5 * cy1 + sofZ 78109920 * cx5 * cy2 - sofZ 49787136 * cx5 * cy3 + sofZ 12764304 * cx5 * cy4 - sofZ 317520 * cx5 * cy6 - sofZ 5905872 * cx6 * cy0 + sofZ 20638800 * cx6 * cy1 - sofZ 27179712 * cx6 * cy2 + sofZ 16384032 * cx6 * cy3 - sofZ 4254768 * cx6 * cy4 + sofZ 317520 * cx6 * cy5 + sofZ 1270080 * cx7 * cy0 - sofZ 4027968 * cx7 * cy1 + sofZ 4626720 * cx7 * cy2 - sofZ 2249856 * cx7 * cy3 + sofZ 381024 * cx7 * cy4 - sofZ 131544 * cx8 * cy0 + sofZ 353808 * cx8 * cy1 - sofZ 312984 * cx8 * cy2 + sofZ 90720 * cx8 * cy3 + sofZ 4536 * cx9 * cy0 - sofZ 9072 * cx9 * cy1 + sofZ 4536 * cx9 * cy2;
     sofZ 1297296 * cx0 * cy1 - sofZ 7135128 * cx0 * cy2 + sofZ 16615368 * cx0 * cy3 - sofZ 21255696 * cx0 * cy4 + sofZ 16193520 * cx0 * cy5 - sofZ 7429968 * cx0 * cy6 + sofZ 1968624 * cx0 * cy7 - sofZ 267624 * cx0 * cy8 + sofZ 13608 * cx0 * cy9 - sofZ 1297296 * cx1 * cy0 + sofZ 21505176 * cx1 * cy2 - sofZ 64515528 * cx1 * cy3 + sofZ 89077968 * cx1 * cy4 - sofZ 68774832 * cx1 * cy5 + sofZ 30799440 * cx1 * cy6 - sofZ 7702128 * cx1 * cy7 + sofZ 948024 * cx1 * cy8 - sofZ 40824 * cx1 * cy9 + sofZ 7135128 * cx2 * cy0 - sofZ 21505176 * cx2 * cy1 + sofZ 79906176 * cx2 * cy3 - sofZ 139835808 * cx2 * cy4 + sofZ 113926176 * cx2 * cy5 - sofZ 50041152 * cx2 * cy6 + sofZ 11612160 * cx2 * cy7 - sofZ 1238328 * cx2 * cy8 + sofZ 40824 * cx2 * cy9 - sofZ 16615368 * cx3 * cy0 + sofZ 64515528 * cx3 * cy1 - sofZ 79906176 * cx3 * cy2 + sofZ 89794656 * cx3 * cy4 - sofZ 89794656 * cx3 * cy5 + sofZ 39626496 * cx3 * cy6 - sofZ 8309952 * cx3 * cy7 + sofZ 703080 * cx3 * cy8 - sofZ 13608 * cx3 * cy9 + sofZ 21255696 * cx4 * cy0 - sofZ 89077968 * cx4 * cy1 + sofZ 139835808 * cx4 * cy2 - sofZ 89794656 * cx4 * cy3 + sofZ 30354912 * cx4 * cy5 - sofZ 15177456 * cx4 * cy6 + sofZ 2748816 * cx4 * cy7 - sofZ 145152 * cx4 * cy8 - sofZ 16193520 * cx5 * cy0 + sofZ 68774832 * cx5 * cy1 - sofZ 113926176 * cx5 * cy2 + sofZ 89794656 * cx5 * cy3 - sofZ 30354912 * cx5 * cy4 + sofZ 2222640 * cx5 * cy6 - sofZ 317520 * cx5 * cy7 + sofZ 7429968 * cx6 * cy0 - sofZ 30799440 * cx6 * cy1 + sofZ 50041152 * cx6 * cy2 - sofZ 39626496 * cx6 * cy3 + sofZ 15177456 * cx6 * cy4 - sofZ 2222640 * cx6 * cy5 - sofZ 1968624 * cx7 * cy0 + sofZ 7702128 * cx7 * cy1 - sofZ 11612160 * cx7 * cy2 + sofZ 8309952 * cx7 * cy3 - sofZ 2748816 * cx7 * cy4 + sofZ 317520 * cx7 * cy5 + sofZ 267624 * cx8 * cy0 - sofZ 948024 * cx8 * cy1 + sofZ 1238328 * cx8 * cy2 - sofZ 703080 * cx8 * cy3 + sofZ 145152 * cx8 * cy4 - sofZ 13608 * cx9 * cy0 + sofZ 40824 * cx9 * cy1 - sofZ 40824 * cx9 * cy2 + sofZ 13608 * cx9 * cy3;
     - sofZ 648648 * cx0 * cy1 + sofZ 3891888 * cx0 * cy2 - sofZ 9979200 * cx0 * cy3 + sofZ 14220360 * cx0 * cy4 - sofZ 12247200 * cx0 * cy5 + sofZ 6477408 * cx0 * cy6 - sofZ 2032128 * cx0 * cy7 + sofZ 340200 * cx0 * cy8 - sofZ 22680 * cx0 * cy9 + sofZ 648648 * cx1 * cy0 - sofZ 12873168 * cx1 * cy2 + sofZ 42910560 * cx1 * cy3 - sofZ 66747240 * cx1 * cy4 + sofZ 59113152 * cx1 * cy5 - sofZ 31116960 * cx1 * cy6 + sofZ 9471168 * cx1 * cy7 - sofZ 1496880 * cx1 * cy8 + sofZ 90720 * cx1 * cy9 - sofZ 3891888 * cx2 * cy0 + sofZ 12873168 * cx2 * cy1 - sofZ 59603040 * cx2 * cy3 + sofZ 119206080 * cx2 * cy4 - sofZ 113545152 * cx2 * cy5 + sofZ 60201792 * cx2 * cy6 - sofZ 17690400 * cx2 * cy7 + sofZ 2585520 * cx2 * cy8 - sofZ 136080 * cx2 * cy9 + sofZ 9979200 * cx3 * cy0 - sofZ 42910560 * cx3 * cy1 + sofZ 59603040 * cx3 * cy2 - sofZ 88905600 * cx3 * cy4 + sofZ 106686720 * cx3 * cy5 - sofZ 59058720 * cx3 * cy6 + sofZ 16692480 * cx3 * cy7 - sofZ 2177280 * cx3 * cy8 + sofZ 90720 * cx3 * cy9 - sofZ 14220360 * cx4 * cy0 + sofZ 66747240 * cx4 * cy1 - sofZ 119206080 * cx4 * cy2 + sofZ 88905600 * cx4 * cy3 - sofZ 44770320 * cx4 * cy5 + sofZ 29846880 * cx4 * cy6 - sofZ 8164800 * cx4 * cy7 + sofZ 884520 * cx4 * cy8 - sofZ 22680 * cx4 * cy9 + sofZ 12247200 * cx5 * cy0 - sofZ 59113152 * cx5 * cy1 + sofZ 113545152 * cx5 * cy2 - sofZ 106686720 * cx5 * cy3 + sofZ 44770320 * cx5 * cy4 - sofZ 6477408 * cx5 * cy6 + sofZ 1850688 * cx5 * cy7 - sofZ 136080 * cx5 * cy8 - sofZ 6477408 * cx6 * cy0 + sofZ 31116960 * cx6 * cy1 - sofZ 60201792 * cx6 * cy2 + sofZ 59058720 * cx6 * cy3 - sofZ 29846880 * cx6 * cy4 + sofZ 6477408 * cx6 * cy5 - sofZ 127008 * cx6 * cy7 + sofZ 2032128 * cx7 * cy0 - sofZ 9471168 * cx7 * cy1 + sofZ 17690400 * cx7 * cy2 - sofZ 16692480 * cx7 * cy3 + sofZ 8164800 * cx7 * cy4 - sofZ 1850688 * cx7 * cy5 + sofZ 127008 * cx7 * cy6 - sofZ 340200 * cx8 * cy0 + sofZ 1496880 * cx8 * cy1 - sofZ 2585520 * cx8 * cy2 + sofZ 2177280 * cx8 * cy3 - sofZ 884520 * cx8 * cy4 + sofZ 136080 * cx8 * cy5 + sofZ 22680 * cx9 * cy0 - sofZ 90720 * cx9 * cy1 + sofZ 136080 * cx9 * cy2 - sofZ 90720 * cx9 * cy3 + sofZ 22680 * cx9 * cy4;
     sofZ 235872 * cx0 * cy1 - sofZ 1533168 * cx0 * cy2 + sofZ 4291056 * cx0 * cy3 - sofZ 6735960 * cx0 * cy4 + sofZ 6463800 * cx0 * cy5 - sofZ 3864672 * cx0 * cy6 + sofZ 1397088 * cx0 * cy7 - sofZ 276696 * cx0 * cy8 + sofZ 22680 * cx0 * cy9 - sofZ 235872 * cx1 * cy0 + sofZ 5524848 * cx1 * cy2 - sofZ 20257776 * cx1 * cy3 + sofZ 35040600 * cx1 * cy4 - sofZ 34986168 * cx1 * cy5 + sofZ 21137760 * cx1 * cy6 - sofZ 7566048 * cx1 * cy7 + sofZ 1456056 * cx1 * cy8 - sofZ 113400 * cx1 * cy9 + sofZ 1533168 * cx2 * cy0 - sofZ 5524848 * cx2 * cy1 + sofZ 31207680 * cx2 * cy3 - sofZ 70217280 * cx2 * cy4 + sofZ 76531392 * cx2 * cy5 - sofZ 47500992 * cx2 * cy6 + sofZ 16873920 * cx2 * cy7 - sofZ 3129840 * cx2 * cy8 + sofZ 226800 * cx2 * cy9 - sofZ 4291056 * cx3 * cy0 + sofZ 20257776 * cx3 * cy1 - sofZ 31207680 * cx3 * cy2 + sofZ 59693760 * cx3 * cy4 - sofZ 83571264 * cx3 * cy5 + sofZ 55629504 * cx3 * cy6 - sofZ 19776960 * cx3 * cy7 + sofZ 3492720 * cx3 * cy8 - sofZ 226800 * cx3 * cy9 + sofZ 6735960 * cx4 * cy0 - sofZ 35040600 * cx4 * cy1 + sofZ 70217280 * cx4 * cy2 - sofZ 59693760 * cx4 * cy3 + sofZ 41912640 * cx4 * cy5 - sofZ 34927200 * cx4 * cy6 + sofZ 12791520 * cx4 * cy7 - sofZ 2109240 * cx4 * cy8 + sofZ 113400 * cx4 * cy9 - sofZ 6463800 * cx5 * cy0 + sofZ 34986168 * cx5 * cy1 - sofZ 76531392 * cx5 * cy2 + sofZ 83571264 * cx5 * cy3 - sofZ 41912640 * cx5 * cy4 + sofZ 10033632 * cx5 * cy6 - sofZ 4300128 * cx5 * cy7 + sofZ 639576 * cx5 * cy8 - sofZ 22680 * cx5 * cy9 + sofZ 3864672 * cx6 * cy0 - sofZ 21137760 * cx6 * cy1 + sofZ 47500992 * cx6 * cy2 - sofZ 55629504 * cx6 * cy3 + sofZ 34927200 * cx6 * cy4 - sofZ 10033632 * cx6 * cy5 + sofZ 580608 * cx6 * cy7 - sofZ 72576 * cx6 * cy8 - sofZ 1397088 * cx7 * cy0 + sofZ 7566048 * cx7 * cy1 - sofZ 16873920 * cx7 * cy2 + sofZ 19776960 * cx7 * cy3 - sofZ 12791520 * cx7 * cy4 + sofZ 4300128 * cx7 * cy5 - sofZ 580608 * cx7 * cy6 + sofZ 276696 * cx8 * cy0 - sofZ 1456056 * cx8 * cy1 + sofZ 3129840 * cx8 * cy2 - sofZ 3492720 * cx8 * cy3 + sofZ 2109240 * cx8 * cy4 - sofZ 639576 * cx8 * cy5 + sofZ 72576 * cx8 * cy6 - sofZ 22680 * cx9 * cy0 + sofZ 113400 * cx9 * cy1 - sofZ 226800 * cx9 * cy2 + sofZ 226800 * cx9 * cy3 - sofZ 113400 * cx9 * cy4 + sofZ 22680 * cx9 * cy5;
     - sofZ 58968 * cx0 * cy1 + sofZ 412776 * cx0 * cy2 - sofZ 1251936 * cx0 * cy3 + sofZ 2145528 * cx0 * cy4 - sofZ 2268000 * cx0 * cy5 + sofZ 1510488 * cx0 * cy6 - sofZ 616896 * cx0 * cy7 + sofZ 140616 * cx0 * cy8 - sofZ 13608 * cx0 * cy9 + sofZ 58968 * cx1 * cy0 - sofZ 1610280 * cx1 * cy2 + sofZ 6441120 * cx1 * cy3 - sofZ 12260808 * cx1 * cy4 + sofZ 13617072 * cx1 * cy5 - sofZ 9276120 * cx1 * cy6 + sofZ 3810240 * cx1 * cy7 - sofZ 861840 * cx1 * cy8 + sofZ 81648 * cx1 * cy9 - sofZ 412776 * cx2 * cy0 + sofZ 1610280 * cx2 * cy1 - sofZ 10904544 * cx2 * cy3 + sofZ 27261360 * cx2 * cy4 - sofZ 33448464 * cx2 * cy5 + sofZ 23768640 * cx2 * cy6 - sofZ 9888480 * cx2 * cy7 + sofZ 2218104 * cx2 * cy8 - sofZ 204120 * cx2 * cy9 + sofZ 1251936 * cx3 * cy0 - sofZ 6441120 * cx3 * cy1 + sofZ 10904544 * cx3 * cy2 - sofZ 26036640 * cx3 * cy4 + sofZ 41658624 * cx3 * cy5 - sofZ 32387040 * cx3 * cy6 + sofZ 13862016 * cx3 * cy7 - sofZ 3084480 * cx3 * cy8 + sofZ 272160 * cx3 * cy9 - sofZ 2145528 * cx4 * cy0 + sofZ 12260808 * cx4 * cy1 - sofZ 27261360 * cx4 * cy2 + sofZ 26036640 * cx4 * cy3 - sofZ 24322032 * cx4 * cy5 + sofZ 24322032 * cx4 * cy6 - sofZ 11158560 * cx4 * cy7 + sofZ 2472120 * cx4 * cy8 - sofZ 204120 * cx4 * cy9 + sofZ 2268000 * cx5 * cy0 - sofZ 13617072 * cx5 * cy1 + sofZ 33448464 * cx5 * cy2 - sofZ 41658624 * cx5 * cy3 + sofZ 24322032 * cx5 * cy4 - sofZ 8700048 * cx5 * cy6 + sofZ 4971456 * cx5 * cy7 - sofZ 1115856 * cx5 * cy8 + sofZ 81648 * cx5 * cy9 - sofZ 1510488 * cx6 * cy0 + sofZ 9276120 * cx6 * cy1 - sofZ 23768640 * cx6 * cy2 + sofZ 32387040 * cx6 * cy3 - sofZ 24322032 * cx6 * cy4 + sofZ 8700048 * cx6 * cy5 - sofZ 997920 * cx6 * cy7 + sofZ 249480 * cx6 * cy8 - sofZ 13608 * cx6 * cy9 + sofZ 616896 * cx7 * cy0 - sofZ 3810240 * cx7 * cy1 + sofZ 9888480 * cx7 * cy2 - sofZ 13862016 * cx7 * cy3 + sofZ 11158560 * cx7 * cy4 - sofZ 4971456 * cx7 * cy5 + sofZ 997920 * cx7 * cy6 - sofZ 18144 * cx7 * cy8 - sofZ 140616 * cx8 * cy0 + sofZ 861840 * cx8 * cy1 - sofZ 2218104 * cx8 * cy2 + sofZ 3084480 * cx8 * cy3 - sofZ 2472120 * cx8 * cy4 + sofZ 1115856 * cx8 * cy5 - sofZ 249480 * cx8 * cy6 + sofZ 18144 * cx8 * cy7 + sofZ 13608 * cx9 * cy0 - sofZ 81648 * cx9 * cy1 + sofZ 204120 * cx9 * cy2 - sofZ 272160 * cx9 * cy3 + sofZ 204120 * cx9 * cy4 - sofZ 81648 * cx9 * cy5 + sofZ 13608 * cx9 * cy6;
     sofZ 9072 * cx0 * cy1 - sofZ 68040 * cx0 * cy2 + sofZ 222264 * cx0 * cy3 - sofZ 412776 * cx0 * cy4 + sofZ 476280 * cx0 * cy5 - sofZ 349272 * cx0 * cy6 + sofZ 158760 * cx0 * cy7 - sofZ 40824 * cx0 * cy8 + sofZ 4536 * cx0 * cy9 - sofZ 9072 * cx1 * cy0 + sofZ 285768 * cx1 * cy2 - sofZ 1238328 * cx1 * cy3 + sofZ 2571912 * cx1 * cy4 - sofZ 3143448 * cx1 * cy5 + sofZ 2381400 * cx1 * cy6 - sofZ 1102248 * cx1 * cy7 + sofZ 285768 * cx1 * cy8 - sofZ 31752 * cx1 * cy9 + sofZ 68040 * cx2 * cy0 - sofZ 285768 * cx2 * cy1 + sofZ 2286144 * cx2 * cy3 - sofZ 6286896 * cx2 * cy4 + sofZ 8573040 * cx2 * cy5 - sofZ 6858432 * cx2 * cy6 + sofZ 3265920 * cx2 * cy7 - sofZ 857304 * cx2 * cy8 + sofZ 95256 * cx2 * cy9 - sofZ 222264 * cx3 * cy0 + sofZ 1238328 * cx3 * cy1 - sofZ 2286144 * cx3 * cy2 + sofZ 6667920 * cx3 * cy4 - sofZ 12002256 * cx3 * cy5 + sofZ 10668672 * cx3 * cy6 - sofZ 5334336 * cx3 * cy7 + sofZ 1428840 * cx3 * cy8 - sofZ 158760 * cx3 * cy9 + sofZ 412776 * cx4 * cy0 - sofZ 2571912 * cx4 * cy1 + sofZ 6286896 * cx4 * cy2 - sofZ 6667920 * cx4 * cy3 + sofZ 8001504 * cx4 * cy5 - sofZ 9335088 * cx4 * cy6 + sofZ 5143824 * cx4 * cy7 - sofZ 1428840 * cx4 * cy8 + sofZ 158760 * cx4 * cy9 - sofZ 476280 * cx5 * cy0 + sofZ 3143448 * cx5 * cy1 - sofZ 8573040 * cx5 * cy2 + sofZ 12002256 * cx5 * cy3 - sofZ 8001504 * cx5 * cy4 + sofZ 4000752 * cx5 * cy6 - sofZ 2857680 * cx5 * cy7 + sofZ 857304 * cx5 * cy8 - sofZ 95256 * cx5 * cy9 + sofZ 349272 * cx6 * cy0 - sofZ 2381400 * cx6 * cy1 + sofZ 6858432 * cx6 * cy2 - sofZ 10668672 * cx6 * cy3 + sofZ 9335088 * cx6 * cy4 - sofZ 4000752 * cx6 * cy5 + sofZ 762048 * cx6 * cy7 - sofZ 285768 * cx6 * cy8 + sofZ 31752 * cx6 * cy9 - sofZ 158760 * cx7 * cy0 + sofZ 1102248 * cx7 * cy1 - sofZ 3265920 * cx7 * cy2 + sofZ 5334336 * cx7 * cy3 - sofZ 5143824 * cx7 * cy4 + sofZ 2857680 * cx7 * cy5 - sofZ 762048 * cx7 * cy6 + sofZ 40824 * cx7 * cy8 - sofZ 4536 * cx7 * cy9 + sofZ 40824 * cx8 * cy0 - sofZ 285768 * cx8 * cy1 + sofZ 857304 * cx8 * cy2 - sofZ 1428840 * cx8 * cy3 + sofZ 1428840 * cx8 * cy4 - sofZ 857304 * cx8 * cy5 + sofZ 285768 * cx8 * cy6 - sofZ 40824 * cx8 * cy7 - sofZ 4536 * cx9 * cy0 + sofZ 31752 * cx9 * cy1 - sofZ 95256 * cx9 * cy2 + sofZ 158760 * cx9 * cy3 - sofZ 158760 * cx9 * cy4 + sofZ 95256 * cx9 * cy5 - sofZ 31752 * cx9 * cy6 + sofZ 4536 * cx9 * cy7;
     - sofZ 648 * cx0 * cy1 + sofZ 5184 * cx0 * cy2 - sofZ 18144 * cx0 * cy3 + sofZ 36288 * cx0 * cy4 - sofZ 45360 * cx0 * cy5 + sofZ 36288 * cx0 * cy6 - sofZ 18144 * cx0 * cy7 + sofZ 5184 * cx0 * cy8 - sofZ 648 * cx0 * cy9 + sofZ 648 * cx1 * cy0 - sofZ 23328 * cx1 * cy2 + sofZ 108864 * cx1 * cy3 - sofZ 244944 * cx1 * cy4 + sofZ 326592 * cx1 * cy5 - sofZ 272160 * cx1 * cy6 + sofZ 139968 * cx1 * cy7 - sofZ 40824 * cx1 * cy8 + sofZ 5184 * cx1 * cy9 - sofZ 5184 * cx2 * cy0 + sofZ 23328 * cx2 * cy1 - sofZ 217728 * cx2 * cy3 + sofZ 653184 * cx2 * cy4 - sofZ 979776 * cx2 * cy5 + sofZ 870912 * cx2 * cy6 - sofZ 466560 * cx2 * cy7 + sofZ 139968 * cx2 * cy8 - sofZ 18144 * cx2 * cy9 + sofZ 18144 * cx3 * cy0 - sofZ 108864 * cx3 * cy1 + sofZ 217728 * cx3 * cy2 - sofZ 762048 * cx3 * cy4 + sofZ 1524096 * cx3 * cy5 - sofZ 1524096 * cx3 * cy6 + sofZ 870912 * cx3 * cy7 - sofZ 272160 * cx3 * cy8 + sofZ 36288 * cx3 * cy9 - sofZ 36288 * cx4 * cy0 + sofZ 244944 * cx4 * cy1 - sofZ 653184 * cx4 * cy2 + sofZ 762048 * cx4 * cy3 - sofZ 1143072 * cx4 * cy5 + sofZ 1524096 * cx4 * cy6 - sofZ 979776 * cx4 * cy7 + sofZ 326592 * cx4 * cy8 - sofZ 45360 * cx4 * cy9 + sofZ 45360 * cx5 * cy0 - sofZ 326592 * cx5 * cy1 + sofZ 979776 * cx5 * cy2 - sofZ 1524096 * cx5 * cy3 + sofZ 1143072 * cx5 * cy4 - sofZ 762048 * cx5 * cy6 + sofZ 653184 * cx5 * cy7 - sofZ 244944 * cx5 * cy8 + sofZ 36288 * cx5 * cy9 - sofZ 36288 * cx6 * cy0 + sofZ 272160 * cx6 * cy1 - sofZ 870912 * cx6 * cy2 + sofZ 1524096 * cx6 * cy3 - sofZ 1524096 * cx6 * cy4 + sofZ 762048 * cx6 * cy5 - sofZ 217728 * cx6 * cy7 + sofZ 108864 * cx6 * cy8 - sofZ 18144 * cx6 * cy9 + sofZ 18144 * cx7 * cy0 - sofZ 139968 * cx7 * cy1 + sofZ 466560 * cx7 * cy2 - sofZ 870912 * cx7 * cy3 + sofZ 979776 * cx7 * cy4 - sofZ 653184 * cx7 * cy5 + sofZ 217728 * cx7 * cy6 - sofZ 23328 * cx7 * cy8 + sofZ 5184 * cx7 * cy9 - sofZ 5184 * cx8 * cy0 + sofZ 40824 * cx8 * cy1 - sofZ 139968 * cx8 * cy2 + sofZ 272160 * cx8 * cy3 - sofZ 326592 * cx8 * cy4 + sofZ 244944 * cx8 * cy5 - sofZ 108864 * cx8 * cy6 + sofZ 23328 * cx8 * cy7 - sofZ 648 * cx8 * cy9 + sofZ 648 * cx9 * cy0 - sofZ 5184 * cx9 * cy1 + sofZ 18144 * cx9 * cy2 - sofZ 36288 * cx9 * cy3 + sofZ 45360 * cx9 * cy4 - sofZ 36288 * cx9 * cy5 + sofZ 18144 * cx9 * cy6 - sofZ 5184 * cx9 * cy7 + sofZ 648 * cx9 * cy8].

  (** internal/auto_inflection_Bezier.h:210-239 compute_Bezier_degree_10_inflections *)
  Definition infl_10 (cx0 cy0 cx1 cy1 cx2 cy2 cx3 cy3 cx4 cy4 cx5 cy5 cx6 cy6 cx7 cy7 cx8 cy8 cx9 cy9 cx10 cy10 : T) : list T :=
    [- sofZ 900 * cx0 * cy1 + sofZ 900 * cx0 * cy2 + sofZ 900 * cx1 * cy0 - sofZ 900 * cx1 * cy2 - sofZ 900 * cx2 * cy0 + sofZ 900 * cx2 * cy1;
     sofZ 14400 * cx0 * cy1 - sofZ 21600 * cx0 * cy2 + sofZ 7200 * cx0 * cy3 - sofZ 14400 * cx1 * cy0 + sofZ 21600 * cx1 * cy2 - sofZ 7200 * cx1 * cy3 + sofZ 21600 * cx2 * cy0 - sofZ 21600 * cx2 * cy1 - sofZ 7200 * cx3 * cy0 + sofZ 7200 * cx3 * cy1;
     - sofZ 108000 * cx0 * cy1 + sofZ 216000 * cx0 * cy2 - sofZ 133200 * cx0 * cy3 + sofZ 25200 * cx0 * cy4 + sofZ 108000 * cx1 * cy0 - sofZ 248400 * cx1 * cy2 + sofZ 165600 * cx1 * cy3 - sofZ 25200 * cx1 * cy4 - sofZ 216000 * cx2 * cy0 + sofZ 248400 * cx2 * cy1 - sofZ 32400 * cx2 * cy3 + sofZ 133200 * cx3 * cy0 - sofZ 165600 * cx3 * cy1 + sofZ 32400 * cx3 * cy2 - sofZ 25200 * cx4 * cy0 + sofZ 25200 * cx4 * cy1;
     sofZ 504000 * cx0 * cy1 - sofZ 1260000 * cx0 * cy2 + sofZ 1108800 * cx0 * cy3 - sofZ 403200 * cx0 * cy4 + sofZ 50400 * cx0 * cy5 - sofZ 504000 * cx1 * cy0 + sofZ 1713600 * cx1 * cy2 - sofZ 1713600 * cx1 * cy3 + sofZ 554400 * cx1 * cy4 - sofZ 50400 * cx1 * cy5 + sofZ 1260000 * cx2 * cy0 - sofZ 1713600 * cx2 * cy1 + sofZ 604800 * cx2 * cy3 - sofZ 151200 * cx2 * cy4 - sofZ 1108800 * cx3 * cy0 + sofZ 1713600 * cx3 * cy1 - sofZ 604800 * cx3 * cy2 + sofZ 403200 * cx4 * cy0 - sofZ 554400 * cx4 * cy1 + sofZ 151200 * cx4 * cy2 - sofZ 50400 * cx5 * cy0 + sofZ 50400 * cx5 * cy1;
     - sofZ 1638000 * cx0 * cy1 + sofZ 4914000 * cx0 * cy2 - sofZ 5569200 * cx0 * cy3 + sofZ 2948400 * cx0 * cy4 - sofZ 718200 * cx0 * cy5 + sofZ 63000 * cx0 * cy6 + sofZ 1638000 * cx1 * cy0 - sofZ 7862400 * cx1 * cy2 + sofZ 10483200 * cx1 * cy3 - sofZ 5254200 * cx1 * cy4 + sofZ 1058400 * cx1 * cy5 - sofZ 63000 * cx1 * cy6 - sofZ 4914000 * cx2 * cy0 + sofZ 7862400 * cx2 * cy1 - sofZ 5216400 * cx2 * cy3 + sofZ 2608200 * cx2 * cy4 - sofZ 340200 * cx2 * cy5 + sofZ 5569200 * cx3 * cy0 - sofZ 10483200 * cx3 * cy1 + sofZ 5216400 * cx3 * cy2 - sofZ 302400 * cx3 * cy4 - sofZ 2948400 * cx4 * cy0 + sofZ 5254200 * cx4 * cy1 - sofZ 2608200 * cx4 * cy2 + sofZ 302400 * cx4 * cy3 + sofZ 718200 * cx5 * cy0 - sofZ 1058400 * cx5 * cy1 + sofZ 340200 * cx5 * cy2 - sofZ 63000 * cx6 * cy0 + sofZ 63000 * cx6 * cy1;
     sofZ 3931200 * cx0 * cy1 - sofZ 13759200 * cx0 * cy2 + sofZ 19000800 * cx0 * cy3 - sofZ 13104000 * cx0 * cy4 + sofZ 4687200 * cx0 * cy5 - sofZ 806400 * cx0 * cy6 + sofZ 50400 * cx0 * cy7 - sofZ 3931200 * cx1 * cy0 + sofZ 25552800 * cx1 * cy2 - sofZ 42588000 * cx1 * cy3 + sofZ 28980000 * cx1 * cy4 - sofZ 9223200 * cx1 * cy5 + sofZ 1260000 * cx1 * cy6 - sofZ 50400 * cx1 * cy7 + sofZ 13759200 * cx2 * cy0 - sofZ 25552800 * cx2 * cy1 + sofZ 27216000 * cx2 * cy3 - sofZ 20412000 * cx2 * cy4 + sofZ 5443200 * cx2 * cy5 - sofZ 453600 * cx2 * cy6 - sofZ 19000800 * cx3 * cy0 + sofZ 42588000 * cx3 * cy1 - sofZ 27216000 * cx3 * cy2 + sofZ 4536000 * cx3 * cy4 - sofZ 907200 * cx3 * cy5 + sofZ 13104000 * cx4 * cy0 - sofZ 28980000 * cx4 * cy1 + sofZ 20412000 * cx4 * cy2 - sofZ 4536000 * cx4 * cy3 - sofZ 4687200 * cx5 * cy0 + sofZ 9223200 * cx5 * cy1 - sofZ 5443200 * cx5 * cy2 + sofZ 907200 * cx5 * cy3 + sofZ 806400 * cx6 * cy0 - sofZ 1260000 * cx6 * cy1 + sofZ 453600 * cx6 * cy2 - sofZ 50400 * cx7 * cy0 + sofZ 50400 * cx7 * cy1;
     - sofZ 7207200 * cx0 * cy1 + sofZ 28828800 * cx0 * cy2 - sofZ 46846800 * cx0 * cy3 + sofZ 39639600 * cx0 * cy4 - sofZ 18572400 * cx0 * cy5 + sofZ 4712400 * cx0 * cy6 - sofZ 579600 * cx0 * cy7 + sofZ 25200 * cx0 * cy8 + sofZ 7207200 * cx1 * cy0 - sofZ 61261200 * cx1 * cy2 + sofZ 122522400 * cx1 * cy3 - sofZ 105336000 * cx1 * cy4 + sofZ 46015200 * cx1 * cy5 - sofZ 10080000 * cx1 * cy6 + sofZ 957600 * cx1 * cy7 - sofZ 25200 * cx1 * cy8 - sofZ 28828800 * cx2 * cy0 + sofZ 61261200 * cx2 * cy1 - sofZ 95634000 * cx2 * cy3 + sofZ 95634000 * cx2 * cy4 - sofZ 38782800 * cx2 * cy5 + sofZ 6728400 * cx2 * cy6 - sofZ 378000 * cx2 * cy7 + sofZ 46846800 * cx3 * cy0 - sofZ 122522400 * cx3 * cy1 + sofZ 95634000 * cx3 * cy2 - sofZ 30996000 * cx3 * cy4 + sofZ 12398400 * cx3 * cy5 - sofZ 1360800 * cx3 * cy6 - sofZ 39639600 * cx4 * cy0 + sofZ 105336000 * cx4 * cy1 - sofZ 95634000 * cx4 * cy2 + sofZ 30996000 * cx4 * cy3 - sofZ 1058400 * cx4 * cy5 + sofZ 18572400 * cx5 * cy0 - sofZ 46015200 * cx5 * cy1 + sofZ 38782800 * cx5 * cy2 - sofZ 12398400 * cx5 * cy3 + sofZ 1058400 * cx5 * cy4 - sofZ 4712400 * cx6 * cy0 + sofZ 10080000 * cx6 * cy1 - sofZ 6728400 * cx6 * cy2 + sofZ 1360800 * cx6 * cy3 + sofZ 579600 * cx7 * cy0 - sofZ 957600 * cx7 * cy1 + sofZ 378000 * cx7 * cy2 - sofZ 25200 * cx8 * cy0 + sofZ 25200 * cx8 * cy1;
     sofZ 10296000 * cx0 * cy1 - sofZ 46332000 * cx0 * cy2 + sofZ 86486400 * cx0 * cy3 - sofZ 86486400 * cx0 * cy4 + sofZ 49896000 * cx0 * cy5 - sofZ 16632000 * cx0 * cy6 + sofZ 3024000 * cx0 * cy7 - sofZ 259200 * cx0 * cy8 + sofZ 7200 * cx0 * cy9 - sofZ 10296000 * cx1 * cy0 + sofZ 111196800 * cx1 * cy2 - sofZ 259459200 * cx1 * cy3 + sofZ 269438400 * cx1 * cy4 - sofZ 149688000 * cx1 * cy5 + sofZ 45360000 * cx1 * cy6 - sofZ 6998400 * cx1 * cy7 + sofZ 453600 * cx1 * cy8 - sofZ 7200 * cx1 * cy9 + sofZ 46332000 * cx2 * cy0 - sofZ 111196800 * cx2 * cy1 + sofZ 239500800 * cx2 * cy3 - sofZ 299376000 * cx2 * cy4 + sofZ 163296000 * cx2 * cy5 - sofZ 43545600 * cx2 * cy6 + sofZ 5184000 * cx2 * cy7 - sofZ 194400 * cx2 * cy8 - sofZ 86486400 * cx3 * cy0 + sofZ 259459200 * cx3 * cy1 - sofZ 239500800 * cx3 * cy2 + sofZ 127008000 * cx3 * cy4 - sofZ 76204800 * cx3 * cy5 + sofZ 16934400 * cx3 * cy6 - sofZ 1209600 * cx3 * cy7 + sofZ 86486400 * cx4 * cy0 - sofZ 269438400 * cx4 * cy1 + sofZ 299376000 * cx4 * cy2 - sofZ 127008000 * cx4 * cy3 + sofZ 12700800 * cx4 * cy5 - sofZ 2116800 * cx4 * cy6 - sofZ 49896000 * cx5 * cy0 + sofZ 149688000 * cx5 * cy1 - sofZ 163296000 * cx5 * cy2 + sofZ 76204800 * cx5 * cy3 - sofZ 12700800 * cx5 * cy4 + sofZ 16632000 * cx6 * cy0 - sofZ 45360000 * cx6 * cy1 + sofZ 43545600 * cx6 * cy2 - sofZ 16934400 * cx6 * cy3 + sofZ 2116800 * cx6 * cy4 - sofZ 3024000 * cx7 * cy0 + sofZ 6998400 * cx7 * cy1 - sofZ 5184000 * cx7 * cy2 + sofZ 1209600 * cx7 * cy3 + sofZ 259200 * cx8 * cy0 - sofZ 453600 * cx8 * cy1 + sofZ 194400 * cx8 * cy2 - sofZ 7200 * cx9 * cy0 + sofZ 7200 * cx9 * cy1;
     - sofZ 11583000 * cx0 * cy1 + sofZ 900 * cx0 * cy10 + sofZ 57915000 * cx0 * cy2 - sofZ 122007600 * cx0 * cy3 + sofZ 140540400 * cx0 * cy4 - sofZ 96049800 * cx0 * cy5 + sofZ 39501000 * cx0 * cy6 - sofZ 9450000 * cx0 * cy7 + sofZ 1198800 * cx0 * cy8 - sofZ 65700 * cx0 * cy9 + sofZ 11583000 * cx1 * cy0 - sofZ 900 * cx1 * cy10 - sofZ 155212200 * cx1 * cy2 + sofZ 413899200 * cx1 * cy3 - sofZ 503533800 * cx1 * cy4 + sofZ 339292800 * cx1 * cy5 - sofZ 131355000 * cx1 * cy6 + sofZ 28209600 * cx1 * cy7 - sofZ 3005100 * cx1 * cy8 + sofZ 122400 * cx1 * cy9 - sofZ 900 * cx10 * cy0 + sofZ 900 * cx10 * cy1 - sofZ 57915000 * cx2 * cy0 + sofZ 155212200 * cx2 * cy1 - sofZ 441579600 * cx2 * cy3 + sofZ 662369400 * cx2 * cy4 - sofZ 454167000 * cx2 * cy5 + sofZ 163976400 * cx2 * cy6 - sofZ 30294000 * cx2 * cy7 + sofZ 2454300 * cx2 * cy8 - sofZ 56700 * cx2 * cy9 + sofZ 122007600 * cx3 * cy0 - sofZ 413899200 * cx3 * cy1 + sofZ 441579600 * cx3 * cy2 - sofZ 347004000 * cx3 * cy4 + sofZ 277603200 * cx3 * cy5 - sofZ 93290400 * cx3 * cy6 + sofZ 13651200 * cx3 * cy7 - sofZ 648000 * cx3 * cy8 - sofZ 140540400 * cx4 * cy0 + sofZ 503533800 * cx4 * cy1 - sofZ 662369400 * cx4 * cy2 + sofZ 347004000 * cx4 * cy3 - sofZ 68266800 * cx4 * cy5 + sofZ 22755600 * cx4 * cy6 - sofZ 2116800 * cx4 * cy7 + sofZ 96049800 * cx5 * cy0 - sofZ 339292800 * cx5 * cy1 + sofZ 454167000 * cx5 * cy2 - sofZ 277603200 * cx5 * cy3 + sofZ 68266800 * cx5 * cy4 - sofZ 1587600 * cx5 * cy6 - sofZ 39501000 * cx6 * cy0 + sofZ 131355000 * cx6 * cy1 - sofZ 163976400 * cx6 * cy2 + sofZ 93290400 * cx6 * cy3 - sofZ 22755600 * cx6 * cy4 + sofZ 1587600 * cx6 * cy5 + sofZ 9450000 * cx7 * cy0 - sofZ 28209600 * cx7 * cy1 + sofZ 30294000 * cx7 * cy2 - sofZ 13651200 * cx7 * cy3 + sofZ 2116800 * cx7 * cy4 - sofZ 1198800 * cx8 * cy0 + sofZ 3005100 * cx8 * cy1 - sofZ 2454300 * cx8 * cy2 + sofZ 648000 * cx8 * cy3 + sofZ 65700 * cx9 * cy0 - sofZ 122400 * cx9 * cy1 + sofZ 56700 * cx9 * cy2;
     sofZ 10296000 * cx0 * cy1 - sofZ 7200 * cx0 * cy10 - sofZ 56628000 * cx0 * cy2 + sofZ 132818400 * cx0 * cy3 - sofZ 172972800 * cx0 * cy4 + sofZ 136382400 * cx0 * cy5 - sofZ 66528000 * cx0 * cy6 + sofZ 19656000 * cx0 * cy7 - sofZ 3283200 * cx0 * cy8 + sofZ 266400 * cx0 * cy9 - sofZ 10296000 * cx1 * cy0 + sofZ 14400 * cx1 * cy10 + sofZ 167824800 * cx1 * cy2 - sofZ 503474400 * cx1 * cy3 + sofZ 701870400 * cx1 * cy4 - sofZ 555508800 * cx1 * cy5 + sofZ 261576000 * cx1 * cy6 - sofZ 72014400 * cx1 * cy7 + sofZ 10735200 * cx1 * cy8 - sofZ 727200 * cx1 * cy9 + sofZ 7200 * cx10 * cy0 - sofZ 14400 * cx10 * cy1 + sofZ 7200 * cx10 * cy2 + sofZ 56628000 * cx2 * cy0 - sofZ 167824800 * cx2 * cy1 - sofZ 7200 * cx2 * cy10 + sofZ 610156800 * cx2 * cy3 - sofZ 1067774400 * cx2 * cy4 + sofZ 881798400 * cx2 * cy5 - sofZ 401889600 * cx2 * cy6 + sofZ 101088000 * cx2 * cy7 - sofZ 12830400 * cx2 * cy8 + sofZ 655200 * cx2 * cy9 - sofZ 132818400 * cx3 * cy0 + sofZ 503474400 * cx3 * cy1 - sofZ 610156800 * cx3 * cy2 + sofZ 665884800 * cx3 * cy4 - sofZ 665884800 * cx3 * cy5 + sofZ 299980800 * cx3 * cy6 - sofZ 66873600 * cx3 * cy7 + sofZ 6588000 * cx3 * cy8 - sofZ 194400 * cx3 * cy9 + sofZ 172972800 * cx4 * cy0 - sofZ 701870400 * cx4 * cy1 + sofZ 1067774400 * cx4 * cy2 - sofZ 665884800 * cx4 * cy3 + sofZ 215913600 * cx4 * cy5 - sofZ 107956800 * cx4 * cy6 + sofZ 20260800 * cx4 * cy7 - sofZ 1209600 * cx4 * cy8 - sofZ 136382400 * cx5 * cy0 + sofZ 555508800 * cx5 * cy1 - sofZ 881798400 * cx5 * cy2 + sofZ 665884800 * cx5 * cy3 - sofZ 215913600 * cx5 * cy4 + sofZ 14817600 * cx5 * cy6 - sofZ 2116800 * cx5 * cy7 + sofZ 66528000 * cx6 * cy0 - sofZ 261576000 * cx6 * cy1 + sofZ 401889600 * cx6 * cy2 - sofZ 299980800 * cx6 * cy3 + sofZ 107956800 * cx6 * cy4 - sofZ 14817600 * cx6 * cy5 - sofZ 19656000 * cx7 * cy0 + sofZ 72014400 * cx7 * cy1 - sofZ 101088000 * cx7 * cy2 + sofZ 66873600 * cx7 * cy3 - sofZ 20260800 * cx7 * cy4 + sofZ 2116800 * cx7 * cy5 + sofZ 3283200 * cx8 * cy0 - sofZ 10735200 * cx8 * cy1 + sofZ 12830400 * cx8 * cy2 - sofZ 6588000 * cx8 * cy3 + sofZ 1209600 * cx8 * cy4 - sofZ 266400 * cx9 * cy0 + sofZ 727200 * cx9 * cy1 - sofZ 655200 * cx9 * cy2 + sofZ 194400 * cx9 * cy3;
     - sofZ 7207200 * cx0 * cy1 + sofZ 25200 * cx0 * cy10 + sofZ 43243200 * cx0 * cy2 - sofZ 111711600 * cx0 * cy3 + sofZ 162162000 * cx0 * cy4 - sofZ 144698400 * cx0 * cy5 + sofZ 81496800 * cx0 * cy6 - sofZ 28576800 * cx0 * cy7 + sofZ 5896800 * cx0 * cy8 - sofZ 630000 * cx0 * cy9 + sofZ 7207200 * cx1 * cy0 - sofZ 75600 * cx1 * cy10 - sofZ 140540400 * cx1 * cy2 + sofZ 468468000 * cx1 * cy3 - sofZ 735966000 * cx1 * cy4 + sofZ 668606400 * cx1 * cy5 - sofZ 370440000 * cx1 * cy6 + sofZ 124286400 * cx1 * cy7 - sofZ 23814000 * cx1 * cy8 + sofZ 2268000 * cx1 * cy9 - sofZ 25200 * cx10 * cy0 + sofZ 75600 * cx10 * cy1 - sofZ 75600 * cx10 * cy2 + sofZ 25200 * cx10 * cy3 - sofZ 43243200 * cx2 * cy0 + sofZ 140540400 * cx2 * cy1 + sofZ 75600 * cx2 * cy10 - sofZ 636174000 * cx2 * cy3 + sofZ 1272348000 * cx2 * cy4 - sofZ 1228802400 * cx2 * cy5 + sofZ 676317600 * cx2 * cy6 - sofZ 215460000 * cx2 * cy7 + sofZ 37422000 * cx2 * cy8 - sofZ 3024000 * cx2 * cy9 + sofZ 111711600 * cx3 * cy0 - sofZ 468468000 * cx3 * cy1 - sofZ 25200 * cx3 * cy10 + sofZ 636174000 * cx3 * cy2 - sofZ 920808000 * cx3 * cy4 + sofZ 1104969600 * cx3 * cy5 - sofZ 624456000 * cx3 * cy6 + sofZ 187488000 * cx3 * cy7 - sofZ 28350000 * cx3 * cy8 + sofZ 1764000 * cx3 * cy9 - sofZ 162162000 * cx4 * cy0 + sofZ 735966000 * cx4 * cy1 - sofZ 1272348000 * cx4 * cy2 + sofZ 920808000 * cx4 * cy3 - sofZ 444528000 * cx4 * cy5 + sofZ 296352000 * cx4 * cy6 - sofZ 83916000 * cx4 * cy7 + sofZ 10206000 * cx4 * cy8 - sofZ 378000 * cx4 * cy9 + sofZ 144698400 * cx5 * cy0 - sofZ 668606400 * cx5 * cy1 + sofZ 1228802400 * cx5 * cy2 - sofZ 1104969600 * cx5 * cy3 + sofZ 444528000 * cx5 * cy4 - sofZ 60328800 * cx5 * cy6 + sofZ 17236800 * cx5 * cy7 - sofZ 1360800 * cx5 * cy8 - sofZ 81496800 * cx6 * cy0 + sofZ 370440000 * cx6 * cy1 - sofZ 676317600 * cx6 * cy2 + sofZ 624456000 * cx6 * cy3 - sofZ 296352000 * cx6 * cy4 + sofZ 60328800 * cx6 * cy5 - sofZ 1058400 * cx6 * cy7 + sofZ 28576800 * cx7 * cy0 - sofZ 124286400 * cx7 * cy1 + sofZ 215460000 * cx7 * cy2 - sofZ 187488000 * cx7 * cy3 + sofZ 83916000 * cx7 * cy4 - sofZ 17236800 * cx7 * cy5 + sofZ 1058400 * cx7 * cy6 - sofZ 5896800 * cx8 * cy0 + sofZ 23814000 * cx8 * cy1 - sofZ 37422000 * cx8 * cy2 + sofZ 28350000 * cx8 * cy3 - sofZ 10206000 * cx8 * cy4 + sofZ 1360800 * cx8 * cy5 + sofZ 630000 * cx9 * cy0 - sofZ 2268000 * cx9 * cy1 + sofZ 3024000 * cx9 * cy2 - sofZ 1764000 * cx9 * cy3 + sofZ 378000 * cx9 * cy4;
     sofZ 3931200 * cx0 * cy1 - sofZ 50400 * cx0 * cy10 - sofZ 25552800 * cx0 * cy2 + sofZ 72072000 * cx0 * cy3 - sofZ 115315200 * cx0 * cy4 + sofZ 114760800 * cx0 * cy5 - sofZ 73180800 * cx0 * cy6 + sofZ 29635200 * cx0 * cy7 - sofZ 7257600 * cx0 * cy8 + sofZ 957600 * cx0 * cy9 - sofZ 3931200 * cx1 * cy0 + sofZ 201600 * cx1 * cy10 + sofZ 90417600 * cx1 * cy2 - sofZ 331531200 * cx1 * cy3 + sofZ 579348000 * cx1 * cy4 - sofZ 593762400 * cx1 * cy5 + sofZ 378000000 * cx1 * cy6 - sofZ 149385600 * cx1 * cy7 + sofZ 34927200 * cx1 * cy8 - sofZ 4284000 * cx1 * cy9 + sofZ 50400 * cx10 * cy0 - sofZ 201600 * cx10 * cy1 + sofZ 302400 * cx10 * cy2 - sofZ 201600 * cx10 * cy3 + sofZ 50400 * cx10 * cy4 + sofZ 25552800 * cx2 * cy0 - sofZ 90417600 * cx2 * cy1 - sofZ 302400 * cx2 * cy10 + sofZ 498960000 * cx2 * cy3 - sofZ 1122660000 * cx2 * cy4 + sofZ 1241049600 * cx2 * cy5 - sofZ 800150400 * cx2 * cy6 + sofZ 308448000 * cx2 * cy7 - sofZ 68040000 * cx2 * cy8 + sofZ 7560000 * cx2 * cy9 - sofZ 72072000 * cx3 * cy0 + sofZ 331531200 * cx3 * cy1 + sofZ 201600 * cx3 * cy10 - sofZ 498960000 * cx3 * cy2 + sofZ 925344000 * cx3 * cy4 - sofZ 1295481600 * cx3 * cy5 + sofZ 880588800 * cx3 * cy6 - sofZ 332640000 * cx3 * cy7 + sofZ 68040000 * cx3 * cy8 - sofZ 6552000 * cx3 * cy9 + sofZ 115315200 * cx4 * cy0 - sofZ 579348000 * cx4 * cy1 - sofZ 50400 * cx4 * cy10 + sofZ 1122660000 * cx4 * cy2 - sofZ 925344000 * cx4 * cy3 + sofZ 622339200 * cx4 * cy5 - sofZ 518616000 * cx4 * cy6 + sofZ 196560000 * cx4 * cy7 - sofZ 36288000 * cx4 * cy8 + sofZ 2772000 * cx4 * cy9 - sofZ 114760800 * cx5 * cy0 + sofZ 593762400 * cx5 * cy1 - sofZ 1241049600 * cx5 * cy2 + sofZ 1295481600 * cx5 * cy3 - sofZ 622339200 * cx5 * cy4 + sofZ 139708800 * cx5 * cy6 - sofZ 59875200 * cx5 * cy7 + sofZ 9525600 * cx5 * cy8 - sofZ 453600 * cx5 * cy9 + sofZ 73180800 * cx6 * cy0 - sofZ 378000000 * cx6 * cy1 + sofZ 800150400 * cx6 * cy2 - sofZ 880588800 * cx6 * cy3 + sofZ 518616000 * cx6 * cy4 - sofZ 139708800 * cx6 * cy5 + sofZ 7257600 * cx6 * cy7 - sofZ 907200 * cx6 * cy8 - sofZ 29635200 * cx7 * cy0 + sofZ 149385600 * cx7 * cy1 - sofZ 308448000 * cx7 * cy2 + sofZ 332640000 * cx7 * cy3 - sofZ 196560000 * cx7 * cy4 + sofZ 59875200 * cx7 * cy5 - sofZ 7257600 * cx7 * cy6 + sofZ 7257600 * cx8 * cy0 - sofZ 34927200 * cx8 * cy1 + sofZ 68040000 * cx8 * cy2 - sofZ 68040000 * cx8 * cy3 + sofZ 36288000 * cx8 * cy4 - sofZ 9525600 * cx8 * cy5 + sofZ 907200 * cx8 * cy6 - sofZ 957600 * cx9 * cy0 + sofZ 4284000 * cx9 * cy1 - sofZ 7560000 * cx9 * cy2 + sofZ 6552000 * cx9 * cy3 - sofZ 2772000 * cx9 * cy4 + sofZ 453600 * cx9 * cy5;
     - sofZ 1638000 * cx0 * cy1 + sofZ 63000 * cx0 * cy10 + sofZ 11466000 * cx0 * cy2 - sofZ 35053200 * cx0 * cy3 + sofZ 61261200 * cx0 * cy4 - sofZ 67221000 * cx0 * cy5 + sofZ 47817000 * cx0 * cy6 - sofZ 21924000 * cx0 * cy7 + sofZ 6199200 * cx0 * cy8 - sofZ 970200 * cx0 * cy9 + sofZ 1638000 * cx1 * cy0 - sofZ 315000 * cx1 * cy10 - sofZ 43898400 * cx1 * cy2 + sofZ 175593600 * cx1 * cy3 - sofZ 337768200 * cx1 * cy4 + sofZ 385308000 * cx1 * cy5 - sofZ 276885000 * cx1 * cy6 + sofZ 125798400 * cx1 * cy7 - sofZ 34662600 * cx1 * cy8 + sofZ 5191200 * cx1 * cy9 - sofZ 63000 * cx10 * cy0 + sofZ 315000 * cx10 * cy1 - sofZ 630000 * cx10 * cy2 + sofZ 630000 * cx10 * cy3 - sofZ 315000 * cx10 * cy4 + sofZ 63000 * cx10 * cy5 - sofZ 11466000 * cx2 * cy0 + sofZ 43898400 * cx2 * cy1 + sofZ 630000 * cx2 * cy10 - sofZ 290228400 * cx2 * cy3 + sofZ 725571000 * cx2 * cy4 - sofZ 903231000 * cx2 * cy5 + sofZ 667245600 * cx2 * cy6 - sofZ 301644000 * cx2 * cy7 + sofZ 80627400 * cx2 * cy8 - sofZ 11403000 * cx2 * cy9 + sofZ 35053200 * cx3 * cy0 - sofZ 175593600 * cx3 * cy1 - sofZ 630000 * cx3 * cy10 + sofZ 290228400 * cx3 * cy2 - sofZ 671328000 * cx3 * cy4 + sofZ 1074124800 * cx3 * cy5 - sofZ 853070400 * cx3 * cy6 + sofZ 388281600 * cx3 * cy7 - sofZ 100170000 * cx3 * cy8 + sofZ 13104000 * cx3 * cy9 - sofZ 61261200 * cx4 * cy0 + sofZ 337768200 * cx4 * cy1 + sofZ 315000 * cx4 * cy10 - sofZ 725571000 * cx4 * cy2 + sofZ 671328000 * cx4 * cy3 - sofZ 600112800 * cx4 * cy5 + sofZ 600112800 * cx4 * cy6 - sofZ 285012000 * cx4 * cy7 + sofZ 70686000 * cx4 * cy8 - sofZ 8253000 * cx4 * cy9 + sofZ 67221000 * cx5 * cy0 - sofZ 385308000 * cx5 * cy1 - sofZ 63000 * cx5 * cy10 + sofZ 903231000 * cx5 * cy2 - sofZ 1074124800 * cx5 * cy3 + sofZ 600112800 * cx5 * cy4 - sofZ 201096000 * cx5 * cy6 + sofZ 114912000 * cx5 * cy7 - sofZ 27556200 * cx5 * cy8 + sofZ 2671200 * cx5 * cy9 - sofZ 47817000 * cx6 * cy0 + sofZ 276885000 * cx6 * cy1 - sofZ 667245600 * cx6 * cy2 + sofZ 853070400 * cx6 * cy3 - sofZ 600112800 * cx6 * cy4 + sofZ 201096000 * cx6 * cy5 - sofZ 20714400 * cx6 * cy7 + sofZ 5178600 * cx6 * cy8 - sofZ 340200 * cx6 * cy9 + sofZ 21924000 * cx7 * cy0 - sofZ 125798400 * cx7 * cy1 + sofZ 301644000 * cx7 * cy2 - sofZ 388281600 * cx7 * cy3 + sofZ 285012000 * cx7 * cy4 - sofZ 114912000 * cx7 * cy5 + sofZ 20714400 * cx7 * cy6 - sofZ 302400 * cx7 * cy8 - sofZ 6199200 * cx8 * cy0 + sofZ 34662600 * cx8 * cy1 - sofZ 80627400 * cx8 * cy2 + sofZ 100170000 * cx8 * cy3 - sofZ 70686000 * cx8 * cy4 + sofZ 27556200 * cx8 * cy5 - sofZ 5178600 * cx8 * cy6 + sofZ 302400 * cx8 * cy7 + sofZ 970200 * cx9 * cy0 - sofZ 5191200 * cx9 * cy1 + sofZ 11403000 * cx9 * cy2 - sofZ 13104000 * cx9 * cy3 + sofZ 8253000 * cx9 * cy4 - sofZ 2671200 * cx9 * cy5 + sofZ 340200 * cx9 * cy6;
     sofZ 504000 * cx0 * cy1 - sofZ 50400 * cx0 * cy10 - sofZ 3780000 * cx0 * cy2 + sofZ 12448800 * cx0 * cy3 - sofZ 23587200 * cx0 * cy4 + sofZ 28274400 * cx0 * cy5 - sofZ 22176000 * cx0 * cy6 + sofZ 11340000 * cx0 * cy7 - sofZ 3628800 * cx0 * cy8 + sofZ 655200 * cx0 * cy9 - sofZ 504000 * cx1 * cy0 + sofZ 302400 * cx1 * cy10 + sofZ 15573600 * cx1 * cy2 - sofZ 67485600 * cx1 * cy3 + sofZ 141674400 * cx1 * cy4 - sofZ 177962400 * cx1 * cy5 + sofZ 142380000 * cx1 * cy6 - sofZ 73029600 * cx1 * cy7 + sofZ 23133600 * cx1 * cy8 - sofZ 4082400 * cx1 * cy9 + sofZ 50400 * cx10 * cy0 - sofZ 302400 * cx10 * cy1 + sofZ 756000 * cx10 * cy2 - sofZ 1008000 * cx10 * cy3 + sofZ 756000 * cx10 * cy4 - sofZ 302400 * cx10 * cy5 + sofZ 50400 * cx10 * cy6 + sofZ 3780000 * cx2 * cy0 - sofZ 15573600 * cx2 * cy1 - sofZ 756000 * cx2 * cy10 + sofZ 121564800 * cx2 * cy3 - sofZ 334303200 * cx2 * cy4 + sofZ 462672000 * cx2 * cy5 - sofZ 385106400 * cx2 * cy6 + sofZ 199584000 * cx2 * cy7 - sofZ 62596800 * cx2 * cy8 + sofZ 10735200 * cx2 * cy9 - sofZ 12448800 * cx3 * cy0 + sofZ 67485600 * cx3 * cy1 + sofZ 1008000 * cx3 * cy10 - sofZ 121564800 * cx3 * cy2 + sofZ 343224000 * cx3 * cy4 - sofZ 617803200 * cx3 * cy5 + sofZ 561254400 * cx3 * cy6 - sofZ 298771200 * cx3 * cy7 + sofZ 92988000 * cx3 * cy8 - sofZ 15372000 * cx3 * cy9 + sofZ 23587200 * cx4 * cy0 - sofZ 141674400 * cx4 * cy1 - sofZ 756000 * cx4 * cy10 + sofZ 334303200 * cx4 * cy2 - sofZ 343224000 * cx4 * cy3 + sofZ 393724800 * cx4 * cy5 - sofZ 459345600 * cx4 * cy6 + sofZ 262180800 * cx4 * cy7 - sofZ 81648000 * cx4 * cy8 + sofZ 12852000 * cx4 * cy9 - sofZ 28274400 * cx5 * cy0 + sofZ 177962400 * cx5 * cy1 + sofZ 302400 * cx5 * cy10 - sofZ 462672000 * cx5 * cy2 + sofZ 617803200 * cx5 * cy3 - sofZ 393724800 * cx5 * cy4 + sofZ 184161600 * cx5 * cy6 - sofZ 131544000 * cx5 * cy7 + sofZ 42184800 * cx5 * cy8 - sofZ 6199200 * cx5 * cy9 + sofZ 22176000 * cx6 * cy0 - sofZ 142380000 * cx6 * cy1 - sofZ 50400 * cx6 * cy10 + sofZ 385106400 * cx6 * cy2 - sofZ 561254400 * cx6 * cy3 + sofZ 459345600 * cx6 * cy4 - sofZ 184161600 * cx6 * cy5 + sofZ 31449600 * cx6 * cy7 - sofZ 11793600 * cx6 * cy8 + sofZ 1562400 * cx6 * cy9 - sofZ 11340000 * cx7 * cy0 + sofZ 73029600 * cx7 * cy1 - sofZ 199584000 * cx7 * cy2 + sofZ 298771200 * cx7 * cy3 - sofZ 262180800 * cx7 * cy4 + sofZ 131544000 * cx7 * cy5 - sofZ 31449600 * cx7 * cy6 + sofZ 1360800 * cx7 * cy8 - sofZ 151200 * cx7 * cy9 + sofZ 3628800 * cx8 * cy0 - sofZ 23133600 * cx8 * cy1 + sofZ 62596800 * cx8 * cy2 - sofZ 92988000 * cx8 * cy3 + sofZ 81648000 * cx8 * cy4 - sofZ 42184800 * cx8 * cy5 + sofZ 11793600 * cx8 * cy6 - sofZ 1360800 * cx8 * cy7 - sofZ 655200 * cx9 * cy0 + sofZ 4082400 * cx9 * cy1 - sofZ 10735200 * cx9 * cy2 + sofZ 15372000 * cx9 * cy3 - sofZ 12852000 * cx9 * cy4 + sofZ 6199200 * cx9 * cy5 - sofZ 1562400 * cx9 * cy6 + sofZ 151200 * cx9 * cy7;
     - sofZ 108000 * cx0 * cy1 + sofZ 25200 * cx0 * cy10 + sofZ 864000 * cx0 * cy2 - sofZ 3049200 * cx0 * cy3 + sofZ 6224400 * cx0 * cy4 - sofZ 8089200 * cx0 * cy5 + sofZ 6930000 * cx0 * cy6 - sofZ 3906000 * cx0 * cy7 + sofZ 1393200 * cx0 * cy8 - sofZ 284400 * cx0 * cy9 + sofZ 108000 * cx1 * cy0 - sofZ 176400 * cx1 * cy10 - sofZ 3812400 * cx1 * cy2 + sofZ 17791200 * cx1 * cy3 - sofZ 40471200 * cx1 * cy4 + sofZ 55490400 * cx1 * cy5 - sofZ 48888000 * cx1 * cy6 + sofZ 27914400 * cx1 * cy7 - sofZ 9979200 * cx1 * cy8 + sofZ 2023200 * cx1 * cy9 - sofZ 25200 * cx10 * cy0 + sofZ 176400 * cx10 * cy1 - sofZ 529200 * cx10 * cy2 + sofZ 882000 * cx10 * cy3 - sofZ 882000 * cx10 * cy4 + sofZ 529200 * cx10 * cy5 - sofZ 176400 * cx10 * cy6 + sofZ 25200 * cx10 * cy7 - sofZ 864000 * cx2 * cy0 + sofZ 3812400 * cx2 * cy1 + sofZ 529200 * cx2 * cy10 - sofZ 34700400 * cx2 * cy3 + sofZ 104101200 * cx2 * cy4 - sofZ 158533200 * cx2 * cy5 + sofZ 146739600 * cx2 * cy6 - sofZ 85698000 * cx2 * cy7 + sofZ 30812400 * cx2 * cy8 - sofZ 6199200 * cx2 * cy9 + sofZ 3049200 * cx3 * cy0 - sofZ 17791200 * cx3 * cy1 - sofZ 882000 * cx3 * cy10 + sofZ 34700400 * cx3 * cy2 - sofZ 117482400 * cx3 * cy4 + sofZ 234964800 * cx3 * cy5 - sofZ 240256800 * cx3 * cy6 + sofZ 146361600 * cx3 * cy7 - sofZ 53298000 * cx3 * cy8 + sofZ 10634400 * cx3 * cy9 - sofZ 6224400 * cx4 * cy0 + sofZ 40471200 * cx4 * cy1 + sofZ 882000 * cx4 * cy10 - sofZ 104101200 * cx4 * cy2 + sofZ 117482400 * cx4 * cy3 - sofZ 168285600 * cx4 * cy5 + sofZ 224380800 * cx4 * cy6 - sofZ 149536800 * cx4 * cy7 + sofZ 56019600 * cx4 * cy8 - sofZ 11088000 * cx4 * cy9 + sofZ 8089200 * cx5 * cy0 - sofZ 55490400 * cx5 * cy1 - sofZ 529200 * cx5 * cy10 + sofZ 158533200 * cx5 * cy2 - sofZ 234964800 * cx5 * cy3 + sofZ 168285600 * cx5 * cy4 - sofZ 104781600 * cx5 * cy6 + sofZ 89812800 * cx5 * cy7 - sofZ 36061200 * cx5 * cy8 + sofZ 7106400 * cx5 * cy9 - sofZ 6930000 * cx6 * cy0 + sofZ 48888000 * cx6 * cy1 + sofZ 176400 * cx6 * cy10 - sofZ 146739600 * cx6 * cy2 + sofZ 240256800 * cx6 * cy3 - sofZ 224380800 * cx6 * cy4 + sofZ 104781600 * cx6 * cy5 - sofZ 26762400 * cx6 * cy7 + sofZ 13381200 * cx6 * cy8 - sofZ 2671200 * cx6 * cy9 + sofZ 3906000 * cx7 * cy0 - sofZ 27914400 * cx7 * cy1 - sofZ 25200 * cx7 * cy10 + sofZ 85698000 * cx7 * cy2 - sofZ 146361600 * cx7 * cy3 + sofZ 149536800 * cx7 * cy4 - sofZ 89812800 * cx7 * cy5 + sofZ 26762400 * cx7 * cy6 - sofZ 2300400 * cx7 * cy8 + sofZ 511200 * cx7 * cy9 - sofZ 1393200 * cx8 * cy0 + sofZ 9979200 * cx8 * cy1 - sofZ 30812400 * cx8 * cy2 + sofZ 53298000 * cx8 * cy3 - sofZ 56019600 * cx8 * cy4 + sofZ 36061200 * cx8 * cy5 - sofZ 13381200 * cx8 * cy6 + sofZ 2300400 * cx8 * cy7 - sofZ 32400 * cx8 * cy9 + sofZ 284400 * cx9 * cy0 - sofZ 2023200 * cx9 * cy1 + sofZ 6199200 * cx9 * cy2 - sofZ 10634400 * cx9 * cy3 + sofZ 11088000 * cx9 * cy4 - sofZ 7106400 * cx9 * cy5 + sofZ 2671200 * cx9 * cy6 - sofZ 511200 * cx9 * cy7 + sofZ 32400 * cx9 * cy8;
     sofZ 14400 * cx0 * cy1 - sofZ 7200 * cx0 * cy10 - sofZ 122400 * cx0 * cy2 + sofZ 460800 * cx0 * cy3 - sofZ 1008000 * cx0 * cy4 + sofZ 1411200 * cx0 * cy5 - sofZ 1310400 * cx0 * cy6 + sofZ 806400 * cx0 * cy7 - sofZ 316800 * cx0 * cy8 + sofZ 72000 * cx0 * cy9 - sofZ 14400 * cx1 * cy0 + sofZ 57600 * cx1 * cy10 + sofZ 576000 * cx1 * cy2 - sofZ 2880000 * cx1 * cy3 + sofZ 7056000 * cx1 * cy4 - sofZ 10483200 * cx1 * cy5 + sofZ 10080000 * cx1 * cy6 - sofZ 6336000 * cx1 * cy7 + sofZ 2520000 * cx1 * cy8 - sofZ 576000 * cx1 * cy9 + sofZ 7200 * cx10 * cy0 - sofZ 57600 * cx10 * cy1 + sofZ 201600 * cx10 * cy2 - sofZ 403200 * cx10 * cy3 + sofZ 504000 * cx10 * cy4 - sofZ 403200 * cx10 * cy5 + sofZ 201600 * cx10 * cy6 - sofZ 57600 * cx10 * cy7 + sofZ 7200 * cx10 * cy8 + sofZ 122400 * cx2 * cy0 - sofZ 576000 * cx2 * cy1 - sofZ 201600 * cx2 * cy10 + sofZ 6048000 * cx2 * cy3 - sofZ 19656000 * cx2 * cy4 + sofZ 32659200 * cx2 * cy5 - sofZ 33264000 * cx2 * cy6 + sofZ 21600000 * cx2 * cy7 - sofZ 8748000 * cx2 * cy8 + sofZ 2016000 * cx2 * cy9 - sofZ 460800 * cx3 * cy0 + sofZ 2880000 * cx3 * cy1 + sofZ 403200 * cx3 * cy10 - sofZ 6048000 * cx3 * cy2 + sofZ 24192000 * cx3 * cy4 - sofZ 53222400 * cx3 * cy5 + sofZ 60480000 * cx3 * cy6 - sofZ 41472000 * cx3 * cy7 + sofZ 17280000 * cx3 * cy8 - sofZ 4032000 * cx3 * cy9 + sofZ 1008000 * cx4 * cy0 - sofZ 7056000 * cx4 * cy1 - sofZ 504000 * cx4 * cy10 + sofZ 19656000 * cx4 * cy2 - sofZ 24192000 * cx4 * cy3 + sofZ 42336000 * cx4 * cy5 - sofZ 63504000 * cx4 * cy6 + sofZ 48384000 * cx4 * cy7 - sofZ 21168000 * cx4 * cy8 + sofZ 5040000 * cx4 * cy9 - sofZ 1411200 * cx5 * cy0 + sofZ 10483200 * cx5 * cy1 + sofZ 403200 * cx5 * cy10 - sofZ 32659200 * cx5 * cy2 + sofZ 53222400 * cx5 * cy3 - sofZ 42336000 * cx5 * cy4 + sofZ 33868800 * cx5 * cy6 - sofZ 33868800 * cx5 * cy7 + sofZ 16329600 * cx5 * cy8 - sofZ 4032000 * cx5 * cy9 + sofZ 1310400 * cx6 * cy0 - sofZ 10080000 * cx6 * cy1 - sofZ 201600 * cx6 * cy10 + sofZ 33264000 * cx6 * cy2 - sofZ 60480000 * cx6 * cy3 + sofZ 63504000 * cx6 * cy4 - sofZ 33868800 * cx6 * cy5 + sofZ 12096000 * cx6 * cy7 - sofZ 7560000 * cx6 * cy8 + sofZ 2016000 * cx6 * cy9 - sofZ 806400 * cx7 * cy0 + sofZ 6336000 * cx7 * cy1 + sofZ 57600 * cx7 * cy10 - sofZ 21600000 * cx7 * cy2 + sofZ 41472000 * cx7 * cy3 - sofZ 48384000 * cx7 * cy4 + sofZ 33868800 * cx7 * cy5 - sofZ 12096000 * cx7 * cy6 + sofZ 1728000 * cx7 * cy8 - sofZ 576000 * cx7 * cy9 + sofZ 316800 * cx8 * cy0 - sofZ 2520000 * cx8 * cy1 - sofZ 7200 * cx8 * cy10 + sofZ 8748000 * cx8 * cy2 - sofZ 17280000 * cx8 * cy3 + sofZ 21168000 * cx8 * cy4 - sofZ 16329600 * cx8 * cy5 + sofZ 7560000 * cx8 * cy6 - sofZ 1728000 * cx8 * cy7 + sofZ 72000 * cx8 * cy9 - sofZ 72000 * cx9 * cy0 + sofZ 576000 * cx9 * cy1 - sofZ 2016000 * cx9 * cy2 + sofZ 4032000 * cx9 * cy3 - sofZ 5040000 * cx9 * cy4 + sofZ 4032000 * cx9 * cy5 - sofZ 2016000 * cx9 * cy6 + sofZ 576000 * cx9 * cy7 - sofZ 72000 * cx9 * cy8;
     - sofZ 900 * cx0 * cy1 + sofZ 900 * cx0 * cy10 + sofZ 8100 * cx0 * cy2 - sofZ 32400 * cx0 * cy3 + sofZ 75600 * cx0 * cy4 - sofZ 113400 * cx0 * cy5 + sofZ 113400 * cx0 * cy6 - sofZ 75600 * cx0 * cy7 + sofZ 32400 * cx0 * cy8 - sofZ 8100 * cx0 * cy9 + sofZ 900 * cx1 * cy0 - sofZ 8100 * cx1 * cy10 - sofZ 40500 * cx1 * cy2 + sofZ 216000 * cx1 * cy3 - sofZ 567000 * cx1 * cy4 + sofZ 907200 * cx1 * cy5 - sofZ 945000 * cx1 * cy6 + sofZ 648000 * cx1 * cy7 - sofZ 283500 * cx1 * cy8 + sofZ 72000 * cx1 * cy9 - sofZ 900 * cx10 * cy0 + sofZ 8100 * cx10 * cy1 - sofZ 32400 * cx10 * cy2 + sofZ 75600 * cx10 * cy3 - sofZ 113400 * cx10 * cy4 + sofZ 113400 * cx10 * cy5 - sofZ 75600 * cx10 * cy6 + sofZ 32400 * cx10 * cy7 - sofZ 8100 * cx10 * cy8 + sofZ 900 * cx10 * cy9 - sofZ 8100 * cx2 * cy0 + sofZ 40500 * cx2 * cy1 + sofZ 32400 * cx2 * cy10 - sofZ 486000 * cx2 * cy3 + sofZ 1701000 * cx2 * cy4 - sofZ 3061800 * cx2 * cy5 + sofZ 3402000 * cx2 * cy6 - sofZ 2430000 * cx2 * cy7 + sofZ 1093500 * cx2 * cy8 - sofZ 283500 * cx2 * cy9 + sofZ 32400 * cx3 * cy0 - sofZ 216000 * cx3 * cy1 - sofZ 75600 * cx3 * cy10 + sofZ 486000 * cx3 * cy2 - sofZ 2268000 * cx3 * cy4 + sofZ 5443200 * cx3 * cy5 - sofZ 6804000 * cx3 * cy6 + sofZ 5184000 * cx3 * cy7 - sofZ 2430000 * cx3 * cy8 + sofZ 648000 * cx3 * cy9 - sofZ 75600 * cx4 * cy0 + sofZ 567000 * cx4 * cy1 + sofZ 113400 * cx4 * cy10 - sofZ 1701000 * cx4 * cy2 + sofZ 2268000 * cx4 * cy3 - sofZ 4762800 * cx4 * cy5 + sofZ 7938000 * cx4 * cy6 - sofZ 6804000 * cx4 * cy7 + sofZ 3402000 * cx4 * cy8 - sofZ 945000 * cx4 * cy9 + sofZ 113400 * cx5 * cy0 - sofZ 907200 * cx5 * cy1 - sofZ 113400 * cx5 * cy10 + sofZ 3061800 * cx5 * cy2 - sofZ 5443200 * cx5 * cy3 + sofZ 4762800 * cx5 * cy4 - sofZ 4762800 * cx5 * cy6 + sofZ 5443200 * cx5 * cy7 - sofZ 3061800 * cx5 * cy8 + sofZ 907200 * cx5 * cy9 - sofZ 113400 * cx6 * cy0 + sofZ 945000 * cx6 * cy1 + sofZ 75600 * cx6 * cy10 - sofZ 3402000 * cx6 * cy2 + sofZ 6804000 * cx6 * cy3 - sofZ 7938000 * cx6 * cy4 + sofZ 4762800 * cx6 * cy5 - sofZ 2268000 * cx6 * cy7 + sofZ 1701000 * cx6 * cy8 - sofZ 567000 * cx6 * cy9 + sofZ 75600 * cx7 * cy0 - sofZ 648000 * cx7 * cy1 - sofZ 32400 * cx7 * cy10 + sofZ 2430000 * cx7 * cy2 - sofZ 5184000 * cx7 * cy3 + sofZ 6804000 * cx7 * cy4 - sofZ 5443200 * cx7 * cy5 + sofZ 2268000 * cx7 * cy6 - sofZ 486000 * cx7 * cy8 + sofZ 216000 * cx7 * cy9 - sofZ 32400 * cx8 * cy0 + sofZ 283500 * cx8 * cy1 + sofZ 8100 * cx8 * cy10 - sofZ 1093500 * cx8 * cy2 + sofZ 2430000 * cx8 * cy3 - sofZ 3402000 * cx8 * cy4 + sofZ 3061800 * cx8 * cy5 - sofZ 1701000 * cx8 * cy6 + sofZ 486000 * cx8 * cy7 - sofZ 40500 * cx8 * cy9 + sofZ 8100 * cx9 * cy0 - sofZ 72000 * cx9 * cy1 - sofZ 900 * cx9 * cy10 + sofZ 283500 * cx9 * cy2 - sofZ 648000 * cx9 * cy3 + sofZ 945000 * cx9 * cy4 - sofZ 907200 * cx9 * cy5 + sofZ 567000 * cx9 * cy6 - sofZ 216000 * cx9 * cy7 + sofZ 40500 * cx9 * cy8].

  (** internal/auto_singularity_Bezier.h:18-33 compute_Bezier_degree_2_singularities *)
  Definition sing_2 (cx0 cy0 cx1 cy1 cx2 cy2 : T) : list T :=
    [sofZ 4 * cx0 * cx0 - sofZ 8 * cx0 * cx1 + sofZ 4 * cx1 * cx1 + sofZ 4 * cy0 * cy0 - sofZ 8 * cy0 * cy1 + sofZ 4 * cy1 * cy1;
     - sofZ 8 * cx0 * cx0 + sofZ 24 * cx0 * cx1 - sofZ 8 * cx0 * cx2 - sofZ 16 * cx1 * cx1 + sofZ 8 * cx1 * cx2 - sofZ 8 * cy0 * cy0 + sofZ 24 * cy0 * cy1 - sofZ 8 * cy0 * cy2 - sofZ 16 * cy1 * cy1 + sofZ 8 * cy1 * cy2;
     sofZ 4 * cx0 * cx0 - sofZ 16 * cx0 * cx1 + sofZ 8 * cx0 * cx2 + sofZ 16 * cx1 * cx1 - sofZ 16 * cx1 * cx2 + sofZ 4 * cx2 * cx2 + sofZ 4 * cy0 * cy0 - sofZ 16 * cy0 * cy1 + sofZ 8 * cy0 * cy2 + sofZ 16 * cy1 * cy1 - sofZ 16 * cy1 * cy2 + sofZ 4 * cy2 * cy2].

  (** internal/auto_singularity_Bezier.h:37-54 compute_Bezier_degree_3_singularities *)
  Definition sing_3 (cx0 cy0 cx1 cy1 cx2 cy2 cx3 cy3 : T) : list T :=
    [sofZ 9 * cx0 * cx0 - sofZ 18 * cx0 * cx1 + sofZ 9 * cx1 * cx1 + sofZ 9 * cy0 * cy0 - sofZ 18 * cy0 * cy1 + sofZ 9 * cy1 * cy1;
     - sofZ 36 * cx0 * cx0 + sofZ 108 * cx0 * cx1 - sofZ 36 * cx0 * cx2 - sofZ 72 * cx1 * cx1 + sofZ 36 * cx1 * cx2 - sofZ 36 * cy0 * cy0 + sofZ 108 * cy0 * cy1 - sofZ 36 * cy0 * cy2 - sofZ 72 * cy1 * cy1 + sofZ 36 * cy1 * cy2;
     sofZ 54 * cx0 * cx0 - sofZ 216 * cx0 * cx1 + sofZ 126 * cx0 * cx2 - sofZ 18 * cx0 * cx3 + sofZ 198 * cx1 * cx1 - sofZ 198 * cx1 * cx2 + sofZ 18 * cx1 * cx3 + sofZ 36 * cx2 * cx2 + sofZ 54 * cy0 * cy0 - sofZ 216 * cy0 * cy1 + sofZ 126 * cy0 * cy2 - sofZ 18 * cy0 * cy3 + sofZ 198 * cy1 * cy1 - sofZ 198 * cy1 * cy2 + sofZ 18 * cy1 * cy3 + sofZ 36 * cy2 * cy2;
     - sofZ 36 * cx0 * cx0 + sofZ 180 * cx0 * cx1 - sofZ 144 * cx0 * cx2 + sofZ 36 * cx0 * cx3 - sofZ 216 * cx1 * cx1 + sofZ 324 * cx1 * cx2 - sofZ 72 * cx1 * cx3 - sofZ 108 * cx2 * cx2 + sofZ 36 * cx2 * cx3 - sofZ 36 * cy0 * cy0 + sofZ 180 * cy0 * cy1 - sofZ 144 * cy0 * cy2 + sofZ 36 * cy0 * cy3 - sofZ 216 * cy1 * cy1 + sofZ 324 * cy1 * cy2 - sofZ 72 * cy1 * cy3 - sofZ 108 * cy2 * cy2 + sofZ 36 * cy2 * cy3;
     sofZ 9 * cx0 * cx0 - sofZ 54 * cx0 * cx1 + sofZ 54 * cx0 * cx2 - sofZ 18 * cx0 * cx3 + sofZ 81 * cx1 * cx1 - sofZ 162 * cx1 * cx2 + sofZ 54 * cx1 * cx3 + sofZ 81 * cx2 * cx2 - sofZ 54 * cx2 * cx3 + sofZ 9 * cx3 * cx3 + sofZ 9 * cy0 * cy0 - sofZ 54 * cy0 * cy1 + sofZ 54 * cy0 * cy2 - sofZ 18 * cy0 * cy3 + sofZ 81 * cy1 * cy1 - sofZ 162 * cy1 * cy2 + sofZ 54 * cy1 * cy3 + sofZ 81 * cy2 * cy2 - sofZ 54 * cy2 * cy3 + sofZ 9 * cy3 * cy3].

  (** internal/auto_singularity_Bezier.h:58-77 compute_Bezier_degree_4_singularities *)
  Definition sing_4 (cx0 cy0 cx1 cy1 cx2 cy2 cx3 cy3 cx4 cy4 : T) : list T :=
    [sofZ 16 * cx0 * cx0 - sofZ 32 * cx0 * cx1 + sofZ 16 * cx1 * cx1 + sofZ 16 * cy0 * cy0 - sofZ 32 * cy0 * cy1 + sofZ 16 * cy1 * cy1;
     - sofZ 96 * cx0 * cx0 + sofZ 288 * cx0 * cx1 - sofZ 96 * cx0 * cx2 - sofZ 192 * cx1 * cx1 + sofZ 96 * cx1 * cx2 - sofZ 96 * cy0 * cy0 + sofZ 288 * cy0 * cy1 - sofZ 96 * cy0 * cy2 - sofZ 192 * cy1 * cy1 + sofZ 96 * cy1 * cy2;
     sofZ 240 * cx0 * cx0 - sofZ 960 * cx0 * cx1 + sofZ 576 * cx0 * cx2 - sofZ 96 * cx0 * cx3 + sofZ 864 * cx1 * cx1 - sofZ 864 * cx1 * cx2 + sofZ 96 * cx1 * cx3 + sofZ 144 * cx2 * cx2 + sofZ 240 * cy0 * cy0 - sofZ 960 * cy0 * cy1 + sofZ 576 * cy0 * cy2 - sofZ 96 * cy0 * cy3 + sofZ 864 * cy1 * cy1 - sofZ 864 * cy1 * cy2 + sofZ 96 * cy1 * cy3 + sofZ 144 * cy2 * cy2;
     - sofZ 320 * cx0 * cx0 + sofZ 1600 * cx0 * cx1 - sofZ 1344 * cx0 * cx2 + sofZ 416 * cx0 * cx3 - sofZ 32 * cx0 * cx4 - sofZ 1856 * cx1 * cx1 + sofZ 2784 * cx1 * cx2 - sofZ 704 * cx1 * cx3 + sofZ 32 * cx1 * cx4 - sofZ 864 * cx2 * cx2 + sofZ 288 * cx2 * cx3 - sofZ 320 * cy0 * cy0 + sofZ 1600 * cy0 * cy1 - sofZ 1344 * cy0 * cy2 + sofZ 416 * cy0 * cy3 - sofZ 32 * cy0 * cy4 - sofZ 1856 * cy1 * cy1 + sofZ 2784 * cy1 * cy2 - sofZ 704 * cy1 * cy3 + sofZ 32 * cy1 * cy4 - sofZ 864 * cy2 * cy2 + sofZ 288 * cy2 * cy3;
     sofZ 240 * cx0 * cx0 - sofZ 1440 * cx0 * cx1 + sofZ 1536 * cx0 * cx2 - sofZ 672 * cx0 * cx3 + sofZ 96 * cx0 * cx4 + sofZ 2064 * cx1 * cx1 - sofZ 4128 * cx1 * cx2 + sofZ 1632 * cx1 * cx3 - sofZ 192 * cx1 * cx4 + sofZ 1872 * cx2 * cx2 - sofZ 1248 * cx2 * cx3 + sofZ 96 * cx2 * cx4 + sofZ 144 * cx3 * cx3 + sofZ 240 * cy0 * cy0 - sofZ 1440 * cy0 * cy1 + sofZ 1536 * cy0 * cy2 - sofZ 672 * cy0 * cy3 + sofZ 96 * cy0 * cy4 + sofZ 2064 * cy1 * cy1 - sofZ 4128 * cy1 * cy2 + sofZ 1632 * cy1 * cy3 - sofZ 192 * cy1 * cy4 + sofZ 1872 * cy2 * cy2 - sofZ 1248 * cy2 * cy3 + sofZ 96 * cy2 * cy4 + sofZ 144 * cy3 * cy3;
     - sofZ 96 * cx0 * cx0 + sofZ 672 * cx0 * cx1 - sofZ 864 * cx0 * cx2 + sofZ 480 * cx0 * cx3 - sofZ 96 * cx0 * cx4 - sofZ 1152 * cx1 * cx1 + sofZ 2880 * cx1 * cx2 - sofZ 1536 * cx1 * cx3 + sofZ 288 * cx1 * cx4 - sofZ 1728 * cx2 * cx2 + sofZ 1728 * cx2 * cx3 - sofZ 288 * cx2 * cx4 - sofZ 384 * cx3 * cx3 + sofZ 96 * cx3 * cx4 - sofZ 96 * cy0 * cy0 + sofZ 672 * cy0 * cy1 - sofZ 864 * cy0 * cy2 + sofZ 480 * cy0 * cy3 - sofZ 96 * cy0 * cy4 - sofZ 1152 * cy1 * cy1 + sofZ 2880 * cy1 * cy2 - sofZ 1536 * cy1 * cy3 + sofZ 288 * cy1 * cy4 - sofZ 1728 * cy2 * cy2 + sofZ 1728 * cy2 * cy3 - sofZ 288 * cy2 * cy4 - sofZ 384 * cy3 * cy3 + sofZ 96 * cy3 * cy4;
     sofZ 16 * cx0 * cx0 - sofZ 128 * cx0 * cx1 + sofZ 192 * cx0 * cx2 - sofZ 128 * cx0 * cx3 + sofZ 32 * cx0 * cx4 + sofZ 256 * cx1 * cx1 - sofZ 768 * cx1 * cx2 + sofZ 512 * cx1 * cx3 - sofZ 128 * cx1 * cx4 + sofZ 576 * cx2 * cx2 - sofZ 768 * cx2 * cx3 + sofZ 192 * cx2 * cx4 + sofZ 256 * cx3 * cx3 - sofZ 128 * cx3 * cx4 + sofZ 16 * cx4 * cx4 + sofZ 16 * cy0 * cy0 - sofZ 128 * cy0 * cy1 + sofZ 192 * cy0 * cy2 - sofZ 128 * cy0 * cy3 + sofZ 32 * cy0 * cy4 + sofZ 256 * cy1 * cy1 - sofZ 768 * cy1 * cy2 + sofZ 512 * cy1 * cy3 - sofZ 128 * cy1 * cy4 + sofZ 576 * cy2 * cy2 - sofZ 768 * cy2 * cy3 + sofZ 192 * cy2 * cy4 + sofZ 256 * cy3 * cy3 - sofZ 128 * cy3 * cy4 + sofZ 16 * cy4 * cy4].

  (** internal/auto_singularity_Bezier.h:81-102 compute_Bezier_degree_5_singularities *)
  Definition sing_5 (cx0 cy0 cx1 cy1 cx2 cy2 cx3 cy3 cx4 cy4 cx5 cy5 : T) : list T :=
    [sofZ 25 * cx0 * cx0 - sofZ 50 * cx0 * cx1 + sofZ 25 * cx1 * cx1 + sofZ 25 * cy0 * cy0 - sofZ 50 * cy0 * cy1 + sofZ 25 * cy1 * cy1;
     - sofZ 200 * cx0 * cx0 + sofZ 600 * cx0 * cx1 - sofZ 200 * cx0 * cx2 - sofZ 400 * cx1 * cx1 + sofZ 200 * cx1 * cx2 - sofZ 200 * cy0 * cy0 + sofZ 600 * cy0 * cy1 - sofZ 200 * cy0 * cy2 - sofZ 400 * cy1 * cy1 + sofZ 200 * cy1 * cy2;
     sofZ 700 * cx0 * cx0 - sofZ 2800 * cx0 * cx1 + sofZ 1700 * cx0 * cx2 - sofZ 300 * cx0 * cx3 + sofZ 2500 * cx1 * cx1 - sofZ 2500 * cx1 * cx2 + sofZ 300 * cx1 * cx3 + sofZ 400 * cx2 * cx2 + sofZ 700 * cy0 * cy0 - sofZ 2800 * cy0 * cy1 + sofZ 1700 * cy0 * cy2 - sofZ 300 * cy0 * cy3 + sofZ 2500 * cy1 * cy1 - sofZ 2500 * cy1 * cy2 + sofZ 300 * cy1 * cy3 + sofZ 400 * cy2 * cy2;
     - sofZ 1400 * cx0 * cx0 + sofZ 7000 * cx0 * cx1 - sofZ 6000 * cx0 * cx2 + sofZ 2000 * cx0 * cx3 - sofZ 200 * cx0 * cx4 - sofZ 8000 * cx1 * cx1 + sofZ 12000 * cx1 * cx2 - sofZ 3200 * cx1 * cx3 + sofZ 200 * cx1 * cx4 - sofZ 3600 * cx2 * cx2 + sofZ 1200 * cx2 * cx3 - sofZ 1400 * cy0 * cy0 + sofZ 7000 * cy0 * cy1 - sofZ 6000 * cy0 * cy2 + sofZ 2000 * cy0 * cy3 - sofZ 200 * cy0 * cy4 - sofZ 8000 * cy1 * cy1 + sofZ 12000 * cy1 * cy2 - sofZ 3200 * cy1 * cy3 + sofZ 200 * cy1 * cy4 - sofZ 3600 * cy2 * cy2 + sofZ 1200 * cy2 * cy3;
     sofZ 1750 * cx0 * cx0 - sofZ 10500 * cx0 * cx1 + sofZ 11500 * cx0 * cx2 - sofZ 5500 * cx0 * cx3 + sofZ 1050 * cx0 * cx4 - sofZ 50 * cx0 * cx5 + sofZ 14750 * cx1 * cx1 - sofZ 29500 * cx1 * cx2 + sofZ 12300 * cx1 * cx3 - sofZ 1850 * cx1 * cx4 + sofZ 50 * cx1 * cx5 + sofZ 12900 * cx2 * cx2 - sofZ 8600 * cx2 * cx3 + sofZ 800 * cx2 * cx4 + sofZ 900 * cx3 * cx3 + sofZ 1750 * cy0 * cy0 - sofZ 10500 * cy0 * cy1 + sofZ 11500 * cy0 * cy2 - sofZ 5500 * cy0 * cy3 + sofZ 1050 * cy0 * cy4 - sofZ 50 * cy0 * cy5 + sofZ 14750 * cy1 * cy1 - sofZ 29500 * cy1 * cy2 + sofZ 12300 * cy1 * cy3 - sofZ 1850 * cy1 * cy4 + sofZ 50 * cy1 * cy5 + sofZ 12900 * cy2 * cy2 - sofZ 8600 * cy2 * cy3 + sofZ 800 * cy2 * cy4 + sofZ 900 * cy3 * cy3;
     - sofZ 1400 * cx0 * cx0 + sofZ 9800 * cx0 * cx1 - sofZ 13000 * cx0 * cx2 + sofZ 8000 * cx0 * cx3 - sofZ 2200 * cx0 * cx4 + sofZ 200 * cx0 * cx5 - sofZ 16400 * cx1 * cx1 + sofZ 41000 * cx1 * cx2 - sofZ 23200 * cx1 * cx3 + sofZ 5600 * cx1 * cx4 - sofZ 400 * cx1 * cx5 - sofZ 23600 * cx2 * cx2 + sofZ 23600 * cx2 * cx3 - sofZ 4600 * cx2 * cx4 + sofZ 200 * cx2 * cx5 - sofZ 4800 * cx3 * cx3 + sofZ 1200 * cx3 * cx4 - sofZ 1400 * cy0 * cy0 + sofZ 9800 * cy0 * cy1 - sofZ 13000 * cy0 * cy2 + sofZ 8000 * cy0 * cy3 - sofZ 2200 * cy0 * cy4 + sofZ 200 * cy0 * cy5 - sofZ 16400 * cy1 * cy1 + sofZ 41000 * cy1 * cy2 - sofZ 23200 * cy1 * cy3 + sofZ 5600 * cy1 * cy4 - sofZ 400 * cy1 * cy5 - sofZ 23600 * cy2 * cy2 + sofZ 23600 * cy2 * cy3 - sofZ 4600 * cy2 * cy4 + sofZ 200 * cy2 * cy5 - sofZ 4800 * cy3 * cy3 + sofZ 1200 * cy3 * cy4;
     sofZ 700 * cx0 * cx0 - sofZ 5600 * cx0 * cx1 + sofZ 8700 * cx0 * cx2 - sofZ 6500 * cx0 * cx3 + sofZ 2300 * cx0 * cx4 - sofZ 300 * cx0 * cx5 + sofZ 10900 * cx1 * cx1 - sofZ 32700 * cx1 * cx2 + sofZ 23300 * cx1 * cx3 - sofZ 7700 * cx1 * cx4 + sofZ 900 * cx1 * cx5 + sofZ 23400 * cx2 * cx2 - sofZ 31200 * cx2 * cx3 + sofZ 9300 * cx2 * cx4 - sofZ 900 * cx2 * cx5 + sofZ 9400 * cx3 * cx3 - sofZ 4700 * cx3 * cx4 + sofZ 300 * cx3 * cx5 + sofZ 400 * cx4 * cx4 + sofZ 700 * cy0 * cy0 - sofZ 5600 * cy0 * cy1 + sofZ 8700 * cy0 * cy2 - sofZ 6500 * cy0 * cy3 + sofZ 2300 * cy0 * cy4 - sofZ 300 * cy0 * cy5 + sofZ 10900 * cy1 * cy1 - sofZ 32700 * cy1 * cy2 + sofZ 23300 * cy1 * cy3 - sofZ 7700 * cy1 * cy4 + sofZ 900 * cy1 * cy5 + sofZ 23400 * cy2 * cy2 - sofZ 31200 * cy2 * cy3 + sofZ 9300 * cy2 * cy4 - sofZ 900 * cy2 * cy5 + sofZ 9400 * cy3 * cy3 - sofZ 4700 * cy3 * cy4 + sofZ 300 * cy3 * cy5 + sofZ 400 * cy4 * cy4;
     - sofZ 200 * cx0 * cx0 + sofZ 1800 * cx0 * cx1 - sofZ 3200 * cx0 * cx2 + sofZ 2800 * cx0 * cx3 - sofZ 1200 * cx0 * cx4 + sofZ 200 * cx0 * cx5 - sofZ 4000 * cx1 * cx1 + sofZ 14000 * cx1 * cx2 - sofZ 12000 * cx1 * cx3 + sofZ 5000 * cx1 * cx4 - sofZ 800 * cx1 * cx5 - sofZ 12000 * cx2 * cx2 + sofZ 20000 * cx2 * cx3 - sofZ 8000 * cx2 * cx4 + sofZ 1200 * cx2 * cx5 - sofZ 8000 * cx3 * cx3 + sofZ 6000 * cx3 * cx4 - sofZ 800 * cx3 * cx5 - sofZ 1000 * cx4 * cx4 + sofZ 200 * cx4 * cx5 - sofZ 200 * cy0 * cy0 + sofZ 1800 * cy0 * cy1 - sofZ 3200 * cy0 * cy2 + sofZ 2800 * cy0 * cy3 - sofZ 1200 * cy0 * cy4 + sofZ 200 * cy0 * cy5 - sofZ 4000 * cy1 * cy1 + sofZ 14000 * cy1 * cy2 - sofZ 12000 * cy1 * cy3 + sofZ 5000 * cy1 * cy4 - sofZ 800 * cy1 * cy5 - sofZ 12000 * cy2 * cy2 + sofZ 20000 * cy2 * cy3 - sofZ 8000 * cy2 * cy4 + sofZ 1200 * cy2 * cy5 - sofZ 8000 * cy3 * cy3 + sofZ 6000 * cy3 * cy4 - sofZ 800 * cy3 * cy5 - sofZ 1000 * cy4 * cy4 + sofZ 200 * cy4 * cy5;
     sofZ 25 * cx0 * cx0 - sofZ 250 * cx0 * cx1 + sofZ 500 * cx0 * cx2 - sofZ 500 * cx0 * cx3 + sofZ 250 * cx0 * cx4 - sofZ 50 * cx0 * cx5 + sofZ 625 * cx1 * cx1 - sofZ 2500 * cx1 * cx2 + sofZ 2500 * cx1 * cx3 - sofZ 1250 * cx1 * cx4 + sofZ 250 * cx1 * cx5 + sofZ 2500 * cx2 * cx2 - sofZ 5000 * cx2 * cx3 + sofZ 2500 * cx2 * cx4 - sofZ 500 * cx2 * cx5 + sofZ 2500 * cx3 * cx3 - sofZ 2500 * cx3 * cx4 + sofZ 500 * cx3 * cx5 + sofZ 625 * cx4 * cx4 - sofZ 250 * cx4 * cx5 + sofZ 25 * cx5 * cx5 + sofZ 25 * cy0 * cy0 - sofZ 250 * cy0 * cy1 + sofZ 500 * cy0 * cy2 - sofZ 500 * cy0 * cy3 + sofZ 250 * cy0 * cy4 - sofZ 50 * cy0 * cy5 + sofZ 625 * cy1 * cy1 - sofZ 2500 * cy1 * cy2 + sofZ 2500 * cy1 * cy3 - sofZ 1250 * cy1 * cy4 + sofZ 250 * cy1 * cy5 + sofZ 2500 * cy2 * cy2 - sofZ 5000 * cy2 * cy3 + sofZ 2500 * cy2 * cy4 - sofZ 500 * cy2 * cy5 + sofZ 2500 * cy3 * cy3 - sofZ 2500 * cy3 * cy4 + sofZ 500 * cy3 * cy5 + sofZ 625 * cy4 * cy4 - sofZ 250 * cy4 * cy5 + sofZ 25 * cy5 * cy5].

  (** internal/auto_singularity_Bezier.h:106-129 compute_Bezier_degree_6_singularities *)
  Definition sing_6 (cx0 cy0 cx1 cy1 cx2 cy2 cx3 cy3 cx4 cy4 cx5 cy5 cx6 cy6 : T) : list T :=
    [sofZ 36 * cx0 * cx0 - sofZ 72 * cx0 * cx1 + sofZ 36 * cx1 * cx1 + sofZ 36 * cy0 * cy0 - sofZ 72 * cy0 * cy1 + sofZ 36 * cy1 * cy1;
     - sofZ 360 * cx0 * cx0 + sofZ 1080 * cx0 * cx1 - sofZ 360 * cx0 * cx2 - sofZ 720 * cx1 * cx1 + sofZ 360 * cx1 * cx2 - sofZ 360 * cy0 * cy0 + sofZ 1080 * cy0 * cy1 - sofZ 360 * cy0 * cy2 - sofZ 720 * cy1 * cy1 + sofZ 360 * cy1 * cy2;
     sofZ 1620 * cx0 * cx0 - sofZ 6480 * cx0 * cx1 + sofZ 3960 * cx0 * cx2 - sofZ 720 * cx0 * cx3 + sofZ 5760 * cx1 * cx1 - sofZ 5760 * cx1 * cx2 + sofZ 720 * cx1 * cx3 + sofZ 900 * cx2 * cx2 + sofZ 1620 * cy0 * cy0 - sofZ 6480 * cy0 * cy1 + sofZ 3960 * cy0 * cy2 - sofZ 720 * cy0 * cy3 + sofZ 5760 * cy1 * cy1 - sofZ 5760 * cy1 * cy2 + sofZ 720 * cy1 * cy3 + sofZ 900 * cy2 * cy2;
     - sofZ 4320 * cx0 * cx0 + sofZ 21600 * cx0 * cx1 - sofZ 18720 * cx0 * cx2 + sofZ 6480 * cx0 * cx3 - sofZ 720 * cx0 * cx4 - sofZ 24480 * cx1 * cx1 + sofZ 36720 * cx1 * cx2 - sofZ 10080 * cx1 * cx3 + sofZ 720 * cx1 * cx4 - sofZ 10800 * cx2 * cx2 + sofZ 3600 * cx2 * cx3 - sofZ 4320 * cy0 * cy0 + sofZ 21600 * cy0 * cy1 - sofZ 18720 * cy0 * cy2 + sofZ 6480 * cy0 * cy3 - sofZ 720 * cy0 * cy4 - sofZ 24480 * cy1 * cy1 + sofZ 36720 * cy1 * cy2 - sofZ 10080 * cy1 * cy3 + sofZ 720 * cy1 * cy4 - sofZ 10800 * cy2 * cy2 + sofZ 3600 * cy2 * cy3;
     sofZ 7560 * cx0 * cx0 - sofZ 45360 * cx0 * cx1 + sofZ 50400 * cx0 * cx2 - sofZ 25200 * cx0 * cx3 + sofZ 5400 * cx0 * cx4 - sofZ 360 * cx0 * cx5 + sofZ 63000 * cx1 * cx1 - sofZ 126000 * cx1 * cx2 + sofZ 54000 * cx1 * cx3 - sofZ 9000 * cx1 * cx4 + sofZ 360 * cx1 * cx5 + sofZ 54000 * cx2 * cx2 - sofZ 36000 * cx2 * cx3 + sofZ 3600 * cx2 * cx4 + sofZ 3600 * cx3 * cx3 + sofZ 7560 * cy0 * cy0 - sofZ 45360 * cy0 * cy1 + sofZ 50400 * cy0 * cy2 - sofZ 25200 * cy0 * cy3 + sofZ 5400 * cy0 * cy4 - sofZ 360 * cy0 * cy5 + sofZ 63000 * cy1 * cy1 - sofZ 126000 * cy1 * cy2 + sofZ 54000 * cy1 * cy3 - sofZ 9000 * cy1 * cy4 + sofZ 360 * cy1 * cy5 + sofZ 54000 * cy2 * cy2 - sofZ 36000 * cy2 * cy3 + sofZ 3600 * cy2 * cy4 + sofZ 3600 * cy3 * cy3;
     - sofZ 9072 * cx0 * cx0 + sofZ 63504 * cx0 * cx1 - sofZ 85680 * cx0 * cx2 + sofZ 55440 * cx0 * cx3 - sofZ 17280 * cx0 * cx4 + sofZ 2232 * cx0 * cx5 - sofZ 72 * cx0 * cx6 - sofZ 104832 * cx1 * cx1 + sofZ 262080 * cx1 * cx2 - sofZ 152640 * cx1 * cx3 + sofZ 40680 * cx1 * cx4 - sofZ 4032 * cx1 * cx5 + sofZ 72 * cx1 * cx6 - sofZ 147600 * cx2 * cx2 + sofZ 147600 * cx2 * cx3 - sofZ 30600 * cx2 * cx4 + sofZ 1800 * cx2 * cx5 - sofZ 28800 * cx3 * cx3 + sofZ 7200 * cx3 * cx4 - sofZ 9072 * cy0 * cy0 + sofZ 63504 * cy0 * cy1 - sofZ 85680 * cy0 * cy2 + sofZ 55440 * cy0 * cy3 - sofZ 17280 * cy0 * cy4 + sofZ 2232 * cy0 * cy5 - sofZ 72 * cy0 * cy6 - sofZ 104832 * cy1 * cy1 + sofZ 262080 * cy1 * cy2 - sofZ 152640 * cy1 * cy3 + sofZ 40680 * cy1 * cy4 - sofZ 4032 * cy1 * cy5 + sofZ 72 * cy1 * cy6 - sofZ 147600 * cy2 * cy2 + sofZ 147600 * cy2 * cy3 - sofZ 30600 * cy2 * cy4 + sofZ 1800 * cy2 * cy5 - sofZ 28800 * cy3 * cy3 + sofZ 7200 * cy3 * cy4;
     sofZ 7560 * cx0 * cx0 - sofZ 60480 * cx0 * cx1 + sofZ 95760 * cx0 * cx2 - sofZ 75600 * cx0 * cx3 + sofZ 30600 * cx0 * cx4 - sofZ 5760 * cx0 * cx5 + sofZ 360 * cx0 * cx6 + sofZ 115920 * cx1 * cx1 - sofZ 347760 * cx1 * cx2 + sofZ 255600 * cx1 * cx3 - sofZ 93600 * cx1 * cx4 + sofZ 15120 * cx1 * cx5 - sofZ 720 * cx1 * cx6 + sofZ 243000 * cx2 * cx2 - sofZ 324000 * cx2 * cx3 + sofZ 102600 * cx2 * cx4 - sofZ 12960 * cx2 * cx5 + sofZ 360 * cx2 * cx6 + sofZ 93600 * cx3 * cx3 - sofZ 46800 * cx3 * cx4 + sofZ 3600 * cx3 * cx5 + sofZ 3600 * cx4 * cx4 + sofZ 7560 * cy0 * cy0 - sofZ 60480 * cy0 * cy1 + sofZ 95760 * cy0 * cy2 - sofZ 75600 * cy0 * cy3 + sofZ 30600 * cy0 * cy4 - sofZ 5760 * cy0 * cy5 + sofZ 360 * cy0 * cy6 + sofZ 115920 * cy1 * cy1 - sofZ 347760 * cy1 * cy2 + sofZ 255600 * cy1 * cy3 - sofZ 93600 * cy1 * cy4 + sofZ 15120 * cy1 * cy5 - sofZ 720 * cy1 * cy6 + sofZ 243000 * cy2 * cy2 - sofZ 324000 * cy2 * cy3 + sofZ 102600 * cy2 * cy4 - sofZ 12960 * cy2 * cy5 + sofZ 360 * cy2 * cy6 + sofZ 93600 * cy3 * cy3 - sofZ 46800 * cy3 * cy4 + sofZ 3600 * cy3 * cy5 + sofZ 3600 * cy4 * cy4;
     - sofZ 4320 * cx0 * cx0 + sofZ 38880 * cx0 * cx1 - sofZ 70560 * cx0 * cx2 + sofZ 65520 * cx0 * cx3 - sofZ 32400 * cx0 * cx4 + sofZ 7920 * cx0 * cx5 - sofZ 720 * cx0 * cx6 - sofZ 84960 * cx1 * cx1 + sofZ 297360 * cx1 * cx2 - sofZ 263520 * cx1 * cx3 + sofZ 122400 * cx1 * cx4 - sofZ 27360 * cx1 * cx5 + sofZ 2160 * cx1 * cx6 - sofZ 248400 * cx2 * cx2 + sofZ 414000 * cx2 * cx3 - sofZ 176400 * cx2 * cx4 + sofZ 34560 * cx2 * cx5 - sofZ 2160 * cx2 * cx6 - sofZ 158400 * cx3 * cx3 + sofZ 118800 * cx3 * cx4 - sofZ 18720 * cx3 * cx5 + sofZ 720 * cx3 * cx6 - sofZ 18000 * cx4 * cx4 + sofZ 3600 * cx4 * cx5 - sofZ 4320 * cy0 * cy0 + sofZ 38880 * cy0 * cy1 - sofZ 70560 * cy0 * cy2 + sofZ 65520 * cy0 * cy3 - sofZ 32400 * cy0 * cy4 + sofZ 7920 * cy0 * cy5 - sofZ 720 * cy0 * cy6 - sofZ 84960 * cy1 * cy1 + sofZ 297360 * cy1 * cy2 - sofZ 263520 * cy1 * cy3 + sofZ 122400 * cy1 * cy4 - sofZ 27360 * cy1 * cy5 + sofZ 2160 * cy1 * cy6 - sofZ 248400 * cy2 * cy2 + sofZ 414000 * cy2 * cy3 - sofZ 176400 * cy2 * cy4 + sofZ 34560 * cy2 * cy5 - sofZ 2160 * cy2 * cy6 - sofZ 158400 * cy3 * cy3 + sofZ 118800 * cy3 * cy4 - sofZ 18720 * cy3 * cy5 + sofZ 720 * cy3 * cy6 - sofZ 18000 * cy4 * cy4 + sofZ 3600 * cy4 * cy5;
     sofZ 1620 * cx0 * cx0 - sofZ 16200 * cx0 * cx1 + sofZ 33120 * cx0 * cx2 - sofZ 35280 * cx0 * cx3 + sofZ 20520 * cx0 * cx4 - sofZ 6120 * cx0 * cx5 + sofZ 720 * cx0 * cx6 + sofZ 39780 * cx1 * cx1 - sofZ 159120 * cx1 * cx2 + sofZ 164880 * cx1 * cx3 - sofZ 92520 * cx1 * cx4 + sofZ 26280 * cx1 * cx5 - sofZ 2880 * cx1 * cx6 + sofZ 154800 * cx2 * cx2 - sofZ 309600 * cx2 * cx3 + sofZ 165600 * cx2 * cx4 - sofZ 43920 * cx2 * cx5 + sofZ 4320 * cx2 * cx6 + sofZ 147600 * cx3 * cx3 - sofZ 147600 * cx3 * cx4 + sofZ 35280 * cx3 * cx5 - sofZ 2880 * cx3 * cx6 + sofZ 33300 * cx4 * cx4 - sofZ 13320 * cx4 * cx5 + sofZ 720 * cx4 * cx6 + sofZ 900 * cx5 * cx5 + sofZ 1620 * cy0 * cy0 - sofZ 16200 * cy0 * cy1 + sofZ 33120 * cy0 * cy2 - sofZ 35280 * cy0 * cy3 + sofZ 20520 * cy0 * cy4 - sofZ 6120 * cy0 * cy5 + sofZ 720 * cy0 * cy6 + sofZ 39780 * cy1 * cy1 - sofZ 159120 * cy1 * cy2 + sofZ 164880 * cy1 * cy3 - sofZ 92520 * cy1 * cy4 + sofZ 26280 * cy1 * cy5 - sofZ 2880 * cy1 * cy6 + sofZ 154800 * cy2 * cy2 - sofZ 309600 * cy2 * cy3 + sofZ 165600 * cy2 * cy4 - sofZ 43920 * cy2 * cy5 + sofZ 4320 * cy2 * cy6 + sofZ 147600 * cy3 * cy3 - sofZ 147600 * cy3 * cy4 + sofZ 35280 * cy3 * cy5 - sofZ 2880 * cy3 * cy6 + sofZ 33300 * cy4 * cy4 - sofZ 13320 * cy4 * cy5 + sofZ 720 * cy4 * cy6 + sofZ 900 * cy5 * cy5;
     - sofZ 360 * cx0 * cx0 + sofZ 3960 * cx0 * cx1 - sofZ 9000 * cx0 * cx2 + sofZ 10800 * cx0 * cx3 - sofZ 7200 * cx0 * cx4 + sofZ 2520 * cx0 * cx5 - sofZ 360 * cx0 * cx6 - sofZ 10800 * cx1 * cx1 + sofZ 48600 * cx1 * cx2 - sofZ 57600 * cx1 * cx3 + sofZ 37800 * cx1 * cx4 - sofZ 12960 * cx1 * cx5 + sofZ 1800 * cx1 * cx6 - sofZ 54000 * cx2 * cx2 + sofZ 126000 * cx2 * cx3 - sofZ 81000 * cx2 * cx4 + sofZ 27000 * cx2 * cx5 - sofZ 3600 * cx2 * cx6 - sofZ 72000 * cx3 * cx3 + sofZ 90000 * cx3 * cx4 - sofZ 28800 * cx3 * cx5 + sofZ 3600 * cx3 * cx6 - sofZ 27000 * cx4 * cx4 + sofZ 16200 * cx4 * cx5 - sofZ 1800 * cx4 * cx6 - sofZ 2160 * cx5 * cx5 + sofZ 360 * cx5 * cx6 - sofZ 360 * cy0 * cy0 + sofZ 3960 * cy0 * cy1 - sofZ 9000 * cy0 * cy2 + sofZ 10800 * cy0 * cy3 - sofZ 7200 * cy0 * cy4 + sofZ 2520 * cy0 * cy5 - sofZ 360 * cy0 * cy6 - sofZ 10800 * cy1 * cy1 + sofZ 48600 * cy1 * cy2 - sofZ 57600 * cy1 * cy3 + sofZ 37800 * cy1 * cy4 - sofZ 12960 * cy1 * cy5 + sofZ 1800 * cy1 * cy6 - sofZ 54000 * cy2 * cy2 + sofZ 126000 * cy2 * cy3 - sofZ 81000 * cy2 * cy4 + sofZ 27000 * cy2 * cy5 - sofZ 3600 * cy2 * cy6 - sofZ 72000 * cy3 * cy3 + sofZ 90000 * cy3 * cy4 - sofZ 28800 * cy3 * cy5 + sofZ 3600 * cy3 * cy6 - sofZ 27000 * cy4 * cy4 + sofZ 16200 * cy4 * cy5 - sofZ 1800 * cy4 * cy6 - sofZ 2160 * cy5 * cy5 + sofZ 360 * cy5 * cy6;
     sofZ 36 * cx0 * cx0 - sofZ 432 * cx0 * cx1 + sofZ 1080 * cx0 * cx2 - sofZ 1440 * cx0 * cx3 + sofZ 1080 * cx0 * cx4 - sofZ 432 * cx0 * cx5 + sofZ 72 * cx0 * cx6 + sofZ 1296 * cx1 * cx1 - sofZ 6480 * cx1 * cx2 + sofZ 8640 * cx1 * cx3 - sofZ 6480 * cx1 * cx4 + sofZ 2592 * cx1 * cx5 - sofZ 432 * cx1 * cx6 + sofZ 8100 * cx2 * cx2 - sofZ 21600 * cx2 * cx3 + sofZ 16200 * cx2 * cx4 - sofZ 6480 * cx2 * cx5 + sofZ 1080 * cx2 * cx6 + sofZ 14400 * cx3 * cx3 - sofZ 21600 * cx3 * cx4 + sofZ 8640 * cx3 * cx5 - sofZ 1440 * cx3 * cx6 + sofZ 8100 * cx4 * cx4 - sofZ 6480 * cx4 * cx5 + sofZ 1080 * cx4 * cx6 + sofZ 1296 * cx5 * cx5 - sofZ 432 * cx5 * cx6 + sofZ 36 * cx6 * cx6 + sofZ 36 * cy0 * cy0 - sofZ 432 * cy0 * cy1 + sofZ 1080 * cy0 * cy2 - sofZ 1440 * cy0 * cy3 + sofZ 1080 * cy0 * cy4 - sofZ 432 * cy0 * cy5 + sofZ 72 * cy0 * cy6 + sofZ 1296 * cy1 * cy1 - sofZ 6480 * cy1 * cy2 + sofZ 8640 * cy1 * cy3 - sofZ 6480 * cy1 * cy4 + sofZ 2592 * cy1 * cy5 - sofZ 432 * cy1 * cy6 + sofZ 8100 * cy2 * cy2 - sofZ 21600 * cy2 * cy3 + sofZ 16200 * cy2 * cy4 - sofZ 6480 * cy2 * cy5 + sofZ 1080 * cy2 * cy6 + sofZ 14400 * cy3 * cy3 - sofZ 21600 * cy3 * cy4 + sofZ 8640 * cy3 * cy5 - sofZ 1440 * cy3 * cy6 + sofZ 8100 * cy4 * cy4 - sofZ 6480 * cy4 * cy5 + sofZ 1080 * cy4 * cy6 + sofZ 1296 * cy5 * cy5 - sofZ 432 * cy5 * cy6 + sofZ 36 * cy6 * cy6].

  (** internal/auto_match_tangent_Bezier.h:18-36 match_tangent_Bezier_degree_2 *)
  Definition tang_2 (cx0 cy0 cx1 cy1 cx2 cy2 tcutxp tcutyp : T) : list T :=
    [- sofZ 2 * cx0 * tcutxp + sofZ 2 * cx1 * tcutxp - sofZ 2 * cy0 * tcutyp + sofZ 2 * cy1 * tcutyp;
     sofZ 2 * cx0 * tcutxp - sofZ 4 * cx1 * tcutxp + sofZ 2 * cx2 * tcutxp + sofZ 2 * cy0 * tcutyp - sofZ 4 * cy1 * tcutyp + sofZ 2 * cy2 * tcutyp].

  (** internal/auto_match_tangent_Bezier.h:40-59 match_tangent_Bezier_degree_3 *)
  Definition tang_3 (cx0 cy0 cx1 cy1 cx2 cy2 cx3 cy3 tcutxp tcutyp : T) : list T :=
    [- sofZ 3 * cx0 * tcutxp + sofZ 3 * cx1 * tcutxp - sofZ 3 * cy0 * tcutyp + sofZ 3 * cy1 * tcutyp;
     sofZ 6 * cx0 * tcutxp - sofZ 12 * cx1 * tcutxp + sofZ 6 * cx2 * tcutxp + sofZ 6 * cy0 * tcutyp - sofZ 12 * cy1 * tcutyp + sofZ 6 * cy2 * tcutyp;
     - sofZ 3 * cx0 * tcutxp + sofZ 9 * cx1 * tcutxp - sofZ 9 * cx2 * tcutxp + sofZ 3 * cx3 * tcutxp - sofZ 3 * cy0 * tcutyp + sofZ 9 * cy1 * tcutyp - sofZ 9 * cy2 * tcutyp + sofZ 3 * cy3 * tcutyp].

  (** internal/auto_match_tangent_Bezier.h:63-83 match_tangent_Bezier_degree_4 *)
  Definition tang_4 (cx0 cy0 cx1 cy1 cx2 cy2 cx3 cy3 cx4 cy4 tcutxp tcutyp : T) : list T :=
    [- sofZ 4 * cx0 * tcutxp + sofZ 4 * cx1 * tcutxp - sofZ 4 * cy0 * tcutyp + sofZ 4 * cy1 * tcutyp;
     sofZ 12 * cx0 * tcutxp - sofZ 24 * cx1 * tcutxp + sofZ 12 * cx2 * tcutxp + sofZ 12 * cy0 * tcutyp - sofZ 24 * cy1 * tcutyp + sofZ 12 * cy2 * tcutyp;
     - sofZ 12 * cx0 * tcutxp + sofZ 36 * cx1 * tcutxp - sofZ 36 * cx2 * tcutxp + sofZ 12 * cx3 * tcutxp - sofZ 12 * cy0 * tcutyp + sofZ 36 * cy1 * tcutyp - sofZ 36 * cy2 * tcutyp + sofZ 12 * cy3 * tcutyp;
     sofZ 4 * cx0 * tcutxp - sofZ 16 * cx1 * tcutxp + sofZ 24 * cx2 * tcutxp - sofZ 16 * cx3 * tcutxp + sofZ 4 * cx4 * tcutxp + sofZ 4 * cy0 * tcutyp - sofZ 16 * cy1 * tcutyp + sofZ 24 * cy2 * tcutyp - sofZ 16 * cy3 * tcutyp + sofZ 4 * cy4 * tcutyp].

  (** internal/auto_match_tangent_Bezier.h:87-108 match_tangent_Bezier_degree_5 *)
  Definition tang_5 (cx0 cy0 cx1 cy1 cx2 cy2 cx3 cy3 cx4 cy4 cx5 cy5 tcutxp tcutyp : T) : list T :=
    [- sofZ 5 * cx0 * tcutxp + sofZ 5 * cx1 * tcutxp - sofZ 5 * cy0 * tcutyp + sofZ 5 * cy1 * tcutyp;
     sofZ 20 * cx0 * tcutxp - sofZ 40 * cx1 * tcutxp + sofZ 20 * cx2 * tcutxp + sofZ 20 * cy0 * tcutyp - sofZ 40 * cy1 * tcutyp + sofZ 20 * cy2 * tcutyp;
     - sofZ 30 * cx0 * tcutxp + sofZ 90 * cx1 * tcutxp - sofZ 90 * cx2 * tcutxp + sofZ 30 * cx3 * tcutxp - sofZ 30 * cy0 * tcutyp + sofZ 90 * cy1 * tcutyp - sofZ 90 * cy2 * tcutyp + sofZ 30 * cy3 * tcutyp;
     sofZ 20 * cx0 * tcutxp - sofZ 80 * cx1 * tcutxp + sofZ 120 * cx2 * tcutxp - sofZ 80 * cx3 * tcutxp + sofZ 20 * cx4 * tcutxp + sofZ 20 * cy0 * tcutyp - sofZ 80 * cy1 * tcutyp + sofZ 120 * cy2 * tcutyp - sofZ 80 * cy3 * tcutyp + sofZ 20 * cy4 * tcutyp;
     - sofZ 5 * cx0 * tcutxp + sofZ 25 * cx1 * tcutxp - sofZ 50 * cx2 * tcutxp + sofZ 50 * cx3 * tcutxp - sofZ 25 * cx4 * tcutxp + sofZ 5 * cx5 * tcutxp - sofZ 5 * cy0 * tcutyp + sofZ 25 * cy1 * tcutyp - sofZ 50 * cy2 * tcutyp + sofZ 50 * cy3 * tcutyp - sofZ 25 * cy4 * tcutyp + sofZ 5 * cy5 * tcutyp].

  (** internal/auto_match_tangent_Bezier.h:112-134 match_tangent_Bezier_degree_6 *)
  Definition tang_6 (cx0 cy0 cx1 cy1 cx2 cy2 cx3 cy3 cx4 cy4 cx5 cy5 cx6 cy6 tcutxp tcutyp : T) : list T :=
    [- sofZ 6 * cx0 * tcutxp + sofZ 6 * cx1 * tcutxp - sofZ 6 * cy0 * tcutyp + sofZ 6 * cy1 * tcutyp;
     sofZ 30 * cx0 * tcutxp - sofZ 60 * cx1 * tcutxp + sofZ 30 * cx2 * tcutxp + sofZ 30 * cy0 * tcutyp - sofZ 60 * cy1 * tcutyp + sofZ 30 * cy2 * tcutyp;
     - sofZ 60 * cx0 * tcutxp + sofZ 180 * cx1 * tcutxp - sofZ 180 * cx2 * tcutxp + sofZ 60 * cx3 * tcutxp - sofZ 60 * cy0 * tcutyp + sofZ 180 * cy1 * tcutyp - sofZ 180 * cy2 * tcutyp + sofZ 60 * cy3 * tcutyp;
     sofZ 60 * cx0 * tcutxp - sofZ 240 * cx1 * tcutxp + sofZ 360 * cx2 * tcutxp - sofZ 240 * cx3 * tcutxp + sofZ 60 * cx4 * tcutxp + sofZ 60 * cy0 * tcutyp - sofZ 240 * cy1 * tcutyp + sofZ 360 * cy2 * tcutyp - sofZ 240 * cy3 * tcutyp + sofZ 60 * cy4 * tcutyp;
     - sofZ 30 * cx0 * tcutxp + sofZ 150 * cx1 * tcutxp - sofZ 300 * cx2 * tcutxp + sofZ 300 * cx3 * tcutxp - sofZ 150 * cx4 * tcutxp + sofZ 30 * cx5 * tcutxp - sofZ 30 * cy0 * tcutyp + sofZ 150 * cy1 * tcutyp - sofZ 300 * cy2 * tcutyp + sofZ 300 * cy3 * tcutyp - sofZ 150 * cy4 * tcutyp + sofZ 30 * cy5 * tcutyp;
     sofZ 6 * cx0 * tcutxp - sofZ 36 * cx1 * tcutxp + sofZ 90 * cx2 * tcutxp - sofZ 120 * cx3 * tcutxp + sofZ 90 * cx4 * tcutxp - sofZ 36 * cx5 * tcutxp + sofZ 6 * cx6 * tcutxp + sofZ 6 * cy0 * tcutyp - sofZ 36 * cy1 * tcutyp + sofZ 90 * cy2 * tcutyp - sofZ 120 * cy3 * tcutyp + sofZ 90 * cy4 * tcutyp - sofZ 36 * cy5 * tcutyp + sofZ 6 * cy6 * tcutyp].

  (** internal/auto_match_tangent_Bezier.h:138-161 match_tangent_Bezier_degree_7 *)
  Definition tang_7 (cx0 cy0 cx1 cy1 cx2 cy2 cx3 cy3 cx4 cy4 cx5 cy5 cx6 cy6 cx7 cy7 tcutxp tcutyp : T) : list T :=
    [- sofZ 7 * cx0 * tcutxp + sofZ 7 * cx1 * tcutxp - sofZ 7 * cy0 * tcutyp + sofZ 7 * cy1 * tcutyp;
     sofZ 42 * cx0 * tcutxp - sofZ 84 * cx1 * tcutxp + sofZ 42 * cx2 * tcutxp + sofZ 42 * cy0 * tcutyp - sofZ 84 * cy1 * tcutyp + sofZ 42 * cy2 * tcutyp;
     - sofZ 105 * cx0 * tcutxp + sofZ 315 * cx1 * tcutxp - sofZ 315 * cx2 * tcutxp + sofZ 105 * cx3 * tcutxp - sofZ 105 * cy0 * tcutyp + sofZ 315 * cy1 * tcutyp - sofZ 315 * cy2 * tcutyp + sofZ 105 * cy3 * tcutyp;
     sofZ 140 * cx0 * tcutxp - sofZ 560 * cx1 * tcutxp + sofZ 840 * cx2 * tcutxp - sofZ 560 * cx3 * tcutxp + sofZ 140 * cx4 * tcutxp + sofZ 140 * cy0 * tcutyp - sofZ 560 * cy1 * tcutyp + sofZ 840 * cy2 * tcutyp - sofZ 560 * cy3 * tcutyp + sofZ 140 * cy4 * tcutyp;
     - sofZ 105 * cx0 * tcutxp + sofZ 525 * cx1 * tcutxp - sofZ 1050 * cx2 * tcutxp + sofZ 1050 * cx3 * tcutxp - sofZ 525 * cx4 * tcutxp + sofZ 105 * cx5 * tcutxp - sofZ 105 * cy0 * tcutyp + sofZ 525 * cy1 * tcutyp - sofZ 1050 * cy2 * tcutyp + sofZ 1050 * cy3 * tcutyp - sofZ 525 * cy4 * tcutyp + sofZ 105 * cy5 * tcutyp;
     sofZ 42 * cx0 * tcutxp - sofZ 252 * cx1 * tcutxp + sofZ 630 * cx2 * tcutxp - sofZ 840 * cx3 * tcutxp + sofZ 630 * cx4 * tcutxp - sofZ 252 * cx5 * tcutxp + sofZ 42 * cx6 * tcutxp + sofZ 42 * cy0 * tcutyp - sofZ 252 * cy1 * tcutyp + sofZ 630 * cy2 * tcutyp - sofZ 840 * cy3 * tcutyp + sofZ 630 * cy4 * tcutyp - sofZ 252 * cy5 * tcutyp + sofZ 42 * cy6 * tcutyp;
     - sofZ 7 * cx0 * tcutxp + sofZ 49 * cx1 * tcutxp - sofZ 147 * cx2 * tcutxp + sofZ 245 * cx3 * tcutxp - sofZ 245 * cx4 * tcutxp + sofZ 147 * cx5 * tcutxp - sofZ 49 * cx6 * tcutxp + sofZ 7 * cx7 * tcutxp - sofZ 7 * cy0 * tcutyp + sofZ 49 * cy1 * tcutyp - sofZ 147 * cy2 * tcutyp + sofZ 245 * cy3 * tcutyp - sofZ 245 * cy4 * tcutyp + sofZ 147 * cy5 * tcutyp - sofZ 49 * cy6 * tcutyp + sofZ 7 * cy7 * tcutyp].

  (** internal/auto_match_tangent_Bezier.h:165-189 match_tangent_Bezier_degree_8 *)
  Definition tang_8 (cx0 cy0 cx1 cy1 cx2 cy2 cx3 cy3 cx4 cy4 cx5 cy5 cx6 cy6 cx7 cy7 cx8 cy8 tcutxp tcutyp : T) : list T :=
    [- sofZ 8 * cx0 * tcutxp + sofZ 8 * cx1 * tcutxp - sofZ 8 * cy0 * tcutyp + sofZ 8 * cy1 * tcutyp;
     sofZ 56 * cx0 * tcutxp - sofZ 112 * cx1 * tcutxp + sofZ 56 * cx2 * tcutxp + sofZ 56 * cy0 * tcutyp - sofZ 112 * cy1 * tcutyp + sofZ 56 * cy2 * tcutyp;
     - sofZ 168 * cx0 * tcutxp + sofZ 504 * cx1 * tcutxp - sofZ 504 * cx2 * tcutxp + sofZ 168 * cx3 * tcutxp - sofZ 168 * cy0 * tcutyp + sofZ 504 * cy1 * tcutyp - sofZ 504 * cy2 * tcutyp + sofZ 168 * cy3 * tcutyp;
     sofZ 280 * cx0 * tcutxp - sofZ 1120 * cx1 * tcutxp + sofZ 1680 * cx2 * tcutxp - sofZ 1120 * cx3 * tcutxp + sofZ 280 * cx4 * tcutxp + sofZ 280 * cy0 * tcutyp - sofZ 1120 * cy1 * tcutyp + sofZ 1680 * cy2 * tcutyp - sofZ 1120 * cy3 * tcutyp + sofZ 280 * cy4 * tcutyp;
     - sofZ 280 * cx0 * tcutxp + sofZ 1400 * cx1 * tcutxp - sofZ 2800 * cx2 * tcutxp + sofZ 2800 * cx3 * tcutxp - sofZ 1400 * cx4 * tcutxp + sofZ 280 * cx5 * tcutxp - sofZ 280 * cy0 * tcutyp + sofZ 1400 * cy1 * tcutyp - sofZ 2800 * cy2 * tcutyp + sofZ 2800 * cy3 * tcutyp - sofZ 1400 * cy4 * tcutyp + sofZ 280 * cy5 * tcutyp;
     sofZ 168 * cx0 * tcutxp - sofZ 1008 * cx1 * tcutxp + sofZ 2520 * cx2 * tcutxp - sofZ 3360 * cx3 * tcutxp + sofZ 2520 * cx4 * tcutxp - sofZ 1008 * cx5 * tcutxp + sofZ 168 * cx6 * tcutxp + sofZ 168 * cy0 * tcutyp - sofZ 1008 * cy1 * tcutyp + sofZ 2520 * cy2 * tcutyp - sofZ 3360 * cy3 * tcutyp + sofZ 2520 * cy4 * tcutyp - sofZ 1008 * cy5 * tcutyp + sofZ 168 * cy6 * tcutyp;
     - sofZ 56 * cx0 * tcutxp + sofZ 392 * cx1 * tcutxp - sofZ 1176 * cx2 * tcutxp + sofZ 1960 * cx3 * tcutxp - sofZ 1960 * cx4 * tcutxp + sofZ 1176 * cx5 * tcutxp - sofZ 392 * cx6 * tcutxp + sofZ 56 * cx7 * tcutxp - sofZ 56 * cy0 * tcutyp + sofZ 392 * cy1 * tcutyp - sofZ 1176 * cy2 * tcutyp + sofZ 1960 * cy3 * tcutyp - sofZ 1960 * cy4 * tcutyp + sofZ 1176 * cy5 * tcutyp - sofZ 392 * cy6 * tcutyp + sofZ 56 * cy7 * tcutyp;
     sofZ 8 * cx0 * tcutxp - sofZ 64 * cx1 * tcutxp + sofZ 224 * cx2 * tcutxp - sofZ 448 * cx3 * tcutxp + sofZ 560 * cx4 * tcutxp - sofZ 448 * cx5 * tcutxp + sofZ 224 * cx6 * tcutxp - sofZ 64 * cx7 * tcutxp + sofZ 8 * cx8 * tcutxp + sofZ 8 * cy0 * tcutyp - sofZ 64 * cy1 * tcutyp + sofZ 224 * cy2 * tcutyp - sofZ 448 * cy3 * tcutyp + sofZ 560 * cy4 * tcutyp - sofZ 448 * cy5 * tcutyp + sofZ 224 * cy6 * tcutyp - sofZ 64 * cy7 * tcutyp + sofZ 8 * cy8 * tcutyp].

  (** internal/auto_match_tangent_Bezier.h:193-218 match_tangent_Bezier_degree_9 *)
  Definition tang_9 (cx0 cy0 cx1 cy1 cx2 cy2 cx3 cy3 cx4 cy4 cx5 cy5 cx6 cy6 cx7 cy7 cx8 cy8 cx9 cy9 tcutxp tcutyp : T) : list T :=
    [- sofZ 9 * cx0 * tcutxp + sofZ 9 * cx1 * tcutxp - sofZ 9 * cy0 * tcutyp + sofZ 9 * cy1 * tcutyp;
     sofZ 72 * cx0 * tcutxp - sofZ 144 * cx1 * tcutxp + sofZ 72 * cx2 * tcutxp + sofZ 72 * cy0 * tcutyp - sofZ 144 * cy1 * tcutyp + sofZ 72 * cy2 * tcutyp;
     - sofZ 252 * cx0 * tcutxp + sofZ 756 * cx1 * tcutxp - sofZ 756 * cx2 * tcutxp + sofZ 252 * cx3 * tcutxp - sofZ 252 * cy0 * tcutyp + sofZ 756 * cy1 * tcutyp - sofZ 756 * cy2 * tcutyp + sofZ 252 * cy3 * tcutyp;
     sofZ 504 * cx0 * tcutxp - sofZ 2016 * cx1 * tcutxp + sofZ 3024 * cx2 * tcutxp - sofZ 2016 * cx3 * tcutxp + sofZ 504 * cx4 * tcutxp + sofZ 504 * cy0 * tcutyp - sofZ 2016 * cy1 * tcutyp + sofZ 3024 * cy2 * tcutyp - sofZ 2016 * cy3 * tcutyp + sofZ 504 * cy4 * tcutyp;
     - sofZ 630 * cx0 * tcutxp + sofZ 3150 * cx1 * tcutxp - sofZ 6300 * cx2 * tcutxp + sofZ 6300 * cx3 * tcutxp - sofZ 3150 * cx4 * tcutxp + sofZ 630 * cx5 * tcutxp - sofZ 630 * cy0 * tcutyp + sofZ 3150 * cy1 * tcutyp - sofZ 6300 * cy2 * tcutyp + sofZ 6300 * cy3 * tcutyp - sofZ 3150 * cy4 * tcutyp + sofZ 630 * cy5 * tcutyp;
     sofZ 504 * cx0 * tcutxp - sofZ 3024 * cx1 * tcutxp + sofZ 7560 * cx2 * tcutxp - sofZ 10080 * cx3 * tcutxp + sofZ 7560 * cx4 * tcutxp - sofZ 3024 * cx5 * tcutxp + sofZ 504 * cx6 * tcutxp + sofZ 504 * cy0 * tcutyp - sofZ 3024 * cy1 * tcutyp + sofZ 7560 * cy2 * tcutyp - sofZ 10080 * cy3 * tcutyp + sofZ 7560 * cy4 * tcutyp - sofZ 3024 * cy5 * tcutyp + sofZ 504 * cy6 * tcutyp;
     - sofZ 252 * cx0 * tcutxp + sofZ 1764 * cx1 * tcutxp - sofZ 5292 * cx2 * tcutxp + sofZ 8820 * cx3 * tcutxp - sofZ 8820 * cx4 * tcutxp + sofZ 5292 * cx5 * tcutxp - sofZ 1764 * cx6 * tcutxp + sofZ 252 * cx7 * tcutxp - sofZ 252 * cy0 * tcutyp + sofZ 1764 * cy1 * tcutyp - sofZ 5292 * cy2 * tcutyp + sofZ 8820 * cy3 * tcutyp - sofZ 8820 * cy4 * tcutyp + sofZ 5292 * cy5 * tcutyp - sofZ 1764 * cy6 * tcutyp + sofZ 252 * cy7 * tcutyp;
     sofZ 72 * cx0 * tcutxp - sofZ 576 * cx1 * tcutxp + sofZ 2016 * cx2 * tcutxp - sofZ 4032 * cx3 * tcutxp + sofZ 5040 * cx4 * tcutxp - sofZ 4032 * cx5 * tcutxp + sofZ 2016 * cx6 * tcutxp - sofZ 576 * cx7 * tcutxp + sofZ 72 * cx8 * tcutxp + sofZ 72 * cy0 * tcutyp - sofZ 576 * cy1 * tcutyp + sofZ 2016 * cy2 * tcutyp - sofZ 4032 * cy3 * tcutyp + sofZ 5040 * cy4 * tcutyp - sofZ 4032 * cy5 * tcutyp + sofZ 2016 * cy6 * tcutyp - sofZ 576 * cy7 * tcutyp + sofZ 72 * cy8 * tcutyp;
     - sofZ 9 * cx0 * tcutxp + sofZ 81 * cx1 * tcutxp - sofZ 324 * cx2 * tcutxp + sofZ 756 * cx3 * tcutxp - sofZ 1134 * cx4 * tcutxp + sofZ 1134 * cx5 * tcutxp - sofZ 756 * cx6 * tcutxp + sofZ 324 * cx7 * tcutxp - sofZ 81 * cx8 * tcutxp + sofZ 9 * cx9 * tcutxp - sofZ 9 * cy0 * tcutyp + sofZ 81 * cy1 * tcutyp - sofZ 324 * cy2 * tcutyp + sofZ 756 * cy3 * tcutyp - sofZ 1134 * cy4 * tcutyp + sofZ 1134 * cy5 * tcutyp - sofZ 756 * cy6 * tcutyp + sofZ 324 * cy7 * tcutyp - sofZ 81 * cy8 * tcutyp + sofZ 9 * cy9 * tcutyp].

  (** internal/auto_match_tangent_Bezier.h:222-248 match_tangent_Bezier_degree_10 *)
  Definition tang_10 (cx0 cy0 cx1 cy1 cx2 cy2 cx3 cy3 cx4 cy4 cx5 cy5 cx6 cy6 cx7 cy7 cx8 cy8 cx9 cy9 cx10 cy10 tcutxp tcutyp : T) : list T :=
    [- sofZ 10 * cx0 * tcutxp + sofZ 10 * cx1 * tcutxp - sofZ 10 * cy0 * tcutyp + sofZ 10 * cy1 * tcutyp;
     sofZ 90 * cx0 * tcutxp - sofZ 180 * cx1 * tcutxp + sofZ 90 * cx2 * tcutxp + sofZ 90 * cy0 * tcutyp - sofZ 180 * cy1 * tcutyp + sofZ 90 * cy2 * tcutyp;
     - sofZ 360 * cx0 * tcutxp + sofZ 1080 * cx1 * tcutxp - sofZ 1080 * cx2 * tcutxp + sofZ 360 * cx3 * tcutxp - sofZ 360 * cy0 * tcutyp + sofZ 1080 * cy1 * tcutyp - sofZ 1080 * cy2 * tcutyp + sofZ 360 * cy3 * tcutyp;
     sofZ 840 * cx0 * tcutxp - sofZ 3360 * cx1 * tcutxp + sofZ 5040 * cx2 * tcutxp - sofZ 3360 * cx3 * tcutxp + sofZ 840 * cx4 * tcutxp + sofZ 840 * cy0 * tcutyp - sofZ 3360 * cy1 * tcutyp + sofZ 5040 * cy2 * tcutyp - sofZ 3360 * cy3 * tcutyp + sofZ 840 * cy4 * tcutyp;
     - sofZ 1260 * cx0 * tcutxp + sofZ 6300 * cx1 * tcutxp - sofZ 12600 * cx2 * tcutxp + sofZ 12600 * cx3 * tcutxp - sofZ 6300 * cx4 * tcutxp + sofZ 1260 * cx5 * tcutxp - sofZ 1260 * cy0 * tcutyp + sofZ 6300 * cy1 * tcutyp - sofZ 12600 * cy2 * tcutyp + sofZ 12600 * cy3 * tcutyp - sofZ 6300 * cy4 * tcutyp + sofZ 1260 * cy5 * tcutyp;
     sofZ 1260 * cx0 * tcutxp - sofZ 7560 * cx1 * tcutxp + sofZ 18900 * cx2 * tcutxp - sofZ 25200 * cx3 * tcutxp + sofZ 18900 * cx4 * tcutxp - sofZ 7560 * cx5 * tcutxp + sofZ 1260 * cx6 * tcutxp + sofZ 1260 * cy0 * tcutyp - sofZ 7560 * cy1 * tcutyp + sofZ 18900 * cy2 * tcutyp - sofZ 25200 * cy3 * tcutyp + sofZ 18900 * cy4 * tcutyp - sofZ 7560 * cy5 * tcutyp + sofZ 1260 * cy6 * tcutyp;
     - sofZ 840 * cx0 * tcutxp + sofZ 5880 * cx1 * tcutxp - sofZ 17640 * cx2 * tcutxp + sofZ 29400 * cx3 * tcutxp - sofZ 29400 * cx4 * tcutxp + sofZ 17640 * cx5 * tcutxp - sofZ 5880 * cx6 * tcutxp + sofZ 840 * cx7 * tcutxp - sofZ 840 * cy0 * tcutyp + sofZ 5880 * cy1 * tcutyp - sofZ 17640 * cy2 * tcutyp + sofZ 29400 * cy3 * tcutyp - sofZ 29400 * cy4 * tcutyp + sofZ 17640 * cy5 * tcutyp - sofZ 5880 * cy6 * tcutyp + sofZ 840 * cy7 * tcutyp;
     sofZ 360 * cx0 * tcutxp - sofZ 2880 * cx1 * tcutxp + sofZ 10080 * cx2 * tcutxp - sofZ 20160 * cx3 * tcutxp + sofZ 25200 * cx4 * tcutxp - sofZ 20160 * cx5 * tcutxp + sofZ 10080 * cx6 * tcutxp - sofZ 2880 * cx7 * tcutxp + sofZ 360 * cx8 * tcutxp + sofZ 360 * cy0 * tcutyp - sofZ 2880 * cy1 * tcutyp + sofZ 10080 * cy2 * tcutyp - sofZ 20160 * cy3 * tcutyp + sofZ 25200 * cy4 * tcutyp - sofZ 20160 * cy5 * tcutyp + sofZ 10080 * cy6 * tcutyp - sofZ 2880 * cy7 * tcutyp + sofZ 360 * cy8 * tcutyp;
     - sofZ 90 * cx0 * tcutxp + sofZ 810 * cx1 * tcutxp - sofZ 3240 * cx2 * tcutxp + sofZ 7560 * cx3 * tcutxp - sofZ 11340 * cx4 * tcutxp + sofZ 11340 * cx5 * tcutxp - sofZ 7560 * cx6 * tcutxp + sofZ 3240 * cx7 * tcutxp - sofZ 810 * cx8 * tcutxp + sofZ 90 * cx9 * tcutxp - sofZ 90 * cy0 * tcutyp + sofZ 810 * cy1 * tcutyp - sofZ 3240 * cy2 * tcutyp + sofZ 7560 * cy3 * tcutyp - sofZ 11340 * cy4 * tcutyp + sofZ 11340 * cy5 * tcutyp - sofZ 7560 * cy6 * tcutyp + sofZ 3240 * cy7 * tcutyp - sofZ 810 * cy8 * tcutyp + sofZ 90 * cy9 * tcutyp;
     sofZ 10 * cx0 * tcutxp - sofZ 100 * cx1 * tcutxp + sofZ 10 * cx10 * tcutxp + sofZ 450 * cx2 * tcutxp - sofZ 1200 * cx3 * tcutxp + sofZ 2100 * cx4 * tcutxp - sofZ 2520 * cx5 * tcutxp + sofZ 2100 * cx6 * tcutxp - sofZ 1200 * cx7 * tcutxp + sofZ 450 * cx8 * tcutxp - sofZ 100 * cx9 * tcutxp + sofZ 10 * cy0 * tcutyp - sofZ 100 * cy1 * tcutyp + sofZ 10 * cy10 * tcutyp + sofZ 450 * cy2 * tcutyp - sofZ 1200 * cy3 * tcutyp + sofZ 2100 * cy4 * tcutyp - sofZ 2520 * cy5 * tcutyp + sofZ 2100 * cy6 * tcutyp - sofZ 1200 * cy7 * tcutyp + sofZ 450 * cy8 * tcutyp - sofZ 100 * cy9 * tcutyp].
End Auto.
