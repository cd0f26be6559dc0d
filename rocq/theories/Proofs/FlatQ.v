(** * Quintic polynomials whose second derivatives vanish at the points of the degree 5 rule are affine (C123).
    The coefficients in this file are the left inverse of the 21 x 18 matrix of the second derivatives at the seven points. *)
From Coq Require Import Reals Lra List.
Local Open Scope R_scope.
Import ListNotations.

Definition hxx (g20 g11 g02 g30 g21 g12 g03 g40 g31 g22 g13 g04 g50 g41 g32 g23 g14 g05 u v : R) : R := 2 * g20 * u ^ 0 * v ^ 0 + 6 * g30 * u ^ 1 * v ^ 0 + 2 * g21 * u ^ 0 * v ^ 1 + 12 * g40 * u ^ 2 * v ^ 0 + 6 * g31 * u ^ 1 * v ^ 1 + 2 * g22 * u ^ 0 * v ^ 2 + 20 * g50 * u ^ 3 * v ^ 0 + 12 * g41 * u ^ 2 * v ^ 1 + 6 * g32 * u ^ 1 * v ^ 2 + 2 * g23 * u ^ 0 * v ^ 3.
Definition hxy (g20 g11 g02 g30 g21 g12 g03 g40 g31 g22 g13 g04 g50 g41 g32 g23 g14 g05 u v : R) : R := 1 * g11 * u ^ 0 * v ^ 0 + 2 * g21 * u ^ 1 * v ^ 0 + 2 * g12 * u ^ 0 * v ^ 1 + 3 * g31 * u ^ 2 * v ^ 0 + 4 * g22 * u ^ 1 * v ^ 1 + 3 * g13 * u ^ 0 * v ^ 2 + 4 * g41 * u ^ 3 * v ^ 0 + 6 * g32 * u ^ 2 * v ^ 1 + 6 * g23 * u ^ 1 * v ^ 2 + 4 * g14 * u ^ 0 * v ^ 3.
Definition hyy (g20 g11 g02 g30 g21 g12 g03 g40 g31 g22 g13 g04 g50 g41 g32 g23 g14 g05 u v : R) : R := 2 * g02 * u ^ 0 * v ^ 0 + 2 * g12 * u ^ 1 * v ^ 0 + 6 * g03 * u ^ 0 * v ^ 1 + 2 * g22 * u ^ 2 * v ^ 0 + 6 * g13 * u ^ 1 * v ^ 1 + 12 * g04 * u ^ 0 * v ^ 2 + 2 * g32 * u ^ 3 * v ^ 0 + 6 * g23 * u ^ 2 * v ^ 1 + 12 * g14 * u ^ 1 * v ^ 2 + 20 * g05 * u ^ 0 * v ^ 3.
Definition e0 (g20 g11 g02 g30 g21 g12 g03 g40 g31 g22 g13 g04 g50 g41 g32 g23 g14 g05 : R) : R := 54 * g20 + 108 * g30 + 18 * g21 + 144 * g40 + 36 * g31 + 6 * g22 + 160 * g50 + 48 * g41 + 12 * g32 + 2 * g23.
Lemma p0 g20 g11 g02 g30 g21 g12 g03 g40 g31 g22 g13 g04 g50 g41 g32 g23 g14 g05 : hxx g20 g11 g02 g30 g21 g12 g03 g40 g31 g22 g13 g04 g50 g41 g32 g23 g14 g05 (2 / 3) (1 / 3) = 0 -> e0 g20 g11 g02 g30 g21 g12 g03 g40 g31 g22 g13 g04 g50 g41 g32 g23 g14 g05 = 0.
Proof. intros H. replace (e0 g20 g11 g02 g30 g21 g12 g03 g40 g31 g22 g13 g04 g50 g41 g32 g23 g14 g05) with (3 ^ 3 * hxx g20 g11 g02 g30 g21 g12 g03 g40 g31 g22 g13 g04 g50 g41 g32 g23 g14 g05 (2 / 3) (1 / 3)) by (unfold e0, hxx; field). rewrite H. ring. Qed.
Definition e1 (g20 g11 g02 g30 g21 g12 g03 g40 g31 g22 g13 g04 g50 g41 g32 g23 g14 g05 : R) : R := 27 * g11 + 36 * g21 + 18 * g12 + 36 * g31 + 24 * g22 + 9 * g13 + 32 * g41 + 24 * g32 + 12 * g23 + 4 * g14.
Lemma p1 g20 g11 g02 g30 g21 g12 g03 g40 g31 g22 g13 g04 g50 g41 g32 g23 g14 g05 : hxy g20 g11 g02 g30 g21 g12 g03 g40 g31 g22 g13 g04 g50 g41 g32 g23 g14 g05 (2 / 3) (1 / 3) = 0 -> e1 g20 g11 g02 g30 g21 g12 g03 g40 g31 g22 g13 g04 g50 g41 g32 g23 g14 g05 = 0.
Proof. intros H. replace (e1 g20 g11 g02 g30 g21 g12 g03 g40 g31 g22 g13 g04 g50 g41 g32 g23 g14 g05) with (3 ^ 3 * hxy g20 g11 g02 g30 g21 g12 g03 g40 g31 g22 g13 g04 g50 g41 g32 g23 g14 g05 (2 / 3) (1 / 3)) by (unfold e1, hxy; field). rewrite H. ring. Qed.
Definition e2 (g20 g11 g02 g30 g21 g12 g03 g40 g31 g22 g13 g04 g50 g41 g32 g23 g14 g05 : R) : R := 54 * g02 + 36 * g12 + 54 * g03 + 24 * g22 + 36 * g13 + 36 * g04 + 16 * g32 + 24 * g23 + 24 * g14 + 20 * g05.
Lemma p2 g20 g11 g02 g30 g21 g12 g03 g40 g31 g22 g13 g04 g50 g41 g32 g23 g14 g05 : hyy g20 g11 g02 g30 g21 g12 g03 g40 g31 g22 g13 g04 g50 g41 g32 g23 g14 g05 (2 / 3) (1 / 3) = 0 -> e2 g20 g11 g02 g30 g21 g12 g03 g40 g31 g22 g13 g04 g50 g41 g32 g23 g14 g05 = 0.
Proof. intros H. replace (e2 g20 g11 g02 g30 g21 g12 g03 g40 g31 g22 g13 g04 g50 g41 g32 g23 g14 g05) with (3 ^ 3 * hyy g20 g11 g02 g30 g21 g12 g03 g40 g31 g22 g13 g04 g50 g41 g32 g23 g14 g05 (2 / 3) (1 / 3)) by (unfold e2, hyy; field). rewrite H. ring. Qed.
Definition e3 (g20 g11 g02 g30 g21 g12 g03 g40 g31 g22 g13 g04 g50 g41 g32 g23 g14 g05 : R) : R := 2000000000000000000000000000000000000000000000 * g20 + 5641704769261380000000000000000000000000000000 * g30 + 940284128210230000000000000000000000000000000 * g21 + 10609610901168866982036919834800000000000000000 * g40 + 2652402725292216745509229958700000000000000000 * g31 + 442067120882036124251538326450000000000000000 * g22 + 16626747894758867951175512893840739518783340000 * g50 + 4988024368427660385352653868152221855635002000 * g41 + 1247006092106915096338163467038055463908750500 * g32 + 207834348684485849389693911173009243984791750 * g23.
Lemma p3 g20 g11 g02 g30 g21 g12 g03 g40 g31 g22 g13 g04 g50 g41 g32 g23 g14 g05 : hxx g20 g11 g02 g30 g21 g12 g03 g40 g31 g22 g13 g04 g50 g41 g32 g23 g14 g05 (940284128210230 / 1000000000000000) (470142064105115 / 1000000000000000) = 0 -> e3 g20 g11 g02 g30 g21 g12 g03 g40 g31 g22 g13 g04 g50 g41 g32 g23 g14 g05 = 0.
Proof. intros H. replace (e3 g20 g11 g02 g30 g21 g12 g03 g40 g31 g22 g13 g04 g50 g41 g32 g23 g14 g05) with (1000000000000000 ^ 3 * hxx g20 g11 g02 g30 g21 g12 g03 g40 g31 g22 g13 g04 g50 g41 g32 g23 g14 g05 (940284128210230 / 1000000000000000) (470142064105115 / 1000000000000000)) by (unfold e3, hxx; field). rewrite H. ring. Qed.
Definition e4 (g20 g11 g02 g30 g21 g12 g03 g40 g31 g22 g13 g04 g50 g41 g32 g23 g14 g05 : R) : R := 1000000000000000000000000000000000000000000000 * g11 + 1880568256420460000000000000000000000000000000 * g21 + 940284128210230000000000000000000000000000000 * g12 + 2652402725292216745509229958700000000000000000 * g31 + 1768268483528144497006153305800000000000000000 * g22 + 663100681323054186377307489675000000000000000 * g13 + 3325349578951773590235102578768147903756668000 * g41 + 2494012184213830192676326934076110927817501000 * g32 + 1247006092106915096338163467038055463908750500 * g23 + 415668697368971698779387822346018487969583500 * g14.
Lemma p4 g20 g11 g02 g30 g21 g12 g03 g40 g31 g22 g13 g04 g50 g41 g32 g23 g14 g05 : hxy g20 g11 g02 g30 g21 g12 g03 g40 g31 g22 g13 g04 g50 g41 g32 g23 g14 g05 (940284128210230 / 1000000000000000) (470142064105115 / 1000000000000000) = 0 -> e4 g20 g11 g02 g30 g21 g12 g03 g40 g31 g22 g13 g04 g50 g41 g32 g23 g14 g05 = 0.
Proof. intros H. replace (e4 g20 g11 g02 g30 g21 g12 g03 g40 g31 g22 g13 g04 g50 g41 g32 g23 g14 g05) with (1000000000000000 ^ 3 * hxy g20 g11 g02 g30 g21 g12 g03 g40 g31 g22 g13 g04 g50 g41 g32 g23 g14 g05 (940284128210230 / 1000000000000000) (470142064105115 / 1000000000000000)) by (unfold e4, hxy; field). rewrite H. ring. Qed.
Definition e5 (g20 g11 g02 g30 g21 g12 g03 g40 g31 g22 g13 g04 g50 g41 g32 g23 g14 g05 : R) : R := 2000000000000000000000000000000000000000000000 * g02 + 1880568256420460000000000000000000000000000000 * g12 + 2820852384630690000000000000000000000000000000 * g03 + 1768268483528144497006153305800000000000000000 * g22 + 2652402725292216745509229958700000000000000000 * g13 + 2652402725292216745509229958700000000000000000 * g04 + 1662674789475886795117551289384073951878334000 * g32 + 2494012184213830192676326934076110927817501000 * g23 + 2494012184213830192676326934076110927817501000 * g14 + 2078343486844858493896939111730092439847917500 * g05.
Lemma p5 g20 g11 g02 g30 g21 g12 g03 g40 g31 g22 g13 g04 g50 g41 g32 g23 g14 g05 : hyy g20 g11 g02 g30 g21 g12 g03 g40 g31 g22 g13 g04 g50 g41 g32 g23 g14 g05 (940284128210230 / 1000000000000000) (470142064105115 / 1000000000000000) = 0 -> e5 g20 g11 g02 g30 g21 g12 g03 g40 g31 g22 g13 g04 g50 g41 g32 g23 g14 g05 = 0.
Proof. intros H. replace (e5 g20 g11 g02 g30 g21 g12 g03 g40 g31 g22 g13 g04 g50 g41 g32 g23 g14 g05) with (1000000000000000 ^ 3 * hyy g20 g11 g02 g30 g21 g12 g03 g40 g31 g22 g13 g04 g50 g41 g32 g23 g14 g05 (940284128210230 / 1000000000000000) (470142064105115 / 1000000000000000)) by (unfold e5, hyy; field). rewrite H. ring. Qed.
Definition e6 (g20 g11 g02 g30 g21 g12 g03 g40 g31 g22 g13 g04 g50 g41 g32 g23 g14 g05 : R) : R := 2000000000000000000000000000000000000000000000 * g20 + 3179147615369310000000000000000000000000000000 * g30 + 940284128210230000000000000000000000000000000 * g21 + 3368993186769456745509229958700000000000000000 * g40 + 1494651021984581627245385020650000000000000000 * g31 + 442067120882036124251538326450000000000000000 * g22 + 2975146293309325233649210681769907560152082500 * g50 + 1583905410783861605319703549638055463908750500 * g41 + 702698316592650824585533245830972268045624750 * g32 + 207834348684485849389693911173009243984791750 * g23.
Lemma p6 g20 g11 g02 g30 g21 g12 g03 g40 g31 g22 g13 g04 g50 g41 g32 g23 g14 g05 : hxx g20 g11 g02 g30 g21 g12 g03 g40 g31 g22 g13 g04 g50 g41 g32 g23 g14 g05 (529857935894885 / 1000000000000000) (470142064105115 / 1000000000000000) = 0 -> e6 g20 g11 g02 g30 g21 g12 g03 g40 g31 g22 g13 g04 g50 g41 g32 g23 g14 g05 = 0.
Proof. intros H. replace (e6 g20 g11 g02 g30 g21 g12 g03 g40 g31 g22 g13 g04 g50 g41 g32 g23 g14 g05) with (1000000000000000 ^ 3 * hxx g20 g11 g02 g30 g21 g12 g03 g40 g31 g22 g13 g04 g50 g41 g32 g23 g14 g05 (529857935894885 / 1000000000000000) (470142064105115 / 1000000000000000)) by (unfold e6, hxx; field). rewrite H. ring. Qed.
Definition e7 (g20 g11 g02 g30 g21 g12 g03 g40 g31 g22 g13 g04 g50 g41 g32 g23 g14 g05 : R) : R := 1000000000000000000000000000000000000000000000 * g11 + 1059715871789770000000000000000000000000000000 * g21 + 940284128210230000000000000000000000000000000 * g12 + 842248296692364186377307489675000000000000000 * g31 + 996434014656387751496923347100000000000000000 * g22 + 663100681323054186377307489675000000000000000 * g13 + 595029258661865046729842136353981512030416500 * g41 + 791952705391930802659851774819027731954375250 * g32 + 702698316592650824585533245830972268045624750 * g23 + 415668697368971698779387822346018487969583500 * g14.
Lemma p7 g20 g11 g02 g30 g21 g12 g03 g40 g31 g22 g13 g04 g50 g41 g32 g23 g14 g05 : hxy g20 g11 g02 g30 g21 g12 g03 g40 g31 g22 g13 g04 g50 g41 g32 g23 g14 g05 (529857935894885 / 1000000000000000) (470142064105115 / 1000000000000000) = 0 -> e7 g20 g11 g02 g30 g21 g12 g03 g40 g31 g22 g13 g04 g50 g41 g32 g23 g14 g05 = 0.
Proof. intros H. replace (e7 g20 g11 g02 g30 g21 g12 g03 g40 g31 g22 g13 g04 g50 g41 g32 g23 g14 g05) with (1000000000000000 ^ 3 * hxy g20 g11 g02 g30 g21 g12 g03 g40 g31 g22 g13 g04 g50 g41 g32 g23 g14 g05 (529857935894885 / 1000000000000000) (470142064105115 / 1000000000000000)) by (unfold e7, hxy; field). rewrite H. ring. Qed.
Definition e8 (g20 g11 g02 g30 g21 g12 g03 g40 g31 g22 g13 g04 g50 g41 g32 g23 g14 g05 : R) : R := 2000000000000000000000000000000000000000000000 * g02 + 1059715871789770000000000000000000000000000000 * g12 + 2820852384630690000000000000000000000000000000 * g03 + 561498864461576124251538326450000000000000000 * g22 + 1494651021984581627245385020650000000000000000 * g13 + 2652402725292216745509229958700000000000000000 * g04 + 297514629330932523364921068176990756015208250 * g32 + 791952705391930802659851774819027731954375250 * g23 + 1405396633185301649171066491661944536091249500 * g14 + 2078343486844858493896939111730092439847917500 * g05.
Lemma p8 g20 g11 g02 g30 g21 g12 g03 g40 g31 g22 g13 g04 g50 g41 g32 g23 g14 g05 : hyy g20 g11 g02 g30 g21 g12 g03 g40 g31 g22 g13 g04 g50 g41 g32 g23 g14 g05 (529857935894885 / 1000000000000000) (470142064105115 / 1000000000000000) = 0 -> e8 g20 g11 g02 g30 g21 g12 g03 g40 g31 g22 g13 g04 g50 g41 g32 g23 g14 g05 = 0.
Proof. intros H. replace (e8 g20 g11 g02 g30 g21 g12 g03 g40 g31 g22 g13 g04 g50 g41 g32 g23 g14 g05) with (1000000000000000 ^ 3 * hyy g20 g11 g02 g30 g21 g12 g03 g40 g31 g22 g13 g04 g50 g41 g32 g23 g14 g05 (529857935894885 / 1000000000000000) (470142064105115 / 1000000000000000)) by (unfold e8, hyy; field). rewrite H. ring. Qed.
Definition e9 (g20 g11 g02 g30 g21 g12 g03 g40 g31 g22 g13 g04 g50 g41 g32 g23 g14 g05 : R) : R := 2000000000000000000000000000000000000000000000 * g20 + 3179147615369310000000000000000000000000000000 * g30 + 119431743579540000000000000000000000000000000 * g21 + 3368993186769456745509229958700000000000000000 * g40 + 189845571400146745509229958700000000000000000 * g31 + 7131970687224497006153305800000000000000000 * g22 + 2975146293309325233649210681769907560152082500 * g50 + 201182365201733534869822859423889072182499000 * g41 + 11336793801586789360592900723889072182499000 * g32 + 425891847166695900908628015926048121666000 * g23.
Lemma p9 g20 g11 g02 g30 g21 g12 g03 g40 g31 g22 g13 g04 g50 g41 g32 g23 g14 g05 : hxx g20 g11 g02 g30 g21 g12 g03 g40 g31 g22 g13 g04 g50 g41 g32 g23 g14 g05 (529857935894885 / 1000000000000000) (59715871789770 / 1000000000000000) = 0 -> e9 g20 g11 g02 g30 g21 g12 g03 g40 g31 g22 g13 g04 g50 g41 g32 g23 g14 g05 = 0.
Proof. intros H. replace (e9 g20 g11 g02 g30 g21 g12 g03 g40 g31 g22 g13 g04 g50 g41 g32 g23 g14 g05) with (1000000000000000 ^ 3 * hxx g20 g11 g02 g30 g21 g12 g03 g40 g31 g22 g13 g04 g50 g41 g32 g23 g14 g05 (529857935894885 / 1000000000000000) (59715871789770 / 1000000000000000)) by (unfold e9, hxx; field). rewrite H. ring. Qed.
Definition e10 (g20 g11 g02 g30 g21 g12 g03 g40 g31 g22 g13 g04 g50 g41 g32 g23 g14 g05 : R) : R := 1000000000000000000000000000000000000000000000 * g11 + 1059715871789770000000000000000000000000000000 * g21 + 119431743579540000000000000000000000000000000 * g12 + 842248296692364186377307489675000000000000000 * g31 + 126563714266764497006153305800000000000000000 * g22 + 10697956030836745509229958700000000000000000 * g13 + 595029258661865046729842136353981512030416500 * g41 + 100591182600866767434911429711944536091249500 * g32 + 11336793801586789360592900723889072182499000 * g23 + 851783694333391801817256031852096243332000 * g14.
Lemma p10 g20 g11 g02 g30 g21 g12 g03 g40 g31 g22 g13 g04 g50 g41 g32 g23 g14 g05 : hxy g20 g11 g02 g30 g21 g12 g03 g40 g31 g22 g13 g04 g50 g41 g32 g23 g14 g05 (529857935894885 / 1000000000000000) (59715871789770 / 1000000000000000) = 0 -> e10 g20 g11 g02 g30 g21 g12 g03 g40 g31 g22 g13 g04 g50 g41 g32 g23 g14 g05 = 0.
Proof. intros H. replace (e10 g20 g11 g02 g30 g21 g12 g03 g40 g31 g22 g13 g04 g50 g41 g32 g23 g14 g05) with (1000000000000000 ^ 3 * hxy g20 g11 g02 g30 g21 g12 g03 g40 g31 g22 g13 g04 g50 g41 g32 g23 g14 g05 (529857935894885 / 1000000000000000) (59715871789770 / 1000000000000000)) by (unfold e10, hxy; field). rewrite H. ring. Qed.
Definition e11 (g20 g11 g02 g30 g21 g12 g03 g40 g31 g22 g13 g04 g50 g41 g32 g23 g14 g05 : R) : R := 2000000000000000000000000000000000000000000000 * g02 + 1059715871789770000000000000000000000000000000 * g12 + 358295230738620000000000000000000000000000000 * g03 + 561498864461576124251538326450000000000000000 * g22 + 189845571400146745509229958700000000000000000 * g13 + 42791824123346982036919834800000000000000000 * g04 + 297514629330932523364921068176990756015208250 * g32 + 100591182600866767434911429711944536091249500 * g23 + 22673587603173578721185801447778144364998000 * g14 + 4258918471666959009086280159260481216660000 * g05.
Lemma p11 g20 g11 g02 g30 g21 g12 g03 g40 g31 g22 g13 g04 g50 g41 g32 g23 g14 g05 : hyy g20 g11 g02 g30 g21 g12 g03 g40 g31 g22 g13 g04 g50 g41 g32 g23 g14 g05 (529857935894885 / 1000000000000000) (59715871789770 / 1000000000000000) = 0 -> e11 g20 g11 g02 g30 g21 g12 g03 g40 g31 g22 g13 g04 g50 g41 g32 g23 g14 g05 = 0.
Proof. intros H. replace (e11 g20 g11 g02 g30 g21 g12 g03 g40 g31 g22 g13 g04 g50 g41 g32 g23 g14 g05) with (1000000000000000 ^ 3 * hyy g20 g11 g02 g30 g21 g12 g03 g40 g31 g22 g13 g04 g50 g41 g32 g23 g14 g05 (529857935894885 / 1000000000000000) (59715871789770 / 1000000000000000)) by (unfold e11, hyy; field). rewrite H. ring. Qed.
Definition e12 (g20 g11 g02 g30 g21 g12 g03 g40 g31 g22 g13 g04 g50 g41 g32 g23 g14 g05 : R) : R := 2000000000000000000000000000000000000000000000 * g20 + 1215438087881478000000000000000000000000000000 * g30 + 202573014646914000000000000000000000000000000 * g21 + 492429915157661145960725154828000000000000000 * g40 + 123107478789415894209225229446000000000000000 * g31 + 20517913131569416988044861698000000000000000 * g22 + 166255020693018362053910108593358672795409940 * g50 + 49876506207905754831130611408580582201200396 * g41 + 12469126551976500261522047560092250162914822 * g32 + 2078187758662760302543573711390535716249986 * g23.
Lemma p12 g20 g11 g02 g30 g21 g12 g03 g40 g31 g22 g13 g04 g50 g41 g32 g23 g14 g05 : hxx g20 g11 g02 g30 g21 g12 g03 g40 g31 g22 g13 g04 g50 g41 g32 g23 g14 g05 (202573014646913 / 1000000000000000) (101286507323457 / 1000000000000000) = 0 -> e12 g20 g11 g02 g30 g21 g12 g03 g40 g31 g22 g13 g04 g50 g41 g32 g23 g14 g05 = 0.
Proof. intros H. replace (e12 g20 g11 g02 g30 g21 g12 g03 g40 g31 g22 g13 g04 g50 g41 g32 g23 g14 g05) with (1000000000000000 ^ 3 * hxx g20 g11 g02 g30 g21 g12 g03 g40 g31 g22 g13 g04 g50 g41 g32 g23 g14 g05 (202573014646913 / 1000000000000000) (101286507323457 / 1000000000000000)) by (unfold e12, hxx; field). rewrite H. ring. Qed.
Definition e13 (g20 g11 g02 g30 g21 g12 g03 g40 g31 g22 g13 g04 g50 g41 g32 g23 g14 g05 : R) : R := 1000000000000000000000000000000000000000000000 * g11 + 405146029293826000000000000000000000000000000 * g21 + 202573014646914000000000000000000000000000000 * g12 + 123107478789415286490181288707000000000000000 * g31 + 82071652526277262806150152964000000000000000 * g22 + 30776869697354125482067292547000000000000000 * g13 + 33251004138603672410782021718671734559081988 * g41 + 24938253103952877415565305704290291100600198 * g32 + 12469126551976500261522047560092250162914822 * g23 + 4156375517325520605087147422781071432499972 * g14.
Lemma p13 g20 g11 g02 g30 g21 g12 g03 g40 g31 g22 g13 g04 g50 g41 g32 g23 g14 g05 : hxy g20 g11 g02 g30 g21 g12 g03 g40 g31 g22 g13 g04 g50 g41 g32 g23 g14 g05 (202573014646913 / 1000000000000000) (101286507323457 / 1000000000000000) = 0 -> e13 g20 g11 g02 g30 g21 g12 g03 g40 g31 g22 g13 g04 g50 g41 g32 g23 g14 g05 = 0.
Proof. intros H. replace (e13 g20 g11 g02 g30 g21 g12 g03 g40 g31 g22 g13 g04 g50 g41 g32 g23 g14 g05) with (1000000000000000 ^ 3 * hxy g20 g11 g02 g30 g21 g12 g03 g40 g31 g22 g13 g04 g50 g41 g32 g23 g14 g05 (202573014646913 / 1000000000000000) (101286507323457 / 1000000000000000)) by (unfold e13, hxy; field). rewrite H. ring. Qed.
Definition e14 (g20 g11 g02 g30 g21 g12 g03 g40 g31 g22 g13 g04 g50 g41 g32 g23 g14 g05 : R) : R := 2000000000000000000000000000000000000000000000 * g02 + 405146029293826000000000000000000000000000000 * g12 + 607719043940742000000000000000000000000000000 * g03 + 82071652526276857660120859138000000000000000 * g22 + 123107478789415894209225229446000000000000000 * g13 + 123107478789416501928269170188000000000000000 * g04 + 16625502069301836205391010859335867279540994 * g32 + 24938253103952877415565305704290291100600198 * g23 + 24938253103953000523044095120184500325829644 * g14 + 20781877586627603025435737113905357162499860 * g05.
Lemma p14 g20 g11 g02 g30 g21 g12 g03 g40 g31 g22 g13 g04 g50 g41 g32 g23 g14 g05 : hyy g20 g11 g02 g30 g21 g12 g03 g40 g31 g22 g13 g04 g50 g41 g32 g23 g14 g05 (202573014646913 / 1000000000000000) (101286507323457 / 1000000000000000) = 0 -> e14 g20 g11 g02 g30 g21 g12 g03 g40 g31 g22 g13 g04 g50 g41 g32 g23 g14 g05 = 0.
Proof. intros H. replace (e14 g20 g11 g02 g30 g21 g12 g03 g40 g31 g22 g13 g04 g50 g41 g32 g23 g14 g05) with (1000000000000000 ^ 3 * hyy g20 g11 g02 g30 g21 g12 g03 g40 g31 g22 g13 g04 g50 g41 g32 g23 g14 g05 (202573014646913 / 1000000000000000) (101286507323457 / 1000000000000000)) by (unfold e14, hyy; field). rewrite H. ring. Qed.
Definition e15 (g20 g11 g02 g30 g21 g12 g03 g40 g31 g22 g13 g04 g50 g41 g32 g23 g14 g05 : R) : R := 2000000000000000000000000000000000000000000000 * g20 + 5392280956059264000000000000000000000000000000 * g30 + 202573014646914000000000000000000000000000000 * g21 + 9692231303026470071052093407232000000000000000 * g40 + 546165304546034356754909355648000000000000000 * g31 + 20517913131569416988044861698000000000000000 * g22 + 14517565076953083367772425246122527093743943680 * g50 + 981692256854629742619941286028554795847041024 * g41 + 55319176118720031610243258668079356985835136 * g32 + 2078187758662760302543573711390535716249986 * g23.
Lemma p15 g20 g11 g02 g30 g21 g12 g03 g40 g31 g22 g13 g04 g50 g41 g32 g23 g14 g05 : hxx g20 g11 g02 g30 g21 g12 g03 g40 g31 g22 g13 g04 g50 g41 g32 g23 g14 g05 (898713492676544 / 1000000000000000) (101286507323457 / 1000000000000000) = 0 -> e15 g20 g11 g02 g30 g21 g12 g03 g40 g31 g22 g13 g04 g50 g41 g32 g23 g14 g05 = 0.
Proof. intros H. replace (e15 g20 g11 g02 g30 g21 g12 g03 g40 g31 g22 g13 g04 g50 g41 g32 g23 g14 g05) with (1000000000000000 ^ 3 * hxx g20 g11 g02 g30 g21 g12 g03 g40 g31 g22 g13 g04 g50 g41 g32 g23 g14 g05 (898713492676544 / 1000000000000000) (101286507323457 / 1000000000000000)) by (unfold e15, hxx; field). rewrite H. ring. Qed.
Definition e16 (g20 g11 g02 g30 g21 g12 g03 g40 g31 g22 g13 g04 g50 g41 g32 g23 g14 g05 : R) : R := 1000000000000000000000000000000000000000000000 * g11 + 1797426985353088000000000000000000000000000000 * g21 + 202573014646914000000000000000000000000000000 * g12 + 2423057825756617517763023351808000000000000000 * g31 + 364110203030689571169939570432000000000000000 * g22 + 30776869697354125482067292547000000000000000 * g13 + 2903513015390616673554485049224505418748788736 * g41 + 490846128427314871309970643014277397923520512 * g32 + 55319176118720031610243258668079356985835136 * g23 + 4156375517325520605087147422781071432499972 * g14.
Lemma p16 g20 g11 g02 g30 g21 g12 g03 g40 g31 g22 g13 g04 g50 g41 g32 g23 g14 g05 : hxy g20 g11 g02 g30 g21 g12 g03 g40 g31 g22 g13 g04 g50 g41 g32 g23 g14 g05 (898713492676544 / 1000000000000000) (101286507323457 / 1000000000000000) = 0 -> e16 g20 g11 g02 g30 g21 g12 g03 g40 g31 g22 g13 g04 g50 g41 g32 g23 g14 g05 = 0.
Proof. intros H. replace (e16 g20 g11 g02 g30 g21 g12 g03 g40 g31 g22 g13 g04 g50 g41 g32 g23 g14 g05) with (1000000000000000 ^ 3 * hxy g20 g11 g02 g30 g21 g12 g03 g40 g31 g22 g13 g04 g50 g41 g32 g23 g14 g05 (898713492676544 / 1000000000000000) (101286507323457 / 1000000000000000)) by (unfold e16, hxy; field). rewrite H. ring. Qed.
Definition e17 (g20 g11 g02 g30 g21 g12 g03 g40 g31 g22 g13 g04 g50 g41 g32 g23 g14 g05 : R) : R := 2000000000000000000000000000000000000000000000 * g02 + 1797426985353088000000000000000000000000000000 * g12 + 607719043940742000000000000000000000000000000 * g03 + 1615371883837745011842015567872000000000000000 * g22 + 546165304546034356754909355648000000000000000 * g13 + 123107478789416501928269170188000000000000000 * g04 + 1451756507695308336777242524612252709374394368 * g32 + 490846128427314871309970643014277397923520512 * g23 + 110638352237440063220486517336158713971670272 * g14 + 20781877586627603025435737113905357162499860 * g05.
Lemma p17 g20 g11 g02 g30 g21 g12 g03 g40 g31 g22 g13 g04 g50 g41 g32 g23 g14 g05 : hyy g20 g11 g02 g30 g21 g12 g03 g40 g31 g22 g13 g04 g50 g41 g32 g23 g14 g05 (898713492676544 / 1000000000000000) (101286507323457 / 1000000000000000) = 0 -> e17 g20 g11 g02 g30 g21 g12 g03 g40 g31 g22 g13 g04 g50 g41 g32 g23 g14 g05 = 0.
Proof. intros H. replace (e17 g20 g11 g02 g30 g21 g12 g03 g40 g31 g22 g13 g04 g50 g41 g32 g23 g14 g05) with (1000000000000000 ^ 3 * hyy g20 g11 g02 g30 g21 g12 g03 g40 g31 g22 g13 g04 g50 g41 g32 g23 g14 g05 (898713492676544 / 1000000000000000) (101286507323457 / 1000000000000000)) by (unfold e17, hyy; field). rewrite H. ring. Qed.
Definition e18 (g20 g11 g02 g30 g21 g12 g03 g40 g31 g22 g13 g04 g50 g41 g32 g23 g14 g05 : R) : R := 2000000000000000000000000000000000000000000000 * g20 + 5392280956059264000000000000000000000000000000 * g30 + 1594853970706176000000000000000000000000000000 * g21 + 9692231303026470071052093407232000000000000000 * g40 + 4299950346967206071052093407232000000000000000 * g31 + 1271779593938628047368062271488000000000000000 * g22 + 14517565076953083367772425246122527093743943680 * g50 + 7728846789317229970274816888115032512492732416 * g41 + 3428896442350023899222723480883032512492732416 * g32 + 1014151367628054552113753382434021674995154944 * g23.
Lemma p18 g20 g11 g02 g30 g21 g12 g03 g40 g31 g22 g13 g04 g50 g41 g32 g23 g14 g05 : hxx g20 g11 g02 g30 g21 g12 g03 g40 g31 g22 g13 g04 g50 g41 g32 g23 g14 g05 (898713492676544 / 1000000000000000) (797426985353088 / 1000000000000000) = 0 -> e18 g20 g11 g02 g30 g21 g12 g03 g40 g31 g22 g13 g04 g50 g41 g32 g23 g14 g05 = 0.
Proof. intros H. replace (e18 g20 g11 g02 g30 g21 g12 g03 g40 g31 g22 g13 g04 g50 g41 g32 g23 g14 g05) with (1000000000000000 ^ 3 * hxx g20 g11 g02 g30 g21 g12 g03 g40 g31 g22 g13 g04 g50 g41 g32 g23 g14 g05 (898713492676544 / 1000000000000000) (797426985353088 / 1000000000000000)) by (unfold e18, hxx; field). rewrite H. ring. Qed.
Definition e19 (g20 g11 g02 g30 g21 g12 g03 g40 g31 g22 g13 g04 g50 g41 g32 g23 g14 g05 : R) : R := 1000000000000000000000000000000000000000000000 * g11 + 1797426985353088000000000000000000000000000000 * g21 + 1594853970706176000000000000000000000000000000 * g12 + 2423057825756617517763023351808000000000000000 * g31 + 2866633564644804047368062271488000000000000000 * g22 + 1907669390907942071052093407232000000000000000 * g13 + 2903513015390616673554485049224505418748788736 * g41 + 3864423394658614985137408444057516256246366208 * g32 + 3428896442350023899222723480883032512492732416 * g23 + 2028302735256109104227506764868043349990309888 * g14.
Lemma p19 g20 g11 g02 g30 g21 g12 g03 g40 g31 g22 g13 g04 g50 g41 g32 g23 g14 g05 : hxy g20 g11 g02 g30 g21 g12 g03 g40 g31 g22 g13 g04 g50 g41 g32 g23 g14 g05 (898713492676544 / 1000000000000000) (797426985353088 / 1000000000000000) = 0 -> e19 g20 g11 g02 g30 g21 g12 g03 g40 g31 g22 g13 g04 g50 g41 g32 g23 g14 g05 = 0.
Proof. intros H. replace (e19 g20 g11 g02 g30 g21 g12 g03 g40 g31 g22 g13 g04 g50 g41 g32 g23 g14 g05) with (1000000000000000 ^ 3 * hxy g20 g11 g02 g30 g21 g12 g03 g40 g31 g22 g13 g04 g50 g41 g32 g23 g14 g05 (898713492676544 / 1000000000000000) (797426985353088 / 1000000000000000)) by (unfold e19, hxy; field). rewrite H. ring. Qed.
Definition e20 (g20 g11 g02 g30 g21 g12 g03 g40 g31 g22 g13 g04 g50 g41 g32 g23 g14 g05 : R) : R := 2000000000000000000000000000000000000000000000 * g02 + 1797426985353088000000000000000000000000000000 * g12 + 4784561912118528000000000000000000000000000000 * g03 + 1615371883837745011842015567872000000000000000 * g22 + 4299950346967206071052093407232000000000000000 * g13 + 7630677563631768284208373628928000000000000000 * g04 + 1451756507695308336777242524612252709374394368 * g32 + 3864423394658614985137408444057516256246366208 * g23 + 6857792884700047798445446961766065024985464832 * g14 + 10141513676280545521137533824340216749951549440 * g05.
Lemma p20 g20 g11 g02 g30 g21 g12 g03 g40 g31 g22 g13 g04 g50 g41 g32 g23 g14 g05 : hyy g20 g11 g02 g30 g21 g12 g03 g40 g31 g22 g13 g04 g50 g41 g32 g23 g14 g05 (898713492676544 / 1000000000000000) (797426985353088 / 1000000000000000) = 0 -> e20 g20 g11 g02 g30 g21 g12 g03 g40 g31 g22 g13 g04 g50 g41 g32 g23 g14 g05 = 0.
Proof. intros H. replace (e20 g20 g11 g02 g30 g21 g12 g03 g40 g31 g22 g13 g04 g50 g41 g32 g23 g14 g05) with (1000000000000000 ^ 3 * hyy g20 g11 g02 g30 g21 g12 g03 g40 g31 g22 g13 g04 g50 g41 g32 g23 g14 g05 (898713492676544 / 1000000000000000) (797426985353088 / 1000000000000000)) by (unfold e20, hyy; field). rewrite H. ring. Qed.
Lemma zg20 g20 g11 g02 g30 g21 g12 g03 g40 g31 g22 g13 g04 g50 g41 g32 g23 g14 g05 : e0 g20 g11 g02 g30 g21 g12 g03 g40 g31 g22 g13 g04 g50 g41 g32 g23 g14 g05 = 0 -> e1 g20 g11 g02 g30 g21 g12 g03 g40 g31 g22 g13 g04 g50 g41 g32 g23 g14 g05 = 0 -> e3 g20 g11 g02 g30 g21 g12 g03 g40 g31 g22 g13 g04 g50 g41 g32 g23 g14 g05 = 0 -> e4 g20 g11 g02 g30 g21 g12 g03 g40 g31 g22 g13 g04 g50 g41 g32 g23 g14 g05 = 0 -> e5 g20 g11 g02 g30 g21 g12 g03 g40 g31 g22 g13 g04 g50 g41 g32 g23 g14 g05 = 0 -> e6 g20 g11 g02 g30 g21 g12 g03 g40 g31 g22 g13 g04 g50 g41 g32 g23 g14 g05 = 0 -> e7 g20 g11 g02 g30 g21 g12 g03 g40 g31 g22 g13 g04 g50 g41 g32 g23 g14 g05 = 0 -> e8 g20 g11 g02 g30 g21 g12 g03 g40 g31 g22 g13 g04 g50 g41 g32 g23 g14 g05 = 0 -> e9 g20 g11 g02 g30 g21 g12 g03 g40 g31 g22 g13 g04 g50 g41 g32 g23 g14 g05 = 0 -> e10 g20 g11 g02 g30 g21 g12 g03 g40 g31 g22 g13 g04 g50 g41 g32 g23 g14 g05 = 0 -> e12 g20 g11 g02 g30 g21 g12 g03 g40 g31 g22 g13 g04 g50 g41 g32 g23 g14 g05 = 0 -> e13 g20 g11 g02 g30 g21 g12 g03 g40 g31 g22 g13 g04 g50 g41 g32 g23 g14 g05 = 0 -> e14 g20 g11 g02 g30 g21 g12 g03 g40 g31 g22 g13 g04 g50 g41 g32 g23 g14 g05 = 0 -> e15 g20 g11 g02 g30 g21 g12 g03 g40 g31 g22 g13 g04 g50 g41 g32 g23 g14 g05 = 0 -> e16 g20 g11 g02 g30 g21 g12 g03 g40 g31 g22 g13 g04 g50 g41 g32 g23 g14 g05 = 0 -> e17 g20 g11 g02 g30 g21 g12 g03 g40 g31 g22 g13 g04 g50 g41 g32 g23 g14 g05 = 0 -> g20 = 0.
Proof. intros E0 E1 E3 E4 E5 E6 E7 E8 E9 E10 E12 E13 E14 E15 E16 E17. apply (Rmult_eq_reg_l 11640287459448229704971049324671220371331164327056384123476539601814911518815076619438038745383141601776063990126260990965086916493637782818716640000000000000000000000000000000); [|apply not_eq_sym, Rlt_not_eq, IZR_lt; reflexivity]. rewrite Rmult_0_r. replace (11640287459448229704971049324671220371331164327056384123476539601814911518815076619438038745383141601776063990126260990965086916493637782818716640000000000000000000000000000000 * g20) with ((1455035932431031221758512410357759212329975407904176421910064929199271193583892049863231474613027551029976349561099075400684037664474773755902160000000000000000000000000000000) * e0 g20 g11 g02 g30 g21 g12 g03 g40 g31 g22 g13 g04 g50 g41 g32 g23 g14 g05 + (2182553898646541554840086884327237277022408544954290027960910885271605382704184056261264298876078382375709963256427177585537962708000000000000000000000000000000000000000000000) * e1 g20 g11 g02 g30 g21 g12 g03 g40 g31 g22 g13 g04 g50 g41 g32 g23 g14 g05 + (1380427321439479823118387508936633317426170481229580410500560614938194235531875361974211081166739709915602502556815635317212055248) * e3 g20 g11 g02 g30 g21 g12 g03 g40 g31 g22 g13 g04 g50 g41 g32 g23 g14 g05 + (-11841576737715631860858304544748664495287071854874299574660470591707868550674521245736238981203089853253318990971372380560742643039) * e4 g20 g11 g02 g30 g21 g12 g03 g40 g31 g22 g13 g04 g50 g41 g32 g23 g14 g05 + (7664313271570496959881676668838452970844251113737624798402342597767555646725279759487376377187552091264453880205389330651693906553) * e5 g20 g11 g02 g30 g21 g12 g03 g40 g31 g22 g13 g04 g50 g41 g32 g23 g14 g05 + (-26196707855483685399181539924851110020724473713527321352541148323042328319915686825425234931695063963087331581919212608639553878304) * e6 g20 g11 g02 g30 g21 g12 g03 g40 g31 g22 g13 g04 g50 g41 g32 g23 g14 g05 + (-28426980470882825632562879822110003412914466198796076597939846394101888289731756843350472419114980961403053039595599845839274103633) * e7 g20 g11 g02 g30 g21 g12 g03 g40 g31 g22 g13 g04 g50 g41 g32 g23 g14 g05 + (-7664313271570496959881676668838452970844251113737624798402342597767555646725279759487376377187552091264453880205389330651693906553) * e8 g20 g11 g02 g30 g21 g12 g03 g40 g31 g22 g13 g04 g50 g41 g32 g23 g14 g05 + (-17275617393887120618126397960334133917916127702902525082235217347986390750226280042385626740596389361927067301841725450101539403888) * e9 g20 g11 g02 g30 g21 g12 g03 g40 g31 g22 g13 g04 g50 g41 g32 g23 g14 g05 + (-8637808696943602860722713227759836930143304517687956175010972312601810276271335916132442413092341979005478513025834009304099496944) * e10 g20 g11 g02 g30 g21 g12 g03 g40 g31 g22 g13 g04 g50 g41 g32 g23 g14 g05 + (17535039800163934740967028818317110395029534923650475049429880707213845974648116646788644802010960705119845009691756501287025986000) * e12 g20 g11 g02 g30 g21 g12 g03 g40 g31 g22 g13 g04 g50 g41 g32 g23 g14 g05 + (1113621039768378278102029697884636680390006411175992903745384581966442373444136156059078789665818540343043995113318159577099143125) * e13 g20 g11 g02 g30 g21 g12 g03 g40 g31 g22 g13 g04 g50 g41 g32 g23 g14 g05 + (3340863119304891267808385490055851097749843173336918886677363546613795039777212577987642290397067927021118229817975267374086707875) * e14 g20 g11 g02 g30 g21 g12 g03 g40 g31 g22 g13 g04 g50 g41 g32 g23 g14 g05 + (-8908968318146336681771788859392388321058857838334780354987558938596187607395572177540224652746420166942378071574178618199070317750) * e15 g20 g11 g02 g30 g21 g12 g03 g40 g31 g22 g13 g04 g50 g41 g32 g23 g14 g05 + (-11136210397682939904640477980101538321650194553583491311078689185888220589779491669894061045909522070825362459444045718682507892625) * e16 g20 g11 g02 g30 g21 g12 g03 g40 g31 g22 g13 g04 g50 g41 g32 g23 g14 g05 + (-3340863119304891267808385490055851097749843173336918886677363546613795039777212577987642290397067927021118229817975267374086707875) * e17 g20 g11 g02 g30 g21 g12 g03 g40 g31 g22 g13 g04 g50 g41 g32 g23 g14 g05) by (unfold e0, e1, e3, e4, e5, e6, e7, e8, e9, e10, e12, e13, e14, e15, e16, e17; ring). rewrite E0, E1, E3, E4, E5, E6, E7, E8, E9, E10, E12, E13, E14, E15, E16, E17. ring. Qed.
Lemma zg11 g20 g11 g02 g30 g21 g12 g03 g40 g31 g22 g13 g04 g50 g41 g32 g23 g14 g05 : e0 g20 g11 g02 g30 g21 g12 g03 g40 g31 g22 g13 g04 g50 g41 g32 g23 g14 g05 = 0 -> e1 g20 g11 g02 g30 g21 g12 g03 g40 g31 g22 g13 g04 g50 g41 g32 g23 g14 g05 = 0 -> e3 g20 g11 g02 g30 g21 g12 g03 g40 g31 g22 g13 g04 g50 g41 g32 g23 g14 g05 = 0 -> e4 g20 g11 g02 g30 g21 g12 g03 g40 g31 g22 g13 g04 g50 g41 g32 g23 g14 g05 = 0 -> e5 g20 g11 g02 g30 g21 g12 g03 g40 g31 g22 g13 g04 g50 g41 g32 g23 g14 g05 = 0 -> e6 g20 g11 g02 g30 g21 g12 g03 g40 g31 g22 g13 g04 g50 g41 g32 g23 g14 g05 = 0 -> e7 g20 g11 g02 g30 g21 g12 g03 g40 g31 g22 g13 g04 g50 g41 g32 g23 g14 g05 = 0 -> e8 g20 g11 g02 g30 g21 g12 g03 g40 g31 g22 g13 g04 g50 g41 g32 g23 g14 g05 = 0 -> e9 g20 g11 g02 g30 g21 g12 g03 g40 g31 g22 g13 g04 g50 g41 g32 g23 g14 g05 = 0 -> e10 g20 g11 g02 g30 g21 g12 g03 g40 g31 g22 g13 g04 g50 g41 g32 g23 g14 g05 = 0 -> e12 g20 g11 g02 g30 g21 g12 g03 g40 g31 g22 g13 g04 g50 g41 g32 g23 g14 g05 = 0 -> e13 g20 g11 g02 g30 g21 g12 g03 g40 g31 g22 g13 g04 g50 g41 g32 g23 g14 g05 = 0 -> e14 g20 g11 g02 g30 g21 g12 g03 g40 g31 g22 g13 g04 g50 g41 g32 g23 g14 g05 = 0 -> e15 g20 g11 g02 g30 g21 g12 g03 g40 g31 g22 g13 g04 g50 g41 g32 g23 g14 g05 = 0 -> e16 g20 g11 g02 g30 g21 g12 g03 g40 g31 g22 g13 g04 g50 g41 g32 g23 g14 g05 = 0 -> e17 g20 g11 g02 g30 g21 g12 g03 g40 g31 g22 g13 g04 g50 g41 g32 g23 g14 g05 = 0 -> g11 = 0.
Proof. intros E0 E1 E3 E4 E5 E6 E7 E8 E9 E10 E12 E13 E14 E15 E16 E17. apply (Rmult_eq_reg_l 11640287459448229704971049324671220371331164327056384123476539601814911518815076619438038745383141601776063990126260990965086916493637782818716640000000000000000000000000000000); [|apply not_eq_sym, Rlt_not_eq, IZR_lt; reflexivity]. rewrite Rmult_0_r. replace (11640287459448229704971049324671220371331164327056384123476539601814911518815076619438038745383141601776063990126260990965086916493637782818716640000000000000000000000000000000 * g11) with ((4144146853318245816829110880629570311637747653645009769441062359334220402297013334101891353285041941793755138025550000000000000000000000000000000000000000000000) * e0 g20 g11 g02 g30 g21 g12 g03 g40 g31 g22 g13 g04 g50 g41 g32 g23 g14 g05 + (-1455035932431020666163148947938956129384866274100227212101691912144668378240584012796065648526101662691467227390656204369707850087050452488195680000000000000000000000000000000) * e1 g20 g11 g02 g30 g21 g12 g03 g40 g31 g22 g13 g04 g50 g41 g32 g23 g14 g05 + (130974248893596682429291070061197107412405307758724925444735940062391993343352354972484765168778117390648413264692800) * e3 g20 g11 g02 g30 g21 g12 g03 g40 g31 g22 g13 g04 g50 g41 g32 g23 g14 g05 + (813863792132825252814165641925363975884950260261349494747077854136569194923316864647418018784166267483240314431304330376268312039) * e4 g20 g11 g02 g30 g21 g12 g03 g40 g31 g22 g13 g04 g50 g41 g32 g23 g14 g05 + (-6407536081544297107940454729154019994905358997291097371927651990908647201118603680847895693650765165643627591991940526676550259065) * e5 g20 g11 g02 g30 g21 g12 g03 g40 g31 g22 g13 g04 g50 g41 g32 g23 g14 g05 + (34551234787774225901211010670650546887394738839237975105759776488707465205761494580893682519034804360505051619161300484419743331376) * e6 g20 g11 g02 g30 g21 g12 g03 g40 g31 g22 g13 g04 g50 g41 g32 g23 g14 g05 + (30090689556975678581901898259963018433921519382483920966372380701274676317121616386623957080795326855486045587977846175779081535193) * e7 g20 g11 g02 g30 g21 g12 g03 g40 g31 g22 g13 g04 g50 g41 g32 g23 g14 g05 + (6407536081544297107940454729154019994905358997291097371927651990908647201118603680847895693650765165643627591991940526676550259065) * e8 g20 g11 g02 g30 g21 g12 g03 g40 g31 g22 g13 g04 g50 g41 g32 g23 g14 g05 + (-34551234787774292444854320516105446922659153578282824284054623820963917918674409149013814852417494626451061309785508331696419217776) * e9 g20 g11 g02 g30 g21 g12 g03 g40 g31 g22 g13 g04 g50 g41 g32 g23 g14 g05 + (-17275617393887035514807369465148593975545646370429137814448490070769160947909888252506368655008094765843177577631782881594879813888) * e10 g20 g11 g02 g30 g21 g12 g03 g40 g31 g22 g13 g04 g50 g41 g32 g23 g14 g05 + (5782597265907260757819110943183289801309671432102958321120400110349915250646048620784391351183327340167505727720000) * e12 g20 g11 g02 g30 g21 g12 g03 g40 g31 g22 g13 g04 g50 g41 g32 g23 g14 g05 + (41751805838937727728429275587181370613590724639412109685058126485585084298365446777079203900298101552369290404176556861842144949875) * e13 g20 g11 g02 g30 g21 g12 g03 g40 g31 g22 g13 g04 g50 g41 g32 g23 g14 g05 + (2227242079536644379317351207818621708790671444748727554791983128013277843891990091990212964384136830105051765103438076137346912125) * e14 g20 g11 g02 g30 g21 g12 g03 g40 g31 g22 g13 g04 g50 g41 g32 g23 g14 g05 + (-182105167889251125341460910366639750778755870991910891088052110960197739323684380923754277048966952951400031043216250) * e15 g20 g11 g02 g30 g21 g12 g03 g40 g31 g22 g13 g04 g50 g41 g32 g23 g14 g05 + (-4454484159073408356961899104898123183128994183965723481506873740506211131189646810912399089281613415049719599279945977455416114375) * e16 g20 g11 g02 g30 g21 g12 g03 g40 g31 g22 g13 g04 g50 g41 g32 g23 g14 g05 + (-2227242079536644379317351207818621708790671444748727554791983128013277843891990091990212964384136830105051765103438076137346912125) * e17 g20 g11 g02 g30 g21 g12 g03 g40 g31 g22 g13 g04 g50 g41 g32 g23 g14 g05) by (unfold e0, e1, e3, e4, e5, e6, e7, e8, e9, e10, e12, e13, e14, e15, e16, e17; ring). rewrite E0, E1, E3, E4, E5, E6, E7, E8, E9, E10, E12, E13, E14, E15, E16, E17. ring. Qed.
Lemma zg02 g20 g11 g02 g30 g21 g12 g03 g40 g31 g22 g13 g04 g50 g41 g32 g23 g14 g05 : e0 g20 g11 g02 g30 g21 g12 g03 g40 g31 g22 g13 g04 g50 g41 g32 g23 g14 g05 = 0 -> e1 g20 g11 g02 g30 g21 g12 g03 g40 g31 g22 g13 g04 g50 g41 g32 g23 g14 g05 = 0 -> e2 g20 g11 g02 g30 g21 g12 g03 g40 g31 g22 g13 g04 g50 g41 g32 g23 g14 g05 = 0 -> e3 g20 g11 g02 g30 g21 g12 g03 g40 g31 g22 g13 g04 g50 g41 g32 g23 g14 g05 = 0 -> e4 g20 g11 g02 g30 g21 g12 g03 g40 g31 g22 g13 g04 g50 g41 g32 g23 g14 g05 = 0 -> e5 g20 g11 g02 g30 g21 g12 g03 g40 g31 g22 g13 g04 g50 g41 g32 g23 g14 g05 = 0 -> e6 g20 g11 g02 g30 g21 g12 g03 g40 g31 g22 g13 g04 g50 g41 g32 g23 g14 g05 = 0 -> e7 g20 g11 g02 g30 g21 g12 g03 g40 g31 g22 g13 g04 g50 g41 g32 g23 g14 g05 = 0 -> e8 g20 g11 g02 g30 g21 g12 g03 g40 g31 g22 g13 g04 g50 g41 g32 g23 g14 g05 = 0 -> e9 g20 g11 g02 g30 g21 g12 g03 g40 g31 g22 g13 g04 g50 g41 g32 g23 g14 g05 = 0 -> e10 g20 g11 g02 g30 g21 g12 g03 g40 g31 g22 g13 g04 g50 g41 g32 g23 g14 g05 = 0 -> e11 g20 g11 g02 g30 g21 g12 g03 g40 g31 g22 g13 g04 g50 g41 g32 g23 g14 g05 = 0 -> e12 g20 g11 g02 g30 g21 g12 g03 g40 g31 g22 g13 g04 g50 g41 g32 g23 g14 g05 = 0 -> e13 g20 g11 g02 g30 g21 g12 g03 g40 g31 g22 g13 g04 g50 g41 g32 g23 g14 g05 = 0 -> e14 g20 g11 g02 g30 g21 g12 g03 g40 g31 g22 g13 g04 g50 g41 g32 g23 g14 g05 = 0 -> e15 g20 g11 g02 g30 g21 g12 g03 g40 g31 g22 g13 g04 g50 g41 g32 g23 g14 g05 = 0 -> e16 g20 g11 g02 g30 g21 g12 g03 g40 g31 g22 g13 g04 g50 g41 g32 g23 g14 g05 = 0 -> e17 g20 g11 g02 g30 g21 g12 g03 g40 g31 g22 g13 g04 g50 g41 g32 g23 g14 g05 = 0 -> g02 = 0.
Proof. intros E0 E1 E2 E3 E4 E5 E6 E7 E8 E9 E10 E11 E12 E13 E14 E15 E16 E17. apply (Rmult_eq_reg_l 2123966785695456579506047187278977071299563914592017368306812398281024068149345893149463277329226485967553988912466913808103555758918606660691187975533854356900862251048283749514933714560000000000000000000000000000000); [|apply not_eq_sym, Rlt_not_eq, IZR_lt; reflexivity]. rewrite Rmult_0_r. replace (2123966785695456579506047187278977071299563914592017368306812398281024068149345893149463277329226485967553988912466913808103555758918606660691187975533854356900862251048283749514933714560000000000000000000000000000000 * g02) with ((145624227104644362878090004366537681269316286546959672404177632377378618807303164781237583056390299405219630494813836479675454327416342580857514344166774423973203295249590000000000000000000000000000000000000000000000) * e0 g20 g11 g02 g30 g21 g12 g03 g40 g31 g22 g13 g04 g50 g41 g32 g23 g14 g05 + (145624227104645237362452352698079706616280462191368818748640841659107811762369433555161753135216269928074460419406549246131081905186484373025338521705862413113036720806540000000000000000000000000000000000000000000000) * e1 g20 g11 g02 g30 g21 g12 g03 g40 g31 g22 g13 g04 g50 g41 g32 g23 g14 g05 + (12876302998679557210207137055108337101574177758885722846890830859230718000248446467419910525830840729638800054509769956724191898675055068703770989080348266558087989037701254620646920640000000000000000000000000000000) * e2 g20 g11 g02 g30 g21 g12 g03 g40 g31 g22 g13 g04 g50 g41 g32 g23 g14 g05 + (4602400552111091955639116049402338879170747082728539654707516711186917097521575107746362351852398169249565583633268250512205839046914452794436695070591075962557502790072640) * e3 g20 g11 g02 g30 g21 g12 g03 g40 g31 g22 g13 g04 g50 g41 g32 g23 g14 g05 + (-4602400552111066668492745903762205394373980719118030373536304245353113401229107660065322671468200100700453847596690587439016528876088379315872856769566500898292202785471365) * e4 g20 g11 g02 g30 g21 g12 g03 g40 g31 g22 g13 g04 g50 g41 g32 g23 g14 g05 + (-510329929315086617051474080350399088831991360733590962109978833940020827663669423084566480687854048833169818457892392438202787525258199494470685795280893335379079198189077) * e5 g20 g11 g02 g30 g21 g12 g03 g40 g31 g22 g13 g04 g50 g41 g32 g23 g14 g05 + (8035638069137605698155033415232492124041795083940374958520271745794652477108354234123646624906845708423531336256636262008426970795521934121775513089361680993311204568231920) * e6 g20 g11 g02 g30 g21 g12 g03 g40 g31 g22 g13 g04 g50 g41 g32 g23 g14 g05 + (4831720748707171160323710473572396647382324197656984249725936884295306984260787211725557592005026869519226857215107625876595142942083343721151281164813836756905900393481317) * e7 g20 g11 g02 g30 g21 g12 g03 g40 g31 g22 g13 g04 g50 g41 g32 g23 g14 g05 + (406950857069185109162752447107780031534306759631553182748351322414060872822087696976839701567672353637958353671326715883191829859407078480707101614123253898311431512854741) * e8 g20 g11 g02 g30 g21 g12 g03 g40 g31 g22 g13 g04 g50 g41 g32 g23 g14 g05 + (-10373964139306726832534118326393613641729029782681323738518820858554521870056076959374263286123895325203022742564913868484015600467273083306929136580014691781117112835720240) * e9 g20 g11 g02 g30 g21 g12 g03 g40 g31 g22 g13 g04 g50 g41 g32 g23 g14 g05 + (2034754285345824574223405858994057000117532757694436918542711907423762535058027985251228856075324530904713144438270765002216579734898526921022730468930296428900379412067968) * e10 g20 g11 g02 g30 g21 g12 g03 g40 g31 g22 g13 g04 g50 g41 g32 g23 g14 g05 + (3610868177499590302202026562877570193343264526108120281862269623534633089879596173706595601356324535173999897739054115497477472001369162495191920351638837358518870949856544) * e11 g20 g11 g02 g30 g21 g12 g03 g40 g31 g22 g13 g04 g50 g41 g32 g23 g14 g05 + (203198942342236368338411372950749329830127328752453892512432296058197139884301071163224645183316871127412075049977280050474984441629856534423337722187152779473209691336000) * e12 g20 g11 g02 g30 g21 g12 g03 g40 g31 g22 g13 g04 g50 g41 g32 g23 g14 g05 + (3402762720397053170818615464335847489411400854070018469552124549550251820778026190059243758582426357914545281449358520489060099485392885934591545606532393626476716212048375) * e13 g20 g11 g02 g30 g21 g12 g03 g40 g31 g22 g13 g04 g50 g41 g32 g23 g14 g05 + (406397884684491074523039348431946541941050636729656645542481373548703895338185182509010870638692988962894251060290528244275418725417673846714259284424378483473147448463625) * e14 g20 g11 g02 g30 g21 g12 g03 g40 g31 g22 g13 g04 g50 g41 g32 g23 g14 g05 + (-6399127556109604987306872629088484085585179449507955922134195968674467552255338902752385078341203507538416275734941509038329460657034409826859296594628127401501293185659250) * e15 g20 g11 g02 g30 g21 g12 g03 g40 g31 g22 g13 g04 g50 g41 g32 g23 g14 g05 + (-9598691334164403645659199415988247821176849569470367370497771820712118856451708432960074869845416945696041866830023153574394504726321455332576840556768311068042784693902875) * e16 g20 g11 g02 g30 g21 g12 g03 g40 g31 g22 g13 g04 g50 g41 g32 g23 g14 g05 + (-3199563778054799623758913384915334244079351403929644980755769719616094382308234738153485638407655285658153291028309299114243336445702898852798818172308052423542315291479625) * e17 g20 g11 g02 g30 g21 g12 g03 g40 g31 g22 g13 g04 g50 g41 g32 g23 g14 g05) by (unfold e0, e1, e2, e3, e4, e5, e6, e7, e8, e9, e10, e11, e12, e13, e14, e15, e16, e17; ring). rewrite E0, E1, E2, E3, E4, E5, E6, E7, E8, E9, E10, E11, E12, E13, E14, E15, E16, E17. ring. Qed.
Lemma zg30 g20 g11 g02 g30 g21 g12 g03 g40 g31 g22 g13 g04 g50 g41 g32 g23 g14 g05 : e0 g20 g11 g02 g30 g21 g12 g03 g40 g31 g22 g13 g04 g50 g41 g32 g23 g14 g05 = 0 -> e1 g20 g11 g02 g30 g21 g12 g03 g40 g31 g22 g13 g04 g50 g41 g32 g23 g14 g05 = 0 -> e3 g20 g11 g02 g30 g21 g12 g03 g40 g31 g22 g13 g04 g50 g41 g32 g23 g14 g05 = 0 -> e4 g20 g11 g02 g30 g21 g12 g03 g40 g31 g22 g13 g04 g50 g41 g32 g23 g14 g05 = 0 -> e5 g20 g11 g02 g30 g21 g12 g03 g40 g31 g22 g13 g04 g50 g41 g32 g23 g14 g05 = 0 -> e6 g20 g11 g02 g30 g21 g12 g03 g40 g31 g22 g13 g04 g50 g41 g32 g23 g14 g05 = 0 -> e7 g20 g11 g02 g30 g21 g12 g03 g40 g31 g22 g13 g04 g50 g41 g32 g23 g14 g05 = 0 -> e8 g20 g11 g02 g30 g21 g12 g03 g40 g31 g22 g13 g04 g50 g41 g32 g23 g14 g05 = 0 -> e9 g20 g11 g02 g30 g21 g12 g03 g40 g31 g22 g13 g04 g50 g41 g32 g23 g14 g05 = 0 -> e10 g20 g11 g02 g30 g21 g12 g03 g40 g31 g22 g13 g04 g50 g41 g32 g23 g14 g05 = 0 -> e12 g20 g11 g02 g30 g21 g12 g03 g40 g31 g22 g13 g04 g50 g41 g32 g23 g14 g05 = 0 -> e13 g20 g11 g02 g30 g21 g12 g03 g40 g31 g22 g13 g04 g50 g41 g32 g23 g14 g05 = 0 -> e14 g20 g11 g02 g30 g21 g12 g03 g40 g31 g22 g13 g04 g50 g41 g32 g23 g14 g05 = 0 -> e15 g20 g11 g02 g30 g21 g12 g03 g40 g31 g22 g13 g04 g50 g41 g32 g23 g14 g05 = 0 -> e16 g20 g11 g02 g30 g21 g12 g03 g40 g31 g22 g13 g04 g50 g41 g32 g23 g14 g05 = 0 -> e17 g20 g11 g02 g30 g21 g12 g03 g40 g31 g22 g13 g04 g50 g41 g32 g23 g14 g05 = 0 -> g30 = 0.
Proof. intros E0 E1 E3 E4 E5 E6 E7 E8 E9 E10 E12 E13 E14 E15 E16 E17. apply (Rmult_eq_reg_l 17460431189172344557456573987006830556996746490584576185214809402722367278222614929157058118074712402664095985189391486447630374740456674228074960000000000000000000000000000000); [|apply not_eq_sym, Rlt_not_eq, IZR_lt; reflexivity]. rewrite Rmult_0_r. replace (17460431189172344557456573987006830556996746490584576185214809402722367278222614929157058118074712402664095985189391486447630374740456674228074960000000000000000000000000000000 * g30) with ((-5981814388883119479025742103707169537605265770677348069879667346206667063506438801935913590132020719215885859885995188792768981354000000000000000000000000000000000000000000000) * e0 g20 g11 g02 g30 g21 g12 g03 g40 g31 g22 g13 g04 g50 g41 g32 g23 g14 g05 + (-10387339850965944167936957279198628376191097408143805534488740761048656094125040982305759756745394658375709963256427177585537962708000000000000000000000000000000000000000000000) * e1 g20 g11 g02 g30 g21 g12 g03 g40 g31 g22 g13 g04 g50 g41 g32 g23 g14 g05 + (-12047660290071129876086455365324016564306071396664129501322253292380510642603610238196897781676461238471894122078974464384592868236) * e3 g20 g11 g02 g30 g21 g12 g03 g40 g31 g22 g13 g04 g50 g41 g32 g23 g14 g05 + (57181077021212187879543034651842047520720896442627410770389512551271891862771237669850743154707623534520112499318141182548314466783) * e4 g20 g11 g02 g30 g21 g12 g03 g40 g31 g22 g13 g04 g50 g41 g32 g23 g14 g05 + (-36760899047937497488557170375590577484458255552580446381944867615513958272042407385074359374952854305664453880205389330651693906553) * e5 g20 g11 g02 g30 g21 g12 g03 g40 g31 g22 g13 g04 g50 g41 g32 g23 g14 g05 + (121495885286515254151532966267959666427900915281583122747888722299663592808574501550630661132925379335264246454050284977584601241572) * e6 g20 g11 g02 g30 g21 g12 g03 g40 g31 g22 g13 g04 g50 g41 g32 g23 g14 g05 + (135384877046832163718655600444193551810099574480152418104687069758370355282607430546881716382910250224536259531248831043851702279889) * e7 g20 g11 g02 g30 g21 g12 g03 g40 g31 g22 g13 g04 g50 g41 g32 g23 g14 g05 + (36760899047937497488557170375590577484458255552580446381944867615513958272042407385074359374952854305664453880205389330651693906553) * e8 g20 g11 g02 g30 g21 g12 g03 g40 g31 g22 g13 g04 g50 g41 g32 g23 g14 g05 + (46068313050365595722344740668293025560748497761681196080477335999526805847849129152181137175374045230832458297765045804652049748472) * e9 g20 g11 g02 g30 g21 g12 g03 g40 g31 g22 g13 g04 g50 g41 g32 g23 g14 g05 + (18715252176711237411111960168547427283894412619177720504678095495914554677130401659540066746567614216605478513025834009304099496944) * e10 g20 g11 g02 g30 g21 g12 g03 g40 g31 g22 g13 g04 g50 g41 g32 g23 g14 g05 + (-39848621299969004643762470063632503237780583819446824211958109140323919398857228830631926116695917169968159032671082334088837559500) * e12 g20 g11 g02 g30 g21 g12 g03 g40 g31 g22 g13 g04 g50 g41 g32 g23 g14 g05 + (16654171739711603343053938025357325764337631947491343200513415441054624199988474540507917124940529440578753433624938512178617666875) * e13 g20 g11 g02 g30 g21 g12 g03 g40 g31 g22 g13 g04 g50 g41 g32 g23 g14 g05 + (-14244320537671649248174932382002572767889971463041294747822310516301330363288596547168704446587623947021118229817975267374086707875) * e14 g20 g11 g02 g30 g21 g12 g03 g40 g31 g22 g13 g04 g50 g41 g32 g23 g14 g05 + (45841071753003510579666255292797405328779417981135032771665322481094042099711056018286692523637513261172266619856596113641541934250) * e15 g20 g11 g02 g30 g21 g12 g03 g40 g31 g22 g13 g04 g50 g41 g32 g23 g14 g05 + (52522797991613300181933313248422613778107114530433856850927907301702288518878562105475070022999638359903565030705789046926791082625) * e16 g20 g11 g02 g30 g21 g12 g03 g40 g31 g22 g13 g04 g50 g41 g32 g23 g14 g05 + (14244320537671649248174932382002572767889971463041294747822310516301330363288596547168704446587623947021118229817975267374086707875) * e17 g20 g11 g02 g30 g21 g12 g03 g40 g31 g22 g13 g04 g50 g41 g32 g23 g14 g05) by (unfold e0, e1, e3, e4, e5, e6, e7, e8, e9, e10, e12, e13, e14, e15, e16, e17; ring). rewrite E0, E1, E3, E4, E5, E6, E7, E8, E9, E10, E12, E13, E14, E15, E16, E17. ring. Qed.
Lemma zg21 g20 g11 g02 g30 g21 g12 g03 g40 g31 g22 g13 g04 g50 g41 g32 g23 g14 g05 : e0 g20 g11 g02 g30 g21 g12 g03 g40 g31 g22 g13 g04 g50 g41 g32 g23 g14 g05 = 0 -> e1 g20 g11 g02 g30 g21 g12 g03 g40 g31 g22 g13 g04 g50 g41 g32 g23 g14 g05 = 0 -> e3 g20 g11 g02 g30 g21 g12 g03 g40 g31 g22 g13 g04 g50 g41 g32 g23 g14 g05 = 0 -> e4 g20 g11 g02 g30 g21 g12 g03 g40 g31 g22 g13 g04 g50 g41 g32 g23 g14 g05 = 0 -> e5 g20 g11 g02 g30 g21 g12 g03 g40 g31 g22 g13 g04 g50 g41 g32 g23 g14 g05 = 0 -> e6 g20 g11 g02 g30 g21 g12 g03 g40 g31 g22 g13 g04 g50 g41 g32 g23 g14 g05 = 0 -> e7 g20 g11 g02 g30 g21 g12 g03 g40 g31 g22 g13 g04 g50 g41 g32 g23 g14 g05 = 0 -> e8 g20 g11 g02 g30 g21 g12 g03 g40 g31 g22 g13 g04 g50 g41 g32 g23 g14 g05 = 0 -> e9 g20 g11 g02 g30 g21 g12 g03 g40 g31 g22 g13 g04 g50 g41 g32 g23 g14 g05 = 0 -> e10 g20 g11 g02 g30 g21 g12 g03 g40 g31 g22 g13 g04 g50 g41 g32 g23 g14 g05 = 0 -> e12 g20 g11 g02 g30 g21 g12 g03 g40 g31 g22 g13 g04 g50 g41 g32 g23 g14 g05 = 0 -> e13 g20 g11 g02 g30 g21 g12 g03 g40 g31 g22 g13 g04 g50 g41 g32 g23 g14 g05 = 0 -> e14 g20 g11 g02 g30 g21 g12 g03 g40 g31 g22 g13 g04 g50 g41 g32 g23 g14 g05 = 0 -> e15 g20 g11 g02 g30 g21 g12 g03 g40 g31 g22 g13 g04 g50 g41 g32 g23 g14 g05 = 0 -> e16 g20 g11 g02 g30 g21 g12 g03 g40 g31 g22 g13 g04 g50 g41 g32 g23 g14 g05 = 0 -> e17 g20 g11 g02 g30 g21 g12 g03 g40 g31 g22 g13 g04 g50 g41 g32 g23 g14 g05 = 0 -> g21 = 0.
Proof. intros E0 E1 E3 E4 E5 E6 E7 E8 E9 E10 E12 E13 E14 E15 E16 E17. apply (Rmult_eq_reg_l 11640287459448229704971049324671220371331164327056384123476539601814911518815076619438038745383141601776063990126260990965086916493637782818716640000000000000000000000000000000); [|apply not_eq_sym, Rlt_not_eq, IZR_lt; reflexivity]. rewrite Rmult_0_r. replace (11640287459448229704971049324671220371331164327056384123476539601814911518815076619438038745383141601776063990126260990965086916493637782818716640000000000000000000000000000000 * g21) with ((1131694614113005093745839744055480330241957656005663736454994918107088224445291060374884509085392034908646714958058206244861974450000000000000000000000000000000000000000000000) * e0 g20 g11 g02 g30 g21 g12 g03 g40 g31 g22 g13 g04 g50 g41 g32 g23 g14 g05 + (8811050924165649377822430350982917677171663274932914929218146829683978061237204360739692333226747878319648206740863977585537962708000000000000000000000000000000000000000000000) * e1 g20 g11 g02 g30 g21 g12 g03 g40 g31 g22 g13 g04 g50 g41 g32 g23 g14 g05 + (35766795267329043393047507823225612868401413648571773557213249196565428200922832683200240222918394888034831221882609351586735307200) * e3 g20 g11 g02 g30 g21 g12 g03 g40 g31 g22 g13 g04 g50 g41 g32 g23 g14 g05 + (-51100657019114190018963728137116292145942630121529833656976935400567863356554595420340612533575259804995823553475621988511029938015) * e4 g20 g11 g02 g30 g21 g12 g03 g40 g31 g22 g13 g04 g50 g41 g32 g23 g14 g05 + (32078897118192516626558945334420228163996088620216331811537045639443411396291029278192104896655936226977214608685478130651693906553) * e5 g20 g11 g02 g30 g21 g12 g03 g40 g31 g22 g13 g04 g50 g41 g32 g23 g14 g05 + (-93032923313805880449803139490751149960630314393426034281586036681756018601066053204511042969524287237305051619161300484419743331376) * e6 g20 g11 g02 g30 g21 g12 g03 g40 g31 g22 g13 g04 g50 g41 g32 g23 g14 g05 + (-115134801124086264626540520249683606788508623954191837600043291204150466602260958388256779839162651519532215843715701437888986808657) * e7 g20 g11 g02 g30 g21 g12 g03 g40 g31 g22 g13 g04 g50 g41 g32 g23 g14 g05 + (-32078897118192516626558945334420228163996088620216331811537045639443411396291029278192104896655936226977214608685478130651693906553) * e8 g20 g11 g02 g30 g21 g12 g03 g40 g31 g22 g13 g04 g50 g41 g32 g23 g14 g05 + (74861008706843985384515696890776318478147619558109749995880314594305449729111304248201111301942838776851061309785508331696419217776) * e9 g20 g11 g02 g30 g21 g12 g03 g40 g31 g22 g13 g04 g50 g41 g32 g23 g14 g05 + (54706121747308716622465560999491196553708170285006951151598481007224502341437454985282140857612862028453959569478423590695900503056) * e10 g20 g11 g02 g30 g21 g12 g03 g40 g31 g22 g13 g04 g50 g41 g32 g23 g14 g05 + (1579126998400624778188289731692950829746489768209776753024408297765375471012760135651172175566913935608648816672659832494272280000) * e12 g20 g11 g02 g30 g21 g12 g03 g40 g31 g22 g13 g04 g50 g41 g32 g23 g14 g05 + (-83321002555371728149062941242907721288171387591949590065694024013566428822276435131763600282968018952065918450135208527445768096875) * e13 g20 g11 g02 g30 g21 g12 g03 g40 g31 g22 g13 g04 g50 g41 g32 g23 g14 g05 + (6864335361113250905645421922942430289900431806181370593052439688256326770975702076538960441703762921738543092373075267374086707875) * e14 g20 g11 g02 g30 g21 g12 g03 g40 g31 g22 g13 g04 g50 g41 g32 g23 g14 g05 + (-49729762239818910637086028044441701132198065293618186908816798195771616860003702492663362476209445305722951033047048599968956783750) * e15 g20 g11 g02 g30 g21 g12 g03 g40 g31 g22 g13 g04 g50 g41 g32 g23 g14 g05 + (-43048036001209067029103990846322353614720437040524392917774194790407151213749983784892841199029124466490503304155219031659640652625) * e16 g20 g11 g02 g30 g21 g12 g03 g40 g31 g22 g13 g04 g50 g41 g32 g23 g14 g05 + (-6864335361113250905645421922942430289900431806181370593052439688256326770975702076538960441703762921738543092373075267374086707875) * e17 g20 g11 g02 g30 g21 g12 g03 g40 g31 g22 g13 g04 g50 g41 g32 g23 g14 g05) by (unfold e0, e1, e3, e4, e5, e6, e7, e8, e9, e10, e12, e13, e14, e15, e16, e17; ring). rewrite E0, E1, E3, E4, E5, E6, E7, E8, E9, E10, E12, E13, E14, E15, E16, E17. ring. Qed.
Lemma zg12 g20 g11 g02 g30 g21 g12 g03 g40 g31 g22 g13 g04 g50 g41 g32 g23 g14 g05 : e0 g20 g11 g02 g30 g21 g12 g03 g40 g31 g22 g13 g04 g50 g41 g32 g23 g14 g05 = 0 -> e1 g20 g11 g02 g30 g21 g12 g03 g40 g31 g22 g13 g04 g50 g41 g32 g23 g14 g05 = 0 -> e3 g20 g11 g02 g30 g21 g12 g03 g40 g31 g22 g13 g04 g50 g41 g32 g23 g14 g05 = 0 -> e4 g20 g11 g02 g30 g21 g12 g03 g40 g31 g22 g13 g04 g50 g41 g32 g23 g14 g05 = 0 -> e5 g20 g11 g02 g30 g21 g12 g03 g40 g31 g22 g13 g04 g50 g41 g32 g23 g14 g05 = 0 -> e6 g20 g11 g02 g30 g21 g12 g03 g40 g31 g22 g13 g04 g50 g41 g32 g23 g14 g05 = 0 -> e7 g20 g11 g02 g30 g21 g12 g03 g40 g31 g22 g13 g04 g50 g41 g32 g23 g14 g05 = 0 -> e8 g20 g11 g02 g30 g21 g12 g03 g40 g31 g22 g13 g04 g50 g41 g32 g23 g14 g05 = 0 -> e9 g20 g11 g02 g30 g21 g12 g03 g40 g31 g22 g13 g04 g50 g41 g32 g23 g14 g05 = 0 -> e10 g20 g11 g02 g30 g21 g12 g03 g40 g31 g22 g13 g04 g50 g41 g32 g23 g14 g05 = 0 -> e12 g20 g11 g02 g30 g21 g12 g03 g40 g31 g22 g13 g04 g50 g41 g32 g23 g14 g05 = 0 -> e13 g20 g11 g02 g30 g21 g12 g03 g40 g31 g22 g13 g04 g50 g41 g32 g23 g14 g05 = 0 -> e14 g20 g11 g02 g30 g21 g12 g03 g40 g31 g22 g13 g04 g50 g41 g32 g23 g14 g05 = 0 -> e15 g20 g11 g02 g30 g21 g12 g03 g40 g31 g22 g13 g04 g50 g41 g32 g23 g14 g05 = 0 -> e16 g20 g11 g02 g30 g21 g12 g03 g40 g31 g22 g13 g04 g50 g41 g32 g23 g14 g05 = 0 -> e17 g20 g11 g02 g30 g21 g12 g03 g40 g31 g22 g13 g04 g50 g41 g32 g23 g14 g05 = 0 -> g12 = 0.
Proof. intros E0 E1 E3 E4 E5 E6 E7 E8 E9 E10 E12 E13 E14 E15 E16 E17. apply (Rmult_eq_reg_l 23280574918896459409942098649342440742662328654112768246953079203629823037630153238876077490766283203552127980252521981930173832987275565637433280000000000000000000000000000000); [|apply not_eq_sym, Rlt_not_eq, IZR_lt; reflexivity]. rewrite Rmult_0_r. replace (23280574918896459409942098649342440742662328654112768246953079203629823037630153238876077490766283203552127980252521981930173832987275565637433280000000000000000000000000000000 * g12) with ((-4526778456452062709258966137590884864590063496621331765025288459712441051840198500161592969882789433308646714958058206244861974450000000000000000000000000000000000000000000000) * e0 g20 g11 g02 g30 g21 g12 g03 g40 g31 g22 g13 g04 g50 g41 g32 g23 g14 g05 + (-15358712620105288568153181213854874693859411237854502385526303823153779673583826600729615648282711686822002983565611542681351976516000000000000000000000000000000000000000000000) * e1 g20 g11 g02 g30 g21 g12 g03 g40 g31 g22 g13 g04 g50 g41 g32 g23 g14 g05 + (-143067181069317511531520710608476932916167357760592867045752927551514952647634655651539123049354118254434831221882609351586735307200) * e3 g20 g11 g02 g30 g21 g12 g03 g40 g31 g22 g13 g04 g50 g41 g32 g23 g14 g05 + (208759799051737191798944297096372889133091092879444387375071707868769431768839533980171632276091642951003255303116184562915314815943) * e4 g20 g11 g02 g30 g21 g12 g03 g40 g31 g22 g13 g04 g50 g41 g32 g23 g14 g05 + (-32202547249605475272100043890693369849422272027986991491544781114747630943166724866660147384380416966395251535816354942577124849017) * e5 g20 g11 g02 g30 g21 g12 g03 g40 g31 g22 g13 g04 g50 g41 g32 g23 g14 g05 + (-146136828561388678525424689006018925542000457887388367860914956061878609452103999734904987403526996331817599292727729915580256668624) * e6 g20 g11 g02 g30 g21 g12 g03 g40 g31 g22 g13 g04 g50 g41 g32 g23 g14 g05 + (9178861141710043378552936342175834551353613782290433690223170370286047348505132594401546976172394999512382696709080024218702629049) * e7 g20 g11 g02 g30 g21 g12 g03 g40 g31 g22 g13 g04 g50 g41 g32 g23 g14 g05 + (32202547249605475272100043890693369849422272027986991491544781114747630943166724866660147384380416966395251535816354942577124849017) * e8 g20 g11 g02 g30 g21 g12 g03 g40 g31 g22 g13 g04 g50 g41 g32 g23 g14 g05 + (218824486989236938559042833200421573371609065227191807781229687054173782540392811053632930783389357995471589602103522068303580782224) * e9 g20 g11 g02 g30 g21 g12 g03 g40 g31 g22 g13 g04 g50 g41 g32 g23 g14 g05 + (40309773919070537524100271782570243848878898546205597688563667174161894775347698525837940888659953496794203480614169482001037429440) * e10 g20 g11 g02 g30 g21 g12 g03 g40 g31 g22 g13 g04 g50 g41 g32 g23 g14 g05 + (-6316507993602558184517515955079953377762230887874665555920790858974377288054472054994812496048913295608648816672659832494272280000) * e12 g20 g11 g02 g30 g21 g12 g03 g40 g31 g22 g13 g04 g50 g41 g32 g23 g14 g05 + (-82572599760611267188031594409514536913530554242602549996497970978156438328063910835743989456997689513296423554457036475743362462125) * e13 g20 g11 g02 g30 g21 g12 g03 g40 g31 g22 g13 g04 g50 g41 g32 g23 g14 g05 + (-60865972637502413836895216165412658543152245969969308927077148287928257921453557576487640409050183250791044423099215297908387567875) * e14 g20 g11 g02 g30 g21 g12 g03 g40 g31 g22 g13 g04 g50 g41 g32 g23 g14 g05 + (198919048959277502832412168084108129808252695717440050337041775830430065247085675892169002352375984585722951033047048599968956783750) * e15 g20 g11 g02 g30 g21 g12 g03 g40 g31 g22 g13 g04 g50 g41 g32 g23 g14 g05 + (239009406390936285826569981962477186114411052456733695651849628790091115622134863955032491819706913610180662630289114059004810953625) * e16 g20 g11 g02 g30 g21 g12 g03 g40 g31 g22 g13 g04 g50 g41 g32 g23 g14 g05 + (60865972637502413836895216165412658543152245969969308927077148287928257921453557576487640409050183250791044423099215297908387567875) * e17 g20 g11 g02 g30 g21 g12 g03 g40 g31 g22 g13 g04 g50 g41 g32 g23 g14 g05) by (unfold e0, e1, e3, e4, e5, e6, e7, e8, e9, e10, e12, e13, e14, e15, e16, e17; ring). rewrite E0, E1, E3, E4, E5, E6, E7, E8, E9, E10, E12, E13, E14, E15, E16, E17. ring. Qed.
Lemma zg03 g20 g11 g02 g30 g21 g12 g03 g40 g31 g22 g13 g04 g50 g41 g32 g23 g14 g05 : e0 g20 g11 g02 g30 g21 g12 g03 g40 g31 g22 g13 g04 g50 g41 g32 g23 g14 g05 = 0 -> e1 g20 g11 g02 g30 g21 g12 g03 g40 g31 g22 g13 g04 g50 g41 g32 g23 g14 g05 = 0 -> e2 g20 g11 g02 g30 g21 g12 g03 g40 g31 g22 g13 g04 g50 g41 g32 g23 g14 g05 = 0 -> e3 g20 g11 g02 g30 g21 g12 g03 g40 g31 g22 g13 g04 g50 g41 g32 g23 g14 g05 = 0 -> e4 g20 g11 g02 g30 g21 g12 g03 g40 g31 g22 g13 g04 g50 g41 g32 g23 g14 g05 = 0 -> e5 g20 g11 g02 g30 g21 g12 g03 g40 g31 g22 g13 g04 g50 g41 g32 g23 g14 g05 = 0 -> e6 g20 g11 g02 g30 g21 g12 g03 g40 g31 g22 g13 g04 g50 g41 g32 g23 g14 g05 = 0 -> e7 g20 g11 g02 g30 g21 g12 g03 g40 g31 g22 g13 g04 g50 g41 g32 g23 g14 g05 = 0 -> e8 g20 g11 g02 g30 g21 g12 g03 g40 g31 g22 g13 g04 g50 g41 g32 g23 g14 g05 = 0 -> e9 g20 g11 g02 g30 g21 g12 g03 g40 g31 g22 g13 g04 g50 g41 g32 g23 g14 g05 = 0 -> e10 g20 g11 g02 g30 g21 g12 g03 g40 g31 g22 g13 g04 g50 g41 g32 g23 g14 g05 = 0 -> e11 g20 g11 g02 g30 g21 g12 g03 g40 g31 g22 g13 g04 g50 g41 g32 g23 g14 g05 = 0 -> e12 g20 g11 g02 g30 g21 g12 g03 g40 g31 g22 g13 g04 g50 g41 g32 g23 g14 g05 = 0 -> e13 g20 g11 g02 g30 g21 g12 g03 g40 g31 g22 g13 g04 g50 g41 g32 g23 g14 g05 = 0 -> e14 g20 g11 g02 g30 g21 g12 g03 g40 g31 g22 g13 g04 g50 g41 g32 g23 g14 g05 = 0 -> e15 g20 g11 g02 g30 g21 g12 g03 g40 g31 g22 g13 g04 g50 g41 g32 g23 g14 g05 = 0 -> e16 g20 g11 g02 g30 g21 g12 g03 g40 g31 g22 g13 g04 g50 g41 g32 g23 g14 g05 = 0 -> e17 g20 g11 g02 g30 g21 g12 g03 g40 g31 g22 g13 g04 g50 g41 g32 g23 g14 g05 = 0 -> g03 = 0.
Proof. intros E0 E1 E2 E3 E4 E5 E6 E7 E8 E9 E10 E11 E12 E13 E14 E15 E16 E17. apply (Rmult_eq_reg_l 6371900357086369738518141561836931213898691743776052104920437194843072204448037679448389831987679457902661966737400741424310667276755819982073563926601563070702586753144851248544801143680000000000000000000000000000000); [|apply not_eq_sym, Rlt_not_eq, IZR_lt; reflexivity]. rewrite Rmult_0_r. replace (6371900357086369738518141561836931213898691743776052104920437194843072204448037679448389831987679457902661966737400741424310667276755819982073563926601563070702586753144851248544801143680000000000000000000000000000000 * g03) with ((-1358376323243653699962286075821852952424392448501937359611825798748005036176660177885167405708416387017640517541239027875965565767683741455266373215903103245553051235360970000000000000000000000000000000000000000000000) * e0 g20 g11 g02 g30 g21 g12 g03 g40 g31 g22 g13 g04 g50 g41 g32 g23 g14 g05 + (618092769000710383496391429150030375320995794686894606783627632395925857247459463213812040717013172601284328801976816448057232193064233838936593207753695470524119383477644000000000000000000000000000000000000000000000) * e1 g20 g11 g02 g30 g21 g12 g03 g40 g31 g22 g13 g04 g50 g41 g32 g23 g14 g05 + (-370141777121482323908905971146745111133394131441668385979308474516806225429238398379748754282513435808971474321038462245606563114222539221047066541448211871224216064277088000000000000000000000000000000000000000000000) * e2 g20 g11 g02 g30 g21 g12 g03 g40 g31 g22 g13 g04 g50 g41 g32 g23 g14 g05 + (-42930987956960904719261779283826493070392841988720367208199751248366532919683674011996018927943351873632532470954398149631217373709006269206178482360083407305893273157949120) * e3 g20 g11 g02 g30 g21 g12 g03 g40 g31 g22 g13 g04 g50 g41 g32 g23 g14 g05 + (30944261757446825067967429929048322942389304645503199925159763718245007198105734626017574490207002047307885213308649918240593609599226051085294206718316470061011904381537723) * e4 g20 g11 g02 g30 g21 g12 g03 g40 g31 g22 g13 g04 g50 g41 g32 g23 g14 g05 + (15042140343489951125306837846316704968892246650560116181036984617074140716538971261732921013057545968510130300162554157704396289525020633811573720993448399120904888304622699) * e5 g20 g11 g02 g30 g21 g12 g03 g40 g31 g22 g13 g04 g50 g41 g32 g23 g14 g05 + (-93869441751160838368838635174638081760298467912180788023975928466241309975876513820412736803531175314886634556096173461929468095219903541164408310197868317881606084183464464) * e6 g20 g11 g02 g30 g21 g12 g03 g40 g31 g22 g13 g04 g50 g41 g32 g23 g14 g05 + (-74150649267332710500178844714947273157404677356717573800695817280552746428148918972389941862643736010000206975983714634247170985323651869579815550059061724416471690179001947) * e7 g20 g11 g02 g30 g21 g12 g03 g40 g31 g22 g13 g04 g50 g41 g32 g23 g14 g05 + (-11980160767599486085231007234318400873735147636789788791854769236528641762961728654381643225547477375632189217337880764051615992799205738255509697594442455484901945248619691) * e8 g20 g11 g02 g30 g21 g12 g03 g40 g31 g22 g13 g04 g50 g41 g32 g23 g14 g05 + (115681243488371985641474468904766908415825072553012575138724284679870760644944085562820803009385215737910907304982302251735284882195024013559214833028913958287477514981955024) * e9 g20 g11 g02 g30 g21 g12 g03 g40 g31 g22 g13 g04 g50 g41 g32 g23 g14 g05 + (-37876512443571552640754425738415365645191881595427684025187949529252672977551470848320226976445796998183395919527540444178895927312906762547880028499697604400538263937729664) * e10 g20 g11 g02 g30 g21 g12 g03 g40 g31 g22 g13 g04 g50 g41 g32 g23 g14 g05 + (-54163022662493623275832294658490236848764111676517462290046705458936418662403999295442168722321669601521918058808845599545440842115723221082224044454372684133156612849569632) * e11 g20 g11 g02 g30 g21 g12 g03 g40 g31 g22 g13 g04 g50 g41 g32 g23 g14 g05 + (-1895430710080267624113113084956929531989121315301269729479009016698063265607338975818724133903278852343625599227448401321897358776501600055879398931393770423800014488888000) * e12 g20 g11 g02 g30 g21 g12 g03 g40 g31 g22 g13 g04 g50 g41 g32 g23 g14 g05 + (-35974677213471622446057681446291976711207066144397603852126340496542120112206346986958557241015841663717369921695176405926545083574948028749880791909260842093585253306871625) * e13 g20 g11 g02 g30 g21 g12 g03 g40 g31 g22 g13 g04 g50 g41 g32 g23 g14 g05 + (24207437742542535226008619395331087506857174306270996868030310681228193588430899929413346871569490525042696405633275879557811081174034662680469559428733727147132164371455625) * e14 g20 g11 g02 g30 g21 g12 g03 g40 g31 g22 g13 g04 g50 g41 g32 g23 g14 g05 + (59690777657408674969720782685844625662313954772742158532449700617631281492993266048306196810119832752428179294909171513798368221237848416159443435289815324953754240203092750) * e15 g20 g11 g02 g30 g21 g12 g03 g40 g31 g22 g13 g04 g50 g41 g32 g23 g14 g05 + (100369072403909880164620953383555472437747433994493507369692397513412534174119596674878226490539016964358410726244407522014473117399546296140994147140353923145432079688169125) * e16 g20 g11 g02 g30 g21 g12 g03 g40 g31 g22 g13 g04 g50 g41 g32 g23 g14 g05 + (36887433326340645755288305872122963247351479905401184454275508209116494206985293514930760428869973250443510377018934806966226668299882221813961258245734733873075339157592375) * e17 g20 g11 g02 g30 g21 g12 g03 g40 g31 g22 g13 g04 g50 g41 g32 g23 g14 g05) by (unfold e0, e1, e2, e3, e4, e5, e6, e7, e8, e9, e10, e11, e12, e13, e14, e15, e16, e17; ring). rewrite E0, E1, E2, E3, E4, E5, E6, E7, E8, E9, E10, E11, E12, E13, E14, E15, E16, E17. ring. Qed.
Lemma zg40 g20 g11 g02 g30 g21 g12 g03 g40 g31 g22 g13 g04 g50 g41 g32 g23 g14 g05 : e0 g20 g11 g02 g30 g21 g12 g03 g40 g31 g22 g13 g04 g50 g41 g32 g23 g14 g05 = 0 -> e1 g20 g11 g02 g30 g21 g12 g03 g40 g31 g22 g13 g04 g50 g41 g32 g23 g14 g05 = 0 -> e3 g20 g11 g02 g30 g21 g12 g03 g40 g31 g22 g13 g04 g50 g41 g32 g23 g14 g05 = 0 -> e4 g20 g11 g02 g30 g21 g12 g03 g40 g31 g22 g13 g04 g50 g41 g32 g23 g14 g05 = 0 -> e5 g20 g11 g02 g30 g21 g12 g03 g40 g31 g22 g13 g04 g50 g41 g32 g23 g14 g05 = 0 -> e6 g20 g11 g02 g30 g21 g12 g03 g40 g31 g22 g13 g04 g50 g41 g32 g23 g14 g05 = 0 -> e7 g20 g11 g02 g30 g21 g12 g03 g40 g31 g22 g13 g04 g50 g41 g32 g23 g14 g05 = 0 -> e8 g20 g11 g02 g30 g21 g12 g03 g40 g31 g22 g13 g04 g50 g41 g32 g23 g14 g05 = 0 -> e9 g20 g11 g02 g30 g21 g12 g03 g40 g31 g22 g13 g04 g50 g41 g32 g23 g14 g05 = 0 -> e10 g20 g11 g02 g30 g21 g12 g03 g40 g31 g22 g13 g04 g50 g41 g32 g23 g14 g05 = 0 -> e12 g20 g11 g02 g30 g21 g12 g03 g40 g31 g22 g13 g04 g50 g41 g32 g23 g14 g05 = 0 -> e13 g20 g11 g02 g30 g21 g12 g03 g40 g31 g22 g13 g04 g50 g41 g32 g23 g14 g05 = 0 -> e14 g20 g11 g02 g30 g21 g12 g03 g40 g31 g22 g13 g04 g50 g41 g32 g23 g14 g05 = 0 -> e15 g20 g11 g02 g30 g21 g12 g03 g40 g31 g22 g13 g04 g50 g41 g32 g23 g14 g05 = 0 -> e16 g20 g11 g02 g30 g21 g12 g03 g40 g31 g22 g13 g04 g50 g41 g32 g23 g14 g05 = 0 -> e17 g20 g11 g02 g30 g21 g12 g03 g40 g31 g22 g13 g04 g50 g41 g32 g23 g14 g05 = 0 -> g40 = 0.
Proof. intros E0 E1 E3 E4 E5 E6 E7 E8 E9 E10 E12 E13 E14 E15 E16 E17. apply (Rmult_eq_reg_l 87302155945861722787282869935034152784983732452922880926074047013611836391113074645785290590373562013320479925946957432238151873702283371140374800000000000000000); [|apply not_eq_sym, Rlt_not_eq, IZR_lt; reflexivity]. rewrite Rmult_0_r. replace (87302155945861722787282869935034152784983732452922880926074047013611836391113074645785290590373562013320479925946957432238151873702283371140374800000000000000000 * g40) with ((32738308479698128286756422641037354995656875903474296406067604448369787708938009249624442246408244510070077195644454000000000000000000000000000000000000000000000) * e0 g20 g11 g02 g30 g21 g12 g03 g40 g31 g22 g13 g04 g50 g41 g32 g23 g14 g05 + (61535894642395519598226527961535433243765166473921366298958724068327880335656426945333715934019872070000000000000000000000000000000000000000000000000000000000000) * e1 g20 g11 g02 g30 g21 g12 g03 g40 g31 g22 g13 g04 g50 g41 g32 g23 g14 g05 + (91863814753366482122948401273076089716877738706979337706336797572747330536387678024781436829798359222599316648840164) * e3 g20 g11 g02 g30 g21 g12 g03 g40 g31 g22 g13 g04 g50 g41 g32 g23 g14 g05 + (-347038342487988372850351456132309622332138256302384142544707279861185635359078783153166364933763346835140950910600111) * e4 g20 g11 g02 g30 g21 g12 g03 g40 g31 g22 g13 g04 g50 g41 g32 g23 g14 g05 + (218224393322752503965066202800640933852105033291321161876568937633098019689878457191902372483239766608000000000000000) * e5 g20 g11 g02 g30 g21 g12 g03 g40 g31 g22 g13 g04 g50 g41 g32 g23 g14 g05 + (-695892172882343456206731824894034208047160258024962482363193237168274065663238034013621826300772573307259732440559725) * e6 g20 g11 g02 g30 g21 g12 g03 g40 g31 g22 g13 g04 g50 g41 g32 g23 g14 g05 + (-795192133957855832935479424336517363337503740215936752723864710067558041928214142804176746095985175247859049089399889) * e7 g20 g11 g02 g30 g21 g12 g03 g40 g31 g22 g13 g04 g50 g41 g32 g23 g14 g05 + (-218224393322752503965066202800640933852105033291321161876568937633098019689878457191902372483239766608000000000000000) * e8 g20 g11 g02 g30 g21 g12 g03 g40 g31 g22 g13 g04 g50 g41 g32 g23 g14 g05 + (-129567130454153572105931577488001743623569884010817455806597432566346612776431317343806350755757866197324297603130322) * e9 g20 g11 g02 g30 g21 g12 g03 g40 g31 g22 g13 g04 g50 g41 g32 g23 g14 g05 + (-75580826098257259127919352055906927653133310761173232472503423874845583006442993075557182501064541782000000000000000) * e10 g20 g11 g02 g30 g21 g12 g03 g40 g31 g22 g13 g04 g50 g41 g32 g23 g14 g05 + (148217114097753836886431816930366633889603451200070236556129432416343776734433583806526257829374857739597924017127875) * e12 g20 g11 g02 g30 g21 g12 g03 g40 g31 g22 g13 g04 g50 g41 g32 g23 g14 g05 + (-130828014291840099338272021454935801505904207014333657013355627212918984967767306388409872166327744580896781078193875) * e13 g20 g11 g02 g30 g21 g12 g03 g40 g31 g22 g13 g04 g50 g41 g32 g23 g14 g05 + (81775930637750684852749101689600412526050962172782818958587102272656514926335379768857966171429170150000000000000000) * e14 g20 g11 g02 g30 g21 g12 g03 g40 g31 g22 g13 g04 g50 g41 g32 g23 g14 g05 + (-298555954466472754439140227129415356818486697265075639056500880360454696972478160213739458255665379229505294904678250) * e15 g20 g11 g02 g30 g21 g12 g03 g40 g31 g22 g13 g04 g50 g41 g32 g23 g14 g05 + (-312829838508737464900094000981786982752979980502049105317454508828344523801220302102700164521395737444103218921806125) * e16 g20 g11 g02 g30 g21 g12 g03 g40 g31 g22 g13 g04 g50 g41 g32 g23 g14 g05 + (-81775930637750684852749101689600412526050962172782818958587102272656514926335379768857966171429170150000000000000000) * e17 g20 g11 g02 g30 g21 g12 g03 g40 g31 g22 g13 g04 g50 g41 g32 g23 g14 g05) by (unfold e0, e1, e3, e4, e5, e6, e7, e8, e9, e10, e12, e13, e14, e15, e16, e17; ring). rewrite E0, E1, E3, E4, E5, E6, E7, E8, E9, E10, E12, E13, E14, E15, E16, E17. ring. Qed.
Lemma zg31 g20 g11 g02 g30 g21 g12 g03 g40 g31 g22 g13 g04 g50 g41 g32 g23 g14 g05 : e0 g20 g11 g02 g30 g21 g12 g03 g40 g31 g22 g13 g04 g50 g41 g32 g23 g14 g05 = 0 -> e1 g20 g11 g02 g30 g21 g12 g03 g40 g31 g22 g13 g04 g50 g41 g32 g23 g14 g05 = 0 -> e3 g20 g11 g02 g30 g21 g12 g03 g40 g31 g22 g13 g04 g50 g41 g32 g23 g14 g05 = 0 -> e4 g20 g11 g02 g30 g21 g12 g03 g40 g31 g22 g13 g04 g50 g41 g32 g23 g14 g05 = 0 -> e5 g20 g11 g02 g30 g21 g12 g03 g40 g31 g22 g13 g04 g50 g41 g32 g23 g14 g05 = 0 -> e6 g20 g11 g02 g30 g21 g12 g03 g40 g31 g22 g13 g04 g50 g41 g32 g23 g14 g05 = 0 -> e7 g20 g11 g02 g30 g21 g12 g03 g40 g31 g22 g13 g04 g50 g41 g32 g23 g14 g05 = 0 -> e8 g20 g11 g02 g30 g21 g12 g03 g40 g31 g22 g13 g04 g50 g41 g32 g23 g14 g05 = 0 -> e9 g20 g11 g02 g30 g21 g12 g03 g40 g31 g22 g13 g04 g50 g41 g32 g23 g14 g05 = 0 -> e10 g20 g11 g02 g30 g21 g12 g03 g40 g31 g22 g13 g04 g50 g41 g32 g23 g14 g05 = 0 -> e12 g20 g11 g02 g30 g21 g12 g03 g40 g31 g22 g13 g04 g50 g41 g32 g23 g14 g05 = 0 -> e13 g20 g11 g02 g30 g21 g12 g03 g40 g31 g22 g13 g04 g50 g41 g32 g23 g14 g05 = 0 -> e14 g20 g11 g02 g30 g21 g12 g03 g40 g31 g22 g13 g04 g50 g41 g32 g23 g14 g05 = 0 -> e15 g20 g11 g02 g30 g21 g12 g03 g40 g31 g22 g13 g04 g50 g41 g32 g23 g14 g05 = 0 -> e16 g20 g11 g02 g30 g21 g12 g03 g40 g31 g22 g13 g04 g50 g41 g32 g23 g14 g05 = 0 -> e17 g20 g11 g02 g30 g21 g12 g03 g40 g31 g22 g13 g04 g50 g41 g32 g23 g14 g05 = 0 -> g31 = 0.
Proof. intros E0 E1 E3 E4 E5 E6 E7 E8 E9 E10 E12 E13 E14 E15 E16 E17. apply (Rmult_eq_reg_l 21825538986465430696820717483758538196245933113230720231518511753402959097778268661446322647593390503330119981486739358059537968425570842785093700000000000000000); [|apply not_eq_sym, Rlt_not_eq, IZR_lt; reflexivity]. rewrite Rmult_0_r. replace (21825538986465430696820717483758538196245933113230720231518511753402959097778268661446322647593390503330119981486739358059537968425570842785093700000000000000000 * g31) with ((-4243854802923784642097598983629864347573143570909907653259932111688216245653688979732325522870223013000000000000000000000000000000000000000000000000000000000000) * e0 g20 g11 g02 g30 g21 g12 g03 g40 g31 g22 g13 g04 g50 g41 g32 g23 g14 g05 + (-28797586162697391311470105320498078248108290570447069892891119619958092626718417695709273687611627559929922804355546000000000000000000000000000000000000000000000) * e1 g20 g11 g02 g30 g21 g12 g03 g40 g31 g22 g13 g04 g50 g41 g32 g23 g14 g05 + (-134125482252484403877361505324655158098018030671296947359453779705590773513235856531975938407275127648000000000000000) * e3 g20 g11 g02 g30 g21 g12 g03 g40 g31 g22 g13 g04 g50 g41 g32 g23 g14 g05 + (200435042089809224598748751707136696002994781320977035133536068291047310589466961036960766006442048524099316648840164) * e4 g20 g11 g02 g30 g21 g12 g03 g40 g31 g22 g13 g04 g50 g41 g32 g23 g14 g05 + (-103259694249195025905035320098857530275474807980205437725274691346460826250250005962348368143748735705640950910600111) * e5 g20 g11 g02 g30 g21 g12 g03 g40 g31 g22 g13 g04 g50 g41 g32 g23 g14 g05 + (219306331972618704557220483075377261524633408328205221909348475723932075232392094838565101689335560788000000000000000) * e6 g20 g11 g02 g30 g21 g12 g03 g40 g31 g22 g13 g04 g50 g41 g32 g23 g14 g05 + (337767076227058007103298705140732171336364695879360715478179482042169631570975608931541955552332259474240267559440275) * e7 g20 g11 g02 g30 g21 g12 g03 g40 g31 g22 g13 g04 g50 g41 g32 g23 g14 g05 + (103259694249195025905035320098857530275474807980205437725274691346460826250250005962348368143748735705640950910600111) * e8 g20 g11 g02 g30 g21 g12 g03 g40 g31 g22 g13 g04 g50 g41 g32 g23 g14 g05 + (-151161652196511348523730161405015768333081747424350971419346340400030744289138356621952361685720040564000000000000000) * e9 g20 g11 g02 g30 g21 g12 g03 g40 g31 g22 g13 g04 g50 g41 g32 g23 g14 g05 + (-53986304355896312978012225432094815970436573249644223334094008691501029769988324268249168254693324415324297603130322) * e10 g20 g11 g02 g30 g21 g12 g03 g40 g31 g22 g13 g04 g50 g41 g32 g23 g14 g05 + (-5921726244002364602945833646076407433215373568123417735109401502713862217798264320874085581058255200000000000000000) * e12 g20 g11 g02 g30 g21 g12 g03 g40 g31 g22 g13 g04 g50 g41 g32 g23 g14 g05 + (136749740535843314192842253799475002598648070553613169264552334897948268017531448757768134404249874502097924017127875) * e13 g20 g11 g02 g30 g21 g12 g03 g40 g31 g22 g13 g04 g50 g41 g32 g23 g14 g05 + (-31662983848177344498212662770975028165538556515316504285831212601272002972776571796141803079609758793396781078193875) * e14 g20 g11 g02 g30 g21 g12 g03 g40 g31 g22 g13 g04 g50 g41 g32 g23 g14 g05 + (186486608399321597783452189858376409724156619750133621242579212899985143420429985089010073102213883975000000000000000) * e15 g20 g11 g02 g30 g21 g12 g03 g40 g31 g22 g13 g04 g50 g41 g32 g23 g14 g05 + (156569271896015332492815358438199058731352870897764190565886353199204320513411583326128701857183086032994705095321750) * e16 g20 g11 g02 g30 g21 g12 g03 g40 g31 g22 g13 g04 g50 g41 g32 g23 g14 g05 + (31662983848177344498212662770975028165538556515316504285831212601272002972776571796141803079609758793396781078193875) * e17 g20 g11 g02 g30 g21 g12 g03 g40 g31 g22 g13 g04 g50 g41 g32 g23 g14 g05) by (unfold e0, e1, e3, e4, e5, e6, e7, e8, e9, e10, e12, e13, e14, e15, e16, e17; ring). rewrite E0, E1, E3, E4, E5, E6, E7, E8, E9, E10, E12, E13, E14, E15, E16, E17. ring. Qed.
Lemma zg22 g20 g11 g02 g30 g21 g12 g03 g40 g31 g22 g13 g04 g50 g41 g32 g23 g14 g05 : e0 g20 g11 g02 g30 g21 g12 g03 g40 g31 g22 g13 g04 g50 g41 g32 g23 g14 g05 = 0 -> e1 g20 g11 g02 g30 g21 g12 g03 g40 g31 g22 g13 g04 g50 g41 g32 g23 g14 g05 = 0 -> e3 g20 g11 g02 g30 g21 g12 g03 g40 g31 g22 g13 g04 g50 g41 g32 g23 g14 g05 = 0 -> e4 g20 g11 g02 g30 g21 g12 g03 g40 g31 g22 g13 g04 g50 g41 g32 g23 g14 g05 = 0 -> e5 g20 g11 g02 g30 g21 g12 g03 g40 g31 g22 g13 g04 g50 g41 g32 g23 g14 g05 = 0 -> e6 g20 g11 g02 g30 g21 g12 g03 g40 g31 g22 g13 g04 g50 g41 g32 g23 g14 g05 = 0 -> e7 g20 g11 g02 g30 g21 g12 g03 g40 g31 g22 g13 g04 g50 g41 g32 g23 g14 g05 = 0 -> e8 g20 g11 g02 g30 g21 g12 g03 g40 g31 g22 g13 g04 g50 g41 g32 g23 g14 g05 = 0 -> e9 g20 g11 g02 g30 g21 g12 g03 g40 g31 g22 g13 g04 g50 g41 g32 g23 g14 g05 = 0 -> e10 g20 g11 g02 g30 g21 g12 g03 g40 g31 g22 g13 g04 g50 g41 g32 g23 g14 g05 = 0 -> e12 g20 g11 g02 g30 g21 g12 g03 g40 g31 g22 g13 g04 g50 g41 g32 g23 g14 g05 = 0 -> e13 g20 g11 g02 g30 g21 g12 g03 g40 g31 g22 g13 g04 g50 g41 g32 g23 g14 g05 = 0 -> e14 g20 g11 g02 g30 g21 g12 g03 g40 g31 g22 g13 g04 g50 g41 g32 g23 g14 g05 = 0 -> e15 g20 g11 g02 g30 g21 g12 g03 g40 g31 g22 g13 g04 g50 g41 g32 g23 g14 g05 = 0 -> e16 g20 g11 g02 g30 g21 g12 g03 g40 g31 g22 g13 g04 g50 g41 g32 g23 g14 g05 = 0 -> e17 g20 g11 g02 g30 g21 g12 g03 g40 g31 g22 g13 g04 g50 g41 g32 g23 g14 g05 = 0 -> g22 = 0.
Proof. intros E0 E1 E3 E4 E5 E6 E7 E8 E9 E10 E12 E13 E14 E15 E16 E17. apply (Rmult_eq_reg_l 14550359324310287131213811655839025464163955408820480154345674502268639398518845774297548431728927002220079987657826238706358645617047228523395800000000000000000); [|apply not_eq_sym, Rlt_not_eq, IZR_lt; reflexivity]. rewrite Rmult_0_r. replace (14550359324310287131213811655839025464163955408820480154345674502268639398518845774297548431728927002220079987657826238706358645617047228523395800000000000000000 * g22) with ((4243854802923803330744503487774560007754137935839746344486399519347453639948661639732855549433484880500000000000000000000000000000000000000000000000000000000000) * e0 g20 g11 g02 g30 g21 g12 g03 g40 g31 g22 g13 g04 g50 g41 g32 g23 g14 g05 + (24553731359773606669372506336868213900535146999537162239631187508269876381064728715976948164741404546929922804355546000000000000000000000000000000000000000000000) * e1 g20 g11 g02 g30 g21 g12 g03 g40 g31 g22 g13 g04 g50 g41 g32 g23 g14 g05 + (134125482252484994525226504403109654078862730405661657110064188824638839535812817621199770970159890928000000000000000) * e3 g20 g11 g02 g30 g21 g12 g03 g40 g31 g22 g13 g04 g50 g41 g32 g23 g14 g05 + (-257299140969522759331548220568843838977925163387107837076998902977135596849554556581705812283117294703050973468770808) * e4 g20 g11 g02 g30 g21 g12 g03 g40 g31 g22 g13 g04 g50 g41 g32 g23 g14 g05 + (86223524305168147605278003431488557746527254691116316415590330144130078884620684996231957442677998083390950910600111) * e5 g20 g11 g02 g30 g21 g12 g03 g40 g31 g22 g13 g04 g50 g41 g32 g23 g14 g05 + (39827928935687247080907151272792666426827528511406390384388882602805604917035235667852468138489271836701656819930644) * e6 g20 g11 g02 g30 g21 g12 g03 g40 g31 g22 g13 g04 g50 g41 g32 g23 g14 g05 + (-195722127627210171690640258528302924934818936156321638984821951337740043591731775080207745993596580155288610739509631) * e7 g20 g11 g02 g30 g21 g12 g03 g40 g31 g22 g13 g04 g50 g41 g32 g23 g14 g05 + (-86223524305168147605278003431488557746527254691116316415590330144130078884620684996231957442677998083390950910600111) * e8 g20 g11 g02 g30 g21 g12 g03 g40 g31 g22 g13 g04 g50 g41 g32 g23 g14 g05 + (-107972608711794903202859000604490798239557054278637987901020580830284148023870893752670095460472602700701656819930644) * e9 g20 g11 g02 g30 g21 g12 g03 g40 g31 g22 g13 g04 g50 g41 g32 g23 g14 g05 + (-97175347840615035545717935972920952362645174174706748085252331708529714519150032353703193431026716148675702396869678) * e10 g20 g11 g02 g30 g21 g12 g03 g40 g31 g22 g13 g04 g50 g41 g32 g23 g14 g05 + (5921726244002390680428683212655080309117524983852264369364939852112557244550202110026817990830377200000000000000000) * e12 g20 g11 g02 g30 g21 g12 g03 g40 g31 g22 g13 g04 g50 g41 g32 g23 g14 g05 + (55658594107481793997565307287208879078283412837653894125882018073112504199809933564471277292571550166652075982872125) * e13 g20 g11 g02 g30 g21 g12 g03 g40 g31 g22 g13 g04 g50 g41 g32 g23 g14 g05 + (37584710092180007597332441837100514181955434600899245778079809751279978211224790410032420892948032424646781078193875) * e14 g20 g11 g02 g30 g21 g12 g03 g40 g31 g22 g13 g04 g50 g41 g32 g23 g14 g05 + (-186486608399322419013804932453979722784612453889955475263930217471654101952141225919196061473711029037500000000000000) * e15 g20 g11 g02 g30 g21 g12 g03 g40 g31 g22 g13 g04 g50 g41 g32 g23 g14 g05 + (-168412724384021207502716563312582938117343108107021050448850894772993811528121244880232126032848881926744705095321750) * e16 g20 g11 g02 g30 g21 g12 g03 g40 g31 g22 g13 g04 g50 g41 g32 g23 g14 g05 + (-37584710092180007597332441837100514181955434600899245778079809751279978211224790410032420892948032424646781078193875) * e17 g20 g11 g02 g30 g21 g12 g03 g40 g31 g22 g13 g04 g50 g41 g32 g23 g14 g05) by (unfold e0, e1, e3, e4, e5, e6, e7, e8, e9, e10, e12, e13, e14, e15, e16, e17; ring). rewrite E0, E1, E3, E4, E5, E6, E7, E8, E9, E10, E12, E13, E14, E15, E16, E17. ring. Qed.
Lemma zg13 g20 g11 g02 g30 g21 g12 g03 g40 g31 g22 g13 g04 g50 g41 g32 g23 g14 g05 : e0 g20 g11 g02 g30 g21 g12 g03 g40 g31 g22 g13 g04 g50 g41 g32 g23 g14 g05 = 0 -> e1 g20 g11 g02 g30 g21 g12 g03 g40 g31 g22 g13 g04 g50 g41 g32 g23 g14 g05 = 0 -> e3 g20 g11 g02 g30 g21 g12 g03 g40 g31 g22 g13 g04 g50 g41 g32 g23 g14 g05 = 0 -> e4 g20 g11 g02 g30 g21 g12 g03 g40 g31 g22 g13 g04 g50 g41 g32 g23 g14 g05 = 0 -> e5 g20 g11 g02 g30 g21 g12 g03 g40 g31 g22 g13 g04 g50 g41 g32 g23 g14 g05 = 0 -> e6 g20 g11 g02 g30 g21 g12 g03 g40 g31 g22 g13 g04 g50 g41 g32 g23 g14 g05 = 0 -> e7 g20 g11 g02 g30 g21 g12 g03 g40 g31 g22 g13 g04 g50 g41 g32 g23 g14 g05 = 0 -> e8 g20 g11 g02 g30 g21 g12 g03 g40 g31 g22 g13 g04 g50 g41 g32 g23 g14 g05 = 0 -> e9 g20 g11 g02 g30 g21 g12 g03 g40 g31 g22 g13 g04 g50 g41 g32 g23 g14 g05 = 0 -> e10 g20 g11 g02 g30 g21 g12 g03 g40 g31 g22 g13 g04 g50 g41 g32 g23 g14 g05 = 0 -> e12 g20 g11 g02 g30 g21 g12 g03 g40 g31 g22 g13 g04 g50 g41 g32 g23 g14 g05 = 0 -> e13 g20 g11 g02 g30 g21 g12 g03 g40 g31 g22 g13 g04 g50 g41 g32 g23 g14 g05 = 0 -> e14 g20 g11 g02 g30 g21 g12 g03 g40 g31 g22 g13 g04 g50 g41 g32 g23 g14 g05 = 0 -> e15 g20 g11 g02 g30 g21 g12 g03 g40 g31 g22 g13 g04 g50 g41 g32 g23 g14 g05 = 0 -> e16 g20 g11 g02 g30 g21 g12 g03 g40 g31 g22 g13 g04 g50 g41 g32 g23 g14 g05 = 0 -> e17 g20 g11 g02 g30 g21 g12 g03 g40 g31 g22 g13 g04 g50 g41 g32 g23 g14 g05 = 0 -> g13 = 0.
Proof. intros E0 E1 E3 E4 E5 E6 E7 E8 E9 E10 E12 E13 E14 E15 E16 E17. apply (Rmult_eq_reg_l 21825538986465430696820717483758538196245933113230720231518511753402959097778268661446322647593390503330119981486739358059537968425570842785093700000000000000000); [|apply not_eq_sym, Rlt_not_eq, IZR_lt; reflexivity]. rewrite Rmult_0_r. replace (21825538986465430696820717483758538196245933113230720231518511753402959097778268661446322647593390503330119981486739358059537968425570842785093700000000000000000 * g13) with ((9344323452252072347830090497182464919345613233703829618697147486330000265013281630933750000000000000000000000000000000000000000000000000000000000) * e0 g20 g11 g02 g30 g21 g12 g03 g40 g31 g22 g13 g04 g50 g41 g32 g23 g14 g05 + (-20309876556849803338628002849093653892781009063697415895144787988922422741116067076244092615307919666429922804355546000000000000000000000000000000000000000000000) * e1 g20 g11 g02 g30 g21 g12 g03 g40 g31 g22 g13 g04 g50 g41 g32 g23 g14 g05 + (295323932499539227247990422349867182354875305204559524033011288480544611916281442381640000000000000000) * e3 g20 g11 g02 g30 g21 g12 g03 g40 g31 g22 g13 g04 g50 g41 g32 g23 g14 g05 + (123173658717038429874364628386792895256373936895594210299586030425364544094373231940377098103487483598175973468770808) * e4 g20 g11 g02 g30 g21 g12 g03 g40 g31 g22 g13 g04 g50 g41 g32 g23 g14 g05 + (-160123793128908515228370986167503293641343995652067573669473971035892894955842418245096969308777354398967607730530755) * e5 g20 g11 g02 g30 g21 g12 g03 g40 g31 g22 g13 g04 g50 g41 g32 g23 g14 g05 + (194350695681229251683249613388373109896019565803406381508898625044171109231060889558275389565132727357298343180069356) * e6 g20 g11 g02 g30 g21 g12 g03 g40 g31 g22 g13 g04 g50 g41 g32 g23 g14 g05 + (503801021067866742753957506386256189162060421564903313256687895316955540799761153010588699281875554024865267559440275) * e7 g20 g11 g02 g30 g21 g12 g03 g40 g31 g22 g13 g04 g50 g41 g32 g23 g14 g05 + (160123793128908515228370986167503293641343995652067573669473971035892894955842418245096969308777354398967607730530755) * e8 g20 g11 g02 g30 g21 g12 g03 g40 g31 g22 g13 g04 g50 g41 g32 g23 g14 g05 + (-194350695681229401727480377219041429206608498235095055022213406495959715312851849492377833224316632677298343180069356) * e9 g20 g11 g02 g30 g21 g12 g03 g40 g31 g22 g13 g04 g50 g41 g32 g23 g14 g05 + (-10797260871179867657141064631569845876911880103931239815768249121754433504720861398966902029445886552025954423060966) * e10 g20 g11 g02 g30 g21 g12 g03 g40 g31 g22 g13 g04 g50 g41 g32 g23 g14 g05 + (13038741424783289336437951075707864423317127769174699347513375968894576366204886061000000000000000000) * e12 g20 g11 g02 g30 g21 g12 g03 g40 g31 g22 g13 g04 g50 g41 g32 g23 g14 g05 + (43506436336182517288255886387882845705848648095861569969612744786947048582325051872560392305129660398972924017127875) * e13 g20 g11 g02 g30 g21 g12 g03 g40 g31 g22 g13 g04 g50 g41 g32 g23 g14 g05 + (55658594107481489354142272544245137324880108570988603620246741796133190547128403607303070323288167409728218921806125) * e14 g20 g11 g02 g30 g21 g12 g03 g40 g31 g22 g13 g04 g50 g41 g32 g23 g14 g05 + (-410615176371297801656530227917069910927010675502285834479265855620415092994185748572531250000000000000) * e15 g20 g11 g02 g30 g21 g12 g03 g40 g31 g22 g13 g04 g50 g41 g32 g23 g14 g05 + (-111317188214963132116480879603833429142283881732597624541209145706607285961604764365968787047732980476380294904678250) * e16 g20 g11 g02 g30 g21 g12 g03 g40 g31 g22 g13 g04 g50 g41 g32 g23 g14 g05 + (-55658594107481489354142272544245137324880108570988603620246741796133190547128403607303070323288167409728218921806125) * e17 g20 g11 g02 g30 g21 g12 g03 g40 g31 g22 g13 g04 g50 g41 g32 g23 g14 g05) by (unfold e0, e1, e3, e4, e5, e6, e7, e8, e9, e10, e12, e13, e14, e15, e16, e17; ring). rewrite E0, E1, E3, E4, E5, E6, E7, E8, E9, E10, E12, E13, E14, E15, E16, E17. ring. Qed.
Lemma zg04 g20 g11 g02 g30 g21 g12 g03 g40 g31 g22 g13 g04 g50 g41 g32 g23 g14 g05 : e0 g20 g11 g02 g30 g21 g12 g03 g40 g31 g22 g13 g04 g50 g41 g32 g23 g14 g05 = 0 -> e1 g20 g11 g02 g30 g21 g12 g03 g40 g31 g22 g13 g04 g50 g41 g32 g23 g14 g05 = 0 -> e2 g20 g11 g02 g30 g21 g12 g03 g40 g31 g22 g13 g04 g50 g41 g32 g23 g14 g05 = 0 -> e3 g20 g11 g02 g30 g21 g12 g03 g40 g31 g22 g13 g04 g50 g41 g32 g23 g14 g05 = 0 -> e4 g20 g11 g02 g30 g21 g12 g03 g40 g31 g22 g13 g04 g50 g41 g32 g23 g14 g05 = 0 -> e5 g20 g11 g02 g30 g21 g12 g03 g40 g31 g22 g13 g04 g50 g41 g32 g23 g14 g05 = 0 -> e6 g20 g11 g02 g30 g21 g12 g03 g40 g31 g22 g13 g04 g50 g41 g32 g23 g14 g05 = 0 -> e7 g20 g11 g02 g30 g21 g12 g03 g40 g31 g22 g13 g04 g50 g41 g32 g23 g14 g05 = 0 -> e8 g20 g11 g02 g30 g21 g12 g03 g40 g31 g22 g13 g04 g50 g41 g32 g23 g14 g05 = 0 -> e9 g20 g11 g02 g30 g21 g12 g03 g40 g31 g22 g13 g04 g50 g41 g32 g23 g14 g05 = 0 -> e10 g20 g11 g02 g30 g21 g12 g03 g40 g31 g22 g13 g04 g50 g41 g32 g23 g14 g05 = 0 -> e11 g20 g11 g02 g30 g21 g12 g03 g40 g31 g22 g13 g04 g50 g41 g32 g23 g14 g05 = 0 -> e12 g20 g11 g02 g30 g21 g12 g03 g40 g31 g22 g13 g04 g50 g41 g32 g23 g14 g05 = 0 -> e13 g20 g11 g02 g30 g21 g12 g03 g40 g31 g22 g13 g04 g50 g41 g32 g23 g14 g05 = 0 -> e14 g20 g11 g02 g30 g21 g12 g03 g40 g31 g22 g13 g04 g50 g41 g32 g23 g14 g05 = 0 -> e15 g20 g11 g02 g30 g21 g12 g03 g40 g31 g22 g13 g04 g50 g41 g32 g23 g14 g05 = 0 -> e16 g20 g11 g02 g30 g21 g12 g03 g40 g31 g22 g13 g04 g50 g41 g32 g23 g14 g05 = 0 -> e17 g20 g11 g02 g30 g21 g12 g03 g40 g31 g22 g13 g04 g50 g41 g32 g23 g14 g05 = 0 -> g04 = 0.
Proof. intros E0 E1 E2 E3 E4 E5 E6 E7 E8 E9 E10 E11 E12 E13 E14 E15 E16 E17. apply (Rmult_eq_reg_l 3982437723178981086573838476148082008686682339860032565575273246776920127780023549655243644992299661189163729210875463390194167047972387488795977454125976919189116720715532030340500714800000000000000000); [|apply not_eq_sym, Rlt_not_eq, IZR_lt; reflexivity]. rewrite Rmult_0_r. replace (3982437723178981086573838476148082008686682339860032565575273246776920127780023549655243644992299661189163729210875463390194167047972387488795977454125976919189116720715532030340500714800000000000000000 * g04) with ((1819568654683337344344923960761938259286121960076354344991251313634115564520815749782917073623835786640441048925031572856332888359511335615149004920893696390000000000000000000000000000000000000000000000) * e0 g20 g11 g02 g30 g21 g12 g03 g40 g31 g22 g13 g04 g50 g41 g32 g23 g14 g05 + (1819568654683367786676488601889670286259415322160802905901815217528972606613401612250860409496378950322541148765438678013224571054387311247634205429140338890000000000000000000000000000000000000000000000) * e1 g20 g11 g02 g30 g21 g12 g03 g40 g31 g22 g13 g04 g50 g41 g32 g23 g14 g05 + (893098767693811475839554245825502107014945492261922900085665301748913703721402038855570524572861418207818023864238510335886460321258672980940601682878274044000000000000000000000000000000000000000000000) * e2 g20 g11 g02 g30 g21 g12 g03 g40 g31 g22 g13 g04 g50 g41 g32 g23 g14 g05 + (57506803280067305206608237538726157311696993874507919610432091558007582224570462559197506262279273544051954697162079587740177024388166315032936319719707205440) * e3 g20 g11 g02 g30 g21 g12 g03 g40 g31 g22 g13 g04 g50 g41 g32 g23 g14 g05 + (-57506803280067114456504916592904152801014680054559529743988083203379649831360811874388360892472539420944454877131714828717043728449587685291118571138502566965) * e4 g20 g11 g02 g30 g21 g12 g03 g40 g31 g22 g13 g04 g50 g41 g32 g23 g14 g05 + (-1685543816920370186846532220909512411743347184484042327261564649271960053586504689863242452721854042243673369811778534438434720192693453642026380557258316272) * e5 g20 g11 g02 g30 g21 g12 g03 g40 g31 g22 g13 g04 g50 g41 g32 g23 g14 g05 + (100404963114249409030960644158972439397432937053320706328860216871297292819634696395369806379156530296832309852633711357654116744845628152933611702641662930420) * e6 g20 g11 g02 g30 g21 g12 g03 g40 g31 g22 g13 g04 g50 g41 g32 g23 g14 g05 + (29850835308719390560022455477424946364939414354975019893007579986156583665393025255796931055036764398877274183978078766124122648012401545141717917049136093646) * e7 g20 g11 g02 g30 g21 g12 g03 g40 g31 g22 g13 g04 g50 g41 g32 g23 g14 g05 + (-6235538393818252815825337651236375119185094018984447847859381131012038205780688821817102360891196982442029581579609890184614808128942676776055560869803894970) * e8 g20 g11 g02 g30 g21 g12 g03 g40 g31 g22 g13 g04 g50 g41 g32 g23 g14 g05 + (-129622250006018993840714692750184607559811435968985088289374779479813695772355425854379205364790483443603309537081723386759118257223451984796178638430712025140) * e9 g20 g11 g02 g30 g21 g12 g03 g40 g31 g22 g13 g04 g50 g41 g32 g23 g14 g05 + (55945484359644322131337322181724030288666646881830758891779516226321387619739777119802634561875933575797042121562573534126511915873288625232719220103025353414) * e10 g20 g11 g02 g30 g21 g12 g03 g40 g31 g22 g13 g04 g50 g41 g32 g23 g14 g05 + (64318589411711085289247748004971072456981032697363804914010678690533773644110220771098072267070675448223160115152202855513911972509623827840951765686990161304) * e11 g20 g11 g02 g30 g21 g12 g03 g40 g31 g22 g13 g04 g50 g41 g32 g23 g14 g05 + (2538962324483631194857079082952045335768687826974504491807928950536243166963883351278694525672176415847354153434195263549778886212861806424763364797650056000) * e12 g20 g11 g02 g30 g21 g12 g03 g40 g31 g22 g13 g04 g50 g41 g32 g23 g14 g05 + (42517378519099497478677210890514823882515726382462580333101029475212341686389895640763308999541272451300903055456825858815604227228471736393295044880960579000) * e13 g20 g11 g02 g30 g21 g12 g03 g40 g31 g22 g13 g04 g50 g41 g32 g23 g14 g05 + (-40532757734089770936276938820013819871365543530774501734073937518502752645375187089664142601588037148694056684031646520074385025943494371208284637766627537000) * e14 g20 g11 g02 g30 g21 g12 g03 g40 g31 g22 g13 g04 g50 g41 g32 g23 g14 g05 + (-79956832389231459889024214971038367485812475707879609456489243368148542680875641695605562790161063052420217487124115289305942383930010351204155881592437969250) * e15 g20 g11 g02 g30 g21 g12 g03 g40 g31 g22 g13 g04 g50 g41 g32 g23 g14 g05 + (-119935248583847025953797264207780745464111321263050507833249053357592923518723729672747744780383662663739375500532607636706258481133031625162737157481408609125) * e16 g20 g11 g02 g30 g21 g12 g03 g40 g31 g22 g13 g04 g50 g41 g32 g23 g14 g05 + (-39978416194615601197966903950099921944090576254192731307128758538967692739845695218853989015336845566454487124063607689885411846918477496699981431931013812250) * e17 g20 g11 g02 g30 g21 g12 g03 g40 g31 g22 g13 g04 g50 g41 g32 g23 g14 g05) by (unfold e0, e1, e2, e3, e4, e5, e6, e7, e8, e9, e10, e11, e12, e13, e14, e15, e16, e17; ring). rewrite E0, E1, E2, E3, E4, E5, E6, E7, E8, E9, E10, E11, E12, E13, E14, E15, E16, E17. ring. Qed.
Lemma zg50 g20 g11 g02 g30 g21 g12 g03 g40 g31 g22 g13 g04 g50 g41 g32 g23 g14 g05 : e0 g20 g11 g02 g30 g21 g12 g03 g40 g31 g22 g13 g04 g50 g41 g32 g23 g14 g05 = 0 -> e1 g20 g11 g02 g30 g21 g12 g03 g40 g31 g22 g13 g04 g50 g41 g32 g23 g14 g05 = 0 -> e3 g20 g11 g02 g30 g21 g12 g03 g40 g31 g22 g13 g04 g50 g41 g32 g23 g14 g05 = 0 -> e4 g20 g11 g02 g30 g21 g12 g03 g40 g31 g22 g13 g04 g50 g41 g32 g23 g14 g05 = 0 -> e5 g20 g11 g02 g30 g21 g12 g03 g40 g31 g22 g13 g04 g50 g41 g32 g23 g14 g05 = 0 -> e6 g20 g11 g02 g30 g21 g12 g03 g40 g31 g22 g13 g04 g50 g41 g32 g23 g14 g05 = 0 -> e7 g20 g11 g02 g30 g21 g12 g03 g40 g31 g22 g13 g04 g50 g41 g32 g23 g14 g05 = 0 -> e8 g20 g11 g02 g30 g21 g12 g03 g40 g31 g22 g13 g04 g50 g41 g32 g23 g14 g05 = 0 -> e9 g20 g11 g02 g30 g21 g12 g03 g40 g31 g22 g13 g04 g50 g41 g32 g23 g14 g05 = 0 -> e10 g20 g11 g02 g30 g21 g12 g03 g40 g31 g22 g13 g04 g50 g41 g32 g23 g14 g05 = 0 -> e12 g20 g11 g02 g30 g21 g12 g03 g40 g31 g22 g13 g04 g50 g41 g32 g23 g14 g05 = 0 -> e13 g20 g11 g02 g30 g21 g12 g03 g40 g31 g22 g13 g04 g50 g41 g32 g23 g14 g05 = 0 -> e14 g20 g11 g02 g30 g21 g12 g03 g40 g31 g22 g13 g04 g50 g41 g32 g23 g14 g05 = 0 -> e15 g20 g11 g02 g30 g21 g12 g03 g40 g31 g22 g13 g04 g50 g41 g32 g23 g14 g05 = 0 -> e16 g20 g11 g02 g30 g21 g12 g03 g40 g31 g22 g13 g04 g50 g41 g32 g23 g14 g05 = 0 -> e17 g20 g11 g02 g30 g21 g12 g03 g40 g31 g22 g13 g04 g50 g41 g32 g23 g14 g05 = 0 -> g50 = 0.
Proof. intros E0 E1 E3 E4 E5 E6 E7 E8 E9 E10 E12 E13 E14 E15 E16 E17. apply (Rmult_eq_reg_l 145503593243102871312138116558390254641639554088204801543456745022686393985188457742975484317289270022200799876578262387063586456170472285233958000); [|apply not_eq_sym, Rlt_not_eq, IZR_lt; reflexivity]. rewrite Rmult_0_r. replace (145503593243102871312138116558390254641639554088204801543456745022686393985188457742975484317289270022200799876578262387063586456170472285233958000 * g50) with ((-20511964880798506532742175987178477747921722157973788766319574689442626778552142315111238644673290690000000000000000000000000000000000000000000000) * e0 g20 g11 g02 g30 g21 g12 g03 g40 g31 g22 g13 g04 g50 g41 g32 g23 g14 g05 + (-41023929761597013065484351974356955495843444315947577532639149378885253557104284630222477289346581380000000000000000000000000000000000000000000000) * e1 g20 g11 g02 g30 g21 g12 g03 g40 g31 g22 g13 g04 g50 g41 g32 g23 g14 g05 + (-70262749000202203119755668210411289426213096602442076407411420768853791320430008808709629839275174630) * e3 g20 g11 g02 g30 g21 g12 g03 g40 g31 g22 g13 g04 g50 g41 g32 g23 g14 g05 + (235260563266779732618566158289181705988477309978559523838478038220849212635845337191179455354422996289) * e4 g20 g11 g02 g30 g21 g12 g03 g40 g31 g22 g13 g04 g50 g41 g32 g23 g14 g05 + (-145482928881835002643377468533760622568070022194214107917712625088732013126585638127934914988826511072) * e5 g20 g11 g02 g30 g21 g12 g03 g40 g31 g22 g13 g04 g50 g41 g32 g23 g14 g05 + (451006241148816938381699295033353617982760428775215708163602084078435017082860984127824000182524681991) * e6 g20 g11 g02 g30 g21 g12 g03 g40 g31 g22 g13 g04 g50 g41 g32 g23 g14 g05 + (526226421030449737905321095356702951124617354366987739673903288398313238889016613447049285332076018433) * e7 g20 g11 g02 g30 g21 g12 g03 g40 g31 g22 g13 g04 g50 g41 g32 g23 g14 g05 + (145482928881835002643377468533760622568070022194214107917712625088732013126585638127934914988826511072) * e8 g20 g11 g02 g30 g21 g12 g03 g40 g31 g22 g13 g04 g50 g41 g32 g23 g14 g05 + (25193608699419086375973117351968975884377770253724410824167807958281861002147664358519060833688180594) * e9 g20 g11 g02 g30 g21 g12 g03 g40 g31 g22 g13 g04 g50 g41 g32 g23 g14 g05 + (50387217398838172751946234703937951768755540507448821648335615916563722004295328717038121667376361188) * e10 g20 g11 g02 g30 g21 g12 g03 g40 g31 g22 g13 g04 g50 g41 g32 g23 g14 g05 + (-71906386897746603759409048255865140160387043378626529751254302073703488277342273895474505911691223225) * e12 g20 g11 g02 g30 g21 g12 g03 g40 g31 g22 g13 g04 g50 g41 g32 g23 g14 g05 + (93368663841692064844289273019173986402260754390272374804545310498650159638772282984464701448288380575) * e13 g20 g11 g02 g30 g21 g12 g03 g40 g31 g22 g13 g04 g50 g41 g32 g23 g14 g05 + (-54517287091833789901832734459733608350700641448521879305724734848437676617556919845905310780952780100) * e14 g20 g11 g02 g30 g21 g12 g03 g40 g31 g22 g13 g04 g50 g41 g32 g23 g14 g05 + (219792337831272458505531055734772734913348439217420783861524347420791324533671476725844518140932383900) * e15 g20 g11 g02 g30 g21 g12 g03 g40 g31 g22 g13 g04 g50 g41 g32 g23 g14 g05 + (202403238025359644647954741938641203103662037287316133415994780195525512873886122676275323010193940775) * e16 g20 g11 g02 g30 g21 g12 g03 g40 g31 g22 g13 g04 g50 g41 g32 g23 g14 g05 + (54517287091833789901832734459733608350700641448521879305724734848437676617556919845905310780952780100) * e17 g20 g11 g02 g30 g21 g12 g03 g40 g31 g22 g13 g04 g50 g41 g32 g23 g14 g05) by (unfold e0, e1, e3, e4, e5, e6, e7, e8, e9, e10, e12, e13, e14, e15, e16, e17; ring). rewrite E0, E1, E3, E4, E5, E6, E7, E8, E9, E10, E12, E13, E14, E15, E16, E17. ring. Qed.
Lemma zg41 g20 g11 g02 g30 g21 g12 g03 g40 g31 g22 g13 g04 g50 g41 g32 g23 g14 g05 : e0 g20 g11 g02 g30 g21 g12 g03 g40 g31 g22 g13 g04 g50 g41 g32 g23 g14 g05 = 0 -> e1 g20 g11 g02 g30 g21 g12 g03 g40 g31 g22 g13 g04 g50 g41 g32 g23 g14 g05 = 0 -> e3 g20 g11 g02 g30 g21 g12 g03 g40 g31 g22 g13 g04 g50 g41 g32 g23 g14 g05 = 0 -> e4 g20 g11 g02 g30 g21 g12 g03 g40 g31 g22 g13 g04 g50 g41 g32 g23 g14 g05 = 0 -> e5 g20 g11 g02 g30 g21 g12 g03 g40 g31 g22 g13 g04 g50 g41 g32 g23 g14 g05 = 0 -> e6 g20 g11 g02 g30 g21 g12 g03 g40 g31 g22 g13 g04 g50 g41 g32 g23 g14 g05 = 0 -> e7 g20 g11 g02 g30 g21 g12 g03 g40 g31 g22 g13 g04 g50 g41 g32 g23 g14 g05 = 0 -> e8 g20 g11 g02 g30 g21 g12 g03 g40 g31 g22 g13 g04 g50 g41 g32 g23 g14 g05 = 0 -> e9 g20 g11 g02 g30 g21 g12 g03 g40 g31 g22 g13 g04 g50 g41 g32 g23 g14 g05 = 0 -> e10 g20 g11 g02 g30 g21 g12 g03 g40 g31 g22 g13 g04 g50 g41 g32 g23 g14 g05 = 0 -> e12 g20 g11 g02 g30 g21 g12 g03 g40 g31 g22 g13 g04 g50 g41 g32 g23 g14 g05 = 0 -> e13 g20 g11 g02 g30 g21 g12 g03 g40 g31 g22 g13 g04 g50 g41 g32 g23 g14 g05 = 0 -> e14 g20 g11 g02 g30 g21 g12 g03 g40 g31 g22 g13 g04 g50 g41 g32 g23 g14 g05 = 0 -> e15 g20 g11 g02 g30 g21 g12 g03 g40 g31 g22 g13 g04 g50 g41 g32 g23 g14 g05 = 0 -> e16 g20 g11 g02 g30 g21 g12 g03 g40 g31 g22 g13 g04 g50 g41 g32 g23 g14 g05 = 0 -> e17 g20 g11 g02 g30 g21 g12 g03 g40 g31 g22 g13 g04 g50 g41 g32 g23 g14 g05 = 0 -> g41 = 0.
Proof. intros E0 E1 E3 E4 E5 E6 E7 E8 E9 E10 E12 E13 E14 E15 E16 E17. apply (Rmult_eq_reg_l 29100718648620574262427623311678050928327910817640960308691349004537278797037691548595096863457854004440159975315652477412717291234094457046791600); [|apply not_eq_sym, Rlt_not_eq, IZR_lt; reflexivity]. rewrite Rmult_0_r. replace (29100718648620574262427623311678050928327910817640960308691349004537278797037691548595096863457854004440159975315652477412717291234094457046791600 * g41) with ((2829236535282523094731732655753242898382095713939938435506621407792144163769125986488217015246815342000000000000000000000000000000000000000000000) * e0 g20 g11 g02 g30 g21 g12 g03 g40 g31 g22 g13 g04 g50 g41 g32 g23 g14 g05 + (20511964880798506532742175987178477747921722157973788766319574689442626778552142315111238644673290690000000000000000000000000000000000000000000000) * e1 g20 g11 g02 g30 g21 g12 g03 g40 g31 g22 g13 g04 g50 g41 g32 g23 g14 g05 + (89416988168322935918241003549770105398678687114197964906302519803727182342157237687983958938183418432) * e3 g20 g11 g02 g30 g21 g12 g03 g40 g31 g22 g13 g04 g50 g41 g32 g23 g14 g05 + (-142643567224497364770289235166451693616957791678440541358877601247720444689149530816829182623704300831) * e4 g20 g11 g02 g30 g21 g12 g03 g40 g31 g22 g13 g04 g50 g41 g32 g23 g14 g05 + (72741464440917501321688734266880311284035011097107053958856312544366006563292819063967457494413255536) * e5 g20 g11 g02 g30 g21 g12 g03 g40 g31 g22 g13 g04 g50 g41 g32 g23 g14 g05 + (-146204221315079136371480322050251507683088938885470147939565650482621383488261396559043401126223707192) * e6 g20 g11 g02 g30 g21 g12 g03 g40 g31 g22 g13 g04 g50 g41 g32 g23 g14 g05 + (-238099924924117370491654391656490634939589540494333090397313062061860781073281444502285187719545206530) * e7 g20 g11 g02 g30 g21 g12 g03 g40 g31 g22 g13 g04 g50 g41 g32 g23 g14 g05 + (-72741464440917501321688734266880311284035011097107053958856312544366006563292819063967457494413255536) * e8 g20 g11 g02 g30 g21 g12 g03 g40 g31 g22 g13 g04 g50 g41 g32 g23 g14 g05 + (100774434797674232349153440936677178888721164949567314279564226933353829526092237747968241123813360376) * e9 g20 g11 g02 g30 g21 g12 g03 g40 g31 g22 g13 g04 g50 g41 g32 g23 g14 g05 + (-25193608699419086375973117351968975884377770253724410824167807958281861002147664358519060833688180594) * e10 g20 g11 g02 g30 g21 g12 g03 g40 g31 g22 g13 g04 g50 g41 g32 g23 g14 g05 + (3947817496001576401963889097384271622143582378748945156739601001809241478532176213916057054038836800) * e12 g20 g11 g02 g30 g21 g12 g03 g40 g31 g22 g13 g04 g50 g41 g32 g23 g14 g05 + (-64261471189806255297016006168604052633083456280988484890202903728106482466074183862969090294941234400) * e13 g20 g11 g02 g30 g21 g12 g03 g40 g31 g22 g13 g04 g50 g41 g32 g23 g14 g05 + (27258643545916894950916367229866804175350320724260939652862367424218838308778459922952655390476390050) * e14 g20 g11 g02 g30 g21 g12 g03 g40 g31 g22 g13 g04 g50 g41 g32 g23 g14 g05 + (-124324405599547731855634793238917606482771079833422414161719475266656762280286656726006715401475922650) * e15 g20 g11 g02 g30 g21 g12 g03 g40 g31 g22 g13 g04 g50 g41 g32 g23 g14 g05 + (-83624479743719599449106001310303542119877939557805769220067141618981353790255018967400921934299926275) * e16 g20 g11 g02 g30 g21 g12 g03 g40 g31 g22 g13 g04 g50 g41 g32 g23 g14 g05 + (-27258643545916894950916367229866804175350320724260939652862367424218838308778459922952655390476390050) * e17 g20 g11 g02 g30 g21 g12 g03 g40 g31 g22 g13 g04 g50 g41 g32 g23 g14 g05) by (unfold e0, e1, e3, e4, e5, e6, e7, e8, e9, e10, e12, e13, e14, e15, e16, e17; ring). rewrite E0, E1, E3, E4, E5, E6, E7, E8, E9, E10, E12, E13, E14, E15, E16, E17. ring. Qed.
Lemma zg32 g20 g11 g02 g30 g21 g12 g03 g40 g31 g22 g13 g04 g50 g41 g32 g23 g14 g05 : e0 g20 g11 g02 g30 g21 g12 g03 g40 g31 g22 g13 g04 g50 g41 g32 g23 g14 g05 = 0 -> e1 g20 g11 g02 g30 g21 g12 g03 g40 g31 g22 g13 g04 g50 g41 g32 g23 g14 g05 = 0 -> e3 g20 g11 g02 g30 g21 g12 g03 g40 g31 g22 g13 g04 g50 g41 g32 g23 g14 g05 = 0 -> e4 g20 g11 g02 g30 g21 g12 g03 g40 g31 g22 g13 g04 g50 g41 g32 g23 g14 g05 = 0 -> e5 g20 g11 g02 g30 g21 g12 g03 g40 g31 g22 g13 g04 g50 g41 g32 g23 g14 g05 = 0 -> e6 g20 g11 g02 g30 g21 g12 g03 g40 g31 g22 g13 g04 g50 g41 g32 g23 g14 g05 = 0 -> e7 g20 g11 g02 g30 g21 g12 g03 g40 g31 g22 g13 g04 g50 g41 g32 g23 g14 g05 = 0 -> e8 g20 g11 g02 g30 g21 g12 g03 g40 g31 g22 g13 g04 g50 g41 g32 g23 g14 g05 = 0 -> e9 g20 g11 g02 g30 g21 g12 g03 g40 g31 g22 g13 g04 g50 g41 g32 g23 g14 g05 = 0 -> e10 g20 g11 g02 g30 g21 g12 g03 g40 g31 g22 g13 g04 g50 g41 g32 g23 g14 g05 = 0 -> e12 g20 g11 g02 g30 g21 g12 g03 g40 g31 g22 g13 g04 g50 g41 g32 g23 g14 g05 = 0 -> e13 g20 g11 g02 g30 g21 g12 g03 g40 g31 g22 g13 g04 g50 g41 g32 g23 g14 g05 = 0 -> e14 g20 g11 g02 g30 g21 g12 g03 g40 g31 g22 g13 g04 g50 g41 g32 g23 g14 g05 = 0 -> e15 g20 g11 g02 g30 g21 g12 g03 g40 g31 g22 g13 g04 g50 g41 g32 g23 g14 g05 = 0 -> e16 g20 g11 g02 g30 g21 g12 g03 g40 g31 g22 g13 g04 g50 g41 g32 g23 g14 g05 = 0 -> e17 g20 g11 g02 g30 g21 g12 g03 g40 g31 g22 g13 g04 g50 g41 g32 g23 g14 g05 = 0 -> g32 = 0.
Proof. intros E0 E1 E3 E4 E5 E6 E7 E8 E9 E10 E12 E13 E14 E15 E16 E17. apply (Rmult_eq_reg_l 29100718648620574262427623311678050928327910817640960308691349004537278797037691548595096863457854004440159975315652477412717291234094457046791600); [|apply not_eq_sym, Rlt_not_eq, IZR_lt; reflexivity]. rewrite Rmult_0_r. replace (29100718648620574262427623311678050928327910817640960308691349004537278797037691548595096863457854004440159975315652477412717291234094457046791600 * g32) with ((-2829236535282523094731732655753242898382095713939938435506621407792144163769125986488217015246815342000000000000000000000000000000000000000000000) * e0 g20 g11 g02 g30 g21 g12 g03 g40 g31 g22 g13 g04 g50 g41 g32 g23 g14 g05 + (-35365456691031966876020886662850469699079252888067700661625906563300965229566032657246043258852950696000000000000000000000000000000000000000000000) * e1 g20 g11 g02 g30 g21 g12 g03 g40 g31 g22 g13 g04 g50 g41 g32 g23 g14 g05 + (-89416988168322935918241003549770105398678687114197964906302519803727182342157237687983958938183418432) * e3 g20 g11 g02 g30 g21 g12 g03 g40 g31 g22 g13 g04 g50 g41 g32 g23 g14 g05 + (251214794560941033487015574055580614988102069304394394764071220086321018053033997384087470660795963065) * e4 g20 g11 g02 g30 g21 g12 g03 g40 g31 g22 g13 g04 g50 g41 g32 g23 g14 g05 + (-122768035623132498243701046310601992529473284475428612838133476818957683305746543506446367387398860909) * e5 g20 g11 g02 g30 g21 g12 g03 g40 g31 g22 g13 g04 g50 g41 g32 g23 g14 g05 + (146204221315079136371480322050251507683088938885470147939565650482621383488261396559043401126223707192) * e6 g20 g11 g02 g30 g21 g12 g03 g40 g31 g22 g13 g04 g50 g41 g32 g23 g14 g05 + (396697723442776036130393042589341237556172091498608502681783845175053031179619635512022385649622474137) * e7 g20 g11 g02 g30 g21 g12 g03 g40 g31 g22 g13 g04 g50 g41 g32 g23 g14 g05 + (122768035623132498243701046310601992529473284475428612838133476818957683305746543506446367387398860909) * e8 g20 g11 g02 g30 g21 g12 g03 g40 g31 g22 g13 g04 g50 g41 g32 g23 g14 g05 + (-100774434797674232349153440936677178888721164949567314279564226933353829526092237747968241123813360376) * e9 g20 g11 g02 g30 g21 g12 g03 g40 g31 g22 g13 g04 g50 g41 g32 g23 g14 g05 + (251936086994186637450253116577292309546197870406583450207464069783271381056479804212974603915003081940) * e10 g20 g11 g02 g30 g21 g12 g03 g40 g31 g22 g13 g04 g50 g41 g32 g23 g14 g05 + (-3947817496001576401963889097384271622143582378748945156739601001809241478532176213916057054038836800) * e12 g20 g11 g02 g30 g21 g12 g03 g40 g31 g22 g13 g04 g50 g41 g32 g23 g14 g05 + (250719284062804341534736107507455716983577659859845452427803658021477145796262395326698491327684775) * e13 g20 g11 g02 g30 g21 g12 g03 g40 g31 g22 g13 g04 g50 g41 g32 g23 g14 g05 + (-62412922083837340700659106547900923039256478895965534628722864381781643602154544664426134532070478275) * e14 g20 g11 g02 g30 g21 g12 g03 g40 g31 g22 g13 g04 g50 g41 g32 g23 g14 g05 + (124324405599547731855634793238917606482771079833422414161719475266656762280286656726006715401475922650) * e15 g20 g11 g02 g30 g21 g12 g03 g40 g31 g22 g13 g04 g50 g41 g32 g23 g14 g05 + (54768006375896594243367470567241064067684219108381724758152538506459153763353182241232009272280464875) * e16 g20 g11 g02 g30 g21 g12 g03 g40 g31 g22 g13 g04 g50 g41 g32 g23 g14 g05 + (62412922083837340700659106547900923039256478895965534628722864381781643602154544664426134532070478275) * e17 g20 g11 g02 g30 g21 g12 g03 g40 g31 g22 g13 g04 g50 g41 g32 g23 g14 g05) by (unfold e0, e1, e3, e4, e5, e6, e7, e8, e9, e10, e12, e13, e14, e15, e16, e17; ring). rewrite E0, E1, E3, E4, E5, E6, E7, E8, E9, E10, E12, E13, E14, E15, E16, E17. ring. Qed.
Lemma zg23 g20 g11 g02 g30 g21 g12 g03 g40 g31 g22 g13 g04 g50 g41 g32 g23 g14 g05 : e0 g20 g11 g02 g30 g21 g12 g03 g40 g31 g22 g13 g04 g50 g41 g32 g23 g14 g05 = 0 -> e1 g20 g11 g02 g30 g21 g12 g03 g40 g31 g22 g13 g04 g50 g41 g32 g23 g14 g05 = 0 -> e3 g20 g11 g02 g30 g21 g12 g03 g40 g31 g22 g13 g04 g50 g41 g32 g23 g14 g05 = 0 -> e4 g20 g11 g02 g30 g21 g12 g03 g40 g31 g22 g13 g04 g50 g41 g32 g23 g14 g05 = 0 -> e5 g20 g11 g02 g30 g21 g12 g03 g40 g31 g22 g13 g04 g50 g41 g32 g23 g14 g05 = 0 -> e6 g20 g11 g02 g30 g21 g12 g03 g40 g31 g22 g13 g04 g50 g41 g32 g23 g14 g05 = 0 -> e7 g20 g11 g02 g30 g21 g12 g03 g40 g31 g22 g13 g04 g50 g41 g32 g23 g14 g05 = 0 -> e8 g20 g11 g02 g30 g21 g12 g03 g40 g31 g22 g13 g04 g50 g41 g32 g23 g14 g05 = 0 -> e9 g20 g11 g02 g30 g21 g12 g03 g40 g31 g22 g13 g04 g50 g41 g32 g23 g14 g05 = 0 -> e10 g20 g11 g02 g30 g21 g12 g03 g40 g31 g22 g13 g04 g50 g41 g32 g23 g14 g05 = 0 -> e12 g20 g11 g02 g30 g21 g12 g03 g40 g31 g22 g13 g04 g50 g41 g32 g23 g14 g05 = 0 -> e13 g20 g11 g02 g30 g21 g12 g03 g40 g31 g22 g13 g04 g50 g41 g32 g23 g14 g05 = 0 -> e14 g20 g11 g02 g30 g21 g12 g03 g40 g31 g22 g13 g04 g50 g41 g32 g23 g14 g05 = 0 -> e15 g20 g11 g02 g30 g21 g12 g03 g40 g31 g22 g13 g04 g50 g41 g32 g23 g14 g05 = 0 -> e16 g20 g11 g02 g30 g21 g12 g03 g40 g31 g22 g13 g04 g50 g41 g32 g23 g14 g05 = 0 -> e17 g20 g11 g02 g30 g21 g12 g03 g40 g31 g22 g13 g04 g50 g41 g32 g23 g14 g05 = 0 -> g23 = 0.
Proof. intros E0 E1 E3 E4 E5 E6 E7 E8 E9 E10 E12 E13 E14 E15 E16 E17. apply (Rmult_eq_reg_l 58201437297241148524855246623356101856655821635281920617382698009074557594075383097190193726915708008880319950631304954825434582468188914093583200); [|apply not_eq_sym, Rlt_not_eq, IZR_lt; reflexivity]. rewrite Rmult_0_r. replace (58201437297241148524855246623356101856655821635281920617382698009074557594075383097190193726915708008880319950631304954825434582468188914093583200 * g23) with ((-5658473070565120944051083328085268437488168887599231635919112446221237904718142612978554136746678154000000000000000000000000000000000000000000000) * e0 g20 g11 g02 g30 g21 g12 g03 g40 g31 g22 g13 g04 g50 g41 g32 g23 g14 g05 + (65072440311498887562578308014194453601394314348255524452238570311017642131593813341515652487212270708000000000000000000000000000000000000000000000) * e1 g20 g11 g02 g30 g21 g12 g03 g40 g31 g22 g13 g04 g50 g41 g32 g23 g14 g05 + (-178833976336648234427942003413358194720736173165854768815046676083646628774622319732863248127905889984) * e3 g20 g11 g02 g30 g21 g12 g03 g40 g31 g22 g13 g04 g50 g41 g32 g23 g14 g05 + (34072339888056925142580435683060153360875705555282704359191350556996645318935242555933101201480442427) * e4 g20 g11 g02 g30 g21 g12 g03 g40 g31 g22 g13 g04 g50 g41 g32 g23 g14 g05 + (222821177987562492087725670398045355020349831232071730596687805368141036790653992391404187173370071655) * e5 g20 g11 g02 g30 g21 g12 g03 g40 g31 g22 g13 g04 g50 g41 g32 g23 g14 g05 + (-916884774941935602780712016530278418893770129277107687594564654690514004704779127054427756128772745568) * e6 g20 g11 g02 g30 g21 g12 g03 g40 g31 g22 g13 g04 g50 g41 g32 g23 g14 g05 + (-1216322909601978663470919031971941053880603523618744133184375219721956341492034190606033929446236739311) * e7 g20 g11 g02 g30 g21 g12 g03 g40 g31 g22 g13 g04 g50 g41 g32 g23 g14 g05 + (-222821177987562492087725670398045355020349831232071730596687805368141036790653992391404187173370071655) * e8 g20 g11 g02 g30 g21 g12 g03 g40 g31 g22 g13 g04 g50 g41 g32 g23 g14 g05 + (1007744347976746611179211889402773630967217136602422743021085753403357961283445124149397625407064681760) * e9 g20 g11 g02 g30 g21 g12 g03 g40 g31 g22 g13 g04 g50 g41 g32 g23 g14 g05 + (-705421043583721739598813115027938976869838070712301528974056593433250421165144083921885690077632884632) * e10 g20 g11 g02 g30 g21 g12 g03 g40 g31 g22 g13 g04 g50 g41 g32 g23 g14 g05 + (-7895634992003257113859176461083234747895770420413276850501355401213263064072103584443043747166161600) * e12 g20 g11 g02 g30 g21 g12 g03 g40 g31 g22 g13 g04 g50 g41 g32 g23 g14 g05 + (-257045884759227216434710611642947839944959749276319447154681004007520092015549632757165115375721932125) * e13 g20 g11 g02 g30 g21 g12 g03 g40 g31 g22 g13 g04 g50 g41 g32 g23 g14 g05 + (132721479159678232200144585183969160767068795239374724580443858296907254188906714147373092815258654725) * e14 g20 g11 g02 g30 g21 g12 g03 g40 g31 g22 g13 g04 g50 g41 g32 g23 g14 g05 + (248648811199098748632680556860248465207365496226132244408842968819989358687418276772757384288940425550) * e15 g20 g11 g02 g30 g21 g12 g03 g40 g31 g22 g13 g04 g50 g41 g32 g23 g14 g05 + (387761609646400730172248006576517470096879150649183244743480068208253871800759704508229016543379804525) * e16 g20 g11 g02 g30 g21 g12 g03 g40 g31 g22 g13 g04 g50 g41 g32 g23 g14 g05 + (-132721479159678232200144585183969160767068795239374724580443858296907254188906714147373092815258654725) * e17 g20 g11 g02 g30 g21 g12 g03 g40 g31 g22 g13 g04 g50 g41 g32 g23 g14 g05) by (unfold e0, e1, e3, e4, e5, e6, e7, e8, e9, e10, e12, e13, e14, e15, e16, e17; ring). rewrite E0, E1, E3, E4, E5, E6, E7, E8, E9, E10, E12, E13, E14, E15, E16, E17. ring. Qed.
Lemma zg14 g20 g11 g02 g30 g21 g12 g03 g40 g31 g22 g13 g04 g50 g41 g32 g23 g14 g05 : e0 g20 g11 g02 g30 g21 g12 g03 g40 g31 g22 g13 g04 g50 g41 g32 g23 g14 g05 = 0 -> e1 g20 g11 g02 g30 g21 g12 g03 g40 g31 g22 g13 g04 g50 g41 g32 g23 g14 g05 = 0 -> e3 g20 g11 g02 g30 g21 g12 g03 g40 g31 g22 g13 g04 g50 g41 g32 g23 g14 g05 = 0 -> e4 g20 g11 g02 g30 g21 g12 g03 g40 g31 g22 g13 g04 g50 g41 g32 g23 g14 g05 = 0 -> e5 g20 g11 g02 g30 g21 g12 g03 g40 g31 g22 g13 g04 g50 g41 g32 g23 g14 g05 = 0 -> e6 g20 g11 g02 g30 g21 g12 g03 g40 g31 g22 g13 g04 g50 g41 g32 g23 g14 g05 = 0 -> e7 g20 g11 g02 g30 g21 g12 g03 g40 g31 g22 g13 g04 g50 g41 g32 g23 g14 g05 = 0 -> e8 g20 g11 g02 g30 g21 g12 g03 g40 g31 g22 g13 g04 g50 g41 g32 g23 g14 g05 = 0 -> e9 g20 g11 g02 g30 g21 g12 g03 g40 g31 g22 g13 g04 g50 g41 g32 g23 g14 g05 = 0 -> e10 g20 g11 g02 g30 g21 g12 g03 g40 g31 g22 g13 g04 g50 g41 g32 g23 g14 g05 = 0 -> e12 g20 g11 g02 g30 g21 g12 g03 g40 g31 g22 g13 g04 g50 g41 g32 g23 g14 g05 = 0 -> e13 g20 g11 g02 g30 g21 g12 g03 g40 g31 g22 g13 g04 g50 g41 g32 g23 g14 g05 = 0 -> e14 g20 g11 g02 g30 g21 g12 g03 g40 g31 g22 g13 g04 g50 g41 g32 g23 g14 g05 = 0 -> e15 g20 g11 g02 g30 g21 g12 g03 g40 g31 g22 g13 g04 g50 g41 g32 g23 g14 g05 = 0 -> e16 g20 g11 g02 g30 g21 g12 g03 g40 g31 g22 g13 g04 g50 g41 g32 g23 g14 g05 = 0 -> e17 g20 g11 g02 g30 g21 g12 g03 g40 g31 g22 g13 g04 g50 g41 g32 g23 g14 g05 = 0 -> g14 = 0.
Proof. intros E0 E1 E3 E4 E5 E6 E7 E8 E9 E10 E12 E13 E14 E15 E16 E17. apply (Rmult_eq_reg_l 232805749188964594099420986493424407426623286541127682469530792036298230376301532388760774907662832035521279802525219819301738329872755656374332800); [|apply not_eq_sym, Rlt_not_eq, IZR_lt; reflexivity]. rewrite Rmult_0_r. replace (232805749188964594099420986493424407426623286541127682469530792036298230376301532388760774907662832035521279802525219819301738329872755656374332800 * g14) with ((22633892282260409021616715295762291109228698090677571778770580154248002041692679811912096440733665146000000000000000000000000000000000000000000000) * e0 g20 g11 g02 g30 g21 g12 g03 g40 g31 g22 g13 g04 g50 g41 g32 g23 g14 g05 + (-141461826764128017013258782684559444077764966471709512176315365514477760072623911908988413247917897724000000000000000000000000000000000000000000000) * e1 g20 g11 g02 g30 g21 g12 g03 g40 g31 g22 g13 g04 g50 g41 g32 g23 g14 g05 + (715335905346590575120308017339614794959565893725960236257745067858394251008181434574557662260084506816) * e3 g20 g11 g02 g30 g21 g12 g03 g40 g31 g22 g13 g04 g50 g41 g32 g23 g14 g05 + (-1141148537795995183094138469086598290297660975834742370048414883618379594296432837277668659058211870243) * e4 g20 g11 g02 g30 g21 g12 g03 g40 g31 g22 g13 g04 g50 g41 g32 g23 g14 g05 + (581931715527348112350322456460865142180429735477811645753503154174529876439007455987754469127606966773) * e5 g20 g11 g02 g30 g21 g12 g03 g40 g31 g22 g13 g04 g50 g41 g32 g23 g14 g05 + (2458245882195648535599175405490332241315132510060382766904562663106299247137814588045196466133870822320) * e6 g20 g11 g02 g30 g21 g12 g03 g40 g31 g22 g13 g04 g50 g41 g32 g23 g14 g05 + (1314212174666670985333507621777086864108104007075740314879559960399977719683827839803288307034367192907) * e7 g20 g11 g02 g30 g21 g12 g03 g40 g31 g22 g13 g04 g50 g41 g32 g23 g14 g05 + (-581931715527348112350322456460865142180429735477811645753503154174529876439007455987754469127606966773) * e8 g20 g11 g02 g30 g21 g12 g03 g40 g31 g22 g13 g04 g50 g41 g32 g23 g14 g05 + (-2821684174334891368839328786334966535124209079908133600504128806343366224798150896952256393973567324528) * e9 g20 g11 g02 g30 g21 g12 g03 g40 g31 g22 g13 g04 g50 g41 g32 g23 g14 g05 + (3426330783120936701556050008861425215674110414629448543990284693673216764897178416142566630969395132784) * e10 g20 g11 g02 g30 g21 g12 g03 g40 g31 g22 g13 g04 g50 g41 g32 g23 g14 g05 + (31582539968012924145505307578018247487974476018737720864983268207258272149280663181161245349576158400) * e12 g20 g11 g02 g30 g21 g12 g03 g40 g31 g22 g13 g04 g50 g41 g32 g23 g14 g05 + (746949310733546373589416231596893595660833386910914206544705491900472312669847813884123747542100430025) * e13 g20 g11 g02 g30 g21 g12 g03 g40 g31 g22 g13 g04 g50 g41 g32 g23 g14 g05 + (-1042971931884662643207392373771372792343045285643626865639492647106495726383029479707513410364877700825) * e14 g20 g11 g02 g30 g21 g12 g03 g40 g31 g22 g13 g04 g50 g41 g32 g23 g14 g05 + (-994595244796391709609311257058580608587638648345241561549967856993281600622828143770285583669773121950) * e15 g20 g11 g02 g30 g21 g12 g03 g40 g31 g22 g13 g04 g50 g41 g32 g23 g14 g05 + (-526874408093702418026848260665702395045732738045203866605620393464387680993575611009622868793867646925) * e16 g20 g11 g02 g30 g21 g12 g03 g40 g31 g22 g13 g04 g50 g41 g32 g23 g14 g05 + (1042971931884662643207392373771372792343045285643626865639492647106495726383029479707513410364877700825) * e17 g20 g11 g02 g30 g21 g12 g03 g40 g31 g22 g13 g04 g50 g41 g32 g23 g14 g05) by (unfold e0, e1, e3, e4, e5, e6, e7, e8, e9, e10, e12, e13, e14, e15, e16, e17; ring). rewrite E0, E1, E3, E4, E5, E6, E7, E8, E9, E10, E12, E13, E14, E15, E16, E17. ring. Qed.
Lemma zg05 g20 g11 g02 g30 g21 g12 g03 g40 g31 g22 g13 g04 g50 g41 g32 g23 g14 g05 : e0 g20 g11 g02 g30 g21 g12 g03 g40 g31 g22 g13 g04 g50 g41 g32 g23 g14 g05 = 0 -> e1 g20 g11 g02 g30 g21 g12 g03 g40 g31 g22 g13 g04 g50 g41 g32 g23 g14 g05 = 0 -> e2 g20 g11 g02 g30 g21 g12 g03 g40 g31 g22 g13 g04 g50 g41 g32 g23 g14 g05 = 0 -> e3 g20 g11 g02 g30 g21 g12 g03 g40 g31 g22 g13 g04 g50 g41 g32 g23 g14 g05 = 0 -> e4 g20 g11 g02 g30 g21 g12 g03 g40 g31 g22 g13 g04 g50 g41 g32 g23 g14 g05 = 0 -> e5 g20 g11 g02 g30 g21 g12 g03 g40 g31 g22 g13 g04 g50 g41 g32 g23 g14 g05 = 0 -> e6 g20 g11 g02 g30 g21 g12 g03 g40 g31 g22 g13 g04 g50 g41 g32 g23 g14 g05 = 0 -> e7 g20 g11 g02 g30 g21 g12 g03 g40 g31 g22 g13 g04 g50 g41 g32 g23 g14 g05 = 0 -> e8 g20 g11 g02 g30 g21 g12 g03 g40 g31 g22 g13 g04 g50 g41 g32 g23 g14 g05 = 0 -> e9 g20 g11 g02 g30 g21 g12 g03 g40 g31 g22 g13 g04 g50 g41 g32 g23 g14 g05 = 0 -> e10 g20 g11 g02 g30 g21 g12 g03 g40 g31 g22 g13 g04 g50 g41 g32 g23 g14 g05 = 0 -> e11 g20 g11 g02 g30 g21 g12 g03 g40 g31 g22 g13 g04 g50 g41 g32 g23 g14 g05 = 0 -> e12 g20 g11 g02 g30 g21 g12 g03 g40 g31 g22 g13 g04 g50 g41 g32 g23 g14 g05 = 0 -> e13 g20 g11 g02 g30 g21 g12 g03 g40 g31 g22 g13 g04 g50 g41 g32 g23 g14 g05 = 0 -> e14 g20 g11 g02 g30 g21 g12 g03 g40 g31 g22 g13 g04 g50 g41 g32 g23 g14 g05 = 0 -> e15 g20 g11 g02 g30 g21 g12 g03 g40 g31 g22 g13 g04 g50 g41 g32 g23 g14 g05 = 0 -> e16 g20 g11 g02 g30 g21 g12 g03 g40 g31 g22 g13 g04 g50 g41 g32 g23 g14 g05 = 0 -> e17 g20 g11 g02 g30 g21 g12 g03 g40 g31 g22 g13 g04 g50 g41 g32 g23 g14 g05 = 0 -> g05 = 0.
Proof. intros E0 E1 E2 E3 E4 E5 E6 E7 E8 E9 E10 E11 E12 E13 E14 E15 E16 E17. apply (Rmult_eq_reg_l 106198339284772828975302359363948853564978195729600868415340619914051203407467294657473163866461324298377699445623345690405177787945930333034559398776692717845043112552414187475746685728000); [|apply not_eq_sym, Rlt_not_eq, IZR_lt; reflexivity]. rewrite Rmult_0_r. replace (106198339284772828975302359363948853564978195729600868415340619914051203407467294657473163866461324298377699445623345690405177787945930333034559398776692717845043112552414187475746685728000 * g05) with ((-37611760704702744778166798330166001691031680183878594807274311461901109668306966762175481438300427569834523549123985198293601759921038967687022000000000000000000000000000000000000000000000) * e0 g20 g11 g02 g30 g21 g12 g03 g40 g31 g22 g13 g04 g50 g41 g32 g23 g14 g05 + (-7669728934135380484328458718020614215547907677634841389063689585204437787686445197877074160227658643349369389825188123513010050139431885268572000000000000000000000000000000000000000000000) * e1 g20 g11 g02 g30 g21 g12 g03 g40 g31 g22 g13 g04 g50 g41 g32 g23 g14 g05 + (-22640744819419345039010680632262753966178251924666750998606284300985164393971745478206720964448340746153901836114369354707761772204237955761312000000000000000000000000000000000000000000000) * e2 g20 g11 g02 g30 g21 g12 g03 g40 g31 g22 g13 g04 g50 g41 g32 g23 g14 g05 + (-1188705970667935677109126917077454294648113030388174236707172321177068386083306201020215709501397871226083507345628920393943779489194974287323712) * e3 g20 g11 g02 g30 g21 g12 g03 g40 g31 g22 g13 g04 g50 g41 g32 g23 g14 g05 + (1266402667712813724863058896936316782583423327338641108906941167046922225039778155291430985828093473221212311782083969805079342338284644991403305) * e4 g20 g11 g02 g30 g21 g12 g03 g40 g31 g22 g13 g04 g50 g41 g32 g23 g14 g05 + (-63453417047460416921341955281749531439753690099928616989139760844028083722029709274479177441435854968249325716574594883648316208204668600883351) * e5 g20 g11 g02 g30 g21 g12 g03 g40 g31 g22 g13 g04 g50 g41 g32 g23 g14 g05 + (-2296096976762380155416939856389167261284003878305261741274346584665203357108009408869139091249287693710568466504915160178463684365264445968651504) * e6 g20 g11 g02 g30 g21 g12 g03 g40 g31 g22 g13 g04 g50 g41 g32 g23 g14 g05 + (-736276054337845034747320499759943553756013338912290714062717178439031897191947304211046535099424241584540593911380183637022602335735232902192025) * e7 g20 g11 g02 g30 g21 g12 g03 g40 g31 g22 g13 g04 g50 g41 g32 g23 g14 g05 + (319832457001040097811156752092582021377436833395526513095565180229117141164292613528871343238133746325009266402437302886106059499871433897786487) * e8 g20 g11 g02 g30 g21 g12 g03 g40 g31 g22 g13 g04 g50 g41 g32 g23 g14 g05 + (2900038795712394815355761308262785553255365661507052540889933718799787443637251927727910624321619082582147726870366527551836404641094482618854960) * e9 g20 g11 g02 g30 g21 g12 g03 g40 g31 g22 g13 g04 g50 g41 g32 g23 g14 g05 + (-1707451333574636577547836380378303804956743774932278965859393665120190532956049794307927109880972601602209786334124956024317971374248730517370336) * e10 g20 g11 g02 g30 g21 g12 g03 g40 g31 g22 g13 g04 g50 g41 g32 g23 g14 g05 + (-1137423475912363737268712230595022795842045255054773070871817230670657762242856112168200282498021101694715359075679990677282395505439235724516512) * e11 g20 g11 g02 g30 g21 g12 g03 g40 g31 g22 g13 g04 g50 g41 g32 g23 g14 g05 + (-52482132587271520601663897347574825209447597027650332250293820998996958411906024480699715837114720953398924285604637691019586098371102195508800) * e12 g20 g11 g02 g30 g21 g12 g03 g40 g31 g22 g13 g04 g50 g41 g32 g23 g14 g05 + (-918654438582594535874008299225325451871609974033380681995746787423843439784242496478698308879081535436579994558982796616411954656729302292592275) * e13 g20 g11 g02 g30 g21 g12 g03 g40 g31 g22 g13 g04 g50 g41 g32 g23 g14 g05 + (947010794585899016013426744413990637752365404931393086885771936248109663153941832627450440988200974488593242005351539755612819808200492100085075) * e14 g20 g11 g02 g30 g21 g12 g03 g40 g31 g22 g13 g04 g50 g41 g32 g23 g14 g05 + (1652763823332166646782472917465892873544054209178755829138285417512811219010257809220881891100292747693435307092129791065517892829604091960178650) * e15 g20 g11 g02 g30 g21 g12 g03 g40 g31 g22 g13 g04 g50 g41 g32 g23 g14 g05 + (2303061840003917696382974667813812611820737267835449970515636082736663465159995460048921970357531688772551036547684045807524457382193281623002775) * e16 g20 g11 g02 g30 g21 g12 g03 g40 g31 g22 g13 g04 g50 g41 g32 g23 g14 g05 + (545333751497207356418759066441294025238809508793784364841989551164058480283888503197939141753227435995517525959553715496321400255086403133083725) * e17 g20 g11 g02 g30 g21 g12 g03 g40 g31 g22 g13 g04 g50 g41 g32 g23 g14 g05) by (unfold e0, e1, e2, e3, e4, e5, e6, e7, e8, e9, e10, e11, e12, e13, e14, e15, e16, e17; ring). rewrite E0, E1, E2, E3, E4, E5, E6, E7, E8, E9, E10, E11, E12, E13, E14, E15, E16, E17. ring. Qed.
