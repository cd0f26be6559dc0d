(** * Model of src/tvemoves_rufbad/quadrature_rules.py *)
From Verif.Model Require Import Py Num Tensors.
Local Open Scope num_scope.

(** quadrature_rules.py:22-23: [self.weights], [self.points]. *)
Record rule (T : Type) := mkRule { q_weights : list T; q_points : list (bary T) }.
Arguments mkRule {T}. Arguments q_weights {T}. Arguments q_points {T}.

Section Quadrature.
Context {T : Type} {NT : Num T}.

Definition nmax (x y : T) : T := if x <? y then y else x.

(** math.isclose(a, b) with the default rel_tol=1e-09, abs_tol=0. *)
Definition isclose (a b : T) : bool :=
  (a =? b) || negb (ndec 1 9 * nmax (nabs a) (nabs b) <? nabs (a - b)).

(** quadrature_rules.py:13-15. *)
Definition outside_reference (p : T * T) : bool :=
  (fst p <? n0) || (snd p <? n0) || (n1 <? fst p + snd p).

(** quadrature_rules.py:12-23 [TriangleQuadratureRule.__init__]. *)
Definition TriangleQuadratureRule_ (weights : list T) (points : list (T * T)) : res (rule T) :=
  if existsb outside_reference points then Err ValueError
  else if negb (isclose (nsum weights) n1) then Err ValueError
  else Ok (mkRule weights (map (fun p => Bary (fst p) (snd p)) points)).

(** quadrature_rules.py:29. *)
Definition CENTROID : res (rule T) :=
  let* third := ndiv n1 (nofZ 3) in
  TriangleQuadratureRule_ [n1] [(third, third)].

(** quadrature_rules.py:30. *)
Definition VERTEX : res (rule T) :=
  let* third := ndiv n1 (nofZ 3) in
  TriangleQuadratureRule_ [third; third; third] [(n1, n0); (n0, n1); (n0, n0)].

(** quadrature_rules.py:34-36. *)
Definition DUNAVANT2 : res (rule T) :=
  let* third := ndiv n1 (nofZ 3) in
  let* tt := ndiv (nofZ 2) (nofZ 3) in
  let* sixth := ndiv n1 (nofZ 6) in
  TriangleQuadratureRule_ [third; third; third] [(tt, sixth); (sixth, tt); (sixth, sixth)].

(** quadrature_rules.py:37-40. *)
Definition DUNAVANT3 : res (rule T) :=
  let* third := ndiv n1 (nofZ 3) in
  let* d := ndiv (ndec 625 4) (nofZ 3) in
  let w := ndec 5 1 + d in
  TriangleQuadratureRule_ [nopp (ndec 5 1) - ndec 625 4; w; w; w]
    [(third, third); (ndec 6 1, ndec 2 1); (ndec 2 1, ndec 6 1); (ndec 2 1, ndec 2 1)].

(** quadrature_rules.py:41-58. *)
Definition DUNAVANT4 : res (rule T) :=
  let w1 := ndec 223381589678011 15 in
  let w2 := ndec 109951743655322 15 in
  let a := ndec 108103018168070 15 in
  let b := ndec 445948490915965 15 in
  let c := ndec 816847572980459 15 in
  let d := ndec 91576213509771 15 in
  TriangleQuadratureRule_ [w1; w1; w1; w2; w2; w2] [(a, b); (b, a); (b, b); (c, d); (d, c); (d, d)].

(** quadrature_rules.py:60-79. *)
Definition DUNAVANT5 : res (rule T) :=
  let* third := ndiv n1 (nofZ 3) in
  let w0 := ndec 225 3 in
  let w1 := ndec 132394152788506 15 in
  let w2 := ndec 125939180544827 15 in
  let a := ndec 59715871789770 15 in
  let b := ndec 470142064105115 15 in
  let c := ndec 797426985353087 15 in
  let d := ndec 101286507323456 15 in
  TriangleQuadratureRule_ [w0; w1; w1; w1; w2; w2; w2]
    [(third, third); (a, b); (b, a); (b, b); (c, d); (d, c); (d, d)].

(** quadrature_rules.py:94-101 [GaussQuadratureRule.__init__]: numpy's [leggauss] is the oracle
    [leggauss : degree -> res (points, weights)]; the pair returned is (points, weights) on [0, 1]. *)
Definition GaussQuadratureRule_ (leggauss : Z -> res (list T * list T)) (degree : Z)
    : res (list T * list T) :=
  let* '(points, weights) := leggauss degree in
  let* points := mapM (fun x => ndiv (n1 + x) (nofZ 2)) points in
  let* weights := mapM (fun w => ndiv w (nofZ 2)) weights in
  Ok (points, weights).

End Quadrature.
