(** * Model of src/tvemoves_rufbad/domain.py, lines 301-375 (RefinedGrid) and 634-916 (refine). *)
From Verif.Model Require Import Py Num Tensors Domain.
Local Open Scope num_scope.

Section Refine.
Context {T : Type} {NT : Num T}.

(** domain.py:301-304 the value types of the coordinate dictionaries. *)
Definition bary3 := (bary T * bary T * bary T)%type.

(** domain.py:307-338: a RefinedGrid is a Grid with five more attributes. *)
Record refined_grid := mkRefined {
  r_grid : grid T;
  r_coarse : grid T;                                (* domain.py:340-342 [coarse()] *)
  r_coarse_triangle : dict triangle triangle;
  r_coarse_bary : dict triangle bary3;
  r_coarse_edge : dict edge edge;
  r_coarse_edge_coords : dict edge (T * T)
}.

(** domain.py:346-354: the triangle as listed in the grid, up to cyclic permutation. *)
Definition listed_triangle (ts : list triangle) (t : triangle) : res triangle :=
  let '(i1, i2, i3) := t in
  if py_in triangle_eqb (i1, i2, i3) ts then Ok (i1, i2, i3)
  else if py_in triangle_eqb (i2, i3, i1) ts then Ok (i2, i3, i1)
  else if py_in triangle_eqb (i3, i1, i2) ts then Ok (i3, i1, i2)
  else Err ValueError.

(** domain.py:344-361.  The coordinates are used unpermuted with the listed triangle. *)
Definition to_coarse_barycentric_point (rg : refined_grid) (bp : bary_point T) : res (bary_point T) :=
  let '(t, p) := bp in
  let* ft := listed_triangle (g_triangles (r_grid rg)) t in
  let* ct := dget triangle_eqb ft (r_coarse_triangle rg) in
  let* '(q1, q2, q3) := dget triangle_eqb ft (r_coarse_bary rg) in
  Ok (ct, Bary (l1 p * l1 q1 + l2 p * l1 q2 + l3 p * l1 q3)
               (l1 p * l2 q1 + l2 p * l2 q2 + l3 p * l2 q3)).

Definition dmem {K V} (eqb : K -> K -> bool) (k : K) (d : dict K V) : bool :=
  match dfind eqb k d with Some _ => true | None => false end.

(** domain.py:363-375. *)
Definition to_coarse_edge_point (rg : refined_grid) (e : edge) (t : T) : res (edge * T) :=
  if negb (dmem edge_eqb e (r_coarse_edge rg)) || negb (dmem edge_eqb e (r_coarse_edge_coords rg))
  then Err ValueError
  else
    let* ce := dget edge_eqb e (r_coarse_edge rg) in
    let* '(t1, t2) := dget edge_eqb e (r_coarse_edge_coords rg) in
    Ok (ce, t * t1 + (n1 - t) * t2).

(** ** refine *)

(** The mutable objects of domain.py:640-653. *)
Record rstate := mkR {
  rs_grid : grid T;                                 (* intermediate_grid *)
  rs_ct : dict triangle triangle;
  rs_cb : dict triangle bary3;
  rs_ce : dict edge edge;
  rs_cc : dict edge (T * T)
}.

Definition set_vp (g : grid T) (vs : list vertex) (ps : list (vector T)) : grid T :=
  mkGrid vs (g_edges g) (g_triangles g) (g_boundary g) (g_dirichlet g) (g_neumann g) ps (g_mean g).
Definition set_triangles (g : grid T) (ts : list triangle) : grid T :=
  mkGrid (g_vertices g) (g_edges g) ts (g_boundary g) (g_dirichlet g) (g_neumann g) (g_points g) (g_mean g).
Definition set_boundaries (g : grid T) (b d n : boundary) : grid T :=
  mkGrid (g_vertices g) (g_edges g) (g_triangles g) b d n (g_points g) (g_mean g).

(** [k / refinement_factor] *)
Definition frac (k n : nat) : res T := ndiv (nofZ (Z.of_nat k)) (nofZ (Z.of_nat n)).
(** [BarycentricCoordinates(1 - k / refinement_factor - l / refinement_factor, k / refinement_factor)],
    domain.py:722-724 and 755-788. *)
Definition kl_bary (n k l : nat) : res (bary T) :=
  let* fk := frac k n in
  let* fl := frac l n in
  Ok (Bary (n1 - fk - fl) fk).

(** domain.py:726-730 [l1 * p1 + l2 * p2 + l3 * p3]. *)
Definition combine_points (b : bary T) (tv : tri_points T) : res (vector T) :=
  let '(p1, p2, p3) := tv in
  let* a := Vector_add (Vector_mul p1 (l1 b)) (Vector_mul p2 (l2 b)) in
  Vector_add a (Vector_mul p3 (l3 b)).

(** Loop indices of domain.py:713-714. *)
Definition kl_all (n : nat) : list (nat * nat) :=
  flat_map (fun l => map (fun k => (k, l)) (range (n + 1 - l))) (range (n + 1)).
(** Loop indices of domain.py:744-745 and 803-804. *)
Definition kl_lower (n : nat) : list (nat * nat) :=
  flat_map (fun l => map (fun k => (k, l)) (range (n - l))) (range n).
(** Loop indices of domain.py:769-770. *)
Definition kl_upper (n : nat) : list (nat * nat) :=
  flat_map (fun l => map (fun k => (k, l)) (range2 1 (n - l))) (range (n - 1)).

(** State of the vertex loop: intermediate grid, [next_vertex], [triangle_vertices].
    ([triangle_points] is written but never read.) *)
Definition vstate := (grid T * nat * dict (nat * nat) vertex)%type.

(** domain.py:715-740: body of the vertex loop. *)
Definition vertex_step (n : nat) (tv : tri_points T) (st : vstate) (kl : nat * nat) : res vstate :=
  let '(g, next, tvs) := st in
  let '(k, l) := kl in
  if (Nat.eqb k 0 && Nat.eqb l 0) || (Nat.eqb k n && Nat.eqb l 0) || (Nat.eqb k 0 && Nat.eqb l n)
  then Ok st
  else
    let* b := kl_bary n k l in
    let b := Bary_assert_bounds n0 n1 b in
    let* p := combine_points b tv in
    let* old := point_to_vertex g p in
    match old with
    | None => Ok (set_vp g (g_vertices g ++ [next]) (g_points g ++ [p]), S next, dset (k, l) next tvs)
    | Some v => Ok (g, next, dset (k, l) v tvs)
    end.

(** [triangle_vertices[(k, l)]] *)
Definition tvget (tvs : dict (nat * nat) vertex) (k l : nat) : res vertex := dget pair_eqb (k, l) tvs.

(** domain.py:746-766: body of the loop adding lower triangles (751-752 index the points and discard them). *)
Definition lower_step (n : nat) (tri : triangle) (tvs : dict (nat * nat) vertex) (st : rstate) (kl : nat * nat)
    : res rstate :=
  let '(k, l) := kl in
  let* a := tvget tvs k l in
  let* b := tvget tvs (k + 1) l in
  let* c := tvget tvs k (l + 1) in
  let t := (a, b, c) in
  let* _ := py_nth (g_points (rs_grid st)) a in
  let* _ := py_nth (g_points (rs_grid st)) b in
  let* q1 := kl_bary n k l in
  let* q2 := kl_bary n (k + 1) l in
  let* q3 := kl_bary n k (l + 1) in
  Ok (mkR (set_triangles (rs_grid st) (g_triangles (rs_grid st) ++ [t]))
          (dset t tri (rs_ct st)) (dset t (q1, q2, q3) (rs_cb st)) (rs_ce st) (rs_cc st)).

(** domain.py:771-789: body of the loop adding upper triangles ([k >= 1] there). *)
Definition upper_step (n : nat) (tri : triangle) (tvs : dict (nat * nat) vertex) (st : rstate) (kl : nat * nat)
    : res rstate :=
  let '(k, l) := kl in
  let* a := tvget tvs k (l + 1) in
  let* b := tvget tvs (k - 1) (l + 1) in
  let* c := tvget tvs k l in
  let t := (a, b, c) in
  let* q1 := kl_bary n k (l + 1) in
  let* q2 := kl_bary n (k - 1) (l + 1) in
  let* q3 := kl_bary n k l in
  Ok (mkR (set_triangles (rs_grid st) (g_triangles (rs_grid st) ++ [t]))
          (dset t tri (rs_ct st)) (dset t (q1, q2, q3) (rs_cb st)) (rs_ce st) (rs_cc st)).

(** domain.py:797-801 [assure_orientation] on a tuple and on a list. *)
Definition assure_edge (ok : bool) (e : edge) : edge := if ok then e else flip e.
Definition assure_list {A} (ok : bool) (l : list A) : list A := if ok then l else rev l.

(** domain.py:805-826: body of the edge loop. *)
Definition edge_step (hc vc dc : bool) (tvs : dict (nat * nat) vertex) (g : grid T) (kl : nat * nat)
    : res (grid T) :=
  let '(k, l) := kl in
  let* a := tvget tvs k l in
  let* b := tvget tvs (k + 1) l in
  let* g := append_edge g (assure_edge hc (a, b)) in
  let* c := tvget tvs k (l + 1) in
  let* g := append_edge g (assure_edge vc (b, c)) in
  append_edge g (assure_edge dc (a, c)).

(** domain.py:904-916 [_refine_boundary_edge]; [l[1:-1]] and [zip(l[:-1], l[1:])]. *)
Definition refine_boundary_edge (e : edge) (vs : list vertex) (bd ib : boundary) : boundary :=
  if negb (py_in edge_eqb e (b_edges bd)) then ib
  else mkBoundary (b_vertices ib ++ removelast (tl vs)) (b_edges ib ++ zip (removelast vs) (tl vs)).

(** domain.py:840-851. *)
Definition refine_boundaries (cg : grid T) (g : grid T) (ev : edge * list vertex) : grid T :=
  let '(e, vs) := ev in
  set_boundaries g
    (refine_boundary_edge e vs (g_boundary cg) (g_boundary g))
    (refine_boundary_edge e vs (g_dirichlet cg) (g_dirichlet g))
    (refine_boundary_edge e vs (g_neumann cg) (g_neumann g)).

(** domain.py:853-856 [assure_orientation_and_weights]. *)
Definition assure_weights (ok : bool) (p : T * T) : T * T :=
  if ok then p else (n1 - snd p, n1 - fst p).

(** domain.py:858-901: body of the loop filling the coarse edge dictionaries. *)
Definition coarse_edge_step (n : nat) (hc vc dc : bool) (he ve de : edge) (tvs : dict (nat * nat) vertex)
    (st : rstate) (i : nat) : res rstate :=
  let* f0 := frac i n in
  let* f1 := frac (i + 1) n in
  let w := (n1 - f0, n1 - f1) in
  let* h0 := tvget tvs i 0 in
  let* h1 := tvget tvs (i + 1) 0 in
  let hf := assure_edge hc (h0, h1) in
  let* v0 := tvget tvs (n - i) i in
  let* v1 := tvget tvs (n - (i + 1)) (i + 1) in
  let vf := assure_edge vc (v0, v1) in
  let* d0 := tvget tvs 0 (n - i) in
  let* d1 := tvget tvs 0 (n - (i + 1)) in
  let df := assure_edge dc (d0, d1) in
  Ok (mkR (rs_grid st) (rs_ct st) (rs_cb st)
          (dset df de (dset vf ve (dset hf he (rs_ce st))))
          (dset df (assure_weights dc w) (dset vf (assure_weights vc w) (dset hf (assure_weights hc w) (rs_cc st))))).

(** domain.py:699: eps *)
Definition assert_eps : T := ndec 1 15.

(** [assert cond]. *)
Definition py_assert (c : bool) : res unit := if c then Ok tt else Err AssertionError.

(** domain.py:683-901 [_refine_equilateral_triangle]. *)
Definition refine_triangle (cg : grid T) (n : nat) (st : rstate) (tri : triangle) : res rstate :=
  let '(i1, i2, i3) := tri in
  let* tv := triangle_vertices cg tri in
  let '(p1, p2, p3) := tv in
  let* y1 := Vector_get p1 1 in
  let* y2 := Vector_get p2 1 in
  let* _ := py_assert (nabs (y1 - y2) <? assert_eps) in
  let* x2 := Vector_get p2 0 in
  let* x3 := Vector_get p3 0 in
  let* _ := py_assert (nabs (x2 - x3) <? assert_eps) in
  let* last := py_last (g_vertices (rs_grid st)) in
  let tvs0 := dset (0, n) i3 (dset (n, 0) i2 (dset (0, 0) i1 [])) in
  let* '(g, _, tvs) := foldM (vertex_step n tv) (kl_all n) (rs_grid st, S last, tvs0) in
  let st := mkR g (rs_ct st) (rs_cb st) (rs_ce st) (rs_cc st) in
  let* st := foldM (lower_step n tri tvs) (kl_lower n) st in
  let* st := foldM (upper_step n tri tvs) (kl_upper n) st in
  let hc := py_in edge_eqb (i1, i2) (g_edges cg) in
  let vc := py_in edge_eqb (i2, i3) (g_edges cg) in
  let dc := py_in edge_eqb (i3, i1) (g_edges cg) in
  let* g := foldM (edge_step hc vc dc tvs) (kl_lower n) (rs_grid st) in
  let he := assure_edge hc (i1, i2) in
  let ve := assure_edge vc (i2, i3) in
  let de := assure_edge dc (i3, i1) in
  let* hvs := mapM (fun i => tvget tvs i 0) (range (n + 1)) in
  let* vvs := mapM (fun i => tvget tvs (n - i) i) (range (n + 1)) in
  let g := fold_left (refine_boundaries cg) [(he, assure_list hc hvs); (ve, assure_list vc vvs)] g in
  let st := mkR g (rs_ct st) (rs_cb st) (rs_ce st) (rs_cc st) in
  foldM (coarse_edge_step n hc vc dc he ve de tvs) (range n) st.

(** domain.py:640-648: the intermediate grid before the loop (deep copies are values here). *)
Definition intermediate_grid (g : grid T) : res (grid T) :=
  Grid_ (g_vertices g) [] []
        (mkBoundary (b_vertices (g_boundary g)) [])
        (mkBoundary (b_vertices (g_dirichlet g)) [])
        (mkBoundary (b_vertices (g_neumann g)) [])
        (g_points g).

(** domain.py:634-680 [RectangleDomain.refine]; the factor is an arbitrary Python int. *)
Definition refine (g : grid T) (factor : Z) : res refined_grid :=
  if (factor <? 1)%Z then Err ValueError
  else
    let* ig := intermediate_grid g in
    let* st := foldM (refine_triangle g (Z.to_nat factor)) (g_triangles g) (mkR ig [] [] [] []) in
    let g' := rs_grid st in
    let* fg := Grid_ (g_vertices g') (g_edges g') (g_triangles g') (g_boundary g') (g_dirichlet g')
                     (g_neumann g') (g_points g') in
    Ok (mkRefined fg g (rs_ct st) (rs_cb st) (rs_ce st) (rs_cc st)).

End Refine.
Arguments refined_grid T : clear implicits.
Arguments rstate T : clear implicits.
Arguments vstate T : clear implicits.
Arguments bary3 T : clear implicits.
