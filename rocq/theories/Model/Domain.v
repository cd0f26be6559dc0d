(** * Model of src/tvemoves_rufbad/domain.py, lines 1-298 (grids) and 378-632 (rectangle domain). *)
From Coq Require Import String.
From Verif.Model Require Import Py Num Tensors.
Local Open Scope num_scope.

(** domain.py:17-19. Vertices are non-negative ints in every grid the API produces. *)
Definition vertex := nat.
Definition edge := (nat * nat)%type.
Definition triangle := (nat * nat * nat)%type.

Definition edge_eqb : edge -> edge -> bool := pair_eqb.
Definition triangle_eqb : triangle -> triangle -> bool := triple_eqb.
(** [(edge[1], edge[0])]. *)
Definition flip (e : edge) : edge := (snd e, fst e).

(** domain.py:36-41. *)
Record boundary := mkBoundary { b_vertices : list vertex; b_edges : list edge }.

(** domain.py:98-122, the attributes of a Grid. *)
Record grid (T : Type) := mkGrid {
  g_vertices : list vertex;
  g_edges : list edge;
  g_triangles : list triangle;
  g_boundary : boundary;
  g_dirichlet : boundary;
  g_neumann : boundary;
  g_points : list (vector T);
  g_mean : option T             (* _mean_edge_length *)
}.
Arguments mkGrid {T}. Arguments g_vertices {T}. Arguments g_edges {T}. Arguments g_triangles {T}.
Arguments g_boundary {T}. Arguments g_dirichlet {T}. Arguments g_neumann {T}. Arguments g_points {T}.
Arguments g_mean {T}.

(** Order in which Python enumerates a set: any duplicate free list of the same elements.  The grid
    builder calls it on sets of vertices, edges and names. *)
Record SetOrder := {
  so_nat : list nat -> list nat;
  so_edge : list edge -> list edge;
  so_str : list string -> list string;
  so_nat_ok : forall l, NoDup (so_nat l) /\ forall x, In x (so_nat l) <-> In x l;
  so_edge_ok : forall l, NoDup (so_edge l) /\ forall x, In x (so_edge l) <-> In x l;
  so_str_ok : forall l, NoDup (so_str l) /\ forall x, In x (so_str l) <-> In x l
}.

(** domain.py:410-418 the [fix] argument. *)
Inductive fixopt := FixNone | FixOne (name : string) | FixList (names : list string).
Inductive side := Lower | Right | Upper | Left.
(** domain.py:524-544 the [match]; there is no default case. *)
Definition side_of_name (s : string) : option side :=
  if String.eqb s "lower" then Some Lower
  else if String.eqb s "right" then Some Right
  else if String.eqb s "upper" then Some Upper
  else if String.eqb s "left" then Some Left
  else None.

(** ** The index part of RectangleDomain.grid: domain.py:429-553, as a function of the two counts. *)

(** domain.py:429-431. *)
Definition pair_to_vertex (nh i j : nat) : vertex := (j * nh + i)%nat.

(** domain.py:433. *)
Definition rg_vertices (nh nv : nat) : list vertex := range (nh * nv).

(** domain.py:435-439. *)
Definition horizontal_edges (nh nv : nat) : list edge :=
  flat_map (fun j => map (fun i => (pair_to_vertex nh i j, pair_to_vertex nh (i + 1) j)) (range (nh - 1)))
           (range nv).
(** domain.py:440-444. *)
Definition vertical_edges (nh nv : nat) : list edge :=
  flat_map (fun i => map (fun j => (pair_to_vertex nh i j, pair_to_vertex nh i (j + 1))) (range (nv - 1)))
           (range nh).
(** domain.py:445-449. *)
Definition diagonal_edges (nh nv : nat) : list edge :=
  flat_map (fun i => map (fun j => (pair_to_vertex nh i j, pair_to_vertex nh (i + 1) (j + 1))) (range (nv - 1)))
           (range (nh - 1)).
(** domain.py:450. *)
Definition rg_edges (nh nv : nat) : list edge :=
  horizontal_edges nh nv ++ vertical_edges nh nv ++ diagonal_edges nh nv.

(** domain.py:452-460. *)
Definition lower_triangles (nh nv : nat) : list triangle :=
  flat_map (fun i => map (fun j =>
      (pair_to_vertex nh i j, pair_to_vertex nh (i + 1) j, pair_to_vertex nh (i + 1) (j + 1))) (range (nv - 1)))
    (range (nh - 1)).
(** domain.py:461-469. *)
Definition upper_triangles (nh nv : nat) : list triangle :=
  flat_map (fun i => map (fun j =>
      (pair_to_vertex nh (i + 1) (j + 1), pair_to_vertex nh i (j + 1), pair_to_vertex nh i j)) (range (nv - 1)))
    (range (nh - 1)).
(** domain.py:470. *)
Definition rg_triangles (nh nv : nat) : list triangle := lower_triangles nh nv ++ upper_triangles nh nv.

(** domain.py:472-501 (vertex sets as lists of their elements). *)
Definition side_vertices (nh nv : nat) (s : side) : list vertex :=
  match s with
  | Lower => map (fun i => pair_to_vertex nh i 0) (range nh)
  | Right => map (fun j => pair_to_vertex nh (nh - 1) j) (range nv)
  | Upper => map (fun i => pair_to_vertex nh i (nv - 1)) (range nh)
  | Left => map (fun j => pair_to_vertex nh 0 j) (range nv)
  end.
Definition side_edges (nh nv : nat) (s : side) : list edge :=
  match s with
  | Lower => map (fun i => (pair_to_vertex nh i 0, pair_to_vertex nh (i + 1) 0)) (range (nh - 1))
  | Right => map (fun j => (pair_to_vertex nh (nh - 1) j, pair_to_vertex nh (nh - 1) (j + 1))) (range (nv - 1))
  | Upper => map (fun i => (pair_to_vertex nh i (nv - 1), pair_to_vertex nh (i + 1) (nv - 1))) (range (nh - 1))
  | Left => map (fun j => (pair_to_vertex nh 0 j, pair_to_vertex nh 0 (j + 1))) (range (nv - 1))
  end.

(** domain.py:503-507. *)
Definition boundary_vertices (so : SetOrder) (nh nv : nat) : list vertex :=
  so_nat so (side_vertices nh nv Lower ++ side_vertices nh nv Right
             ++ side_vertices nh nv Upper ++ side_vertices nh nv Left).
(** domain.py:508-510. *)
Definition boundary_edges (nh nv : nat) : list edge :=
  side_edges nh nv Lower ++ side_edges nh nv Right ++ side_edges nh nv Upper ++ side_edges nh nv Left.

(** State of the loop domain.py:513-544: vertex tags, set of Dirichlet edges, set of Neumann edges. *)
Definition fix_state := (list (nat * Z) * list edge * list edge)%type.
(** [boundary_vertices_tags[i] -= 1] *)
Definition dec_tag (tags : list (nat * Z)) (i : nat) : list (nat * Z) :=
  map (fun '(k, t) => if Nat.eqb k i then (k, (t - 1)%Z) else (k, t)) tags.
(** one iteration of the loop, domain.py:523-544 *)
Definition apply_fix (so : SetOrder) (nh nv : nat) (st : fix_state) (name : string) : fix_state :=
  match side_of_name name with
  | None => st
  | Some s =>
      let '(tags, dir, neu) := st in
      (fold_left dec_tag (so_nat so (side_vertices nh nv s)) tags,
       dir ++ side_edges nh nv s,
       filter (fun e => negb (py_in edge_eqb e (side_edges nh nv s))) neu)
  end.
(** domain.py:518-522. *)
Definition fix_names (so : SetOrder) (f : fixopt) : list string :=
  match f with
  | FixNone => []
  | FixOne n => [n]
  | FixList l => so_str so l
  end.
(** domain.py:513-544. *)
Definition fix_loop (so : SetOrder) (nh nv : nat) (f : fixopt) : fix_state :=
  fold_left (apply_fix so nh nv) (fix_names so f)
    (map (fun i => (i, 1%Z)) (boundary_vertices so nh nv), [], so_edge so (boundary_edges nh nv)).
(** domain.py:545-553. *)
Definition rg_dirichlet (so : SetOrder) (nh nv : nat) (f : fixopt) : boundary :=
  let '(tags, dir, neu) := fix_loop so nh nv f in
  mkBoundary (map fst (filter (fun '(i, t) => (t <=? 0)%Z) tags)) (so_edge so dir).
Definition rg_neumann (so : SetOrder) (nh nv : nat) (f : fixopt) : boundary :=
  let '(tags, dir, neu) := fix_loop so nh nv f in
  mkBoundary (map fst (filter (fun '(i, t) => (0 <=? t)%Z) tags)) (so_edge so neu).

Section Domain.
Context {T : Type} {NT : Num T}.

(** domain.py:32-33, 49-50: [triangle_vertices] is a triple of points. *)
Definition tri_points := (vector T * vector T * vector T)%type.

(** ** Orientation test and barycentric coordinates *)

(** domain.py:44-46. *)
Definition sign_ (tv : tri_points) : res T :=
  let '(p1, p2, p3) := tv in
  let* a := Vector_get p1 0 in let* b := Vector_get p3 0 in
  let* c := Vector_get p2 1 in let* d := Vector_get p3 1 in
  let* e := Vector_get p2 0 in let* f := Vector_get p1 1 in
  Ok ((a - b) * (c - d) - (e - b) * (f - d)).

(** domain.py:51: 1e-10 *)
Definition contains_eps : T := ndec 1 10.

(** domain.py:49-61. *)
Definition triangle_contains_point (tv : tri_points) (p : vector T) : res bool :=
  let '(p1, p2, p3) := tv in
  let* d1 := sign_ (p, p1, p2) in
  let* d2 := sign_ (p, p2, p3) in
  let* d3 := sign_ (p, p3, p1) in
  let has_neg := (d1 <? - contains_eps) || (d2 <? - contains_eps) || (d3 <? - contains_eps) in
  let has_pos := (contains_eps <? d1) || (contains_eps <? d2) || (contains_eps <? d3) in
  Ok (negb (has_neg && has_pos)).

(** domain.py:64-85. *)
Definition to_barycentric_coordinates (tv : tri_points) (p : vector T) : res (bary T) :=
  let '(p1, p2, p3) := tv in
  let* v1 := Vector_sub p2 p1 in
  let* v2 := Vector_sub p3 p1 in
  let* v3 := Vector_sub p p1 in
  let d11 := Vector_dot v1 v1 in
  let d12 := Vector_dot v1 v2 in
  let d22 := Vector_dot v2 v2 in
  let d31 := Vector_dot v3 v1 in
  let d32 := Vector_dot v3 v2 in
  let denom := d11 * d22 - d12 * d12 in
  let* v := ndiv (d22 * d31 - d12 * d32) denom in
  let* w := ndiv (d11 * d32 - d12 * d31) denom in
  let u := n1 - v - w in
  Ok (Bary u v).

(** ** Grid *)

(** [(self.points[i1] - self.points[i2]).norm()] as in domain.py:121 and 219. *)
Definition edge_length (points : list (vector T)) (e : edge) : res T :=
  let* p := py_nth points (fst e) in
  let* q := py_nth points (snd e) in
  let* d := Vector_sub p q in
  Ok (Vector_norm d).

(** domain.py:101-122 [Grid.__init__]. *)
Definition Grid_ (vertices : list vertex) (edges : list edge) (triangles : list triangle)
    (bd dir neu : boundary) (points : list (vector T)) : res (grid T) :=
  match edges with
  | [] => Ok (mkGrid vertices edges triangles bd dir neu points None)
  | _ =>
      let* lens := mapM (edge_length points) edges in
      let* mean := ndiv (nsum lens) (nofZ (Z.of_nat (length edges))) in
      Ok (mkGrid vertices edges triangles bd dir neu points (Some mean))
  end.

(** [(self.points[i1], self.points[i2], self.points[i3])] *)
Definition points_of (points : list (vector T)) (t : triangle) : res tri_points :=
  let '(i1, i2, i3) := t in
  let* p1 := py_nth points i1 in
  let* p2 := py_nth points i2 in
  let* p3 := py_nth points i3 in
  Ok (p1, p2, p3).

(** domain.py:25-30 a BarycentricPoint. *)
Definition bary_point := (triangle * bary T)%type.

(** domain.py:124-138 [to_barycentric_point]; the loop over the triangles. *)
Fixpoint locate (points : list (vector T)) (ts : list triangle) (p : vector T) : res (option bary_point) :=
  match ts with
  | [] => Ok None
  | t :: ts' =>
      let* tv := points_of points t in
      let* inside := triangle_contains_point tv p in
      if (inside : bool) then
        let* b := to_barycentric_coordinates tv p in Ok (Some (t, b))
      else locate points ts' p
  end.
Definition to_barycentric_point (g : grid T) (p : vector T) : res (option bary_point) :=
  locate (g_points g) (g_triangles g) p.

(** domain.py:167-173. *)
Definition triangle_vertices (g : grid T) (t : triangle) : res tri_points :=
  if py_in triangle_eqb t (g_triangles g) then points_of (g_points g) t else Err ValueError.

(** domain.py:175-181. *)
Definition edge_vertices (g : grid T) (e : edge) : res (vector T * vector T) :=
  if py_in edge_eqb e (g_edges g) then
    let* p1 := py_nth (g_points g) (fst e) in
    let* p2 := py_nth (g_points g) (snd e) in
    Ok (p1, p2)
  else Err ValueError.

(** domain.py:210-212 [_points_coincide]; [1e7] and [1e-15]. *)
Definition coincide_eps (mean : option T) : res T :=
  match mean with
  | Some m => ndiv m (nofZ 10000000)
  | None => Ok (ndec 1 15)
  end.
Definition points_coincide (mean : option T) (p1 p2 : vector T) : res bool :=
  let* eps := coincide_eps mean in
  let* d := Vector_sub p1 p2 in
  Ok (Vector_norm d <? eps).

(** domain.py:183-192 [point_to_vertex]: first index whose point coincides. *)
Fixpoint find_point (mean : option T) (i : nat) (points : list (vector T)) (p : vector T) : res (option vertex) :=
  match points with
  | [] => Ok None
  | q :: rest =>
      let* c := points_coincide mean p q in
      if (c : bool) then Ok (Some i) else find_point mean (S i) rest p
  end.
Definition point_to_vertex (g : grid T) (p : vector T) : res (option vertex) :=
  find_point (g_mean g) 0 (g_points g) p.

(** domain.py:197-198. *)
Definition contains_edge (edges : list edge) (e : edge) : bool :=
  py_in edge_eqb e edges || py_in edge_eqb (flip e) edges.

(** domain.py:200-208. *)
Definition contains_triangle (ts : list triangle) (t : triangle) : bool :=
  let '(i1, i2, i3) := t in
  py_in triangle_eqb (i1, i2, i3) ts || py_in triangle_eqb (i2, i3, i1) ts
  || py_in triangle_eqb (i3, i1, i2) ts.

(** domain.py:214-227 [append_edge] on the pair (edges, mean edge length); the points are read only. *)
Definition append_edge_raw (points : list (vector T)) (st : list edge * option T) (e : edge)
    : res (list edge * option T) :=
  let '(edges, mean) := st in
  if negb (py_in edge_eqb e edges) && negb (py_in edge_eqb (flip e) edges) then
    let num_old := nofZ (Z.of_nat (length edges)) in
    let num_new := nofZ (Z.of_nat (length edges) + 1) in
    let* new_len := edge_length points e in
    let* mean' :=
      match mean with
      | None => Ok new_len
      | Some m =>
          let* a := ndiv (m * num_old) num_new in
          let* b := ndiv new_len num_new in
          Ok (a + b)
      end in
    Ok (edges ++ [e], Some mean')
  else Ok (edges, mean).
Definition append_edge (g : grid T) (e : edge) : res (grid T) :=
  let* '(edges, mean) := append_edge_raw (g_points g) (g_edges g, g_mean g) e in
  Ok (mkGrid (g_vertices g) edges (g_triangles g) (g_boundary g) (g_dirichlet g) (g_neumann g) (g_points g) mean).

(** ** Grid equality *)

(** [sorted(l)] on ints: insertion sort (the result of any sorting algorithm). *)
Fixpoint insert_nat (x : nat) (l : list nat) : list nat :=
  match l with
  | [] => [x]
  | y :: ys => if Nat.leb x y then x :: l else y :: insert_nat x ys
  end.
Definition sorted (l : list nat) : list nat := fold_right insert_nat [] l.
Fixpoint nats_eqb (a b : list nat) : bool :=
  match a, b with
  | [], [] => true
  | x :: a', y :: b' => Nat.eqb x y && nats_eqb a' b'
  | _, _ => false
  end.

(** domain.py:239-244: the dict [other_to_self_vertex]; [None] if a point is missing. *)
Fixpoint vertex_map (self : grid T) (i : nat) (other_points : list (vector T)) : res (option (dict nat nat)) :=
  match other_points with
  | [] => Ok (Some [])
  | p :: rest =>
      let* sv := point_to_vertex self p in
      match sv with
      | None => Ok None
      | Some v =>
          let* m := vertex_map self (S i) rest in
          Ok (match m with None => None | Some d => Some ((i, v) :: d) end)
      end
  end.

Definition map_edge (d : dict nat nat) (e : edge) : res edge :=
  let* a := dget Nat.eqb (fst e) d in let* b := dget Nat.eqb (snd e) d in Ok (a, b).
Definition map_triangle (d : dict nat nat) (t : triangle) : res triangle :=
  let '(i1, i2, i3) := t in
  let* a := dget Nat.eqb i1 d in let* b := dget Nat.eqb i2 d in let* c := dget Nat.eqb i3 d in
  Ok (a, b, c).

(** domain.py:279-298. *)
Definition boundaries_coincide (b other : boundary) (d : dict nat nat) : res bool :=
  let* vs := mapM (fun v => dget Nat.eqb v d) (b_vertices other) in
  if negb (nats_eqb (sorted (b_vertices b)) (sorted vs)) then Ok false
  else if negb (Nat.eqb (length (b_edges b)) (length (b_edges other))) then Ok false
  else
    let* es := mapM (map_edge d) (b_edges other) in
    Ok (negb (existsb (fun e => negb (py_in edge_eqb e (b_edges b))
                                && negb (py_in edge_eqb (flip e) (b_edges b))) es)).

(** domain.py:229-276 [Grid.__eq__] with another Grid.  Simplification: [any(...)] evaluates all mapped
    edges/triangles before testing; this only matters if a mapped vertex is missing (KeyError). *)
Definition Grid_eqb (self other : grid T) : res bool :=
  if negb (nats_eqb (sorted (g_vertices self)) (sorted (g_vertices other))) then Ok false
  else if negb (Nat.eqb (length (g_points self)) (length (g_points other))) then Ok false
  else
    let* m := vertex_map self 0 (g_points other) in
    match m with
    | None => Ok false
    | Some d =>
        if negb (Nat.eqb (length (g_edges self)) (length (g_edges other))) then Ok false
        else
          let* es := mapM (map_edge d) (g_edges other) in
          if existsb (fun e => negb (contains_edge (g_edges self) e)) es then Ok false
          else if negb (Nat.eqb (length (g_triangles self)) (length (g_triangles other))) then Ok false
          else
            let* ts := mapM (map_triangle d) (g_triangles other) in
            if existsb (fun t => negb (contains_triangle (g_triangles self) t)) ts then Ok false
            else
              let* b1 := boundaries_coincide (g_boundary self) (g_boundary other) d in
              if negb b1 then Ok false
              else
                let* b2 := boundaries_coincide (g_dirichlet self) (g_dirichlet other) d in
                if negb b2 then Ok false
                else boundaries_coincide (g_neumann self) (g_neumann other) d
    end.

(** ** RectangleDomain *)

(** domain.py:555-561. *)
Definition rg_points (nh nv : nat) (scale : T) : list (vector T) :=
  map (fun v => [nofZ (Z.of_nat (v mod nh)) * scale; nofZ (Z.of_nat (v / nh)) * scale]) (rg_vertices nh nv).

(** domain.py:429-571 for given counts. *)
Definition rect_grid (so : SetOrder) (nh nv : nat) (f : fixopt) (scale : T) : res (grid T) :=
  Grid_ (rg_vertices nh nv) (rg_edges nh nv) (rg_triangles nh nv)
        (mkBoundary (boundary_vertices so nh nv) (boundary_edges nh nv))
        (rg_dirichlet so nh nv f) (rg_neumann so nh nv f) (rg_points nh nv scale).

(** domain.py:426-427: [int(extent / scale) + 1]. *)
Definition num_vertices_along (extent scale : T) : res Z :=
  let* q := ndiv extent scale in
  let* k := ntrunc q in
  Ok (k + 1)%Z.

(** domain.py:420-571 [RectangleDomain.grid].  A negative extent/scale ratio below -1 gives counts < 1;
    Python then continues with empty ranges (or a negative modulus): not modelled. *)
Definition domain_grid (so : SetOrder) (width height : T) (f : fixopt) (scale : T) : res (grid T) :=
  let* nh := num_vertices_along width scale in
  let* nv := num_vertices_along height scale in
  if ((nh <? 1) || (nv <? 1))%Z then Err OutOfModel
  else rect_grid so (Z.to_nat nh) (Z.to_nat nv) f scale.

(** domain.py:573-614 [curves]; counts are Python ints. *)
Definition curve_point (num den : Z) (extent : T) : res T :=
  ndiv (nofZ num * extent) (nofZ den).
Definition curves (width height : T) (num_points num_horizontal : Z) (num_vertical : option Z)
    : res (list (list (vector T))) :=
  let nvert := match num_vertical with None => num_horizontal | Some n => n end in
  let all_h := (num_horizontal + 2)%Z in
  let all_v := (nvert + 2)%Z in
  let idx n := map Z.of_nat (range (Z.to_nat n)) in
  let* hs := mapM (fun j => mapM (fun i =>
               let* x := curve_point i (num_points - 1) width in
               let* y := curve_point j (all_h - 1) height in Ok [x; y]) (idx num_points)) (idx all_h) in
  let* vs := mapM (fun j => mapM (fun i =>
               let* x := curve_point j (all_v - 1) width in
               let* y := curve_point i (num_points - 1) height in Ok [x; y]) (idx num_points)) (idx all_v) in
  Ok (hs ++ vs).

End Domain.
Arguments tri_points T : clear implicits.
Arguments bary_point T : clear implicits.
