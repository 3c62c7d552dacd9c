(** Points in robust position: every corner that occurs while the cell of a point is
    cut out keeps away from the bisector planes of the points not yet used. *)
From Verif Require Import Base SpecGeom SpecNear SpecVor SpecRows.
From Coq Require Import Reals Lra.
Import SpecGeom.
Local Open Scope R_scope.

(** the plane of the points as near to p as to q; [ev] is negative on p's side *)
Definition bisector (p q : pt) : pl :=
  let '(p1, p2, p3) := p in let '(q1, q2, q3) := q in
  (q1 - p1, q2 - p2, q3 - p3, - ((q1 * q1 - p1 * p1) + (q2 * q2 - p2 * p2) + (q3 * q3 - p3 * p3)) / 2).
(** the planes of the unit cube *)
Definition cube_faces : list pl := [(1, 0, 0, 0); (-1, 0, 0, 1); (0, 1, 0, 0); (0, -1, 0, 1); (0, 0, 1, 0); (0, 0, -1, 1)].
(** length of the normal *)
Definition len (h : pl) : R := let '(a, b, c, _) := h in sqrt (a * a + b * b + c * c).

(** a plane that can bound the cell of p cut out by the points in A *)
Definition wall (S : list pt) (A : Z -> Prop) (p : pt) (h : pl) : Prop :=
  In h cube_faces \/ exists j q, A j /\ znth S j = Some q /\ h = bisector p q.
(** x is a corner of that cell: three independent walls meet there *)
Definition corner (S : list pt) (A : Z -> Prop) (p : pt) (h1 h2 h3 : pl) (x : pt) : Prop :=
  (wall S A p h1 /\ wall S A p h2 /\ wall S A p h3) /\ det3 h1 h2 h3 <> 0 /\ (ev h1 x = 0 /\ ev h2 x = 0 /\ ev h3 x = 0) /\
  in_cube x /\ forall j q, A j -> znth S j = Some q -> d2 x p <= d2 x q.
(** A holds nearest points of point i, up to eps *)
Definition nearest_set (eps : R) (S : list pt) (i : Z) (A : Z -> Prop) : Prop :=
  (forall j, A j -> others (zlen S) i j) /\
  forall a b p q q', A a -> others (zlen S) i b -> ~ A b -> znth S i = Some p -> znth S a = Some q -> znth S b = Some q' ->
    sqrt (d2 p q) <= sqrt (d2 p q') + eps.
(** All other points are rho away or more, and every corner of every cell cut out by
    nearest points has, from the bisector plane of any other point, the distance
    2^-16 / (rho D) or more; D is the determinant of the three unit normals. *)
Definition robust (S : list pt) (i : Z) (rho : R) : Prop :=
  0 < rho /\ (forall j p q, others (zlen S) i j -> znth S i = Some p -> znth S j = Some q -> rho <= sqrt (d2 p q)) /\
  forall A j p q h1 h2 h3 x, nearest_set eps20 S i A -> others (zlen S) i j -> ~ A j -> znth S i = Some p -> znth S j = Some q -> corner S A p h1 h2 h3 x ->
    / 65536 * (len h1 * len h2 * len h3) * len (bisector p q) <= Rabs (ev (bisector p q) x) * rho * Rabs (det3 h1 h2 h3).
(** every row entry is a neighbour, every face neighbour is an entry, and the entries
    bound the cell; [exact_row] without the order of the entries *)
Definition exact_cell (S : list pt) (i : Z) (row : list Z) : Prop :=
  NoDup row /\ ~ In i row /\
  (forall j, In j row -> exists p q x, znth S i = Some p /\ znth S j = Some q /\ touches S p q x) /\
  (forall j p q, znth S i = Some p -> znth S j = Some q -> p <> q -> face S i j -> In j row) /\
  bounded_by S i row.
(** points on a line parallel to the first axis, d or more away from each other and from
    the end walls, d at least 2^-7.5 *)
Definition on_line (d : R) (S : list pt) : Prop :=
  / 32768 <= d * d /\ 0 < d /\ exists y z, (forall j q, znth S j = Some q -> exists t, q = (t, y, z) /\ d <= t <= 1 - d) /\
  forall i j t t', i <> j -> znth S i = Some (t, y, z) -> znth S j = Some (t', y, z) -> d <= Rabs (t - t').
