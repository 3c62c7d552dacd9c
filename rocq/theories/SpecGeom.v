(** Geometry over the real numbers, independent of the model: points, squared
    distances, planes, the unit cube, Voronoi cells and neighbours. *)
From Coq Require Export Reals Lra List.
Export ListNotations.
Local Open Scope R_scope.

Definition pt : Type := (R * R * R)%type.
Definition pl : Type := (R * R * R * R)%type.

Definition d2 (p q : pt) : R :=
  let '(x1, y1, z1) := p in
  let '(x2, y2, z2) := q in
  (x1 - x2) ^ 2 + (y1 - y2) ^ 2 + (z1 - z2) ^ 2.

(** value of the affine form a x + b y + c z + d *)
Definition ev (h : pl) (x : pt) : R :=
  let '(a, b, c, d) := h in
  let '(x1, x2, x3) := x in
  a * x1 + b * x2 + c * x3 + d.

(** determinant of the normals of three planes *)
Definition det3 (h1 h2 h3 : pl) : R :=
  let '(a1, b1, c1, _) := h1 in
  let '(a2, b2, c2, _) := h2 in
  let '(a3, b3, c3, _) := h3 in
  a1 * (b2 * c3 - b3 * c2) - b1 * (a2 * c3 - a3 * c2) + c1 * (a2 * b3 - a3 * b2).

Definition in_cube (x : pt) : Prop :=
  let '(a, b, c) := x in 0 <= a <= 1 /\ 0 <= b <= 1 /\ 0 <= c <= 1.
Definition in_open_cube (x : pt) : Prop :=
  let '(a, b, c) := x in 0 < a < 1 /\ 0 < b < 1 /\ 0 < c < 1.

(** x is in the Voronoi cell of seed p among the points S, clipped to the cube *)
Definition in_cell (S : list pt) (p x : pt) : Prop :=
  in_cube x /\ forall q, In q S -> d2 x p <= d2 x q.

(** index of the grid cell of a point at resolution gr (gr cells per axis) *)
Definition grid_cell (gr : Z) (x : pt) : Z :=
  let '(a, b, c) := x in
  (Int_part (a * IZR gr) + Int_part (b * IZR gr) * gr + Int_part (c * IZR gr) * gr * gr)%Z.
