(** What the rows of a result mean, geometrically and through the returned object. *)
From Verif Require Import Base SpecGeom SpecVor MDnn.
From Coq Require Import Permutation.
Local Open Scope R_scope.

(** reading the object gives these rows *)
Definition shows (d : dnn) (rows : list (list Z)) : Prop :=
  dnn_size d = zlen rows /\
  forall i row, znth rows i = Some row -> row_size d i = Ok (zlen row) /\ forall m x, znth row m = Some x -> row_get d i m = Ok x.

(** entries are pairwise different points at different positions, none at the
    position of i, nearest first *)
Definition distinct_row (S : list pt) (i : Z) (row : list Z) : Prop :=
  NoDup row /\ (forall j, In j row -> exists p q, znth S i = Some p /\ znth S j = Some q /\ p <> q) /\
  (forall j j' q, In j row -> In j' row -> znth S j = Some q -> znth S j' = Some q -> j = j') /\
  (forall a b j j' p q q', (0 <= a <= b)%Z -> znth row a = Some j -> znth row b = Some j' -> znth S i = Some p -> znth S j = Some q -> znth S j' = Some q' -> d2 p q <= d2 p q').

(** being in the cube and not nearer to any of the row than to i is enough to be in
    the cell of i *)
Definition bounded_by (S : list pt) (i : Z) (row : list Z) : Prop :=
  forall p x, znth S i = Some p -> in_cube x -> (forall j q, In j row -> znth S j = Some q -> d2 x p <= d2 x q) -> in_cell S p x.

(** only cells that touch, all that share a face, and so many that they bound the cell *)
Definition exact_row (S : list pt) (i : Z) (row : list Z) : Prop :=
  distinct_row S i row /\
  (forall j, In j row -> exists p q x, znth S i = Some p /\ znth S j = Some q /\ touches S p q x) /\
  (forall j p q, znth S i = Some p -> znth S j = Some q -> p <> q -> face S i j -> In j row) /\
  bounded_by S i row.

(** no two points at one position, and cells that touch share a face *)
Definition common_face (S : list pt) (p q : pt) : Prop :=
  exists x, in_open_cube x /\ d2 x p = d2 x q /\ forall r, In r S -> r <> p -> r <> q -> d2 x p < d2 x r.
Definition generic (S : list pt) : Prop :=
  NoDup S /\ forall p q x, In p S -> In q S -> p <> q -> touches S p q x -> common_face S p q.
(** the same for the cell of p alone *)
Definition generic_at (S : list pt) (p : pt) : Prop :=
  NoDup S /\ forall q x, In q S -> p <> q -> touches S p q x -> common_face S p q.

(** q is listed as a neighbour of p, whatever their numbers are *)
Definition neighbour (S : list pt) (rows : list (list Z)) (p q : pt) : Prop :=
  exists i j row, znth S i = Some p /\ znth S j = Some q /\ znth rows i = Some row /\ In j row.

(** no other point in the closed ball with diameter pq *)
Definition lonely (S : list pt) (p q : pt) : Prop :=
  forall r, In r S -> r <> p -> r <> q -> d2 p q < d2 r p + d2 r q.

(** from p to q along a relation, no step longer than L (squared) *)
Inductive hops (rel : pt -> pt -> Prop) (L : R) : pt -> pt -> Prop :=
| hops_nil p : hops rel L p p
| hops_cons p q r : rel p q -> d2 p q <= L -> hops rel L q r -> hops rel L p r.

(** a symmetry of the unit cube and its inverse *)
Definition cube_symmetry (g g' : pt -> pt) : Prop :=
  (forall x, g (g' x) = x) /\ (forall x, g' (g x) = x) /\ (forall x y, d2 (g x) (g y) = d2 x y) /\
  (forall x, in_cube (g x) <-> in_cube x) /\ (forall x, in_open_cube (g x) <-> in_open_cube x).
