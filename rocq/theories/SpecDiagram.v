(** What a table of neighbours is good for. *)
From Verif Require Import Base SpecGeom SpecVor SpecRows.
From Coq Require Import Reals Permutation.
Import SpecGeom.
Local Open Scope R_scope.

(** from point to point along a relation, each step nearer to x *)
Inductive walk (rel : pt -> pt -> Prop) (x : pt) : pt -> pt -> Prop :=
| walk_nil p : walk rel x p p
| walk_cons p q r : rel p q -> d2 x q < d2 x p -> walk rel x q r -> walk rel x p r.

(** the listed neighbours decide what is in a cell *)
Definition cells_by_rows (S : list pt) (rows : list (list Z)) : Prop :=
  forall i row p x, znth S i = Some p -> znth rows i = Some row -> in_cube x ->
  (in_cell S p x <-> forall j q, In j row -> znth S j = Some q -> d2 x p <= d2 x q).
(** and none of them can be left out *)
Definition none_spare (S : list pt) (rows : list (list Z)) : Prop :=
  forall i row p j q, znth S i = Some p -> znth rows i = Some row -> In j row -> znth S j = Some q ->
  exists x, in_cube x /\ d2 x q < d2 x p /\ forall l r, In l row -> l <> j -> znth S l = Some r -> d2 x p < d2 x r.
(** every point nearest to p is a neighbour of p *)
Definition nearest_listed (S : list pt) (rows : list (list Z)) : Prop :=
  forall p q, In p S -> In q S -> p <> q -> (forall r, In r S -> r <> p -> d2 p q <= d2 p r) -> neighbour S rows p q.
(** points are connected by neighbours not farther apart than they are *)
Definition connected (S : list pt) (rows : list (list Z)) : Prop :=
  forall p q, In p S -> In q S -> hops (neighbour S rows) (d2 p q) p q.
(** from every point the cell that x is in can be reached by going nearer *)
Definition can_locate (S : list pt) (rows : list (list Z)) : Prop :=
  forall p x, In p S -> in_cube x -> exists q, In q S /\ walk (neighbour S rows) x p q /\ in_cell S q x.
(** without r the other cells stay what they are, but for the neighbours of r *)
Definition local_removal (S : list pt) (rows : list (list Z)) : Prop :=
  forall r S' p, Permutation S (r :: S') -> In p S' -> (~ neighbour S rows p r <-> forall x, in_cell S p x <-> in_cell S' p x).

Definition diagram (S : list pt) (rows : list (list Z)) : Prop :=
  cells_by_rows S rows /\ none_spare S rows /\ nearest_listed S rows /\ connected S rows /\ can_locate S rows /\ local_removal S rows.
