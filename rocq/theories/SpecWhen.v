(** Cells that grow point by point: which points cut, and what touches a cell;
    independent of the model. *)
From Verif Require Import Base SpecGeom SpecVor SpecCap.
Local Open Scope R_scope.

(** the position of point q *)
Definition spot (S : list pt) (q : Z) : pt := match znth S q with Some x => x | None => (0, 0, 0) end.
(** q takes a piece of the cell of p among the points A *)
Definition cuts (p : pt) (A : list pt) (q : pt) : Prop := exists x, in_cell A p x /\ d2 x q < d2 x p.
(** positions in B whose point cuts the cell among those before it *)
Definition cutters (p : pt) (B : list pt) (C : list Z) : Prop :=
  NoDup C /\ forall d, In d C -> exists q, znth B d = Some q /\ cuts p (firstn (Z.to_nat d) B) q.
(** x lies on the plane of wall w *)
Definition at_wall (w : Z) (x : pt) : Prop :=
  let '(a, b, c) := x in
  (w = 0%Z /\ a = 0) \/ (w = 1%Z /\ a = 1) \/ (w = 2%Z /\ b = 0) \/ (w = 3%Z /\ b = 1) \/ (w = 4%Z /\ c = 0) \/ (w = 5%Z /\ c = 1).
(** the cell of i reaches the cells of the points J and the walls W, in a point at least *)
Definition contacts (S : list pt) (i : Z) (J W : list Z) : Prop :=
  NoDup J /\ NoDup W /\ exists p, znth S i = Some p /\
  (forall j, In j J -> exists q x, znth S j = Some q /\ q <> p /\ touches S p q x) /\
  forall w, In w W -> exists x, in_cell S p x /\ at_wall w x.
(** whatever the growing cell of p touches, it shares a facet with: no vertex lies on four
    bisectors or walls, no cell meets only an edge *)
Definition firm (p : pt) (B : list pt) : Prop :=
  forall m J W, (1 <= m <= zlen B)%Z -> contacts (p :: firstn (Z.to_nat m) B) 0 J W -> facets (p :: firstn (Z.to_nat m) B) 0 J W.
(** room for the cell of p at all times while the points of B come one after the other: a
    plane for each wall and each cut, and 2 f - 4 triangles for f facets *)
Definition holds_cell (pmax tmax : Z) (p : pt) (B : list pt) : Prop :=
  (forall C, cutters p B C -> (zlen C + 6 <= pmax)%Z) /\
  forall m J W, (1 <= m <= zlen B)%Z -> facets (p :: firstn (Z.to_nat m) B) 0 J W -> (2 * (zlen J + zlen W) - 4 <= tmax)%Z.
