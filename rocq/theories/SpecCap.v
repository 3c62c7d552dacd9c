(** Facets of a cell: faces shared with other cells ([face]) and parts of the walls of the
    cube; independent of the model. *)
From Verif Require Import Base SpecGeom SpecVor.
Local Open Scope R_scope.

(** x lies inside wall number w of the unit cube *)
Definition on_wall (w : Z) (x : pt) : Prop :=
  let '(a, b, c) := x in let mid t := 0 < t < 1 in
  (w = 0%Z /\ a = 0 /\ mid b /\ mid c) \/ (w = 1%Z /\ a = 1 /\ mid b /\ mid c) \/
  (w = 2%Z /\ b = 0 /\ mid a /\ mid c) \/ (w = 3%Z /\ b = 1 /\ mid a /\ mid c) \/
  (w = 4%Z /\ c = 0 /\ mid a /\ mid b) \/ (w = 5%Z /\ c = 1 /\ mid a /\ mid b).
(** the cell of point i has a facet on wall w *)
Definition wall_facet (S : list pt) (i w : Z) : Prop :=
  exists p x, znth S i = Some p /\ on_wall w x /\ forall l r, znth S l = Some r -> l <> i -> d2 x p < d2 x r.
(** the cell of i has facets with the points J and on the walls W *)
Definition facets (S : list pt) (i : Z) (J W : list Z) : Prop :=
  NoDup J /\ NoDup W /\ (forall j, In j J -> face S i j /\ exists p q, znth S i = Some p /\ znth S j = Some q /\ p <> q) /\ forall w, In w W -> wall_facet S i w.
