(** Voronoi neighbourhood inside the unit cube, and which result cells count as
    complete; independent of the model. *)
From Verif Require Import Base SpecGeom.
Local Open Scope R_scope.

(** x lies in the cells of both p and q *)
Definition touches (S : list pt) (p q x : pt) : Prop :=
  in_cube x /\ d2 x p = d2 x q /\ forall r, In r S -> d2 x p <= d2 x r.

(** the cells of points i and j share more than a boundary: some x inside the
    cube is equidistant to both and strictly nearer to them than to all others *)
Definition face (S : list pt) (i j : Z) : Prop :=
  exists p q x, znth S i = Some p /\ znth S j = Some q /\ in_open_cube x /\ d2 x p = d2 x q /\
    forall l r, znth S l = Some r -> l <> i -> l <> j -> d2 x p < d2 x r.

(** a state byte: bit 0 security radius reached, bits 1, 4, 5, 6 errors *)
Definition errorless (b : Z) : Prop :=
  Z.testbit b 1 = false /\ Z.testbit b 4 = false /\ Z.testbit b 5 = false /\ Z.testbit b 6 = false.
(** k candidates of n points were enough *)
Definition validated (k n b : Z) : Prop := errorless b /\ (Z.testbit b 0 = true \/ (n - 1 <= k)%Z).

Definition dot (u v : pt) : R := let '(a, b, c) := u in let '(x, y, z) := v in a * x + b * y + c * z.
