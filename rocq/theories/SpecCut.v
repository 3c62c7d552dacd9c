(** A clipped cell: its corners, and when it is the right one. *)
From Verif Require Import Base Arith Exact MUtils SpecGeom SpecBnd SpecVor SpecPoints.
Local Open Scope R_scope.

Section Cell.
Variable N : Arith.
Variable E : Exact N.
Notation valp := (valp N E).
Variables (k : Z) (pts : Z -> option (point N)) (K : list Z) (p : point N).
Notation P := (valp p).
(** [nearest_to m y]: y in the cube, not farther from p than from the first m candidates *)
Definition nearest_to (m : Z) (y : pt) : Prop :=
  in_cube y /\ forall d q qp, (0 <= d < m)%Z -> znth K d = Some q -> pts q = Some qp -> d2 y P <= d2 y (valp qp).
(** x lies on the three planes of t, given by the numbers in Pl *)
Definition vertex_at (Pl : list (plane N)) (t : tri) (x : pt) : Prop :=
  let '(a, b, c) := t in forall l, l = a \/ l = b \/ l = c -> exists h, znth Pl l = Some h /\ ev (valh N E h) x = 0.
(** a closed surface whose corners are the corners of the set of points nearest to p
    among the first m candidates; unless stopped, m = k *)
Definition cell_ok (b' : Z) (Pl : list (plane N)) (T : list tri) (m : Z) : Prop :=
    (0 <= m <= k)%Z /\ (Z.testbit b' 0 = false -> m = k) /\
    (forall u v, In (u, v) (edges T) -> In (v, u) (edges T)) /\ NoDup (edges T) /\
    (forall t, In t T -> exists x, vertex_at Pl t x /\ nearest_to m x) /\
    (forall t x x', In t T -> vertex_at Pl t x -> vertex_at Pl t x' -> x = x') /\
    (forall y f, nearest_to m y -> exists t x, In t T /\ vertex_at Pl t x /\ dot f y <= dot f x).
(** stopped: whatever is farther away than the last candidate cannot cut the cell *)
Definition cell_stop (b' : Z) (m : Z) : Prop :=
    Z.testbit b' 0 = true -> exists q qp, (0 < m)%Z /\ znth K (m - 1) = Some q /\ pts q = Some qp /\
      forall y z, nearest_to m y -> d2 P (valp qp) <= d2 P z -> d2 y P < d2 y z.
End Cell.
