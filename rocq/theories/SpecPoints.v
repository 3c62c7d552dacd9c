(** Points of the model: their real values, where they lie, their grid cell. *)
From Verif Require Import Base Arith Exact MUtils MXyz SpecGeom.

Section Points.
Variable N : Arith.
Variable E : Exact N.
Notation fin := (fin E).
Notation val := (val E).

(** finite, and the value: points and planes *)
Definition finp (p : point N) : Prop := let '(x, y, z) := p in fin x /\ fin y /\ fin z.
Definition valp (p : point N) : pt := let '(x, y, z) := p in (val x, val y, val z).
Definition finh (h : plane N) : Prop :=
  let '(a, b, c, d) := h in fin a /\ fin b /\ fin c /\ fin d.
Definition valh (h : plane N) : pl := let '(a, b, c, d) := h in (val a, val b, val c, val d).
(** strictly inside the unit cube *)
Definition inside (p : point N) : Prop := finp p /\ in_open_cube (valp p).

(** dot((x,1), plane), as cci::compute evaluates it *)
Definition side (x : point N) (h : plane N) : F N :=
  let '(a, b, c) := x in dot N (a, b, c, fofZ N 1) h.
(** The point returned by planes::intersect *)
Definition ipoint (h1 h2 h3 : plane N) : point N := let '(x, y, z, _) := intersect N h1 h2 h3 in (x, y, z).
Definition iw (h1 h2 h3 : plane N) : F N := let '(_, _, _, w) := intersect N h1 h2 h3 in w.
(** planes up to a non-zero factor *)
Definition scaled (l : R) (h h' : pl) : Prop :=
  let '(a, b, c, d) := h in h' = (l * a, l * b, l * c, l * d)%R.

(** the grid cell a point is assigned to *)
Definition has_cell (gr : Z) (p : point N) (c : Z) : Prop := cell_id N gr (grid_len N gr) p = Ok c.
Definition cellb (gr c : Z) (p : point N) : bool :=
  match cell_id N gr (grid_len N gr) p with Ok c' => c' =? c | Err _ => false end.
(** every point has a cell of the grid *)
Definition in_range_ids (gr : Z) (pts : list (point N)) : Prop :=
  forall p, In p pts -> exists c, cell_id N gr (grid_len N gr) p = Ok c /\ 0 <= c < gr * gr * gr.
End Points.

(** not NaN, as far as exact numbers go *)
Definition fin_or_inf {N} (E : Exact N) (x : F N) : Prop := fin E x \/ x = finf N.
