(** A test in integers for robust position: points with the coordinates a / U. *)
From Verif Require Import Base SpecGeom.
From Coq Require Import Reals.
Import SpecGeom.
Local Open Scope Z_scope.

Definition zpt : Type := (Z * Z * Z)%type.
Definition zpl : Type := (Z * Z * Z * Z)%type.
Definition upt (U : Z) (p : zpt) : pt := let '(a, b, c) := p in (IZR a / IZR U, IZR b / IZR U, IZR c / IZR U)%R.

Definition zd2 (p q : zpt) : Z := let '(a, b, c) := p in let '(a', b', c') := q in (a - a') * (a - a') + (b - b') * (b - b') + (c - c') * (c - c').
(** (a, b, c, d) stands for the plane 2 U (a x + b y + c z) + d = 0 *)
Definition zbis (p q : zpt) : zpl :=
  let '(a, b, c) := p in let '(a', b', c') := q in (a' - a, b' - b, c' - c, (a * a + b * b + c * c) - (a' * a' + b' * b' + c' * c')).
Definition zcube (U : Z) : list zpl := [(1, 0, 0, 0); (-1, 0, 0, 2 * U); (0, 1, 0, 0); (0, -1, 0, 2 * U); (0, 0, 1, 0); (0, 0, -1, 2 * U)].
Definition zlen2 (h : zpl) : Z := let '(a, b, c, _) := h in a * a + b * b + c * c.
(** the corner of three planes in homogeneous coordinates (x, y, z, det): the minors of
    two planes, then the third; and a fourth plane there *)
Definition zminors (h1 h2 : zpl) : Z * Z * Z * Z * Z * Z :=
  let '(a1, b1, c1, d1) := h1 in let '(a2, b2, c2, d2) := h2 in
  (b1 * c2 - b2 * c1, a1 * c2 - a2 * c1, a1 * b2 - a2 * b1, d1 * c2 - d2 * c1, d1 * b2 - d2 * b1, a1 * d2 - a2 * d1).
Definition zthird (m : Z * Z * Z * Z * Z * Z) (h3 : zpl) : zpl :=
  let '(bc, ac, ab, dc, db, ad) := m in let '(a3, b3, c3, d3) := h3 in
  (- (d3 * bc - b3 * dc + c3 * db), - (a3 * dc - d3 * ac + c3 * ad), a3 * db + b3 * ad - d3 * ab, a3 * bc - b3 * ac + c3 * ab).
Definition zcorner (h1 h2 h3 : zpl) : zpl := zthird (zminors h1 h2) h3.
Definition zdet3 (h1 h2 h3 : zpl) : Z := snd (zcorner h1 h2 h3).
Definition zev (h x : zpl) : Z := let '(a, b, c, d) := h in let '(x, y, z, t) := x in a * x + b * y + c * z + d * t.

(** a wall: the point it comes from (-1: the cube), its squared distance, the plane *)
Definition zwall : Type := (Z * Z * zpl)%type.
Definition zwalls (S : list zpt) (i : Z) (p : zpt) : list zwall :=
  flat_map (fun l => match znth S l with Some q => if l =? i then [] else [(l, zd2 p q, zbis p q)] | None => [] end) (zrange 0 (zlen S)).
Definition zcube_walls (U : Z) : list zwall := map (fun h => (-1, 0, h)) (zcube U).
(** squared distance a is larger than b, in distance by more than 2^-20; [u2] is U^2 *)
Definition zfar (u2 a b : Z) : bool := if u2 <? (a - b) * 262144 then a <=? 4 * u2 else false.

(** [existsb], [forallb] and their likes for pairs and triples that stop when the result is clear *)
Fixpoint some {A} (f : A -> bool) (l : list A) : bool := match l with [] => false | a :: l => if f a then true else some f l end.
Fixpoint all {A} (f : A -> bool) (l : list A) : bool := match l with [] => true | a :: l => if f a then all f l else false end.
Fixpoint all2 {A} (f : A -> A -> bool) (l : list A) : bool := match l with [] => true | a :: l => if all (f a) l then all2 f l else false end.
Fixpoint all3 {A} (f : A -> A -> A -> bool) (l : list A) : bool := match l with [] => true | a :: l => if all2 (f a) l then all3 f l else false end.

(** The corner of three walls is no corner of a cell of nearest points, or it keeps away
    from the planes of all points that may come later. *)
Definition cert3 (u2 : Z) (cube : list zpl) (m : Z) (oth : list zwall) (w1 w2 : zwall) : zwall -> bool :=
  let '(l1, d1, h1) := w1 in let '(l2, d2, h2) := w2 in
  let mm := zminors h1 h2 in let d12 := Z.max d1 d2 in let k12 := zlen2 h1 * zlen2 h2 * (u2 * u2) in
  fun w3 => let '(l3, d3, h3) := w3 in
  let x := zthird mm h3 in
  let t := Z.sgn (snd x) in
  if t =? 0 then true else
  if some (fun f => zev f x * t <? 0) cube then true else
  let dm := Z.max d12 d3 in
  if some (fun w => let '(_, d, h) := w in if zfar u2 dm d then 0 <? zev h x * t else false) oth then true else
  let k := k12 * zlen2 h3 in
  all (fun w => let '(l, d, h) := w in if (l =? l1) || (l =? l2) || (l =? l3) || zfar u2 dm d then true else
    let e := zev h x in k * zlen2 h <=? 1073741824 * (e * e) * m) oth.
Definition certb (U : Z) (S : list zpt) (i : Z) : bool :=
  match znth S i with
  | Some p => let oth := zwalls S i p in
      let u2 := U * U in
      let m := fold_right (fun w a => Z.min (snd (fst w)) a) u2 oth in
      if 0 <? m then all3 (cert3 u2 (zcube U) m oth) (zcube_walls U ++ oth) else false
  | None => false
  end.
Definition certs (U : Z) (S : list zpt) : bool := all (certb U S) (zrange 0 (zlen S)).
