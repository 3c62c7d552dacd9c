(** Model of src/utils.ipp, src/planes.ipp, src/sradius.ipp, src/status.ipp,
    and the vstatus part of src/boundary.ipp. *)
From Verif Require Import Base Arith.

Section Utils.
Variable N : Arith.
Notation F := (F N).
Local Notation "a +. b" := (fadd N a b) (at level 50, left associativity).
Local Notation "a -. b" := (fsub N a b) (at level 50, left associativity).
Local Notation "a *. b" := (fmul N a b) (at level 40, left associativity).
Local Notation "a /. b" := (fdiv N a b) (at level 40, left associativity).
Local Notation "-. a" := (fneg N a) (at level 35, right associativity).

Definition point : Type := (F * F * F)%type.
Definition plane : Type := (F * F * F * F)%type.

(** src/utils.ipp:4-7 square *)
Definition square (x : F) : F := x *. x.
(** src/utils.ipp:9-12 cube *)
Definition cube (x : F) : F := x *. x *. x.
(** A C++ bool used as a factor: promoted to int, then converted. *)
Definition fbool (b : bool) : F := fofZ N (b2z b).
(** src/utils.ipp:14-18 bmax, 2 arguments (floating instance) *)
Definition fbmax (a b : F) : F :=
  let cond := flt N a b in fbool (negb cond) *. a +. fbool cond *. b.
(** src/utils.ipp:20-24 bmin, 2 arguments (floating instance) *)
Definition fbmin (a b : F) : F :=
  let cond := flt N b a in fbool (negb cond) *. a +. fbool cond *. b.
(** src/utils.ipp:26-30 bmax, 3 arguments *)
Definition fbmax3 (a b c : F) : F := fbmax (fbmax a b) c.
(** src/utils.ipp:32-36 bmin, 3 arguments *)
Definition fbmin3 (a b c : F) : F := fbmin (fbmin a b) c.
(** std::min({a,b,c}) used in src/knn.ipp:67: the first smallest element *)
Definition stdmin2 (a b : F) : F := if flt N b a then b else a.
Definition stdmin3 (a b c : F) : F := stdmin2 (stdmin2 a b) c.

(** src/xyzset.ipp:7-14 get_distance *)
Definition get_distance (p q : point) : F :=
  let '(p0, p1, p2) := p in
  let '(q0, q1, q2) := q in
  square (p0 -. q0) +. square (p1 -. q1) +. square (p2 -. q2).

(** src/planes.ipp:1-34 intersect.  The four results are returned. *)
Definition intersect (p1 p2 p3 : plane) : plane :=
  let '(a1, b1, c1, d1) := p1 in
  let '(a2, b2, c2, d2) := p2 in
  let '(a3, b3, c3, d3) := p3 in
  let n12_a := b1 *. c2 -. b2 *. c1 in
  let n12_b := (-. a1) *. c2 +. a2 *. c1 in
  let n12_c := a1 *. b2 -. a2 *. b1 in
  let n23_a := b2 *. c3 -. b3 *. c2 in
  let n23_b := (-. a2) *. c3 +. a3 *. c2 in
  let n23_c := a2 *. b3 -. a3 *. b2 in
  let n31_a := b3 *. c1 -. b1 *. c3 in
  let n31_b := (-. a3) *. c1 +. a1 *. c3 in
  let n31_c := a3 *. b1 -. a1 *. b3 in
  let tp := a1 *. n23_a +. b1 *. n23_b +. c1 *. n23_c in
  let tp := if feq N tp (fofZ N 0) then fofZ N 0 else fofZ N 1 /. tp in
  let e0 := (-. d1) *. n23_a -. d2 *. n31_a -. d3 *. n12_a in
  let e1 := (-. d1) *. n23_b -. d2 *. n31_b -. d3 *. n12_b in
  let e2 := (-. d1) *. n23_c -. d2 *. n31_c -. d3 *. n12_c in
  (e0 *. tp, e1 *. tp, e2 *. tp, fofZ N 1).

(** src/planes.ipp:36-47 dot *)
Definition dot (p q : plane) : F :=
  let '(a1, b1, c1, d1) := p in
  let '(a2, b2, c2, d2) := q in
  a1 *. a2 +. b1 *. b2 +. c1 *. c2 +. d1 *. d2.

(** src/planes.ipp:49-63 bisect *)
Definition bisect (p1 p2 : point) : plane :=
  let '(x1, y1, z1) := p1 in
  let '(x2, y2, z2) := p2 in
  let xs := square x1 -. square x2 in
  let ys := square y1 -. square y2 in
  let zs := square z1 -. square z2 in
  (x1 -. x2, y1 -. y2, z1 -. z2, (-. (xs +. ys +. zs)) /. fofZ N 2).

(** src/sradius.ipp:1-15 update *)
Definition sr_update (p v : point) (radius : F) : F :=
  let '(x1, y1, z1) := p in
  let '(x2, y2, z2) := v in
  let dx := square (x1 -. x2) in
  let dy := square (y1 -. y2) in
  let dz := square (z1 -. z2) in
  let new_radius := dx +. dy +. dz in
  let cond := flt N radius new_radius in
  fbool (negb cond) *. radius +. fbool cond *. new_radius.

(** src/sradius.ipp:17-30 is_reached *)
Definition sr_is_reached (p q : point) (radius : F) : bool :=
  let '(x1, y1, z1) := p in
  let '(x2, y2, z2) := q in
  let dx := square (x1 -. x2) in
  let dy := square (y1 -. y2) in
  let dz := square (z1 -. z2) in
  let r := dx +. dy +. dz in
  flt N (fofZ N 4 *. radius) r.

End Utils.

(** src/utils.ipp:14-24 at T = int (used by the device k-NN, src/knn.ipp:174-180) *)
Definition ibmax (a b : Z) : Z :=
  let cond := b2z (a <? b) in b2z (cond =? 0) * a + cond * b.
Definition ibmin (a b : Z) : Z :=
  let cond := b2z (b <? a) in b2z (cond =? 0) * a + cond * b.

(** include/status.hpp:20-31 enum status *)
Definition security_radius_reached : Z := 0.
Definition error_infinite_boundary : Z := 1.
Definition error_nonvalid_vertices : Z := 2.
Definition error_nonvalid_neighbor : Z := 3.
Definition error_p_overflow : Z := 4.
Definition error_t_overflow : Z := 5.
Definition error_occurred : Z := 6.
(** include/status.hpp:8 *)
Definition k_undefined : Z := -32.

(** src/status.ipp:7-31, on the byte of cc::state *)
Definition st_init : Z := 0.
Definition st_get (byte s : Z) : bool := negb (Z.land byte (Z.shiftl 1 s) =? 0).
Definition st_set_true (byte s : Z) : Z := w8 (Z.lor byte (Z.shiftl 1 s)).
Definition st_set_false (byte s : Z) : Z := w8 (Z.land byte (Z.lnot (Z.shiftl 1 s))).
Definition st_reset : Z := 0.

(** include/boundary.hpp:28-32 enum bstatus; 255 marks an unused cycle cell *)
Inductive bstatus := Bsuccess | Bunreachable.
Definition bundef : Z := 255.

(** src/boundary.ipp:12-22 vstatus::get, set_true *)
Definition vs_get (byte b : Z) : Z := Z.land (Z.shiftr byte b) 1.
Definition vs_set_true (byte b : Z) : Z := w8 (Z.lor byte (Z.shiftl 1 b)).
(** src/boundary.ipp:35-48 vstatus::get_nshared_edges *)
Definition vs_nshared (byte : Z) : Z :=
  match byte with
  | 0 => 0 | 1 => 1 | 2 => 1 | 3 => 2 | 4 => 1 | 5 => 2 | 6 => 2 | 7 => 3
  | _ => 0
  end.
(** src/boundary.ipp:72-85 vstatus::get_shared_position *)
Definition vs_position (byte : Z) : Z :=
  match byte with
  | 0 => 255 | 1 => 0 | 2 => 1 | 3 => 2 | 4 => 2 | 5 => 1 | 6 => 0 | 7 => 255
  | _ => 255
  end.
