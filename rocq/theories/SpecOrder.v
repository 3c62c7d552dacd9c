(** Rows in the order of the distances. *)
From Verif Require Import Base SpecGeom SpecVor SpecNear SpecRows SpecFace SpecCert.
From Coq Require Import Reals Sorting.Sorted.
Import SpecGeom.
Local Open Scope Z_scope.

(** squared distance of the points with numbers i and j *)
Definition apart2 (S : list pt) (i j : Z) : R := match znth S i, znth S j with Some p, Some q => d2 p q | _, _ => 0%R end.
(** the true Voronoi diagram, each row from the nearest to the farthest neighbour; there
    is only one such list of rows *)
Definition ordered_face_rows (S : list pt) (rows : list (list Z)) : Prop :=
  face_rows S rows /\ forall i row, znth rows i = Some row -> StronglySorted (fun j j' => (apart2 S i j < apart2 S i j')%R) row.
(** the distances from one point to the others are more than 2^-20 apart *)
Definition spread (S : list pt) : Prop :=
  forall i j j', others (zlen S) i j -> others (zlen S) i j' -> 0 <= i < zlen S -> j <> j' -> (eps20 < Rabs (sqrt (apart2 S i j) - sqrt (apart2 S i j')))%R.
(** a test for it in integers, for points a / U in the cube *)
Definition in_box (U : Z) (p : zpt) : bool := let '(a, b, c) := p in (0 <=? a) && (a <=? U) && (0 <=? b) && (b <=? U) && (0 <=? c) && (c <=? U).
Definition spreadb (U : Z) (S : list zpt) : bool :=
  let is := zrange 0 (zlen S) in
  all (in_box U) S &&
  all (fun i => match znth S i with None => true | Some p =>
    all (fun j => match znth S j with None => true | Some q =>
      all (fun j' => (j =? j') || (j =? i) || (j' =? i) || match znth S j' with None => true | Some q' => 4 * U * U <? Z.abs (zd2 p q - zd2 p q') * 1048576 end) is end) is end) is.
