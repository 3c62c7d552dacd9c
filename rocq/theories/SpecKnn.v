(** Nearest neighbours: what the k-NN kernel has to return. *)
From Verif Require Import Base Arith Exact MUtils SpecGeom SpecPoints.
From Coq Require Import Reals Lra.

(** [row] lists candidates, nearest first, without repetition, and no candidate
    outside the row is nearer than one inside. *)
Definition nearest (D : Z -> R) (cand : Z -> Prop) (row : list Z) : Prop :=
  NoDup row /\
  (forall p, In p row -> cand p) /\
  (forall i j p q, 0 <= i <= j -> znth row i = Some p -> znth row j = Some q -> (D p <= D q)%R) /\
  (forall p q, In p row -> cand q -> ~ In q row -> (D p <= D q)%R).
Import SpecGeom.

Section Model.
Variable N : Arith.
Variable E : Exact N.
Notation F := (F N).
(** squared distance between points p and index of a list of points *)
Definition sqdist (P : list (point N)) (index p : Z) : R :=
  match znth P p, znth P index with
  | Some a, Some b => d2 (valp N E a) (valp N E b)
  | _, _ => 0%R
  end.
(** a value that stands for "no neighbour": infinity on the host, 128 on the device *)
Definition no_neighbour (dev : bool) (x : F) : Prop :=
  if dev then fin E x /\ val E x = 128%R else x = finf N.
(** both finite and equal, or both "no neighbour" *)
Definition same_value (devx devy : bool) (x y : F) : Prop :=
  (fin E x /\ fin E y /\ val E x = val E y) \/ (no_neighbour devx x /\ no_neighbour devy y).
End Model.
