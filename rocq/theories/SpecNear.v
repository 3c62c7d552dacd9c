(** Nearest neighbours up to an error in the distance. *)
From Verif Require Import Base Arith Arith32 MUtils SpecGeom SpecSingle.
From Coq Require Import Reals Lra Sorting.Sorted.
Import SpecGeom.

(** [row] lists candidates without repetition; nobody listed later, and no candidate
    outside the list, is nearer by more than eps *)
Definition nearest_within (eps : R) (D : Z -> R) (cand : Z -> Prop) (row : list Z) : Prop :=
  NoDup row /\
  (forall p, In p row -> cand p) /\
  (forall i j p q, 0 <= i <= j -> znth row i = Some p -> znth row j = Some q -> (D p <= D q + eps)%R) /\
  (forall p q, In p row -> cand q -> ~ In q row -> (D p <= D q + eps)%R).
(** the distance of points i and j, as real numbers *)
Definition real_dist (P : list (point arith32)) (i j : Z) : R :=
  match znth P j, znth P i with Some q, Some p => sqrt (d2 (real_pt q) (real_pt p)) | _, _ => 0%R end.
(** the indices below n other than i *)
Definition others (n i j : Z) : Prop := 0 <= j < n /\ j <> i.
(** 2^-20 *)
Definition eps20 : R := / 1048576.
(** nothing of the row is out of order by more than eps *)
Definition ordered_within (eps : R) (D : Z -> R) (row : list Z) : Prop := StronglySorted (fun j j' => (D j <= D j' + eps)%R) row.
(** distances are equal or more than eps apart *)
Definition separated (eps : R) (D : Z -> R) (cand : Z -> Prop) : Prop := forall p q, cand p -> cand q -> D p = D q \/ (eps < Rabs (D p - D q))%R.
(** coordinates are multiples of 1/512 *)
Definition lattice9 (p : point arith32) : Prop := exists a b c : Z, real_pt p = (IZR a / 512, IZR b / 512, IZR c / 512)%R.
