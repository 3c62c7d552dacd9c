(** What the rows of a result are, for any arithmetic: lists of indices. *)
From Verif Require Import Base Arith MUtils SpecHeap.
From Coq Require Import Sorting.Sorted.

(** at most b different indices below n, none of them i *)
Definition index_row (n i b : Z) (row : list Z) : Prop :=
  NoDup row /\ (forall j, In j row -> 0 <= j < n /\ j <> i) /\ zlen row <= b.

(** the squared distance as it is computed, with its roundings *)
Definition rounded_d2 (N : Arith) (p q : F N * F N * F N) : F N :=
  let '(p0, p1, p2) := p in let '(q0, q1, q2) := q in
  fadd N (fadd N (fmul N (fsub N p0 q0) (fsub N p0 q0)) (fmul N (fsub N p1 q1) (fsub N p1 q1))) (fmul N (fsub N p2 q2) (fsub N p2 q2)).

(** the row goes by computed distance from point i: nobody listed later is nearer *)
Definition by_distance (N : Arith) (P : list (F N * F N * F N)) (i : Z) (row : list Z) : Prop :=
  StronglySorted (fun j j' => forall p q q', znth P i = Some p -> znth P j = Some q -> znth P j' = Some q' ->
    flt N (rounded_d2 N q' p) (rounded_d2 N q p) = false) row.

(** no NaN where distances are compared, and every distance is below infinity *)
Definition ordered_dists (N : Arith) (S : F N -> Prop) (P : list (point N)) : Prop :=
  weak_order N S /\ S (finf N) /\ (forall x, flt N (finf N) x = false) /\
  forall p q, In p P -> In q P -> S (get_distance N p q) /\ flt N (get_distance N p q) (finf N) = true.
