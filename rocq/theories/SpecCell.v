(** The arrays of one cell. *)
From Verif Require Import Base Arith Prog MUtils MCell SpecBnd.

(** the types of the counters do not matter as long as nothing wraps *)
Definition wc_ok (wc : Z -> Z) (rs : Z) : Prop :=
  (forall x, wc x = x) \/ (forall x, 0 <= x <= 255 -> wc x = x) /\ rs <= 254.
(** the rows of one slot, stored one after another from address 0 *)
Definition lay0 : layout := mkLayout (fun j c => 4 * j + c) (fun d => d) (fun d => d) 0 0.

Section Cell.
Variable N : Arith.
Notation F := (F N).
Definition flat4 (l : list (plane N)) : list F := flat_map (fun '(a, b, c, d) => [a; b; c; d]) l.
Definition cm (pq : list F) (Pl : list (plane N)) (Tr : list tri) (C K D : list Z) (b : Z) : mem F :=
  mkMem K pq (flat4 Pl) (flat Tr) C D [b].
End Cell.
