(** Oriented triangles, their directed edges, and cycles stored as successor
    arrays; independent of the code. *)
From Verif Require Import Base Prog MBoundary.
From Coq Require Export Permutation.

Notation tri := (Z * Z * Z)%type.
(** the three directed edges of a triangle *)
Definition tri_edges (t : tri) : list (Z * Z) := let '(a, b, c) := t in [(a, b); (b, c); (c, a)].
Definition edges (ts : list tri) : list (Z * Z) := flat_map tri_edges ts.
(** (u,v) belongs to a triangle and its reverse does not: a boundary edge *)
Definition boundary_edge (ts : list tri) (u v : Z) : Prop := In (u, v) (edges ts) /\ ~ In (v, u) (edges ts).

(** three different labels, all below n *)
Definition tri_ok (n : Z) (t : tri) : Prop :=
  let '(a, b, c) := t in
  0 <= a < n /\ 0 <= b < n /\ 0 <= c < n /\ a <> b /\ b <> c /\ c <> a.

(** following C from a through l ends in z *)
Fixpoint chain (C : list Z) (a : Z) (l : list Z) (z : Z) : Prop :=
  match l with
  | [] => znth C a = Some z
  | b :: l => znth C a = Some b /\ chain C b l z
  end.
(** C is the successor array of the simple cycle h -> rest -> h; all other
    entries hold the marker 255 *)
Definition one_cycle (C : list Z) (h : Z) (rest : list Z) : Prop :=
  NoDup (h :: rest) /\ chain C h rest h /\
  (forall e, In e (h :: rest) -> 0 <= e < zlen C) /\
  (forall e, 0 <= e < zlen C -> ~ In e (h :: rest) -> znth C e = Some 255).

(** ** triangles stored flat *)
Definition flat (ts : list tri) : list Z := flat_map (fun '(a, b, c) => [a; b; c]) ts.

(** ** on the shared arrays *)
Section Arrays.
Context {F : Type}.
Notation mem := (mem F).
(** the cycle row holds C, the triangle region holds R *)
Definition cycle_row (dro : Z) (m : mem) (C : list Z) : Prop :=
  forall e v, znth C e = Some v -> mrd m AdR (dro + e) = Some v.
Definition tri_region (ro : Z) (m : mem) (R : list tri) : Prop :=
  forall j a b c, znth R j = Some (a, b, c) ->
    mrd m AT (ro + 3 * j) = Some a /\ mrd m AT (ro + 3 * j + 1) = Some b /\ mrd m AT (ro + 3 * j + 2) = Some c.
End Arrays.
(** the cells boundary::compute may touch *)
Definition bnd_cells (dro pmax ro rsize : Z) : region := fun a i =>
  match a with
  | AdR => (dro <=? i) && (i <? dro + pmax)
  | AT => (ro <=? i) && (i <? ro + 3 * rsize)
  | _ => false
  end.
(** host: no conversion; device: conversion to uint8_t, fewer than 256 triangles *)
Definition counter_ok (wc : Z -> Z) (rsize : Z) : Prop :=
  (forall x, wc x = x) \/ ((forall x, wc x = w8 x) /\ rsize <= 255).
