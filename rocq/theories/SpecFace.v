(** Rows that are the Voronoi diagram, and calls in single precision that give them. *)
From Verif Require Import Base MTess MRead SpecGeom SpecVor SpecParam SpecRobust SpecRead SpecText.
From Coq Require Import Reals.
Import SpecGeom.
Local Open Scope Z_scope.

(** one row for each point of S; row i lists the points whose cells share a face with that of i *)
Definition face_rows (S : list pt) (rows : list (list Z)) : Prop :=
  zlen rows = zlen S /\ forall i row, znth rows i = Some row -> NoDup row /\ forall j, In j row <-> j <> i /\ face S i j.
(** parameters that work for n points in single precision, with room for all of them as
    neighbours, and all of them candidates sooner or later *)
Definition full_cfg (c : cfg) (n : Z) : Prop := float_cfg c n /\ c_k c < n /\ roomy c (n - 1) /\ (c_recompute c = true \/ n - 1 <= c_k c).
Definition all_robust (S : list pt) : Prop := forall i, 0 <= i < zlen S -> exists rho, robust S i rho.
(** the position read from three numbers *)
Definition nearest3 (t : numeral * numeral * numeral) : pt := let '(a, b, c) := t in (nearest (value a), nearest (value b), nearest (value c)).
(** the grid cell of a position as computed in single precision *)
Definition coord32 (gr : Z) (x : R) : Z := Int_part (nearest (x / nearest (1 / IZR gr))).
Definition cell32 (gr : Z) (p : pt) : Z := let '(a, b, c) := p in coord32 gr a + coord32 gr b * gr + coord32 gr c * gr * gr.
