(** The cuts of one cell; independent of the model. *)
From Verif Require Import Base SpecGeom SpecWhen SpecSpread.
From Coq Require Import Permutation.

(** the cell of p is not cut more than M times when the points come in the order of their distance *)
Definition few_at (S : list pt) (p : pt) (M : Z) : Prop :=
  forall B rest C, Permutation S (p :: B ++ rest) -> by_distance p B rest -> cutters p B C -> (zlen C <= M)%Z.
