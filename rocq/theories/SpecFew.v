(** Cells that grow point by point, the nearest first up to an error; independent of the
    model. *)
From Verif Require Import Base MTess SpecGeom SpecWhen SpecParam SpecText.
From Coq Require Import Permutation.
Local Open Scope R_scope.

(** the points B, the nearest to p first, and then those of rest, all up to eps *)
Definition about_sorted (eps : R) (p : pt) (B rest : list pt) : Prop :=
  (forall i j a b, (0 <= i <= j)%Z -> znth B i = Some a -> znth B j = Some b -> sqrt (d2 a p) <= sqrt (d2 b p) + eps) /\
  forall a b, In a B -> In b rest -> sqrt (d2 a p) <= sqrt (d2 b p) + eps.
(** no cell is cut more than M times when the points come in such an order *)
Definition few_near (eps : R) (S : list pt) (M : Z) : Prop :=
  forall p B rest C, Permutation S (p :: B ++ rest) -> about_sorted eps p B rest -> cutters p B C -> (zlen C <= M)%Z.

(** parameters that work for n points in single precision, with room for M cuts of a cell;
    all points are candidates, at once or with recompute *)
Definition few_cfg (c : cfg) (n M : Z) : Prop :=
  (float_cfg c n /\ c_k c < n /\ roomy c M /\
   (c_recompute c = true /\ n * n <= int_max /\ n * c_pmax c * 4 <= int_max /\ n * c_tmax c * 3 <= int_max \/ c_recompute c = false /\ n - 1 <= c_k c))%Z.
