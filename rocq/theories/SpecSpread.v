(** Points spread over the cube: every place has a point nearby, and no point has too many
    others around it; independent of the model. *)
From Verif Require Import Base Arith Exact MUtils MTess SpecGeom SpecPoints SpecParam SpecWhen.
From Coq Require Import Permutation.
Local Open Scope R_scope.

(** every point of the cube is nearer than r to one of S *)
Definition covered (S : list pt) (r : R) : Prop := 0 < r /\ forall x, in_cube x -> exists s, In s S /\ d2 x s < r * r.
(** each of S has at most M others nearer than 2 r *)
Definition crowd (S : list pt) (r : R) (M : Z) : Prop :=
  forall p L rest, Permutation S (p :: L ++ rest) -> (forall q, In q L -> d2 q p < 4 * (r * r)) -> (zlen L <= M)%Z.
Definition spread (S : list pt) (r : R) (M : Z) : Prop := covered S r /\ crowd S r M.

(** the points B, the nearest to p first, and then those of rest *)
Definition by_distance (p : pt) (B rest : list pt) : Prop :=
  (forall i j a b, (0 <= i <= j)%Z -> znth B i = Some a -> znth B j = Some b -> d2 a p <= d2 b p) /\ forall a b, In a B -> In b rest -> d2 a p <= d2 b p.
(** no cell is cut more than M times when the points come in the order of their distance *)
Definition few_cuts (S : list pt) (M : Z) : Prop :=
  forall p B rest C, Permutation S (p :: B ++ rest) -> by_distance p B rest -> cutters p B C -> (zlen C <= M)%Z.

(** a call with recompute, whatever the number of rounds, if the buffers need not grow *)
Definition api_more (N : Arith) (E : Exact N) (c : cfg) (P0 : list (point N)) : Prop :=
  (cfg_ok c /\ 2 <= zlen P0 /\ zlen P0 * c_k c <= int_max /\ zlen P0 * zlen P0 <= int_max /\ zlen P0 * c_pmax c * 4 <= int_max /\ zlen P0 * c_tmax c * 3 <= int_max /\
   0 < c_gr c /\ c_gr c * c_gr c * c_gr c <= int_max /\ (forall q, In q P0 -> inside N E q) /\ c_recompute c = true /\ 1 <= c_nthreads c /\ fits c (zlen P0))%Z.

(** m points per axis, in the middle of the cells of a grid *)
Definition node (m : Z) (a : Z * (Z * Z)) : pt :=
  let at_ t := IZR (2 * t + 1) / IZR (2 * m) in (at_ (fst a), at_ (fst (snd a)), at_ (snd (snd a))).
Definition lattice (m : Z) : list pt := map (node m) (list_prod (zrange 0 m) (list_prod (zrange 0 m) (zrange 0 m))).
