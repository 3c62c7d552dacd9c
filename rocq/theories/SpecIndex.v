(** Rows laid out one after another; independent of the model. *)
From Verif Require Import SpecDnn Base.
Local Open Scope Z_scope.
(** where row i starts *)
Definition start (rows : list (list Z)) (i : Z) : Z := total (firstn (Z.to_nat i) rows).
(** n rows, n + 1 offsets *)
Definition starts (rows : list (list Z)) (offs : list Z) : Prop :=
  zlen offs = zlen rows + 1 /\ forall i, 0 <= i <= zlen rows -> znth offs i = Some (start rows i).
(** the rows with entry j of row i replaced *)
Definition replaced (rows rows' : list (list Z)) (i j v : Z) : Prop :=
  zlen rows' = zlen rows /\ forall a r, znth rows a = Some r -> exists r', znth rows' a = Some r' /\ zlen r' = zlen r /\
  forall b x, znth r b = Some x -> znth r' b = Some (if (a =? i) && (b =? j) then v else x).
