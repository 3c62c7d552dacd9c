(** Calls in single precision whose rows are the diagram. *)
From Verif Require Import Base Arith MUtils MXyz MTess Arith32 SpecNear SpecParam SpecSingle SpecRobust SpecFace SpecFew.
Local Open Scope Z_scope.

(** positions strictly inside the cube and in robust position, buffers for M cuts, and no
    cell cut more often *)
Definition single_ok (c : cfg) (P0 : list (point arith32)) (M : Z) : Prop :=
  few_cfg c (zlen P0) M /\ Forall open01p P0 /\ all_robust (map real_pt P0) /\ few_near eps20 (map real_pt P0) M.
