(** Calls whose rows are the diagram, on the CPU or the device, exact or in single precision. *)
From Verif Require Import Base Arith MUtils MXyz MTess Arith32 SpecNear SpecDev SpecSpread SpecParam SpecSingle SpecRobust SpecText SpecFace SpecFew SpecUpdate.
From Coq Require Import Reals.
Local Open Scope Z_scope.

(** for the device without recompute: the points are spread so that k candidates suffice *)
Definition device_single (w : world arith32) (c : cfg) (P0 : list (point arith32)) : Prop := exists r M M',
  float_cfg c (zlen P0) /\ c_k c < zlen P0 /\ c_recompute c = false /\ Forall open01p P0 /\ all_robust (map real_pt P0) /\
  covered (map real_pt P0) r /\ crowd (map real_pt P0) (r + eps20 / 2) M' /\ M' <= c_k c /\ few_near eps20 (map real_pt P0) M /\ roomy c M /\ dev_ok c (zlen P0) /\ w_gpu arith32 w = true.
Definition run_ok (d : device) (w : world arith32) (c : cfg) (P0 : list (point arith32)) : Prop :=
  match d with cpu => exists M, single_ok c P0 M | gpu => device_single w c P0 end.
