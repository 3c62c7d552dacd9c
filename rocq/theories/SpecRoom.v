(** Calls that differ in the buffer sizes only. *)
From Verif Require Import Base MTess.
Local Open Scope Z_scope.

(** the same parameters, but for buffers that are not smaller *)
Definition more_room (c c' : cfg) : Prop :=
  c_pmax c <= c_pmax c' /\ c_tmax c <= c_tmax c' /\ c_k c' = c_k c /\ c_gr c' = c_gr c /\ c_nthreads c' = c_nthreads c /\ c_ndsize c' = c_ndsize c /\
  c_use_chunking c' = c_use_chunking c /\ c_chunksize c' = c_chunksize c /\ c_recompute c' = c_recompute c.
