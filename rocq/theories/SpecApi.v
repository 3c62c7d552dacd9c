(** What a sequence of assignments to a vtargs object means, and counting cells;
    independent of how parameters are stored. *)
From Verif Require Import Base MArgs MTess SpecArgs.
From Coq Require Import String.
Local Open Scope string_scope.
Local Open Scope Z_scope.

Definition int_keys : list string := ["k"; "cpu_nthreads"; "gpu_ndsize"; "chunksize"; "knn_grid_resolution"; "cc_p_maxsize"; "cc_t_maxsize"].
Definition bool_keys : list string := ["use_chunking"; "use_recompute"; "dev_suppress_stdout"].
(** ints for numbers, bools for switches *)
Definition well_typed (ops : list (string * argval)) : Prop :=
  Forall (fun o => (In (fst o) int_keys /\ exists z, snd o = VInt z /\ int_min <= z <= int_max) \/ (In (fst o) bool_keys /\ exists b, snd o = VBool b)) ops.

Definition int_of (key : string) (d : Z) (ops : list (string * argval)) : Z := match last_value key ops with Some (VInt z) => z | _ => d end.
Definition bool_of (key : string) (d : bool) (ops : list (string * argval)) : bool := match last_value key ops with Some (VBool b) => b | _ => d end.

(** the parameters of the run: the last value assigned, else the default of
    include/arguments.hpp; 0 threads stands for the hardware's number *)
Definition api_cfg (hwc : Z) (ops : list (string * argval)) : cfg :=
  mkCfg (int_of "k" 64 ops) (int_of "knn_grid_resolution" 16 ops) (int_of "cc_p_maxsize" 32 ops) (int_of "cc_t_maxsize" 32 ops)
    (let t := int_of "cpu_nthreads" 0 ops in if t =? 0 then hwc else t mod 4294967296) (int_of "gpu_ndsize" 1 ops)
    (bool_of "use_chunking" false ops) (int_of "chunksize" 8196 ops) (bool_of "use_recompute" false ops).

(** c is the number of cells whose state byte has property P *)
Definition counts (states : list Z) (P : Z -> Prop) (c : Z) : Prop :=
  exists cells, NoDup cells /\ zlen cells = c /\ forall i, In i cells <-> exists b, znth states i = Some b /\ P b.
