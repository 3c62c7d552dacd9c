(** Which parameter an option of the command line sets. *)
From Verif Require Import MMain.
From Coq Require Import String.
Local Open Scope string_scope.
(** option, parameter, the option's argument *)
Inductive with_number : opt -> string -> string -> Prop :=
| wn_k s : with_number (OK s) "k" s
| wn_grid s : with_number (OGrid s) "knn_grid_resolution" s
| wn_threads s : with_number (OThreads s) "cpu_nthreads" s
| wn_ndsize s : with_number (ONdsize s) "gpu_ndsize" s
| wn_chunk s : with_number (OChunk s) "chunksize" s
| wn_pmax s : with_number (OPmax s) "cc_p_maxsize" s
| wn_tmax s : with_number (OTmax s) "cc_t_maxsize" s.
