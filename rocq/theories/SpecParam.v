(** Parameters that work: for the kernels, for the arrays of a run, for the theorems
    about whole calls. *)
From Verif Require Import Base Arith Exact MUtils MXyz MTess SpecHeap SpecPoints SpecAny.

(** parameters within the integer types of the kernels *)
Definition cfg_ok (c : cfg) : Prop := 1 <= c_k c <= 65535 /\ 6 <= c_pmax c <= 255 /\ 8 <= c_tmax c <= 65535.
(** the grid is that of a sort *)
Definition sorted_grid (N : Arith) (c : cfg) (g : grid N) : Prop :=
  0 < c_gr c /\ exists P0, in_range_ids N (c_gr c) P0 /\ xyz_sort N (c_gr c) P0 = Ok (g_pts N g, g_ids N g, g_offs N g).
(** the chunk size of a run, and what has to fit into an int *)
Definition chunk_of (c : cfg) (n : Z) : Z := if c_use_chunking c then c_chunksize c else n + 1.
Definition fits (c : cfg) (n : Z) : Prop :=
  let cap := first_subsize (chunk_of c n) n in
  n + 1 <= int_max /\ cap * c_k c <= int_max /\ cap * c_pmax c * 4 <= int_max /\ cap * c_tmax c * 3 <= int_max.
(** equal where it matters for the cells *)
Definition same_kernel (c c' : cfg) : Prop := c_k c' = c_k c /\ c_gr c' = c_gr c /\ c_pmax c' = c_pmax c /\ c_tmax c' = c_tmax c.

(** parameters within the integer types of the device code; the counters of
    boundary::compute are 8 bits wide *)
Definition dev_cfg_ok (c : cfg) : Prop := cfg_ok c /\ c_gr c <= 255 /\ (c_tmax c <= 254 \/ c_pmax c <= 130).
(** what has to fit into an int for a launch over n points *)
Definition gpu_fits (c : cfg) (n : Z) : Prop :=
  n + 1 <= int_max /\ 3 * n <= int_max /\ n * c_k c <= int_max /\ n * c_pmax c * 4 <= int_max /\ n * c_tmax c * 3 <= int_max /\ Z.max 1 (c_ndsize c) * c_pmax c <= int_max.
Definition ndsize (c : cfg) : Z := if 0 <? c_ndsize c then c_ndsize c else 1.
Definition gpu_chunk_fits (c : cfg) (n : Z) : Prop :=
  let cap := first_subsize (chunk_of c n) n in
  n + 1 <= int_max /\ 3 * n <= int_max /\ cap * c_k c <= int_max /\ cap * c_pmax c * 4 <= int_max /\ cap * c_tmax c * 3 <= int_max /\ ndsize c * c_pmax c <= int_max.
Definition groups_ok (c : cfg) (n : Z) : Prop :=
  forall run, 0 <= run < num_runs (chunk_of c n) n -> (cend (chunk_of c n) n run - cstart (chunk_of c n) run) mod ndsize c = 0.

(** calls with recompute.  [r]: how often k may double until it reaches n - 1;
    p_maxsize and t_maxsize double at most as often and must stay in range. *)
Definition rec_ok (r : Z) (c : cfg) (n : Z) : Prop :=
  1 <= r /\ 2 <= n /\ n <= 65536 /\ n - 1 <= c_k c * 2 ^ r /\ 1 <= c_k c <= 65535 /\
  6 <= c_pmax c /\ c_pmax c * 2 ^ r <= 255 /\ 8 <= c_tmax c /\ c_tmax c * 2 ^ r <= 65535 /\
  n * c_k c <= int_max /\ n * n <= int_max /\ n * c_pmax c * 2 ^ r * 4 <= int_max /\ n * c_tmax c * 2 ^ r * 3 <= int_max.

(** p_maxsize and t_maxsize suffice for m candidates *)
Definition roomy (c : cfg) (m : Z) : Prop := 6 + m <= c_pmax c /\ 8 + 2 * m <= c_tmax c.

Section Api.
Variable N : Arith.
Variable E : Exact N.
(** a call without recompute *)
Definition api_ok (c : cfg) (P0 : list (point N)) : Prop :=
  cfg_ok c /\ (0 < c_gr c)%Z /\ (c_gr c * c_gr c * c_gr c <= int_max)%Z /\ (forall q, In q P0 -> inside N E q) /\
  c_recompute c = false /\ (1 <= c_nthreads c)%Z /\ fits c (zlen P0) /\ (c_k c * zlen P0 <= int_max)%Z.
(** a call with recompute that needs at most r rounds *)
Definition api_rec (r : Z) (c : cfg) (P0 : list (point N)) : Prop :=
  rec_ok r c (zlen P0) /\ 0 < c_gr c /\ c_gr c * c_gr c * c_gr c <= int_max /\ (forall q, In q P0 -> inside N E q) /\
  c_recompute c = true /\ 1 <= c_nthreads c /\ fits c (zlen P0).
(** a call with recompute whose buffers suffice for all points as candidates *)
Definition api_full (c : cfg) (P0 : list (point N)) : Prop :=
  2 <= zlen P0 /\ 1 <= c_k c <= 65535 /\ roomy c (zlen P0 - 1) /\ c_pmax c <= 255 /\ c_tmax c <= 65535 /\
  0 < c_gr c /\ c_gr c * c_gr c * c_gr c <= int_max /\ (forall q, In q P0 -> inside N E q) /\
  c_recompute c = true /\ 1 <= c_nthreads c /\ fits c (zlen P0).
(** enough candidates and room, with or without recompute *)
Definition enough (c : cfg) (P0 : list (point N)) : Prop :=
  (api_ok c P0 /\ roomy c (zlen P0 - 1) /\ zlen P0 - 1 <= c_k c) \/ api_full c P0.
End Api.

(** any arithmetic whose comparison orders the distances *)
Section Any.
Variable N : Arith.
Variable S : F N -> Prop.
Definition any_ok (c : cfg) (P0 : list (point N)) : Prop :=
  cfg_ok c /\ 0 < c_gr c /\ c_gr c * c_gr c * c_gr c <= int_max /\ in_range_ids N (c_gr c) P0 /\ ordered_dists N S P0 /\
  1 <= c_nthreads c /\ fits c (zlen P0) /\ c_k c * zlen P0 <= int_max.
End Any.
