(** C01 - C06: the grid sort and input validation. *)
From Verif Require Import Base Arith Exact MUtils MXyz SpecGeom SpecSort PExact PXyz PGrid PSortFinal
  PFloat ArithQ Arith32.
From Flocq Require Import IEEE754.BinarySingleNaN.
Open Scope Z_scope.

(** ** C01 *)
Theorem C01_sort_permutes : forall (N : Arith) gr pts pts' ids o,
  xyz_sort N gr pts = Ok (pts', ids, o) -> Permutation pts pts'.
Proof. exact perm_points. Qed.
Print Assumptions C01_sort_permutes.

(** ** C02.  [in_range_ids]: each point's cell id is defined and in [0, gr^3). *)
Theorem C02_ids_sorted_and_matching : forall (N : Arith) gr pts,
  0 <= gr -> gr * gr * gr <= int_max -> in_range_ids N gr pts ->
  exists pts' ids o, xyz_sort N gr pts = Ok (pts', ids, o) /\
    length ids = length pts /\
    StronglySorted Z.le ids /\
    (forall i p, nth_error pts' i = Some p -> exists c, nth_error ids i = Some c /\ has_cell N gr p c) /\
    validate_id ids = true /\ validate_sort N gr pts' ids = true.
Proof. exact sort_sorted_ids. Qed.
Print Assumptions C02_ids_sorted_and_matching.

(** in exact arithmetic the cell id is the geometric one *)
Theorem C02_cell_is_geometric : forall (N : Arith) (E : Exact N) gr p,
  0 < gr -> gr * gr * gr <= int_max -> finp N E p ->
  (let '(x, y, z) := valp N E p in 0 <= x < 1 /\ 0 <= y < 1 /\ 0 <= z < 1)%R ->
  has_cell N gr p (grid_cell gr (valp N E p)) /\ 0 <= grid_cell gr (valp N E p) < gr * gr * gr.
Proof. exact cell_id_exact. Qed.
Print Assumptions C02_cell_is_geometric.

(** ** C03 *)
Theorem C03_offsets_delimit_cells : forall (N : Arith) gr pts pts' ids o,
  0 <= gr -> in_range_ids N gr pts -> xyz_sort N gr pts = Ok (pts', ids, o) ->
  zlen o = gr * gr * gr + 1 /\
  znth o 0 = Some 0 /\ znth o (gr * gr * gr) = Some (zlen pts) /\
  (forall c a b, znth o c = Some a -> znth o (c + 1) = Some b -> a <= b) /\
  (forall c a b p, znth o c = Some a -> znth o (c + 1) = Some b -> 0 <= p < zlen pts ->
     (a <= p < b <-> znth ids p = Some c)).
Proof. exact sort_offsets. Qed.
Print Assumptions C03_offsets_delimit_cells.

(** ** C04.  [cellb gr c p]: p lies in cell c. *)
Theorem C04_sort_stable : forall (N : Arith) gr pts pts' ids o,
  in_range_ids N gr pts -> xyz_sort N gr pts = Ok (pts', ids, o) ->
  forall c, filter (cellb N gr c) pts' = filter (cellb N gr c) pts.
Proof. exact sort_stable. Qed.
Print Assumptions C04_sort_stable.

Theorem C04_sort_idempotent : forall (N : Arith) gr pts pts' ids o,
  in_range_ids N gr pts -> xyz_sort N gr pts = Ok (pts', ids, o) ->
  xyz_sort N gr pts' = Ok (pts', ids, o).
Proof. exact sort_idempotent. Qed.
Print Assumptions C04_sort_idempotent.

(** eleven points, 2^3 cells: cell 0 is empty, others hold up to three points in
    their original order *)
Example C01_C04_case :
  let pts := ex_pts ++ [ex_pt (130, 140, 800)] in
  match xyz_sort arithQ 2 pts with
  | Ok (p, ids, o) =>
      p = map (fun i => nth (Z.to_nat i) pts (ex_pt (0, 0, 0))) [8; 2; 5; 7; 3; 10; 0; 1; 9; 4; 6] /\
      ids = [1; 2; 2; 2; 4; 4; 5; 5; 6; 7; 7] /\
      o = [0; 0; 1; 4; 4; 6; 8; 9; 11]
  | Err _ => False
  end.
Proof. vm_compute. repeat split. Qed.

(** ** C05.  Exact arithmetic: every point strictly inside the cube is fine. *)
Theorem C05_exact : forall (N : Arith) (E : Exact N) gr pts,
  0 < gr -> gr * gr * gr <= int_max ->
  (forall p, In p pts -> inside N E p) -> in_range_ids N gr pts.
Proof. exact in_range_exact. Qed.
Print Assumptions C05_exact.

(** Binary32: fine for every resolution at which 1 - 2^-24 stays inside
    ([safe_res], decidable), in particular the default 16. *)
Theorem C05_float32_partial : forall gr pts,
  0 < gr -> gr * gr * gr <= int_max -> safe_res gr = true ->
  Forall open01p pts -> in_range_ids arith32 gr pts.
Proof. exact in_range32. Qed.
Print Assumptions C05_float32_partial.

Example C05_float32_case : map safe_res [1; 2; 4; 8; 16; 24; 32; 64; 128; 256; 512; 1024; 25] =
  [true; true; true; true; true; true; true; true; true; true; true; true; false].
Proof. vm_compute. reflexivity. Qed.

(** ... and false in general: at resolution 25 a valid point makes sort write
    out of bounds. *)
Theorem C05_refuted : exists gr pts,
  0 < gr /\ gr * gr * gr <= int_max /\ Forall open01p pts /\
  validate_xyzset arith32 pts = true /\ xyz_sort arith32 gr pts = Err EUB.
Proof. exact sort32_ub_witness. Qed.
Print Assumptions C05_refuted.

(** 358 of the 1290 resolutions whose cube fits an int are affected. *)
Example C05_affected_resolutions :
  zlen (filter (fun g => negb (safe_res g)) (zrange 1 1291)) = 358.
Proof. vm_compute. reflexivity. Qed.

(** ** C06 *)
Theorem C06_exact : forall (N : Arith) (E : Exact N) pts, Forall (finp N E) pts ->
  validate_xyzset N pts = true <-> Forall (fun p => in_open_cube (valp N E p)) pts.
Proof. exact validate_exact. Qed.
Print Assumptions C06_exact.

Theorem C06_float32_partial : forall pts, validate_xyzset arith32 pts = true <->
  forall p, In p pts -> let '(x, y, z) := p in
    (x = B754_nan \/ open01 x) /\ (y = B754_nan \/ open01 y) /\ (z = B754_nan \/ open01 z).
Proof. exact validate32. Qed.
Print Assumptions C06_float32_partial.

Example C06_case :
  (validate_xyzset arithQ ex_pts, validate_xyzset arithQ (ex_pts ++ [ex_pt (500, 1000, 500)]),
   validate_xyzset arith32 [(pred_one32, pred_one32, pred_one32)],
   validate_xyzset arith32 [(pred_one32, one32, pred_one32)],
   validate_xyzset arith32 [(pred_one32, B754_infinity true, pred_one32)]) =
  (true, false, true, false, false).
Proof. vm_compute. reflexivity. Qed.

Theorem C06_refuted : validate_xyzset arith32 [(B754_nan, B754_nan, B754_nan)] = true.
Proof. exact validate32_nan. Qed.
Print Assumptions C06_refuted.
