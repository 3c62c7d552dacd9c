(** C37, C38: the device path. *)
From Verif Require Import Base Arith PBase Prog MUtils MHeap MXyz MKnn MBoundary MCell MDnn MArgs MTess Exact ArithQ PExact SpecGeom SpecSort SpecSlot
  PXyz PSortFinal PGrid PSlotFinal PTessRun PTessFinal PGpu PGpuRun PGpuChunk PropsCell PropsTess PropsGeom PropsRec.
From Coq Require Import QArith Qreals.
Local Open Scope Z_scope.

(** ** C37.  Without chunking and without recompute, for finite points inside the
    cube and sizes inside the device integer widths ([dev_cfg_ok]): the call on the
    device returns the same points, rows and neighbour object as on the CPU, for
    every schedule of work items and threads and every content of uninitialised
    device memory.  A state flag set on the CPU is set on the device; a further flag
    can only come from the uninitialised state array. *)
Theorem C37_device_rows : forall (N : Arith) (E : Exact N) c P0 P ids offs,
  dev_cfg_ok c -> 0 < c_gr c -> c_gr c * c_gr c * c_gr c <= int_max -> (forall q, In q P0 -> inside N E q) ->
  xyz_sort N (c_gr c) P0 = Ok (P, ids, offs) ->
  c_recompute c = false -> 1 <= c_nthreads c -> fits c (zlen P) -> gpu_fits c (zlen P) ->
  chunked (chunk_of c (zlen P)) (zlen P) = false -> zlen P mod (if 0 <? c_ndsize c then c_ndsize c else 1) = 0 ->
  exists o, (forall w, tess_core N w c cpu P0 = Ok o) /\ o_pts N o = P /\
    forall w, w_gpu N w = true -> exists o', tess_core N w c gpu P0 = Ok o' /\
      o_pts N o' = P /\ o_rows N o' = o_rows N o /\ o_dnn N o' = o_dnn N o /\
      zlen (o_states N o') = zlen P /\ zlen (o_states N o) = zlen P /\
      (forall x s s', znth (o_states N o) x = Some s -> znth (o_states N o') x = Some s' ->
         forall f, In f flags -> (st_get s f = true -> st_get s' f = true) /\
           (st_get s' f = true -> st_get s f = true \/ st_get (w8 (jZ N (w_junk N w) x)) f = true)) /\
      ((forall x, jZ N (w_junk N w) x = st_init) -> o' = o).
Proof. exact gpu_final. Qed.
Print Assumptions C37_device_rows.

(** If the device states happen to be zero, the two calls are the same, recompute
    or not. *)
Theorem C37_zero_states : forall (N : Arith) (E : Exact N) c P0 P ids offs w,
  dev_cfg_ok c -> 0 < c_gr c -> c_gr c * c_gr c * c_gr c <= int_max -> (forall q, In q P0 -> inside N E q) ->
  xyz_sort N (c_gr c) P0 = Ok (P, ids, offs) ->
  1 <= c_nthreads c -> fits c (zlen P) -> gpu_fits c (zlen P) ->
  chunked (chunk_of c (zlen P)) (zlen P) = false -> zlen P mod (if 0 <? c_ndsize c then c_ndsize c else 1) = 0 ->
  (forall x, jZ N (w_junk N w) x = st_init) -> tess_core N w c gpu P0 = tess_core N w c cpu P0.
Proof. exact gpu_zero. Qed.
Print Assumptions C37_zero_states.

(** the row of three points on the device, work items interleaved *)
Example C37_ex : ex_view (tess_core arithQ (ex_world [2; 1; 1; 0; 0; 1; 1; 2; 2]%nat 4 true) ex_row_cfg gpu ex_row) = Some (ex_row, [1; 0; 2; 1], [0; 1; 3; 4], [0; 7; 6]) /\
  ex_view (tess_core arithQ (ex_world [] 4 true) ex_row_cfg cpu ex_row) = Some (ex_row, [1; 0; 2; 1], [0; 1; 3; 4], [0; 0; 0]).
Proof. split; vm_compute; reflexivity. Qed.
Example C37_hypotheses_ex : dev_cfg_ok ex_row_cfg /\ (forall q, In q ex_row -> inside arithQ arithQ_exact q) /\
  (exists ids offs, xyz_sort arithQ 1 ex_row = Ok (ex_row, ids, offs)) /\ fits ex_row_cfg 3 /\ gpu_fits ex_row_cfg 3 /\
  chunked (chunk_of ex_row_cfg 3) 3 = false /\ 3 mod (if 0 <? c_ndsize ex_row_cfg then c_ndsize ex_row_cfg else 1) = 0.
Proof.
  split; [vm_compute; repeat split; try discriminate; now left|]. split.
  { intros q Hq. simpl in Hq. repeat (destruct Hq as [<-|Hq]; [inq|]). contradiction. }
  split; [do 2 eexists; vm_compute; reflexivity|]. vm_compute. repeat split; discriminate.
Qed.

(** ** C37 is false for the states: src/votess.ipp:298 does not initialise the
    device copy, so the flags of a run are added to whatever was there. *)
Theorem C37_states_refuted : exists w, w_gpu arithQ w = true /\
  states_of (tess_core arithQ w ex_row_cfg gpu ex_row) <> states_of (tess_core arithQ w ex_row_cfg cpu ex_row) /\
  states_of (tess_core arithQ w ex_row_cfg cpu ex_row) = Some [0; 0; 0].
Proof.
  exists (ex_world [] 4 true). split; [reflexivity|].
  assert (E1 : states_of (tess_core arithQ (ex_world [] 4 true) ex_row_cfg gpu ex_row) = Some [0; 7; 6]) by (vm_compute; reflexivity).
  assert (E2 : states_of (tess_core arithQ (ex_world [] 4 true) ex_row_cfg cpu ex_row) = Some [0; 0; 0]) by (vm_compute; reflexivity).
  rewrite E1, E2. split; [discriminate|reflexivity].
Qed.
Print Assumptions C37_states_refuted.

(** With recompute on, this changes the neighbours: a leftover bit 0 makes the
    recompute loop take an unfinished cell for a finished one.  Point 1 has two
    neighbours and is returned with one. *)
Definition dnn_of (r : res (outcome arithQ)) : option (list Z * list Z) := match r with Ok o => Some (d_list (o_dnn _ o), d_offs (o_dnn _ o)) | Err _ => None end.
Theorem C37_recompute_refuted :
  dnn_of (tess_core arithQ (ex_world [] 4 true) ex_rec_cfg cpu ex_row) = Some ([1; 0; 2; 1], [0; 1; 3; 4]) /\
  dnn_of (tess_core arithQ (ex_world [] 4 true) ex_rec_cfg gpu ex_row) = Some ([1; 0; 1], [0; 1; 2; 3]).
Proof. split; vm_compute; reflexivity. Qed.
Print Assumptions C37_recompute_refuted.

(** ** C38 is false: with chunking the kernels read the coordinates of their own
    point with stride subsize from an array with stride n.  Three points, chunks of
    two: point 0 gets 2 as a neighbour, though point 1 lies between them. *)
Definition ex_slant : list (point arithQ) := [ptq 2 8 8; ptq 8 7 8; ptq 14 6 8].
Theorem C38_refuted :
  dnn_of (tess_core arithQ (ex_world [] 4 true) (mkCfg 2 1 9 14 2 1 false 0 false) gpu ex_slant) = Some ([1; 0; 2; 1], [0; 1; 3; 4]) /\
  dnn_of (tess_core arithQ (ex_world [] 4 true) (mkCfg 2 1 9 14 2 1 true 2 false) cpu ex_slant) = Some ([1; 0; 2; 1], [0; 1; 3; 4]) /\
  dnn_of (tess_core arithQ (ex_world [] 4 true) (mkCfg 2 1 9 14 2 1 true 2 false) gpu ex_slant) = Some ([1; 2; 0; 2; 1], [0; 2; 4; 5]).
Proof. split; [|split]; vm_compute; reflexivity. Qed.
Print Assumptions C38_refuted.

(** What holds with chunking, in any arithmetic: the call returns (no access
    outside an array in any kernel), and the neighbour object is the same for all
    schedules and contents of uninitialised memory. *)
Theorem C38_chunks_partial : forall (N : Arith) c P0 P ids offs,
  dev_cfg_ok c -> 0 < c_gr c -> in_range_ids N (c_gr c) P0 -> xyz_sort N (c_gr c) P0 = Ok (P, ids, offs) ->
  c_k c * zlen P <= int_max -> gpu_chunk_fits c (zlen P) -> groups_ok c (zlen P) -> c_recompute c = false ->
  exists d, forall w, w_gpu N w = true -> exists o, tess_core N w c gpu P0 = Ok o /\ o_pts N o = P /\ o_dnn N o = d /\ zlen (o_rows N o) = zlen P /\ zlen (o_states N o) = zlen P.
Proof. exact gpu_safe_final. Qed.
Print Assumptions C38_chunks_partial.
Example C38_chunks_hypotheses_ex : let c := mkCfg 2 1 9 14 2 1 true 2 false in
  dev_cfg_ok c /\ in_range_ids arithQ 1 ex_slant /\ (exists ids offs, xyz_sort arithQ 1 ex_slant = Ok (ex_slant, ids, offs)) /\ gpu_chunk_fits c 3 /\ groups_ok c 3.
Proof.
  cbv zeta. split; [vm_compute; repeat split; try discriminate; now left|]. split.
  { apply (in_range_exact arithQ arithQ_exact); [reflexivity|discriminate|]. intros q Hq. simpl in Hq. repeat (destruct Hq as [<-|Hq]; [inq|]). contradiction. }
  split; [do 2 eexists; vm_compute; reflexivity|]. split; [vm_compute; repeat split; discriminate|]. intros run Hr. apply Z.mod_1_r.
Qed.

(** what remains true: a chunk size that does not split the points changes nothing *)
Example C38_whole_ex : dnn_of (tess_core arithQ (ex_world [] 4 true) (mkCfg 2 1 9 14 2 1 true 3 false) gpu ex_slant) = Some ([1; 0; 2; 1], [0; 1; 3; 4]).
Proof. vm_compute; reflexivity. Qed.

(** A work-group size that does not divide the number of points makes the launch
    throw: nothing is returned. *)
Theorem C38_group_size_throws : forall (N : Arith) w c P0 P ids offs,
  xyz_sort N (c_gr c) P0 = Ok (P, ids, offs) -> w_gpu N w = true -> 0 <= c_k c -> 0 <= c_pmax c -> 0 <= c_tmax c -> gpu_fits c (zlen P) ->
  chunked (chunk_of c (zlen P)) (zlen P) = false -> 0 < c_ndsize c -> zlen P mod c_ndsize c <> 0 ->
  tess_core N w c gpu P0 = Err EThrow.
Proof. exact gpu_throws. Qed.
Print Assumptions C38_group_size_throws.
Example C38_group_size_ex : tess_core arithQ (ex_world [] 4 true) (mkCfg 2 1 9 14 2 2 false 0 false) gpu ex_row = Err EThrow.
Proof. vm_compute; reflexivity. Qed.
