(** C28, C29, C39, C45: recompute; extreme values of k. *)
From Verif Require Import Base Arith PBase Prog MUtils MHeap MXyz MKnn MBoundary MCell MDnn MArgs MTess Exact ArithQ PExact SpecGeom SpecSort SpecSlot SpecVor
  PXyz PSortFinal PGrid PSlotHost PTessRun PTessFinal PGeomFinal PRec PRecFinal PRecGeom PWrap PropsCell PropsTess PropsGeom.
From Coq Require Import QArith Qreals Permutation.
Local Open Scope Z_scope.

(** ** C28.  [goes_on j s s']: j successful rounds after which the loop goes on. *)
Theorem C28_rounds : forall (N : Arith) (g : grid N) j c ind rows st s',
  goes_on N g j (c, ind, rows, st) s' -> 1 <= c_k c -> (0 < j)%nat ->
  c_k c * 2 ^ Z.of_nat j < zlen (g_pts N g) - 1 /\ Z.of_nat j < zlen (g_pts N g).
Proof. exact rounds_final. Qed.
Print Assumptions C28_rounds.

(** The bound on the number of rounds in the model's loop is never the reason
    for "does not terminate". *)
Theorem C28_fuel : forall (N : Arith) (g : grid N) fuel sched c ind rows st,
  1 <= c_k c -> (0 < fuel)%nat -> zlen (g_pts N g) - 1 <= c_k c * 2 ^ Z.of_nat fuel ->
  recompute_loop N fuel sched c g ind rows st = Err EDiverge ->
  exists j c' ind' rows' st' sched', goes_on N g j (c, ind, rows, st) (c', ind', rows', st') /\
    recompute_round N sched' c' g ind' rows' st' = Err EDiverge.
Proof. exact fuel_final. Qed.
Print Assumptions C28_fuel.

(** ** C28, C27 with recompute: the call returns, and what it returns does not
    depend on schedules, thread number or chunking; any arithmetic.
    [rec_ok r c n]: k 2^r >= n - 1, and p_maxsize, t_maxsize doubled r times are
    still supported. *)
Theorem C28_returns : forall (N : Arith) r c P0 P ids offs,
  rec_ok r c (zlen P) -> 0 < c_gr c -> in_range_ids N (c_gr c) P0 -> xyz_sort N (c_gr c) P0 = Ok (P, ids, offs) ->
  exists o, o_pts N o = P /\ zlen (o_rows N o) = zlen P /\ zlen (o_states N o) = zlen P /\
  forall w c', same_kernel c c' -> c_recompute c' = true -> 1 <= c_nthreads c' -> fits c' (zlen P) -> tess_core N w c' cpu P0 = Ok o.
Proof. exact rec_settings. Qed.
Print Assumptions C28_returns.

(** ** C29 (what holds).  After a run with recompute a cell without error flag is
    complete: everything it lists touches it, and every face is listed.  Unlike in
    C22, C23 nothing is asked of the flag security_radius_reached. *)
Theorem C29_rows_complete : forall (N : Arith) (E : Exact N) r (w : world N) c P0, api_rec N E r c P0 ->
  exists o, tess_core N w c cpu P0 = Ok o /\ Permutation P0 (o_pts N o) /\ zlen (o_states N o) = zlen P0 /\
  let S := map (valp N E) (o_pts N o) in
  forall i b, znth (o_states N o) i = Some b -> errorless b ->
    (forall j, lists (o_dnn N o) i j -> exists p q x, znth S i = Some p /\ znth S j = Some q /\ touches S p q x) /\
    (forall j p q, znth S i = Some p -> znth S j = Some q -> p <> q -> face S i j -> lists (o_dnn N o) i j).
Proof. exact rec_final. Qed.
Print Assumptions C29_rows_complete.

(** the row of three points, k = 1: one round with k = 2 completes the middle one *)
Definition ex_rec_cfg : cfg := mkCfg 1 1 9 14 2 1 false 0 true.
Example C29_ex : ex_view (tess_core arithQ (ex_world [] 4 false) ex_rec_cfg cpu ex_row) = Some (ex_row, [1; 0; 2; 1], [0; 1; 3; 4], [0; 0; 0]) /\
  ex_view (tess_core arithQ (ex_world [] 4 false) (mkCfg 1 1 9 14 2 1 false 0 false) cpu ex_row) = Some (ex_row, [1; 0; 1], [0; 1; 2; 3], [0; 0; 0]).
Proof. split; vm_compute; reflexivity. Qed.
Example C29_hypotheses_ex : api_rec arithQ arithQ_exact 1 ex_rec_cfg ex_row /\ errorless 0.
Proof.
  split; [|repeat split]. unfold api_rec. split; [vm_compute; repeat split; discriminate|]. split; [reflexivity|]. split; [discriminate|]. split.
  - intros q Hq. simpl in Hq. repeat (destruct Hq as [<-|Hq]; [inq|]). contradiction.
  - split; [reflexivity|]. split; [discriminate|]. vm_compute. repeat split; discriminate.
Qed.

(** ** C29 as stated is false. *)
(** The round with k >= n - 1 is the last one, overflow or not: four points with
    p_maxsize = 6, t_maxsize = 8 end with t_overflow (bit 5) and unclipped rows;
    larger capacities give a clean result. *)
Definition ex_four : list (point arithQ) := [ptq 3 4 5; ptq 12 5 6; ptq 6 12 4; ptq 7 6 13].
Definition states_of (r : res (outcome arithQ)) : option (list Z) := match r with Ok o => Some (o_states _ o) | Err _ => None end.
Theorem C29_overflow_refuted :
  states_of (tess_core arithQ (ex_world [] 4 false) (mkCfg 3 1 6 8 1 1 false 0 true) cpu ex_four) = Some [0; 32; 32; 32] /\
  ~ errorless 32.
Proof. split; [vm_compute; reflexivity|]. intros (_ & _ & H & _). discriminate. Qed.
Print Assumptions C29_overflow_refuted.

(** One point: the number of candidates becomes n - 1 = 0 and heap_pq[0] of an
    empty vector is read. *)
Theorem C29_one_point_refuted :
  tess_core arithQ (ex_world [] 4 false) (mkCfg 2 1 9 14 1 1 false 0 true) cpu [ptq 3 4 5] = Err EUB /\
  ex_view (tess_core arithQ (ex_world [] 4 false) (mkCfg 2 1 9 14 1 1 false 0 false) cpu [ptq 3 4 5]) = Some ([ptq 3 4 5], [], [0; 0], [0]).
Proof. split; vm_compute; reflexivity. Qed.
Print Assumptions C29_one_point_refuted.

(** ** C45 is false: with k = 0 every non-empty input leads to a read outside an
    empty vector. *)
Theorem C45_refuted : forall (N : Arith) (w : world N) c P0 P ids offs,
  c_k c = 0 -> 0 < c_gr c -> 1 <= c_nthreads c -> 0 <= c_pmax c -> 0 <= c_tmax c -> fits c (zlen P0) -> P0 <> [] ->
  zlen P = zlen P0 -> xyz_sort N (c_gr c) P0 = Ok (P, ids, offs) -> tess_core N w c cpu P0 = Err EUB.
Proof. exact k0_final. Qed.
Print Assumptions C45_refuted.
Example C45_hypotheses_ex : exists P ids offs, xyz_sort arithQ 1 ex_four = Ok (P, ids, offs) /\ zlen P = zlen ex_four /\ fits (mkCfg 0 1 9 14 1 1 false 0 false) (zlen ex_four).
Proof. do 3 eexists. split; [vm_compute; reflexivity|]. split; [reflexivity|]. vm_compute. repeat split; discriminate. Qed.

(** ** C39 is false: the cell code reads k through an unsigned short.  If k is a
    multiple of 65536, it looks at no candidate: after the slot has run, the row is
    what the k-NN search left (its k nearest points, none removed) and no flag is set. *)
Theorem C39_wrap_refuted : forall (N : Arith) c (g : grid N) i index m q,
  c_k c = 65536 * q -> 1 <= q -> 6 <= c_pmax c <= 255 -> 8 <= c_tmax c <= 65535 -> sorted_grid N c g ->
  0 <= index < zlen (g_pts N g) -> room (c_k c) (c_pmax c) (c_tmax c) i (zlen (g_pts N g)) m ->
  (forall d, 0 <= d < c_k c -> exists v, znth (m_hid m) (c_k c * i + d) = Some v /\ 0 <= v < zlen (g_pts N g)) ->
  znth (m_st m) index = Some st_init ->
  exists m1 m2,
    run (knn_compute N (ad_host (c_k c * i)) (znth (g_pts N g)) false (fun x => x) (znth (g_pts N g)) (c_k c) (c_gr c) (c_gr c) (g_ids N g) (g_offs N g) index) m = Ok (tt, m1) /\
    run (slot_prog N c g i index) m = Ok (tt, m2) /\
    m_hid m2 = m_hid m1 /\ znth (m_st m2) index = Some st_init.
Proof. exact wrap_final. Qed.
Print Assumptions C39_wrap_refuted.

(** If k > 65536 is not a multiple, every slot but the first works on candidates
    found for other points, and its own row is left as the search made it. *)
Theorem C39_beyond_refuted : forall (N : Arith) c (g : grid N) i index m q r,
  c_k c = 65536 * q + r -> 0 < r < 65536 -> 1 <= q -> 1 <= i -> 6 <= c_pmax c <= 255 -> 8 <= c_tmax c <= 65535 -> sorted_grid N c g ->
  0 <= index < zlen (g_pts N g) -> room (c_k c) (c_pmax c) (c_tmax c) i (zlen (g_pts N g)) m ->
  (forall d, 0 <= d < c_k c -> exists v, znth (m_hid m) (c_k c * i + d) = Some v /\ 0 <= v < zlen (g_pts N g)) ->
  (forall d, 0 <= d < r -> exists v, znth (m_hid m) (r * i + d) = Some v /\ 0 <= v < zlen (g_pts N g)) ->
  znth (m_st m) index = Some st_init ->
  exists m1 m2,
    run (knn_compute N (ad_host (c_k c * i)) (znth (g_pts N g)) false (fun x => x) (znth (g_pts N g)) (c_k c) (c_gr c) (c_gr c) (g_ids N g) (g_offs N g) index) m = Ok (tt, m1) /\
    run (slot_prog N c g i index) m = Ok (tt, m2) /\
    forall x, r * i + r <= x -> znth (m_hid m2) x = znth (m_hid m1) x.
Proof. exact wrap_more. Qed.
Print Assumptions C39_beyond_refuted.

(** the memory the driver allocates for two points meets the hypotheses *)
Definition ex_big_cfg : cfg := mkCfg 65536 1 9 14 1 1 false 0 false.
Example C39_hypotheses_ex : exists m, buffers arithQ ex_big_cfg 2 [0; 0] = Ok m /\ room 65536 9 14 1 2 m /\ znth (m_st m) 1 = Some st_init /\
  forall d, 0 <= d < 65536 -> exists v, znth (m_hid m) (65536 * 1 + d) = Some v /\ 0 <= v < 2.
Proof.
  eexists. split; [unfold buffers; rewrite (alloc_chk (2 * c_k ex_big_cfg)), (alloc_mul3 2 (c_pmax ex_big_cfg) 4), (alloc_mul3 2 (c_tmax ex_big_cfg) 3), (alloc_chk (2 * c_pmax ex_big_cfg)) by (simpl; unfold int_max; lia); reflexivity|].
  unfold room. cbn [m_hid m_hpq m_dknn m_P m_T m_dR m_st c_k c_pmax c_tmax ex_big_cfg]. rewrite !zlen_repeat, !Z2Nat.id by lia. split; [repeat split; try lia; discriminate|]. split; [reflexivity|].
  intros d Hd. exists 0. rewrite znth_repeat by lia. split; [reflexivity|lia].
Qed.
Definition ex_bigger_cfg : cfg := mkCfg 65537 1 9 14 1 1 false 0 false.
Example C39_beyond_hypotheses_ex : exists m, buffers arithQ ex_bigger_cfg 2 [0; 0] = Ok m /\ room 65537 9 14 1 2 m /\ znth (m_st m) 1 = Some st_init /\
  forall d, 0 <= d < 65537 -> exists v, znth (m_hid m) (65537 * 1 + d) = Some v /\ 0 <= v < 2.
Proof.
  eexists. split; [unfold buffers; rewrite (alloc_chk (2 * c_k ex_bigger_cfg)), (alloc_mul3 2 (c_pmax ex_bigger_cfg) 4), (alloc_mul3 2 (c_tmax ex_bigger_cfg) 3), (alloc_chk (2 * c_pmax ex_bigger_cfg)) by (simpl; unfold int_max; lia); reflexivity|].
  unfold room. cbn [m_hid m_hpq m_dknn m_P m_T m_dR m_st c_k c_pmax c_tmax ex_bigger_cfg]. rewrite !zlen_repeat, !Z2Nat.id by lia. split; [repeat split; try lia; discriminate|]. split; [reflexivity|].
  intros d Hd. exists 0. rewrite znth_repeat by lia. split; [reflexivity|lia].
Qed.
