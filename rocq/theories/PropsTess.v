(** C24 - C27: chunks, thread ranges, schedules, settings. *)
From Verif Require Import Base Arith Prog MUtils MHeap MXyz MKnn MBoundary MCell MDnn MArgs MTess SpecSort SpecSlot PXyz PSortFinal PPool PSlotHost PTess PTessRun PTessFinal
  ArithQ PropsCell.

(** ** C24: every n and every chunksize (zero, negative, divisors, > n).  The
    chunks put one after another are 0, 1, ..., n-1; each fits the buffers
    allocated for [first_subsize] slots. *)
Theorem C24_chunks : forall cs n, 0 <= n ->
  concat (map (fun run => zrange (cstart cs run) (cend cs n run)) (zrange 0 (num_runs cs n))) = zrange 0 n /\
  1 <= num_runs cs n /\
  forall run, 0 <= run < num_runs cs n -> 0 <= cstart cs run <= cend cs n run /\ cend cs n run - cstart cs run <= first_subsize cs n.
Proof. exact chunks_final. Qed.
Print Assumptions C24_chunks.
Example C24_ex : map (fun run => (cstart 4 run, cend 4 10 run)) (zrange 0 (num_runs 4 10)) = [(0, 4); (4, 8); (8, 10)] /\
  map (fun run => (cstart 5 run, cend 5 10 run)) (zrange 0 (num_runs 5 10)) = [(0, 5); (5, 10); (10, 10)] /\
  map (fun run => (cstart (-3) run, cend (-3) 10 run)) (zrange 0 (num_runs (-3) 10)) = [(0, 10)].
Proof. vm_compute. auto. Qed.

(** ** C25: [cap] is subsize before the update (capacity), [sub] the size of this
    chunk.  The ranges put one after another are 0 .. M-1 with sub <= M <= cap:
    disjoint, no gap, inside the buffers.  M > sub can happen in the last, short
    chunk: some threads then also redo slots of the previous chunk. *)
Theorem C25_thread_ranges : forall nt cap sub, 1 <= nt -> 0 <= sub <= cap ->
  let ranges := map (trange nt (cap / nt) sub) (zrange 0 nt) in
  exists M, sub <= M <= cap /\ concat (map (fun r => zrange (fst r) (snd r)) ranges) = zrange 0 M /\ (sub = cap -> M = sub).
Proof. exact thread_ranges_final. Qed.
Print Assumptions C25_thread_ranges.
Example C25_ex : map (trange 3 (10 / 3) 10) (zrange 0 3) = [(0, 3); (3, 6); (6, 10)] /\
  map (trange 4 (2 / 4) 2) (zrange 0 4) = [(0, 0); (0, 0); (0, 0); (0, 2)] /\
  (* last chunk of 2 in buffers for 6: slots 2, 3 are stale *)
  map (trange 3 (6 / 3) 2) (zrange 0 3) = [(0, 2); (2, 4); (4, 2)].
Proof. vm_compute. auto. Qed.

(** ** C26: any arithmetic, any buffer contents (heap rows hold point indices).
    Every interleaving of single accesses succeeds and ends in the memory of the
    sequential run of slots 0 .. M-1. *)
Theorem C26_any_interleaving : forall (N : Arith) c (g : grid N) indices cap sub m,
  cfg_ok c -> sorted_grid N c g -> 1 <= c_nthreads c -> 0 <= sub <= cap ->
  (forall i, 0 <= i < cap -> room (c_k c) (c_pmax c) (c_tmax c) i (zlen (g_pts N g)) m) ->
  (forall x v, znth (m_hid m) x = Some v -> 0 <= v < zlen (g_pts N g)) ->
  (forall x b, znth (m_st m) x = Some b -> 0 <= b < 256) ->
  (forall j, 0 <= j < cap -> exists x, znth indices j = Some x /\ 0 <= x < zlen (g_pts N g)) ->
  (forall i j x, 0 <= i < cap -> 0 <= j < cap -> znth indices i = Some x -> znth indices j = Some x -> i = j) ->
  exists M m', sub <= M <= cap /\
    run (thread_prog N c g indices (0, M)) m = Ok (tt, m') /\
    forall sched, pool_run sched (threads N c g indices (cap / c_nthreads c) sub) m = Ok m'.
Proof. exact threads_any. Qed.
Print Assumptions C26_any_interleaving.

(** No data race: by C19 a slot touches only its own rows; those of different
    slots have no cell in common. *)
Theorem C26_no_race : forall k pm tm i j x y, 0 < k -> 0 < pm -> 0 < tm -> i <> j -> x <> y ->
  forall a z, own_rows k pm tm i x a z = true -> own_rows k pm tm j y a z = true -> False.
Proof. exact rows_disjoint. Qed.
Print Assumptions C26_no_race.

(** The principle itself, for arbitrary programs: tasks that stay in disjoint
    regions, grouped into threads, give the sequential memory on every schedule. *)
Theorem C26_disjoint_tasks : forall (F : Type) (tss : list (list (@task F))) (m : mem F),
  apart (concat tss) -> (forall t, In t (concat tss) -> confined m t) ->
  exists m', (forall sched, pool_run sched (map thread_of tss) m = Ok m') /\ run (forM (concat tss) t_p) m = Ok (tt, m') /\ merged m (concat tss) m'.
Proof. exact @threads_det. Qed.
Print Assumptions C26_disjoint_tasks.

(** four points; three threads over three slots, interleaved; indices in another
    order *)
Definition ex4_pts : list (point arithQ) := firstn 4 ex_pts.
Definition ex4_cfg (nt : Z) (uc : bool) (cs : Z) : cfg := mkCfg 2 1 9 14 nt 1 uc cs false.
Definition ex4_grid : grid arithQ := grid_of (xyz_sort arithQ 1 ex4_pts).
Definition ex_sched : list nat := concat (repeat [2; 0; 1; 1; 0; 2; 7; 0]%nat 4).
Definition ex_pool (sched : list nat) : option (list Z * list Z) :=
  match pool_run sched (threads arithQ (ex4_cfg 3 false 0) ex4_grid [3; 0; 2] 1 3) (ex_mem 3 2 9 14) with
  | Ok m => Some (m_hid m, m_st m)
  | Err _ => None
  end.
Example C26_ex : ex_pool ex_sched = Some ([0; -32; 1; 3; 3; 0], [0; 0; 0; 0; 0; 0; 0; 0; 0; 0]).
Proof. vm_compute. reflexivity. Qed.

(** ** C27: one outcome (points, neighbour lists, states, statistics) for every
    schedule, thread count >= 1 and chunking, as long as the buffer sizes fit an
    int; any arithmetic. *)
Theorem C27_settings : forall (N : Arith) c P0 P ids offs,
  cfg_ok c -> 0 < c_gr c -> in_range_ids N (c_gr c) P0 -> xyz_sort N (c_gr c) P0 = Ok (P, ids, offs) ->
  c_k c * zlen P <= int_max ->
  exists o, o_pts N o = P /\ zlen (o_rows N o) = zlen P /\ zlen (o_states N o) = zlen P /\
  forall w c', same_kernel c c' -> c_recompute c' = false -> 1 <= c_nthreads c' -> fits c' (zlen P) ->
    tess_core N w c' cpu P0 = Ok o.
Proof. exact settings_final. Qed.
Print Assumptions C27_settings.

Definition ex_world (s : list nat) (hwc : Z) (gpu : bool) : world arithQ :=
  mkWorld arithQ (fun _ => s) (fun _ => s) (fun _ => s) hwc gpu (mkJunk arithQ (fun _ => fofZ arithQ 77) (fun i => i * 7)).
Definition ex_rows (s : list nat) (c : cfg) : option (list (list Z) * list Z) :=
  match tess_core arithQ (ex_world s 4 false) c cpu ex4_pts with Ok o => Some (o_rows arithQ o, o_states arithQ o) | Err _ => None end.
(** 3 threads without chunking; 2 threads in chunks of 3, interleaved *)
Example C27_ex :
  ex_rows [] (ex4_cfg 3 false 0) = Some ([[1; 3]; [0]; [3; 0]; [0]], [0; 0; 0; 0]) /\
  ex_rows ex_sched (ex4_cfg 2 true 3) = Some ([[1; 3]; [0]; [3; 0]; [0]], [0; 0; 0; 0]).
Proof. vm_compute. auto. Qed.
Example C27_hypotheses_ex : let c := ex4_cfg 2 true 3 in
  cfg_ok c /\ in_range_ids arithQ 1 ex4_pts /\ fits c 4 /\ xyz_sort arithQ 1 ex4_pts = Ok (g_pts _ ex4_grid, g_ids _ ex4_grid, g_offs _ ex4_grid).
Proof.
  cbv zeta. split; [unfold cfg_ok; simpl; lia|]. split; [|split].
  - intros p Hp. simpl in Hp.
    repeat (destruct Hp as [<-|Hp]; [eexists; split; [vm_compute; reflexivity|simpl; lia]|]). contradiction.
  - vm_compute. repeat split; discriminate.
  - vm_compute. reflexivity.
Qed.
