(** Model of src/votess.ipp: the CPU and GPU drivers, recompute, tesellate.
    Ti = int, Tu = uint8_t. *)
From Verif Require Import Base Arith Prog MUtils MHeap MXyz MKnn MBoundary MCell
  MDnn MArgs.
From Coq Require Import String.
Local Open Scope res_scope.

(** The parameters the drivers read (src/votess.ipp:188-199, 383-404, 507-527),
    after conversion.  Simplification: tesellate reads them at several places;
    the model converts them all before the drivers start, so only the point in
    time of an exception for an unreadable value differs. *)
Record cfg := mkCfg {
  c_k : Z; c_gr : Z; c_pmax : Z; c_tmax : Z;
  c_nthreads : Z; c_ndsize : Z;
  c_use_chunking : bool; c_chunksize : Z;
  c_recompute : bool
}.

Definition read_cfg (hwc : Z) (a : vtargs) : res cfg :=
  k <-r get_int a "k" ;;
  gr <-r get_int a "knn_grid_resolution" ;;
  pm <-r get_int a "cc_p_maxsize" ;;
  tm <-r get_int a "cc_t_maxsize" ;;
  nt <-r get_nthreads hwc a ;;
  nd <-r get_int a "gpu_ndsize" ;;
  uc <-r get_bool a "use_chunking" ;;
  cs <-r get_int a "chunksize" ;;
  rc <-r get_bool a "use_recompute" ;;
  Ok (mkCfg k gr pm tm nt nd uc cs rc).

(** Size of a std::vector / sycl::buffer computed in int: overflow is UB, a
    negative size becomes a huge size_t and throws. *)
Definition alloc (n : res Z) : res nat :=
  n <-r n ;; if n <? 0 then Err EThrow else Ok (Z.to_nat n).

Definition mul3 (a b c : Z) : res Z := x <-r chk (a * b) ;; chk (x * c).

(** src/votess.ipp:198-207, 387-396 *)
Definition eff_chunksize (c : cfg) (refsize : Z) : res Z :=
  if c_use_chunking c then Ok (c_chunksize c) else chk (refsize + 1).
Definition chunked (cs refsize : Z) : bool := (0 <? cs) && (cs <? refsize).
Definition num_runs (cs refsize : Z) : Z :=
  if chunked cs refsize then refsize / cs + 1 else 1.
Definition first_subsize (cs refsize : Z) : Z :=
  if chunked cs refsize then cs else refsize.

(** src/votess.ipp:241-243, 426-428.  [run * chunksize] is evaluated in int,
    then converted to size_t; with a single run it is 0. *)
Definition cstart (cs run : Z) : Z := run * cs.
Definition cend (cs refsize run : Z) : Z :=
  if run =? num_runs cs refsize - 1 then refsize else cstart cs run + cs.

(** src/votess.ipp:440-442, 595-596: range of thread i *)
Definition trange (nthreads threadsize subsize i : Z) : Z * Z :=
  let ts := i * threadsize in
  (ts, if i =? nthreads - 1 then subsize else ts + threadsize).

Section Tess.
Variable N : Arith.
Notation F := (F N).
Notation point := (point N).

(** Input of the parallel phase that is only read *)
Record grid := mkGrid { g_pts : list point; g_ids : list Z; g_offs : list Z }.

(** src/votess.ipp:446-462, 600-616: one slot *)
Definition slot_prog (c : cfg) (g : grid) (i index : Z) : prog F unit :=
  bind (knn_compute N (ad_host (c_k c * i)) (znth (g_pts g)) false (fun x => x)
          (znth (g_pts g)) (c_k c) (c_gr c) (c_gr c) (g_ids g) (g_offs g) index)
    (fun _ =>
      let k := w16 (c_k c) in
      let pm := w16 (c_pmax c) in
      let tm := w16 (c_tmax c) in
      cell_compute N (fun x => x) false (lay_host k pm tm i) k pm tm index
        (znth (g_pts g)) (znth (g_pts g))).

(** src/votess.ipp:444-464, 598-618: one thread *)
Definition thread_prog (c : cfg) (g : grid) (indices : list Z) (r : Z * Z) : prog F unit :=
  forM (zrange (fst r) (snd r)) (fun idx =>
    bind (pure_opt (znth indices idx)) (slot_prog c g idx)).

Definition threads (c : cfg) (g : grid) (indices : list Z) (threadsize subsize : Z)
  : list (prog F unit) :=
  map (fun i => thread_prog c g indices (trange (c_nthreads c) threadsize subsize i))
      (zrange 0 (c_nthreads c)).

(** [subsize / nthreads] in size_t *)
Definition thread_size (c : cfg) (subsize : Z) : res Z :=
  if c_nthreads c =? 0 then Err EUB else Ok (subsize / c_nthreads c).

(** src/votess.ipp:408-415: the buffers *)
Definition buffers (c : cfg) (subsize : Z) (states : list Z) : res (mem F) :=
  nk <-r alloc (chk (subsize * c_k c)) ;;
  np <-r alloc (mul3 subsize (c_pmax c) 4) ;;
  nt <-r alloc (mul3 subsize (c_tmax c) 3) ;;
  nr <-r alloc (chk (subsize * c_pmax c)) ;;
  Ok (mkMem (repeat 0 nk) (repeat (finf N) nk) (repeat (fofZ N 0) np)
            (repeat 0 nt) (repeat 0 nr) (repeat k_undefined nk) states).

(** src/votess.ipp:419-422 *)
Definition refill (m : mem F) : mem F :=
  mkMem (repeat 0 (List.length (m_hid m))) (repeat (finf N) (List.length (m_hpq m)))
        (m_P m) (m_T m) (m_dR m) (repeat k_undefined (List.length (m_dknn m))) (m_st m).

(** src/votess.ipp:430-432: overwrite the first subsize entries *)
Definition fill_indices (indices : list Z) (start size : Z) : res (list Z) :=
  rfold (zrange 0 size) (fun l i => rset l i (start + i)) indices.

(** src/votess.ipp:417-471: one run.  [sub] is subsize on entry. *)
Definition cpu_run (sched : Z -> list nat) (c : cfg) (g : grid) (cs refsize : Z)
  (s : mem F * list Z * Z * list (list Z)) (run : Z)
  : res (mem F * list Z * Z * list (list Z)) :=
  let '(m, indices, sub, tmpnn) := s in
  let m := refill m in
  ts <-r thread_size c sub ;;
  let st := cstart cs run in
  let sub := cend cs refsize run - st in
  indices <-r fill_indices indices st sub ;;
  m <-r pool_run (sched run) (threads c g indices ts sub) m ;;
  tmpnn <-r tmpnn_fill (c_k c) indices sub (m_hid m) tmpnn ;;
  Ok (m, indices, sub, tmpnn).

(** src/votess.ipp:364-473 __cpu__tesellate *)
Definition cpu_tesellate (sched : Z -> list nat) (c : cfg) (g : grid)
  (tmpnn : list (list Z)) (states : list Z) : res (list (list Z) * list Z) :=
  let refsize := zlen (g_pts g) in
  cs <-r eff_chunksize c refsize ;;
  let sub := first_subsize cs refsize in
  m <-r buffers c sub states ;;
  r <-r rfold (zrange 0 (num_runs cs refsize)) (cpu_run sched c g cs refsize)
         (m, repeat 0 (Z.to_nat sub), sub, tmpnn) ;;
  let '(m, _, _, tmpnn) := r in
  Ok (tmpnn, m_st m).

(** src/votess.ipp:488-631 __cpu__recompute *)
Definition set_kpt (c : cfg) (k p t : Z) : cfg :=
  mkCfg k (c_gr c) p t (c_nthreads c) (c_ndsize c) (c_use_chunking c)
        (c_chunksize c) (c_recompute c).

Definition not_reached (states : list Z) (i : Z) : bool :=
  match znth states i with
  | Some b => negb (st_get b security_radius_reached)
  | None => false
  end.
Definition has_flag (states : list Z) (s i : Z) : bool :=
  match znth states i with Some b => st_get b s | None => false end.

(** One round, 538-629.  [None] = left the loop at 560; otherwise the flag says
    whether the loop is left at 625.  [indices] are the first subsize entries. *)
Definition recompute_round (sched : list nat) (c : cfg) (g : grid)
  (indices : list Z) (tmpnn : list (list Z)) (states : list Z)
  : res (list Z * list Z * list (list Z) * cfg * bool) :=
  let refsize := zlen (g_pts g) in
  let up := existsb (has_flag states error_p_overflow) indices in
  let ut := existsb (has_flag states error_t_overflow) indices in
  let indices := filter (not_reached states) indices in
  let states := map (fun _ => st_reset) states in
  let sub := zlen indices in
  if sub <=? 0 then Ok (indices, states, tmpnn, c, true)
  else
    k2 <-r chk (c_k c * 2) ;;
    let k := if refsize - 1 <? k2 then refsize - 1 else k2 in
    p <-r chk (c_pmax c * (if up then 2 else 1)) ;;
    t <-r chk (c_tmax c * (if ut then 2 else 1)) ;;
    let c := set_kpt c k p t in
    m <-r buffers c sub states ;;
    ts <-r thread_size c sub ;;
    m <-r pool_run sched (threads c g indices ts sub) m ;;
    tmpnn <-r tmpnn_fill k indices sub (m_hid m) tmpnn ;;
    Ok (indices, m_st m, tmpnn, c, refsize - 1 <=? k).

(** k doubles each round, so refsize + 2 rounds are enough when k >= 1. *)
Fixpoint recompute_loop (fuel : nat) (sched : nat -> list nat) (c : cfg) (g : grid)
  (indices : list Z) (tmpnn : list (list Z)) (states : list Z)
  : res (list (list Z) * list Z) :=
  match fuel with
  | O => Err EDiverge
  | S fuel =>
      r <-r recompute_round (sched fuel) c g indices tmpnn states ;;
      let '(indices, states, tmpnn, c, stop) := r in
      if stop : bool then Ok (tmpnn, states)
      else recompute_loop fuel sched c g indices tmpnn states
  end.

Definition cpu_recompute (sched : nat -> list nat) (c : cfg) (g : grid)
  (tmpnn : list (list Z)) (states : list Z) : res (list (list Z) * list Z) :=
  let refsize := zlen (g_pts g) in
  let indices := filter (not_reached states) (zrange 0 refsize) in
  (* 529-536: the first allocation, replaced in each round *)
  _ <-r buffers c (zlen indices) states ;;
  recompute_loop (List.length (g_pts g) + 2) sched c g indices tmpnn states.

(** ** GPU, src/votess.ipp:172-358 *)

(** 209-214: the flat copy of the points, component-major with stride xyzsize *)
Definition flat_pts (pts : list point) : list F :=
  (map (fun '(x, _, _) => x) pts ++ map (fun '(_, y, _) => y) pts
   ++ map (fun '(_, _, z) => z) pts)%list.

(** xyzset[stride * 0 + p], [stride * 1 + p], [stride * 2 + p] *)
Definition flat_get (flat : list F) (stride p : Z) : option point :=
  match znth flat p, znth flat (stride + p), znth flat (stride * 2 + p) with
  | Some x, Some y, Some z => Some (x, y, z)
  | _, _, _ => None
  end.

(** 308-334: work item i of the nd_range; both kernels get subsize as refsize *)
Definition item_prog (c : cfg) (g : grid) (nd sub : Z) (indices : list Z) (i : Z)
  : prog F unit :=
  let n := zlen (g_pts g) in
  let flat := flat_pts (g_pts g) in
  bind (pure_opt (znth indices i)) (fun index =>
  bind (knn_compute N (ad_strided sub i) (flat_get flat n) true w16
          (flat_get flat sub) (w16 (c_k c)) (w8 (c_gr c)) (c_gr c)
          (g_ids g) (g_offs g) index)
    (fun _ =>
      let k := w16 (c_k c) in
      let pm := w16 (c_pmax c) in
      let tm := w16 (c_tmax c) in
      cell_compute N w8 true
        (lay_strided sub sub pm tm i (i / nd * (nd * c_pmax c)) (i mod nd))
        k pm tm index (flat_get flat n) (flat_get flat sub))).

(** 347-351: back to row-major *)
Definition untranspose (k sub : Z) (knn : list Z) : res (list Z) :=
  rfold (zrange 0 sub) (fun out si =>
    rfold (zrange 0 k) (fun out ki =>
      x <-r rget knn (sub * ki + si) ;; rset out (k * si + ki) x) out)
    (repeat 0 (List.length knn)).

(** Uninitialised device memory: arbitrary contents. *)
Record junk := mkJunk { jF : Z -> F; jZ : Z -> Z }.
Definition junkF (j : junk) (n : nat) : list F := map (jF j) (zrange 0 (Z.of_nat n)).
Definition junkZ (j : junk) (n : nat) : list Z :=
  map (fun i => w8 (jZ j i)) (zrange 0 (Z.of_nat n)).

(** 223-235: buffers; P, T, states are not initialised (no_init, 296-298).
    Local memory (300-301): ndsize * p_maxsize cells per work group. *)
Definition gpu_buffers (j : junk) (c : cfg) (nd sub n : Z) : res (mem F) :=
  nk <-r alloc (chk (sub * c_k c)) ;;
  np <-r alloc (mul3 sub (c_pmax c) 4) ;;
  nt <-r alloc (mul3 sub (c_tmax c) 3) ;;
  nl <-r alloc (chk (nd * c_pmax c)) ;;
  Ok (mkMem (repeat 0 nk) (repeat (fofZ N 128) nk) (junkF j np) (junkZ j nt)
            (junkZ j (nl * Z.to_nat (sub / nd + 1))) (repeat k_undefined nk)
            (junkZ j (Z.to_nat n))).

(** 245-275: fills of one run *)
Definition gpu_refill (m : mem F) : mem F :=
  mkMem (repeat 0 (List.length (m_hid m))) (repeat (fofZ N 128) (List.length (m_hpq m)))
        (m_P m) (m_T m) (m_dR m) (repeat k_undefined (List.length (m_dknn m))) (m_st m).

Definition gpu_run (sched : Z -> list nat) (c : cfg) (g : grid) (nd cs cap refsize : Z)
  (s : mem F * list (list Z)) (run : Z) : res (mem F * list (list Z)) :=
  let '(m, tmpnn) := s in
  let m := gpu_refill m in
  let st := cstart cs run in
  let sub := cend cs refsize run - st in
  let indices := map (fun i => st + i) (zrange 0 cap) in
  (* 307: nd_range requires the local size to divide the global size *)
  _ <-r (if sub mod nd =? 0 then Ok tt else Err EThrow) ;;
  m <-r pool_run (sched run) (map (item_prog c g nd sub indices) (zrange 0 sub)) m ;;
  knn <-r untranspose (c_k c) sub (m_hid m) ;;
  tmpnn <-r tmpnn_fill (c_k c) indices sub knn tmpnn ;;
  Ok (m, tmpnn).

Definition gpu_tesellate (j : junk) (sched : Z -> list nat) (c : cfg) (g : grid)
  (tmpnn : list (list Z)) : res (list (list Z) * list Z) :=
  let refsize := zlen (g_pts g) in
  let nd := if 0 <? c_ndsize c then c_ndsize c else 1 in
  cs <-r eff_chunksize c refsize ;;
  let sub := first_subsize cs refsize in
  _ <-r alloc (chk (3 * refsize)) ;; (* 209: the coordinate array *)
  m <-r gpu_buffers j c nd sub refsize ;;
  r <-r rfold (zrange 0 (num_runs cs refsize)) (gpu_run sched c g nd cs sub refsize)
         (m, tmpnn) ;;
  let '(m, tmpnn) := r in
  Ok (tmpnn, m_st m).

(** ** tesellate, src/votess.ipp:646-756 *)
Inductive device := cpu | gpu.

(** Everything the outside world decides: scheduling of the CPU threads, of the
    work items, of the recompute threads; hardware_concurrency(); whether a GPU
    is present; contents of uninitialised device memory. *)
Record world := mkWorld {
  w_sched : Z -> list nat; w_gsched : Z -> list nat; w_rsched : nat -> list nat;
  w_hwc : Z; w_gpu : bool; w_junk : junk
}.

(** The counters printed at 745-751. *)
Record stats := mkStats {
  s_sradius : Z; s_pover : Z; s_tover : Z; s_infb : Z;
  s_vertices : Z; s_neighbor : Z; s_error : Z
}.

Definition countb {A} (f : A -> bool) (l : list A) : Z := zlen (filter f l).
Definition stats_of (states : list Z) : stats :=
  mkStats (countb (fun b => negb (st_get b security_radius_reached)) states)
          (countb (fun b => st_get b error_p_overflow) states)
          (countb (fun b => st_get b error_t_overflow) states)
          (countb (fun b => st_get b error_infinite_boundary) states)
          (countb (fun b => st_get b error_nonvalid_vertices) states)
          (countb (fun b => st_get b error_nonvalid_neighbor) states)
          (countb (fun b => st_get b error_occurred) states).

(** What a call leaves behind: the caller's (sorted) points, the returned
    object, the cell states, and whether "oops1"/"oops2" was printed. *)
Record outcome := mkOutcome {
  o_pts : list point; o_dnn : dnn; o_rows : list (list Z); o_states : list Z;
  o_stats : stats; o_oops1 : bool; o_oops2 : bool
}.

(** 689-718: the switch on the device *)
Definition run_device (w : world) (c : cfg) (g : grid) (dev : device)
  (tmpnn : list (list Z)) (states : list Z) : res (list (list Z) * list Z) :=
  match dev with
  | cpu => cpu_tesellate (w_sched w) c g tmpnn states
  | gpu => if w_gpu w then gpu_tesellate (w_junk w) (w_gsched w) c g tmpnn
           else cpu_tesellate (w_sched w) c g tmpnn states
  end.

Definition tess_core (w : world) (c : cfg) (dev : device) (pts : list point)
  : res outcome :=
  '(pts, ids, offs) <-r xyz_sort N (c_gr c) pts ;;
  let g := mkGrid pts ids offs in
  let tmpnn := repeat [] (List.length pts) in
  let states := repeat st_init (List.length pts) in
  '(tmpnn, states) <-r run_device w c g dev tmpnn states ;;
  '(tmpnn, states) <-r
     (if c_recompute c then cpu_recompute (w_rsched w) c g tmpnn states
      else Ok (tmpnn, states)) ;;
  d <-r getdnn tmpnn ;;
  Ok (mkOutcome pts d tmpnn states (stats_of states)
        (negb (validate_xyzset N pts)) (negb (validate_id ids))).

Definition tesellate (w : world) (a : vtargs) (dev : device) (pts : list point)
  : res outcome :=
  _ <-r get_bool a "dev_suppress_stdout" ;;
  c <-r read_cfg (w_hwc w) a ;;
  tess_core w c dev pts.

End Tess.
