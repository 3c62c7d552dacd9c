(** C54 - C57: votess::tesellate as called by a user: parameters, defaults, the
    printed summary. *)
From Verif Require Import Base Arith PBase Prog MUtils MHeap MXyz MKnn MBoundary MCell MDnn MArgs MTess Exact ArithQ PExact SpecGeom SpecSort SpecSlot SpecVor SpecRows SpecApi
  PXyz PSortFinal PGrid PArgs PSlotHost PTessRun PTessFinal PGeomFinal PRecGeom PNoFailApi PExactApi PCanon PApi PropsCell PropsTess PropsGeom PropsRec PropsFull PropsCanon.
From Coq Require Import String QArith Qreals Permutation.
Local Open Scope string_scope.
Local Open Scope Z_scope.

(** ** C54.  Each parameter reaches the place it is named after: after any sequence
    of assignments the run uses the last value of each key, else its default
    ([api_cfg], SpecApi), on the device asked for; any arithmetic. *)
Theorem C54_parameters : forall ops, well_typed ops -> exists a, run_assign args_init ops = Ok a /\
  forall (N : Arith) (w : world N) dev pts, tesellate N w a dev pts = tess_core N w (api_cfg (w_hwc N w) ops) dev pts.
Proof. exact api_reads. Qed.
Print Assumptions C54_parameters.

Definition ex_ops : list (string * argval) :=
  [("k", VInt 5); ("use_recompute", VBool true); ("chunksize", VInt (-3)); ("cc_t_maxsize", VInt 40); ("k", VInt 9); ("cc_p_maxsize", VInt 20);
   ("gpu_ndsize", VInt 16); ("use_chunking", VBool true); ("cpu_nthreads", VInt 3); ("knn_grid_resolution", VInt 2); ("use_recompute", VBool false)].
Example C54_ex : well_typed ex_ops /\ api_cfg 8 ex_ops = mkCfg 9 2 20 40 3 16 true (-3) false /\ api_cfg 8 [] = mkCfg 64 16 32 32 8 1 false 8196 false.
Proof.
  split; [|split; reflexivity]. unfold well_typed, ex_ops.
  repeat (apply Forall_cons; [first [left; split; [simpl; tauto|eexists; split; [reflexivity|unfold int_min, int_max; lia]]|right; split; [simpl; tauto|eexists; reflexivity]]|]).
  apply Forall_nil.
Qed.

(** ** C55.  From assignments to exact neighbours: the hypotheses of C48 or C49 for
    the assigned parameters are enough.  [complete]: what C48 and C49 conclude. *)
Theorem C55_end_to_end : forall (N : Arith) (E : Exact N) (w : world N) ops P0,
  well_typed ops -> enough N E (api_cfg (w_hwc N w) ops) P0 ->
  exists a o, run_assign args_init ops = Ok a /\ tesellate N w a cpu P0 = Ok o /\ complete N E P0 o.
Proof. exact api_end_to_end. Qed.
Print Assumptions C55_end_to_end.
(** With the defaults up to 13 points are guaranteed. *)
Theorem C55_defaults : forall (N : Arith) (E : Exact N) (w : world N) P0,
  1 <= w_hwc N w -> (forall q, In q P0 -> inside N E q) -> zlen P0 <= 13 ->
  exists o, tesellate N w args_init cpu P0 = Ok o /\ complete N E P0 o.
Proof. exact default_exact. Qed.
Print Assumptions C55_defaults.

(** the point set and parameters of README.md:144-166 *)
Definition rme (a b c : Z) : point arithQ := (Fin (Qmake a 10000000), Fin (Qmake b 10000000), Fin (Qmake c 10000000)).
Definition readme_pts : list (point arithQ) :=
  [rme 6052230 1084840 909372; rme 5007920 4996410 4645760; rme 4379360 7863320 1603920; rme 6633540 1708940 8102840; rme 6148690 968678 2041470;
   rme 5569110 8953420 8022660; rme 3057480 1241460 5162490; rme 4068880 1578350 9196220; rme 944123 8619910 7986440; rme 5119580 5605370 3454790].
Definition readme_ops : list (string * argval) := [("k", VInt 9); ("knn_grid_resolution", VInt 2)].
Lemma rme_inside a b c : 0 < a < 10000000 -> 0 < b < 10000000 -> 0 < c < 10000000 -> inside arithQ arithQ_exact (rme a b c).
Proof.
  intros [A1 A2] [B1 B2] [C1 C2]. apply IZR_lt in A1, A2, B1, B2, C1, C2. unfold inside, rme, finp, valp, fin, val, arithQ_exact, in_open_cube, Q2R. cbn [fst snd Qnum Qden].
  split; [repeat split; discriminate|]. unfold xq_val, Q2R. cbn [Qnum Qden]. repeat split; lra.
Qed.
Example C55_hypotheses_ex : well_typed readme_ops /\ enough arithQ arithQ_exact (api_cfg 4 readme_ops) readme_pts /\ zlen readme_pts <= 13.
Proof.
  split; [|split; [|discriminate]].
  - unfold well_typed, readme_ops. repeat (apply Forall_cons; [left; split; [simpl; tauto|eexists; split; [reflexivity|unfold int_min, int_max; lia]]|]). apply Forall_nil.
  - left. split; [|split; [split; discriminate|discriminate]]. unfold api_ok. split; [vm_compute; repeat split; discriminate|]. split; [reflexivity|]. split; [discriminate|]. split.
    + intros q Hq. unfold readme_pts, In in Hq. repeat (destruct Hq as [<-|Hq]; [apply rme_inside; lia|]). contradiction.
    + split; [reflexivity|]. split; [discriminate|]. split; [vm_compute; repeat split; discriminate|discriminate].
Qed.

(** ** C56.  The numbers printed at the end (src/votess.ipp:745-751) are the numbers
    of cells with the respective flag; any arithmetic, any device. *)
Theorem C56_summary : forall (N : Arith) (w : world N) a dev pts o, tesellate N w a dev pts = Ok o ->
  let st := o_stats N o in
  counts (o_states N o) (fun b => Z.testbit b 0 = false) (s_sradius st) /\ counts (o_states N o) (fun b => Z.testbit b 4 = true) (s_pover st) /\
  counts (o_states N o) (fun b => Z.testbit b 5 = true) (s_tover st) /\ counts (o_states N o) (fun b => Z.testbit b 1 = true) (s_infb st) /\
  counts (o_states N o) (fun b => Z.testbit b 2 = true) (s_vertices st) /\ counts (o_states N o) (fun b => Z.testbit b 3 = true) (s_neighbor st) /\
  counts (o_states N o) (fun b => Z.testbit b 6 = true) (s_error st).
Proof. exact tess_stats. Qed.
Print Assumptions C56_summary.
Definition stats_view (r : res (outcome arithQ)) : option (list Z * list Z) :=
  match r with Ok o => let s := o_stats _ o in Some (o_states _ o, [s_sradius s; s_pover s; s_tover s; s_infb s; s_vertices s; s_neighbor s; s_error s]) | Err _ => None end.
Example C56_ex : stats_view (tesellate arithQ (ex_world [] 4 false) [("dev_suppress_stdout", "1"); ("k", "1"); ("knn_grid_resolution", "1"); ("cc_p_maxsize", "7"); ("cc_t_maxsize", "9");
    ("cpu_nthreads", "0"); ("gpu_ndsize", "1"); ("use_chunking", "0"); ("chunksize", "1"); ("use_recompute", "0")] cpu ex_corner)
  = Some ([32; 0], [2; 0; 1; 0; 0; 0; 0]).
Proof. vm_compute. reflexivity. Qed.

(** ** C57.  "The number printed as [fail] sradius is the number of cells that did not
    reach their security radius" is false with recompute: each round clears the flags
    of all cells.  Five points near a corner, k = 4: the cell of point 0 reaches its
    security radius, the four others do not; with recompute the neighbours are the
    same, but 5 failures are printed. *)
Definition ex_five : list (point arithQ) := [ptq 1 1 1; ptq 3 1 1; ptq 1 3 1; ptq 1 1 3; ptq 8 8 8].
Theorem C57_refuted :
  (rows_of (tess_core arithQ (ex_world [] 4 false) (mkCfg 4 1 10 16 1 1 false 0 false) cpu ex_five),
   stats_view (tess_core arithQ (ex_world [] 4 false) (mkCfg 4 1 10 16 1 1 false 0 false) cpu ex_five)) =
    (Some ([[2; 3; 1]; [0; 3; 2; 4]; [0; 3; 1; 4]; [0; 2; 1; 4]; [3; 2; 1]], [1; 0; 0; 0; 0]), Some ([1; 0; 0; 0; 0], [4; 0; 0; 0; 0; 0; 0])) /\
  (rows_of (tess_core arithQ (ex_world [] 4 false) (mkCfg 4 1 10 16 1 1 false 0 true) cpu ex_five),
   stats_view (tess_core arithQ (ex_world [] 4 false) (mkCfg 4 1 10 16 1 1 false 0 true) cpu ex_five)) =
    (Some ([[2; 3; 1]; [0; 3; 2; 4]; [0; 3; 1; 4]; [0; 2; 1; 4]; [3; 2; 1]], [0; 0; 0; 0; 0]), Some ([0; 0; 0; 0; 0], [5; 0; 0; 0; 0; 0; 0])).
Proof. split; vm_compute; reflexivity. Qed.
Print Assumptions C57_refuted.
