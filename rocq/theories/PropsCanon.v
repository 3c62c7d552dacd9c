(** C50 - C53: no repetitions in rows, symmetry, independence of the input order,
    rows of device runs; exact arithmetic over the reals. *)
From Verif Require Import Base Arith PBase Prog MUtils MHeap MXyz MKnn MBoundary MCell MDnn MArgs MTess Exact ArithQ PExact SpecGeom SpecSort SpecSlot SpecVor SpecRows
  PXyz PSortFinal PGrid PSlotHost PTessRun PTessFinal PGpuRun PGeomFinal PRec PRecFinal PRecGeom PNoFailApi PExactApi PCanon PGpuExact PropsCell PropsTess PropsGeom PropsRec PropsGpu PropsFull.
From Coq Require Import QArith Qreals Permutation.
Local Open Scope Z_scope.

(** ** C50.  A row of a cell without error flag names no point twice, not its own
    point, no point at its own position, and no two points at one position, and is
    sorted by distance, even if k was too small for the cell to be complete.  Reading the object gives the rows. *)
Theorem C50_rows_distinct : forall (N : Arith) (E : Exact N) (w : world N) c P0 o,
  api_ok N E c P0 -> tess_core N w c cpu P0 = Ok o ->
  shows (o_dnn N o) (o_rows N o) /\ zlen (o_rows N o) = zlen P0 /\
  forall i row b, znth (o_rows N o) i = Some row -> znth (o_states N o) i = Some b -> errorless b -> distinct_row (map (valp N E) (o_pts N o)) i row.
Proof. intros N E w c P0 o A R. destruct (api_rows N E w c P0 o A R) as (S & L & _ & _ & F). split; [exact S|]. split; [exact L|]. intros i row b Hr Hb. apply (F i row b Hr Hb). Qed.
Print Assumptions C50_rows_distinct.

(** with recompute these rows are complete, too *)
Theorem C50_recompute : forall (N : Arith) (E : Exact N) r (w : world N) c P0, api_rec N E r c P0 ->
  exists o, tess_core N w c cpu P0 = Ok o /\ Permutation P0 (o_pts N o) /\ zlen (o_rows N o) = zlen P0 /\ zlen (o_states N o) = zlen P0 /\ shows (o_dnn N o) (o_rows N o) /\
  forall i row b, znth (o_rows N o) i = Some row -> znth (o_states N o) i = Some b -> errorless b -> exact_row (map (valp N E) (o_pts N o)) i row.
Proof. exact rec_rows. Qed.
Print Assumptions C50_recompute.

(** two points at one position: each other row has one of them, they do not list
    each other; k = 2 cuts the search off *)
Definition rows_of (r : res (outcome arithQ)) : option (list (list Z) * list Z) := match r with Ok o => Some (o_rows _ o, o_states _ o) | Err _ => None end.
Definition ex_pair : list (point arithQ) := [ptq 2 8 8; ptq 8 8 8; ptq 8 8 8; ptq 14 8 8].
Example C50_ex : rows_of (tess_core arithQ (ex_world [] 4 false) ex_row_cfg cpu ex_pair) = Some ([[1]; [0]; [0]; [1]], [0; 0; 0; 0]) /\
  rows_of (tess_core arithQ (ex_world [] 4 false) (mkCfg 3 1 9 14 2 1 false 0 false) cpu ex_pair) = Some ([[1]; [0; 3]; [0; 3]; [2]], [0; 0; 0; 0]).
Proof. split; vm_compute; reflexivity. Qed.
Example C50_hypotheses_ex : api_ok arithQ arithQ_exact ex_row_cfg ex_pair /\ errorless 0.
Proof.
  split; [|repeat split]. unfold api_ok. split; [unfold cfg_ok; simpl; lia|]. split; [reflexivity|]. split; [discriminate|]. split.
  - intros q Hq. simpl in Hq. repeat (destruct Hq as [<-|Hq]; [inq|]). contradiction.
  - split; [reflexivity|]. split; [discriminate|]. split; [vm_compute; repeat split; discriminate|discriminate].
Qed.

(** ** C51.  "If i lists j then j lists i" is false, even in exact arithmetic with
    every cell complete: four points on a circle; 2 lists 0, 0 does not list 2 (their
    cells touch in a segment on the axis of the circle, but share no face). *)
Definition ex_circle : list (point arithQ) := [ptq 11 4 8; ptq 12 11 8; ptq 3 8 8; ptq 5 4 8].
Definition ex_circle_cfg : cfg := mkCfg 3 1 9 14 1 1 false 0 false.
Theorem C51_refuted : enough arithQ arithQ_exact ex_circle_cfg ex_circle /\
  rows_of (tess_core arithQ (ex_world [] 4 false) ex_circle_cfg cpu ex_circle) = Some ([[3; 1]; [0; 2]; [3; 0; 1]; [2; 0]], [0; 0; 0; 0]).
Proof.
  split; [|vm_compute; reflexivity]. left. split; [|split; [split; discriminate|discriminate]].
  unfold api_ok. split; [unfold cfg_ok; simpl; lia|]. split; [reflexivity|]. split; [discriminate|]. split.
  - intros q Hq. simpl in Hq. repeat (destruct Hq as [<-|Hq]; [inq|]). contradiction.
  - split; [reflexivity|]. split; [discriminate|]. split; [vm_compute; repeat split; discriminate|discriminate].
Qed.
Print Assumptions C51_refuted.

(** In generic position (SpecRows: no two points at one position, cells that touch
    share a face) it holds.  [enough]: the hypotheses of C48 or those of C49. *)
Theorem C51_generic_symmetric : forall (N : Arith) (E : Exact N) (w : world N) c P0,
  enough N E c P0 -> generic (map (valp N E) P0) -> exists o, tess_core N w c cpu P0 = Ok o /\
  forall i j ri rj, znth (o_rows N o) i = Some ri -> znth (o_rows N o) j = Some rj -> In j ri -> In i rj.
Proof. exact canon_sym_index. Qed.
Print Assumptions C51_generic_symmetric.

(** ** C52.  The neighbour relation between positions depends only on the set of
    points: not on their order, k, the grid resolution, capacities, threads, chunks,
    recompute, schedules. *)
Theorem C52_canonical : forall (N : Arith) (E : Exact N) (w : world N) c P0,
  enough N E c P0 -> generic (map (valp N E) P0) -> exists o, tess_core N w c cpu P0 = Ok o /\ Permutation P0 (o_pts N o) /\
  forall p q, neighbour (map (valp N E) (o_pts N o)) (o_rows N o) p q <->
    In p (map (valp N E) P0) /\ In q (map (valp N E) P0) /\ p <> q /\ common_face (map (valp N E) P0) p q.
Proof. exact canon. Qed.
Print Assumptions C52_canonical.
Theorem C52_order_free : forall (N : Arith) (E : Exact N) (w w' : world N) c c' P0 P0',
  enough N E c P0 -> enough N E c' P0' -> Permutation P0 P0' -> generic (map (valp N E) P0) -> exists o o',
  tess_core N w c cpu P0 = Ok o /\ tess_core N w' c' cpu P0' = Ok o' /\
  forall p q, neighbour (map (valp N E) (o_pts N o)) (o_rows N o) p q <-> neighbour (map (valp N E) (o_pts N o')) (o_rows N o') p q.
Proof. exact canon_perm. Qed.
Print Assumptions C52_order_free.

(** three points in a row are in generic position; two orders and grids *)
Example C52_generic_ex : generic (map (valp arithQ arithQ_exact) ex_row).
Proof.
  unfold ex_row, ptq, valp, val. simpl. unfold Q2R. simpl. split.
  { assert (D3 : forall a b c : pt, a <> b -> a <> c -> b <> c -> NoDup [a; b; c]).
    { intros a b c N1 N2 N3. constructor; [simpl; intuition congruence|]. constructor; [simpl; intuition congruence|]. constructor; [simpl; tauto|constructor]. }
    apply D3; intros H; injection H; lra. }
  assert (T : forall a b c x, (a < b < c)%R -> let S := [(a, 8 * / 16, 8 * / 16); (b, 8 * / 16, 8 * / 16); (c, 8 * / 16, 8 * / 16)]%R in
    ~ touches S (a, 8 * / 16, 8 * / 16)%R (c, 8 * / 16, 8 * / 16)%R x).
  { intros a b c [[x y] z] H S (_ & T1 & T2). specialize (T2 (b, 8 * / 16, 8 * / 16)%R ltac:(simpl; auto)). unfold d2 in *. 
    assert ((c - a) * (2 * x - a - c) = 0)%R by nra. assert (2 * x = a + c)%R by nra. assert ((b - a) * (2 * x - a - b) <= 0)%R by nra. nra. }
  intros p q x Hp Hq Ne TT. simpl in Hp, Hq.
  assert (CF : forall a b c p q, (a = 2 * / 16)%R -> (b = 8 * / 16)%R -> (c = 14 * / 16)%R -> 
     (p = (a, b, b) /\ q = (b, b, b) \/ p = (b, b, b) /\ q = (a, b, b) \/ p = (b, b, b) /\ q = (c, b, b) \/ p = (c, b, b) /\ q = (b, b, b)) ->
     common_face [(a, b, b); (b, b, b); (c, b, b)] p q).
  { clear. intros a b c p q -> -> -> H. 
    destruct H as [[-> ->]|[[-> ->]|[[-> ->]|[-> ->]]]];
    [exists (5 * / 16, 8 * / 16, 8 * / 16)%R|exists (5 * / 16, 8 * / 16, 8 * / 16)%R|exists (11 * / 16, 8 * / 16, 8 * / 16)%R|exists (11 * / 16, 8 * / 16, 8 * / 16)%R];
    (split; [unfold in_open_cube; lra|]; split; [unfold d2; lra|]; intros r Hr N1 N2; simpl in Hr; 
     destruct Hr as [<-|[<-|[<-|[]]]]; unfold d2; try lra; exfalso; (apply N1; reflexivity) || (apply N2; reflexivity)). }
  assert (SY : forall S p q x, touches S p q x -> touches S q p x) by (intros S p0 q0 x0 (A & B & C); split; [assumption|]; split; [now symmetry|]; intros r Hr; rewrite <- B; auto).
  destruct Hp as [<-|[<-|[<-|[]]]], Hq as [<-|[<-|[<-|[]]]]; try (destruct Ne; reflexivity); try (apply CF; try reflexivity; auto 10; fail).
  - destruct (T (2 * / 16) (8 * / 16) (14 * / 16) x ltac:(lra) TT)%R.
  - destruct (T (2 * / 16) (8 * / 16) (14 * / 16) x ltac:(lra) (SY _ _ _ _ TT))%R.
Qed.
Definition ex_wor : list (point arithQ) := [ptq 14 8 8; ptq 2 8 8; ptq 8 8 8].
Example C52_ex : ex_view (tess_core arithQ (ex_world [] 4 false) ex_row_cfg cpu ex_wor) = Some (ex_wor, [2; 2; 0; 1], [0; 1; 2; 4], [0; 0; 0]) /\
  ex_view (tess_core arithQ (ex_world [] 4 false) (mkCfg 3 2 9 14 1 1 true 2 true) cpu ex_wor) = Some ([ptq 2 8 8; ptq 14 8 8; ptq 8 8 8], [2; 2; 1; 0], [0; 1; 2; 4], [0; 0; 0]).
Proof. split; vm_compute; reflexivity. Qed.
Example C52_hypotheses_ex : enough arithQ arithQ_exact ex_row_cfg ex_row /\ enough arithQ arithQ_exact (mkCfg 3 2 9 14 1 1 true 2 true) ex_wor /\ Permutation ex_row ex_wor.
Proof.
  split; [|split].
  - left. split; [apply C22_hypotheses_ex|]. split; [split; discriminate|discriminate].
  - right. unfold api_full. split; [discriminate|]. split; [split; discriminate|]. split; [split; discriminate|]. split; [discriminate|]. split; [discriminate|].
    split; [reflexivity|]. split; [discriminate|]. split; [intros q Hq; simpl in Hq; repeat (destruct Hq as [<-|Hq]; [inq|]); contradiction|].
    split; [reflexivity|]. split; [discriminate|]. vm_compute. repeat split; discriminate.
  - exact (Permutation_sym (Permutation_cons_append [ptq 2 8 8; ptq 8 8 8] (ptq 14 8 8))).
Qed.

(** Without generic position it is false: two orders of one set of points on a
    circle; (3,8,8) lists (12,5,8) in one of them only. *)
Definition ex_ab : list (point arithQ) := [ptq 12 5 8; ptq 12 11 8; ptq 3 8 8; ptq 5 4 8].
Definition ex_ba : list (point arithQ) := [ptq 12 11 8; ptq 12 5 8; ptq 3 8 8; ptq 5 4 8].
Theorem C52_refuted : Permutation ex_ab ex_ba /\
  rows_of (tess_core arithQ (ex_world [] 4 false) ex_circle_cfg cpu ex_ab) = Some ([[1; 3]; [0; 2]; [3; 1]; [2; 0]], [0; 0; 0; 0]) /\
  rows_of (tess_core arithQ (ex_world [] 4 false) ex_circle_cfg cpu ex_ba) = Some ([[1; 2]; [0; 3]; [3; 1; 0]; [2; 1]], [0; 0; 0; 0]).
Proof. split; [apply perm_swap|]. split; vm_compute; reflexivity. Qed.
Print Assumptions C52_refuted.

(** ** C53.  Rows of a device run are exact as in C48, for every schedule of the work
    items and every content of uninitialised memory. *)
Theorem C53_device_exact : forall (N : Arith) (E : Exact N) (w : world N) c P0, api_ok N E c P0 ->
  (6 + (zlen P0 - 1) <= c_pmax c /\ 8 + 2 * (zlen P0 - 1) <= c_tmax c) -> zlen P0 - 1 <= c_k c ->
  c_gr c <= 255 /\ (c_tmax c <= 254 \/ c_pmax c <= 130) /\ gpu_fits c (zlen P0) /\
  chunked (chunk_of c (zlen P0)) (zlen P0) = false /\ zlen P0 mod (if 0 <? c_ndsize c then c_ndsize c else 1) = 0 -> w_gpu N w = true ->
  exists o, tess_core N w c gpu P0 = Ok o /\ Permutation P0 (o_pts N o) /\ zlen (o_rows N o) = zlen P0 /\ shows (o_dnn N o) (o_rows N o) /\
  forall i row, znth (o_rows N o) i = Some row -> exact_row (map (valp N E) (o_pts N o)) i row.
Proof. exact gpu_exact. Qed.
Print Assumptions C53_device_exact.
(** run: [C37_ex] *)
Example C53_hypotheses_ex : gpu_fits ex_row_cfg 3 /\ chunked (chunk_of ex_row_cfg 3) 3 = false /\ 3 mod (if 0 <? c_ndsize ex_row_cfg then c_ndsize ex_row_cfg else 1) = 0.
Proof. split; [vm_compute; repeat split; discriminate|]. split; reflexivity. Qed.
