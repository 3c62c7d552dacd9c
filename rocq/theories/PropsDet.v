(** C71 - C77: what the returned rows determine; exact arithmetic over the reals. *)
From Verif Require Import Base Arith PBase Prog MUtils MHeap MXyz MKnn MBoundary MCell MDnn MArgs MTess Exact ArithQ PExact SpecSort SpecSlot SpecVor SpecRows
  PXyz PSortFinal PGrid PSlotHost PTessRun PTessFinal PGeomFinal PRec PRecFinal PRecGeom PNoFailApi PExactApi PCanon PDet PropsCell PropsTess PropsGeom PropsRec PropsGpu PropsFull PropsCanon.
From Coq Require Import QArith Qreals Permutation Psatz.
From Verif Require Import SpecGeom.
Local Open Scope Z_scope.

(** ** C71.  The rows determine the Voronoi cells.  A point x of the cube is in the
    cell of p if and only if it is not farther from p than from any listed
    neighbour; the other points need not be looked at.  For every validated cell of a
    call without recompute, and for every cell if k and the capacities are
    sufficient or recompute is on ([enough]). *)
Theorem C71_rows_bound_cells : forall (N : Arith) (E : Exact N) (w : world N) c P0 o,
  api_ok N E c P0 -> tess_core N w c cpu P0 = Ok o ->
  forall i b p x, znth (o_states N o) i = Some b -> validated (c_k c) (zlen P0) b -> znth (map (valp N E) (o_pts N o)) i = Some p -> in_cube x ->
  in_cell (map (valp N E) P0) p x <-> forall j q, lists (o_dnn N o) i j -> znth (map (valp N E) (o_pts N o)) j = Some q -> (d2 x p <= d2 x q)%R.
Proof. exact det_bounds. Qed.
Print Assumptions C71_rows_bound_cells.
Theorem C71_all_cells : forall (N : Arith) (E : Exact N) (w : world N) c P0, enough N E c P0 ->
  exists o, tess_core N w c cpu P0 = Ok o /\ Permutation P0 (o_pts N o) /\
  forall i p x, znth (map (valp N E) (o_pts N o)) i = Some p -> in_cube x ->
  in_cell (map (valp N E) P0) p x <-> forall j q, lists (o_dnn N o) i j -> znth (map (valp N E) (o_pts N o)) j = Some q -> (d2 x p <= d2 x q)%R.
Proof. exact det_bounds_all. Qed.
Print Assumptions C71_all_cells.

(** four points around the first one, two far away: k = 5 of 6 other points is
    enough for cell 0 (state 1: security radius reached) *)
Definition ex_tet : list (point arithQ) := [ptq 8 8 8; ptq 9 9 9; ptq 9 7 7; ptq 7 9 7; ptq 7 7 9; ptq 8 8 14; ptq 8 14 8].
Definition ex_tet_cfg (k : Z) : cfg := mkCfg k 1 14 30 1 1 false 0 false.
Example C71_ex : rows_of (tess_core arithQ (ex_world [] 4 false) (ex_tet_cfg 5) cpu ex_tet) =
  Some ([[3; 4; 1; 2]; [0; 4; 3; 2; 5]; [0; 4; 3; 1; 5]; [0; 4; 2; 1; 6]; [0; 3; 2; 1; 5]; [4; 1; 3; 2]; [1; 3; 2; 4]], [1; 0; 0; 0; 0; 0; 0]).
Proof. vm_compute. reflexivity. Qed.
Example C71_hypotheses_ex : (forall k, In k [5; 6] -> api_ok arithQ arithQ_exact (ex_tet_cfg k) ex_tet) /\ validated 5 7 1 /\ ~ validated 5 7 0.
Proof.
  split.
  - intros k Hk. unfold api_ok. simpl in Hk. destruct Hk as [<-|[<-|[]]].
    all: (split; [unfold cfg_ok; simpl; lia|]); (split; [reflexivity|]); (split; [discriminate|]); split;
      [intros q Hq; simpl in Hq; repeat (destruct Hq as [<-|Hq]; [inq|]); contradiction|].
    all: (split; [reflexivity|]); (split; [discriminate|]); (split; [vm_compute; repeat split; discriminate|discriminate]).
  - split; [split; [repeat split|left; reflexivity]|]. intros [_ [H|H]]; [discriminate|lia].
Qed.

(** ** C72.  Faces are reported also if several points share a position: if the cells of
    the positions p and q share a face ([common_face]), some point at q is listed for
    every position p.  In particular ([lonely]) if no third point is in the closed ball
    with diameter pq. *)
Theorem C72_faces_positions : forall (N : Arith) (E : Exact N) (w : world N) c P0, enough N E c P0 ->
  exists o, tess_core N w c cpu P0 = Ok o /\ let S := map (valp N E) (o_pts N o) in
  (forall p q, In p S -> In q S -> p <> q -> common_face S p q -> neighbour S (o_rows N o) p q) /\
  (forall p q, In p S -> In q S -> p <> q -> lonely S p q -> neighbour S (o_rows N o) p q).
Proof. intros N E w c P0 A. destruct (det_paths N E w c P0 A) as (o & R & _ & H1 & H2 & _). exists o. split; [exact R|]. split; [exact H1|exact H2]. Qed.
Print Assumptions C72_faces_positions.
(** runs: [C50_ex]; there (8,8,8) is the position of two points *)
Example C72_hypotheses_ex : enough arithQ arithQ_exact (mkCfg 3 1 9 14 2 1 false 0 false) ex_pair /\
  lonely (map (valp arithQ arithQ_exact) ex_pair) (valp arithQ arithQ_exact (ptq 2 8 8)) (valp arithQ arithQ_exact (ptq 8 8 8)).
Proof.
  split.
  - left. split; [|split; [split; discriminate|discriminate]]. unfold api_ok. split; [unfold cfg_ok; simpl; lia|]. split; [reflexivity|]. split; [discriminate|]. split.
    + intros q Hq. simpl in Hq. repeat (destruct Hq as [<-|Hq]; [inq|]). contradiction.
    + split; [reflexivity|]. split; [discriminate|]. split; [vm_compute; repeat split; discriminate|discriminate].
  - intros r Hr N1 N2. simpl in Hr. destruct Hr as [<-|[<-|[<-|[<-|[]]]]]; try (destruct N1; reflexivity); try (destruct N2; reflexivity).
    unfold valp, val; simpl; unfold Q2R; simpl. lra.
Qed.

(** ** C73.  The neighbours connect all points: from any p to any q there is a path of
    listed neighbours, no step of which is longer than the distance from p to q. *)
Theorem C73_paths : forall (N : Arith) (E : Exact N) (w : world N) c P0, enough N E c P0 ->
  exists o, tess_core N w c cpu P0 = Ok o /\ let S := map (valp N E) (o_pts N o) in
  forall p q, In p S -> In q S -> hops (neighbour S (o_rows N o)) (d2 p q) p q.
Proof. intros N E w c P0 A. destruct (det_paths N E w c P0 A) as (o & R & _ & _ & _ & H). exists o. split; [exact R|exact H]. Qed.
Print Assumptions C73_paths.
(** run and hypotheses: [C22_ex], [C52_hypotheses_ex]; 0 reaches 2 only through 1 *)

(** ** C74.  Rows are sorted by distance ([distinct_row] in C48 - C50), and the first entry
    is a nearest point at another position. *)
Theorem C74_nearest_first : forall (N : Arith) (E : Exact N) (w : world N) c P0, enough N E c P0 ->
  exists o, tess_core N w c cpu P0 = Ok o /\ shows (o_dnn N o) (o_rows N o) /\
  forall i row p, znth (o_rows N o) i = Some row -> znth (map (valp N E) (o_pts N o)) i = Some p -> (exists q, In q (map (valp N E) P0) /\ q <> p) ->
  exists j q, znth row 0 = Some j /\ znth (map (valp N E) (o_pts N o)) j = Some q /\ q <> p /\ forall r, In r (map (valp N E) P0) -> r <> p -> (d2 p q <= d2 p r)%R.
Proof. exact det_first. Qed.
Print Assumptions C74_nearest_first.
Theorem C74_sorted : forall (N : Arith) (E : Exact N) (w : world N) c P0 o,
  api_ok N E c P0 -> tess_core N w c cpu P0 = Ok o ->
  forall i row b, znth (o_rows N o) i = Some row -> znth (o_states N o) i = Some b -> errorless b ->
  forall u v j j' p q q', 0 <= u <= v -> znth row u = Some j -> znth row v = Some j' ->
  znth (map (valp N E) (o_pts N o)) i = Some p -> znth (map (valp N E) (o_pts N o)) j = Some q -> znth (map (valp N E) (o_pts N o)) j' = Some q' -> (d2 p q <= d2 p q')%R.
Proof.
  intros N E w c P0 o A R i row b Hr Hb He. destruct (api_rows N E w c P0 o A R) as (_ & _ & _ & _ & F). destruct (F i row b Hr Hb) as [D _]. apply (D He).
Qed.
Print Assumptions C74_sorted.
(** runs: [C71_ex], [C51_refuted] *)

(** ** C75.  Locality: if a point a that is not a listed neighbour of p is left out, the
    cell of p stays the same, and if the cells touching that of p share a face with it
    ([generic_at]), so do the neighbours of p; whatever order, k, grid and threads. *)
Theorem C75_locality : forall (N : Arith) (E : Exact N) (w w' : world N) c c' P0 P0' a,
  enough N E c P0 -> enough N E c' P0' -> Permutation P0 (a :: P0') -> exists o o',
  tess_core N w c cpu P0 = Ok o /\ tess_core N w' c' cpu P0' = Ok o' /\
  forall p, In p (map (valp N E) P0') -> ~ neighbour (map (valp N E) (o_pts N o)) (o_rows N o) p (valp N E a) ->
  (forall x, in_cell (map (valp N E) P0) p x <-> in_cell (map (valp N E) P0') p x) /\
  (generic_at (map (valp N E) P0) p -> forall q, neighbour (map (valp N E) (o_pts N o)) (o_rows N o) p q <-> neighbour (map (valp N E) (o_pts N o')) (o_rows N o') p q).
Proof. exact det_remove. Qed.
Print Assumptions C75_locality.
(** the row of three points without its last one: the neighbours of the first one
    remain, those of the middle one do not *)
Definition ex_two : list (point arithQ) := [ptq 2 8 8; ptq 8 8 8].
Example C75_ex : rows_of (tess_core arithQ (ex_world [] 4 false) ex_row_cfg cpu ex_row) = Some ([[1]; [0; 2]; [1]], [0; 0; 0]) /\
  rows_of (tess_core arithQ (ex_world [] 4 false) (mkCfg 1 1 9 14 2 1 false 0 false) cpu ex_two) = Some ([[1]; [0]], [0; 0]).
Proof. split; vm_compute; reflexivity. Qed.
Example C75_hypotheses_ex : enough arithQ arithQ_exact (mkCfg 1 1 9 14 2 1 false 0 false) ex_two /\ Permutation ex_row (ptq 14 8 8 :: ex_two) /\
  generic_at (map (valp arithQ arithQ_exact) ex_row) (valp arithQ arithQ_exact (ptq 2 8 8)).
Proof.
  split; [|split].
  - left. split; [|split; [split; discriminate|discriminate]]. unfold api_ok. split; [unfold cfg_ok; simpl; lia|]. split; [reflexivity|]. split; [discriminate|]. split.
    + intros q Hq. simpl in Hq. repeat (destruct Hq as [<-|Hq]; [inq|]). contradiction.
    + split; [reflexivity|]. split; [discriminate|]. split; [vm_compute; repeat split; discriminate|discriminate].
  - exact (Permutation_sym (Permutation_cons_append ex_two (ptq 14 8 8))).
  - destruct C52_generic_ex as [ND G]. split; [exact ND|]. intros q x Iq Ne T. apply (G _ q x); auto. now left.
Qed.

(** ** C76.  The neighbour relation is invariant under the symmetries of the cube:
    permuting the axes or reflecting them renames the points and nothing else. *)
Theorem C76_cube_symmetry : forall (N : Arith) (E : Exact N) g g' (w w' : world N) c c' P0 P0',
  cube_symmetry g g' -> enough N E c P0 -> enough N E c' P0' -> Permutation (map (valp N E) P0') (map g (map (valp N E) P0)) -> generic (map (valp N E) P0) -> exists o o',
  tess_core N w c cpu P0 = Ok o /\ tess_core N w' c' cpu P0' = Ok o' /\
  forall p q, neighbour (map (valp N E) (o_pts N o)) (o_rows N o) p q <-> neighbour (map (valp N E) (o_pts N o')) (o_rows N o') (g p) (g q).
Proof. exact det_symmetry. Qed.
Print Assumptions C76_cube_symmetry.
(** symmetries; the row of three points turned into the direction of y *)
Definition swap_xy (p : pt) : pt := let '(x, y, z) := p in (y, x, z).
Definition turn (p : pt) : pt := let '(x, y, z) := p in (y, z, x).
Definition turn_back (p : pt) : pt := let '(x, y, z) := p in (z, x, y).
Definition mirror_x (p : pt) : pt := let '(x, y, z) := p in (1 - x, y, z)%R.
Example C76_symmetries_ex : cube_symmetry swap_xy swap_xy /\ cube_symmetry turn turn_back /\ cube_symmetry mirror_x mirror_x.
Proof.
  split; [|split]; unfold cube_symmetry; repeat split.
  all: try (intros [[a b] d] [[a' b'] d']; simpl; ring).
  all: try (intros [[a b] d]; simpl; f_equal; f_equal; ring).
  all: try (destruct x as [[a b] d]; simpl in *; lra).
  all: try (destruct x as [[a b] d]; simpl; reflexivity).
Qed.
Definition ex_col : list (point arithQ) := [ptq 8 2 8; ptq 8 8 8; ptq 8 14 8].
Example C76_ex : rows_of (tess_core arithQ (ex_world [] 4 false) ex_row_cfg cpu ex_col) = Some ([[1]; [0; 2]; [1]], [0; 0; 0]) /\
  map (valp arithQ arithQ_exact) ex_col = map swap_xy (map (valp arithQ arithQ_exact) ex_row) /\ enough arithQ arithQ_exact ex_row_cfg ex_col.
Proof.
  split; [vm_compute; reflexivity|]. split; [reflexivity|]. left. split; [|split; [split; discriminate|discriminate]].
  unfold api_ok. split; [unfold cfg_ok; simpl; lia|]. split; [reflexivity|]. split; [discriminate|]. split.
  - intros q Hq. simpl in Hq. repeat (destruct Hq as [<-|Hq]; [inq|]). contradiction.
  - split; [reflexivity|]. split; [discriminate|]. split; [vm_compute; repeat split; discriminate|discriminate].
Qed.

(** ** C77.  The neighbours of a validated cell are those with a common face, whatever k,
    grid, capacities and threads were; so two calls agree on every point whose cell is
    validated in both. *)
Theorem C77_validated_canonical : forall (N : Arith) (E : Exact N) (w : world N) c P0 o,
  api_ok N E c P0 -> tess_core N w c cpu P0 = Ok o ->
  forall i b j p q, znth (o_states N o) i = Some b -> validated (c_k c) (zlen P0) b ->
  znth (map (valp N E) (o_pts N o)) i = Some p -> znth (map (valp N E) (o_pts N o)) j = Some q -> generic_at (map (valp N E) P0) p ->
  lists (o_dnn N o) i j <-> p <> q /\ common_face (map (valp N E) P0) p q.
Proof. exact det_cell. Qed.
Print Assumptions C77_validated_canonical.
Theorem C77_any_k : forall (N : Arith) (E : Exact N) (w w' : world N) c c' P0 o o',
  api_ok N E c P0 -> api_ok N E c' P0 -> tess_core N w c cpu P0 = Ok o -> tess_core N w' c' cpu P0 = Ok o' ->
  forall i i' b b' j j' p q, znth (o_states N o) i = Some b -> znth (o_states N o') i' = Some b' -> validated (c_k c) (zlen P0) b -> validated (c_k c') (zlen P0) b' ->
  znth (map (valp N E) (o_pts N o)) i = Some p -> znth (map (valp N E) (o_pts N o')) i' = Some p ->
  znth (map (valp N E) (o_pts N o)) j = Some q -> znth (map (valp N E) (o_pts N o')) j' = Some q -> generic_at (map (valp N E) P0) p ->
  lists (o_dnn N o) i j <-> lists (o_dnn N o') i' j'.
Proof. exact det_k. Qed.
Print Assumptions C77_any_k.
(** the points of [C71_ex] with k = 6: cell 0 as there, others have changed.  The
    hypotheses for cell 0: [C71_hypotheses_ex] and *)
Example C77_ex : rows_of (tess_core arithQ (ex_world [] 4 false) (ex_tet_cfg 6) cpu ex_tet) =
  Some ([[3; 4; 1; 2]; [0; 4; 3; 2; 5; 6]; [0; 4; 3; 1; 5; 6]; [0; 4; 2; 1; 6]; [0; 3; 2; 1; 5]; [4; 1; 3; 2; 6]; [3; 1; 4; 2; 5]], [1; 0; 0; 0; 0; 0; 0]).
Proof. vm_compute. reflexivity. Qed.
Example C77_hypotheses_ex : generic_at (map (valp arithQ arithQ_exact) ex_tet) (valp arithQ arithQ_exact (ptq 8 8 8)).
Proof.
  unfold ex_tet, ptq, valp, val. simpl. unfold Q2R. simpl. split.
  { repeat (constructor; [simpl; intros H; repeat (destruct H as [H|H]; [injection H; lra|]); exact H|]). constructor. }
  intros q [[x y] z] Iq Ne (C & T1 & T2). simpl in Iq.
  assert (I1 := T2 _ (or_intror (or_introl eq_refl))). assert (I2 := T2 _ (or_intror (or_intror (or_introl eq_refl)))).
  assert (I3 := T2 _ (or_intror (or_intror (or_intror (or_introl eq_refl))))). assert (I4 := T2 _ (or_intror (or_intror (or_intror (or_intror (or_introl eq_refl)))))).
  clear T2. unfold d2 in T1, I1, I2, I3, I4. simpl in C.
  assert (J1 : (x + y + z <= 51 * / 32)%R) by nra. assert (J2 : (x - y - z <= - (13 * / 32))%R) by nra. assert (J3 : (y - x - z <= - (13 * / 32))%R) by nra. assert (J4 : (z - x - y <= - (13 * / 32))%R) by nra.
  destruct Iq as [<-|Iq]; [destruct Ne; reflexivity|].
  destruct Iq as [<-|[<-|[<-|[<-|Iq]]]].
  1: exists (17 * / 32, 17 * / 32, 17 * / 32)%R. 2: exists (17 * / 32, 15 * / 32, 15 * / 32)%R. 3: exists (15 * / 32, 17 * / 32, 15 * / 32)%R. 4: exists (15 * / 32, 15 * / 32, 17 * / 32)%R.
  1-4: split; [simpl; lra|]; split; [unfold d2; lra|]; intros r Hr N1 N2; simpl in Hr;
    repeat (destruct Hr as [<-|Hr]; [try (destruct N1; reflexivity); try (destruct N2; reflexivity); unfold d2; lra|]); contradiction.
  exfalso. destruct Iq as [<-|[<-|[]]]; nra.
Qed.
