(** C46 - C49: the clipping never gets stuck, when capacities suffice, and the
    unconditional form of C22, C23, C29; exact arithmetic over the reals, all
    point sets in the open cube, degenerate positions included. *)
From Verif Require Import Base Arith PBase Prog MUtils MHeap MXyz MKnn MBoundary MCell MDnn MArgs MTess Exact ArithQ PExact SpecGeom SpecSort SpecSlot SpecVor SpecRows
  PXyz PSortFinal PGrid PSlotHost PTessRun PTessFinal PGeomFinal PRec PRecFinal PRecGeom PNoFailApi PExactApi PropsCell PropsTess PropsGeom PropsRec.
From Coq Require Import QArith Qreals Permutation.
Local Open Scope Z_scope.

(** ** C46.  boundary::compute always closes its cycle: no cell of any call ever
    carries infinite_boundary (bit 1) or error_occurred (bit 6), whatever the
    capacities are. *)
Theorem C46_never_stuck : forall (N : Arith) (E : Exact N) (w : world N) c P0 o,
  api_ok N E c P0 -> tess_core N w c cpu P0 = Ok o ->
  forall i b, znth (o_states N o) i = Some b -> Z.testbit b 1 = false /\ Z.testbit b 6 = false.
Proof. intros N E w c P0 o Ha R i b Hb. destruct (api_flags N E w c P0 o Ha R i b Hb) as (A & B & _). exact (conj A B). Qed.
Print Assumptions C46_never_stuck.

(** ** C47.  A capacity flag means that the capacity is below the number of planes
    6 + m or of vertices 8 + 2 m that m = min(k, n - 1) cuts of a cube can give. *)
Theorem C47_capacities : forall (N : Arith) (E : Exact N) (w : world N) c P0 o,
  api_ok N E c P0 -> tess_core N w c cpu P0 = Ok o ->
  forall i b, znth (o_states N o) i = Some b -> let m := Z.min (c_k c) (zlen P0 - 1) in
  (Z.testbit b 4 = true -> c_pmax c < 6 + m) /\
  (Z.testbit b 5 = true -> c_tmax c < 8 + 2 * m /\ c_tmax c < 2 * c_pmax c - 4).
Proof. intros N E w c P0 o Ha R i b Hb. destruct (api_flags N E w c P0 o Ha R i b Hb) as (_ & _ & A & B). exact (conj A B). Qed.
Print Assumptions C47_capacities.

(** Both bounds are attained: two points, k = 1, the bisector cuts off one corner
    of the cube.  7 planes and 10 vertices are enough; with 6 planes or 9 vertices
    a flag appears. *)
Definition ex_corner : list (point arithQ) := [ptq 8 8 8; ptq 15 15 15].
Definition ex_corner_states (pmax tmax : Z) := states_of (tess_core arithQ (ex_world [] 4 false) (mkCfg 1 1 pmax tmax 1 1 false 0 false) cpu ex_corner).
Example C47_tight_ex : ex_corner_states 7 10 = Some [0; 0] /\ ex_corner_states 6 10 = Some [16; 16] /\ ex_corner_states 7 9 = Some [32; 0].
Proof. repeat split; vm_compute; reflexivity. Qed.
Example C47_hypotheses_ex : forall pmax tmax, In (pmax, tmax) [(7, 10); (6, 10); (7, 9)] -> api_ok arithQ arithQ_exact (mkCfg 1 1 pmax tmax 1 1 false 0 false) ex_corner.
Proof.
  intros pmax tmax Hp. simpl in Hp. repeat (destruct Hp as [[= <- <-]|Hp]; [|]); [| | |contradiction].
  all: unfold api_ok; split; [unfold cfg_ok; simpl; lia|]; split; [reflexivity|]; split; [discriminate|]; split;
    [intros q Hq; simpl in Hq; repeat (destruct Hq as [<-|Hq]; [inq|]); contradiction|
     split; [reflexivity|]; split; [discriminate|]; split; [vm_compute; repeat split; discriminate|discriminate]].
Qed.

(** ** C48.  C22 and C23 without any condition on the flags: if k reaches all
    other points and the capacities hold what n - 1 cuts can give, the call returns,
    no cell has an error flag, and every row is exact.  [exact_row] (SpecRows): no
    index twice, no index at the position of the cell's own point or at the position
    of another entry, nearest first, only cells that touch, all cells sharing a face,
    and these bisectors bound the cell.  [shows]: size() and the proxies of the
    returned object give these rows. *)
Theorem C48_exact_neighbours : forall (N : Arith) (E : Exact N) (w : world N) c P0, api_ok N E c P0 ->
  (6 + (zlen P0 - 1) <= c_pmax c /\ 8 + 2 * (zlen P0 - 1) <= c_tmax c) -> zlen P0 - 1 <= c_k c ->
  exists o, tess_core N w c cpu P0 = Ok o /\
    Permutation P0 (o_pts N o) /\ zlen (o_rows N o) = zlen P0 /\ zlen (o_states N o) = zlen P0 /\ shows (o_dnn N o) (o_rows N o) /\
    (forall i b, znth (o_states N o) i = Some b -> errorless b) /\
    forall i row, znth (o_rows N o) i = Some row -> exact_row (map (valp N E) (o_pts N o)) i row.
Proof. exact api_complete. Qed.
Print Assumptions C48_exact_neighbours.

(** the row of three points ([C22_ex], [C22_hypotheses_ex]) meets the hypotheses *)
Example C48_hypotheses_ex : (6 + (zlen ex_row - 1) <= c_pmax ex_row_cfg /\ 8 + 2 * (zlen ex_row - 1) <= c_tmax ex_row_cfg) /\ zlen ex_row - 1 <= c_k ex_row_cfg.
Proof. vm_compute. repeat split; discriminate. Qed.

(** ** C49.  The same with use_recompute and any k from 1 to 65535: the rounds end
    with complete cells. *)
Theorem C49_recompute_exact : forall (N : Arith) (E : Exact N) (w : world N) c P0,
  2 <= zlen P0 /\ 1 <= c_k c <= 65535 /\ (6 + (zlen P0 - 1) <= c_pmax c /\ 8 + 2 * (zlen P0 - 1) <= c_tmax c) /\ c_pmax c <= 255 /\ c_tmax c <= 65535 /\
  0 < c_gr c /\ c_gr c * c_gr c * c_gr c <= int_max /\ (forall q, In q P0 -> inside N E q) /\
  c_recompute c = true /\ 1 <= c_nthreads c /\ fits c (zlen P0) ->
  exists o, tess_core N w c cpu P0 = Ok o /\
    Permutation P0 (o_pts N o) /\ zlen (o_rows N o) = zlen P0 /\ zlen (o_states N o) = zlen P0 /\ shows (o_dnn N o) (o_rows N o) /\
    (forall i b, znth (o_states N o) i = Some b -> errorless b) /\
    forall i row, znth (o_rows N o) i = Some row -> exact_row (map (valp N E) (o_pts N o)) i row.
Proof. exact full_complete. Qed.
Print Assumptions C49_recompute_exact.

(** the run [C29_ex], k = 1, meets the hypotheses *)
Example C49_hypotheses_ex : 2 <= zlen ex_row /\ 1 <= c_k ex_rec_cfg <= 65535 /\ (6 + (zlen ex_row - 1) <= c_pmax ex_rec_cfg /\ 8 + 2 * (zlen ex_row - 1) <= c_tmax ex_rec_cfg) /\
  (forall q, In q ex_row -> inside arithQ arithQ_exact q) /\ c_recompute ex_rec_cfg = true /\ fits ex_rec_cfg (zlen ex_row).
Proof.
  split; [discriminate|]. split; [split; discriminate|]. split; [split; discriminate|]. split.
  - intros q Hq. simpl in Hq. repeat (destruct Hq as [<-|Hq]; [inq|]). contradiction.
  - split; [reflexivity|]. vm_compute. repeat split; discriminate.
Qed.
