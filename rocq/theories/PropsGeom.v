(** C15, C22, C23, C40, C41: the computed cells are the Voronoi cells; exact
    arithmetic over the reals, all point sets, degenerate positions included. *)
From Verif Require Import Base Arith PBase Prog MUtils MHeap MXyz MKnn MBoundary MCell MDnn MArgs MTess Exact ArithQ PExact SpecGeom SpecBnd SpecSlot SpecVor PBnd PCellSim PCellRun PCell
  PGrid PSlotHost PTessRun PGeomFinal PropsCell PropsTess.
From Coq Require Import QArith Qreals.
Local Open Scope Z_scope.

(** ** C41 and C15 on one cell.  Any candidate list K (any order, repetitions, the
    seed itself), any old buffer contents.  [m]: how many candidates were
    processed.  [nearest_to m y]: y is in the cube and not farther from the seed
    than from the first m candidates.  Without error flag
    - the triangles T are a closed oriented surface,
    - each denotes exactly one point, and that is in the clipped region,
    - the region is bounded by these points in every direction f. *)
Theorem C41_cell : forall (N : Arith) (E : Exact N) k pmax tmax (pts : Z -> option (point N)) K p,
  pmax <= 255 -> finp N E p -> (forall q qp, In q K -> pts q = Some qp -> finp N E qp) ->
  6 <= pmax -> 8 <= tmax -> zlen K = k ->
  (forall q, In q K -> q <> k_undefined /\ exists qp, pts q = Some qp) -> in_cube (valp N E p) ->
  exists b' row T m, forall wc brk pq refs Pl Tr C, wc_ok wc (Z.min tmax (2 * pmax - 6)) ->
  zlen Pl = pmax -> zlen Tr = tmax -> zlen C = pmax -> refs 0 = Some p ->
  exists Pl' Tr' C' D',
    run (cell_compute N wc brk lay0 k pmax tmax 0 pts refs) (cm N pq Pl Tr C K (repeat k_undefined (Z.to_nat k)) st_init) =
      Ok (tt, cm N pq Pl' Tr' C' row D' b') /\
    (errorless b' -> (exists Tj, Tr' = T ++ Tj) /\ cell_ok N E k pts K p b' Pl' T m /\ cell_stop N E pts K p b' m).
Proof. exact cell_geom. Qed.
Print Assumptions C41_cell.

(** ** C15: [cell_stop] spelled out.  If the flag security_radius_reached is set,
    then for the candidate q at which the loop stopped, every point of the clipped
    region is strictly nearer to the seed than to any z at least as far from the
    seed as q: no such z can remove anything. *)
Theorem C15_security_radius : forall (N : Arith) (E : Exact N) k pmax tmax (pts : Z -> option (point N)) K p,
  pmax <= 255 -> finp N E p -> (forall q qp, In q K -> pts q = Some qp -> finp N E qp) ->
  6 <= pmax -> 8 <= tmax -> zlen K = k ->
  (forall q, In q K -> q <> k_undefined /\ exists qp, pts q = Some qp) -> in_cube (valp N E p) ->
  exists b' row m, forall wc brk pq refs Pl Tr C, wc_ok wc (Z.min tmax (2 * pmax - 6)) ->
  zlen Pl = pmax -> zlen Tr = tmax -> zlen C = pmax -> refs 0 = Some p ->
  exists Pl' Tr' C' D',
    run (cell_compute N wc brk lay0 k pmax tmax 0 pts refs) (cm N pq Pl Tr C K (repeat k_undefined (Z.to_nat k)) st_init) =
      Ok (tt, cm N pq Pl' Tr' C' row D' b') /\
    (errorless b' -> Z.testbit b' 0 = true -> exists q qp, 0 < m <= k /\ znth K (m - 1) = Some q /\ pts q = Some qp /\
      forall y z, nearest_to N E pts K p m y -> (d2 (valp N E p) (valp N E qp) <= d2 (valp N E p) z)%R -> (d2 y (valp N E p) < d2 y z)%R).
Proof. exact cell_reach. Qed.
Print Assumptions C15_security_radius.

(** a seed with six neighbours around it; the seventh candidate is far away: the
    loop stops there, the eighth is not looked at *)
Definition ptq (a b c : Z) : point arithQ := (Fin (Qmake a 16), Fin (Qmake b 16), Fin (Qmake c 16)).
Definition ex_star : list (point arithQ) :=
  [ptq 8 8 8; ptq 9 8 8; ptq 7 8 8; ptq 8 9 8; ptq 8 7 8; ptq 8 8 9; ptq 8 8 7; ptq 12 8 8; ptq 8 15 8].
Definition ex_star_cell : option (list Z * Z) :=
  match run (cell_compute arithQ (fun x => x) true lay0 8 14 30 0 (znth ex_star) (znth ex_star))
    (cm arithQ [] (repeat (Inf, Inf, Inf, Inf) 14) (repeat (9, 9, 9) 30) (repeat 5 14) [1; 2; 3; 4; 5; 6; 7; 8] (repeat k_undefined 8) st_init) with
  | Ok (_, m) => Some (m_hid m, nth 0 (m_st m) 0)
  | Err _ => None
  end.
Example C41_C15_ex : ex_star_cell = Some ([1; 2; 3; 4; 5; 6; -32; -32], 1).
Proof. vm_compute. reflexivity. Qed.
Ltac inq := unfold inside, finp, fin, valp, val, in_open_cube, in_cube; simpl; unfold Q2R; simpl; (split; [repeat split; discriminate|]) || idtac; lra.
Example C41_hypotheses_ex : (forall q, In q ex_star -> inside arithQ arithQ_exact q) /\ errorless 1.
Proof.
  split; [|repeat split]. intros q Hq. simpl in Hq. repeat (destruct Hq as [<-|Hq]; [inq|]). contradiction.
Qed.

(** ** The result of a call.  [api_ok]: parameters in the supported range, points
    in the open cube, no recompute.  [lists d i j]: row i of the returned object
    has entry j.  [validated]: no error flag, and the security radius was reached
    or k >= n - 1. *)
Theorem C22_neighbours_touch : forall (N : Arith) (E : Exact N) (w : world N) c P0 o,
  api_ok N E c P0 -> tess_core N w c cpu P0 = Ok o ->
  forall i b j, znth (o_states N o) i = Some b -> validated (c_k c) (zlen (o_pts N o)) b -> lists (o_dnn N o) i j ->
  exists p q x, znth (map (valp N E) (o_pts N o)) i = Some p /\ znth (map (valp N E) (o_pts N o)) j = Some q /\
    touches (map (valp N E) (o_pts N o)) p q x.
Proof. exact api_touches. Qed.
Print Assumptions C22_neighbours_touch.

Theorem C23_faces_reported : forall (N : Arith) (E : Exact N) (w : world N) c P0 o,
  api_ok N E c P0 -> tess_core N w c cpu P0 = Ok o ->
  forall i b j p q, znth (o_states N o) i = Some b -> validated (c_k c) (zlen (o_pts N o)) b ->
  znth (map (valp N E) (o_pts N o)) i = Some p -> znth (map (valp N E) (o_pts N o)) j = Some q -> p <> q ->
  face (map (valp N E) (o_pts N o)) i j -> lists (o_dnn N o) i j.
Proof. exact api_face. Qed.
Print Assumptions C23_faces_reported.

Theorem C40_symmetric : forall (N : Arith) (E : Exact N) (w : world N) c P0 o,
  api_ok N E c P0 -> tess_core N w c cpu P0 = Ok o ->
  forall i j bi bj p q, znth (o_states N o) i = Some bi -> znth (o_states N o) j = Some bj ->
  validated (c_k c) (zlen (o_pts N o)) bi -> validated (c_k c) (zlen (o_pts N o)) bj ->
  znth (map (valp N E) (o_pts N o)) i = Some p -> znth (map (valp N E) (o_pts N o)) j = Some q -> p <> q ->
  face (map (valp N E) (o_pts N o)) i j -> lists (o_dnn N o) i j /\ lists (o_dnn N o) j i.
Proof. exact api_sym. Qed.
Print Assumptions C40_symmetric.

(** The calls of C22, C23, C40 return, and the points are those passed in. *)
Theorem C22_call_returns : forall (N : Arith) (E : Exact N) (w : world N) c P0, api_ok N E c P0 ->
  exists o, tess_core N w c cpu P0 = Ok o /\ Permutation P0 (o_pts N o) /\ zlen (o_states N o) = zlen P0.
Proof. exact core_returns. Qed.
Print Assumptions C22_call_returns.

(** three points in a row: the outer two do not see each other;
    with k = n - 1 every cell is validated *)
Definition ex_row : list (point arithQ) := [ptq 2 8 8; ptq 8 8 8; ptq 14 8 8].
Definition ex_row_cfg : cfg := mkCfg 2 1 9 14 2 1 false 0 false.
Example C22_ex : match tess_core arithQ (ex_world [] 4 false) ex_row_cfg cpu ex_row with Ok o => Some (d_list (o_dnn _ o), d_offs (o_dnn _ o), o_states _ o) | Err _ => None end
  = Some ([1; 0; 2; 1], [0; 1; 3; 4], [0; 0; 0]).
Proof. vm_compute. reflexivity. Qed.
Example C22_hypotheses_ex : api_ok arithQ arithQ_exact ex_row_cfg ex_row /\ validated 2 3 0.
Proof.
  split; [|split; [repeat split|right; discriminate]]. unfold api_ok.
  split; [unfold cfg_ok; simpl; lia|]. split; [reflexivity|]. split; [discriminate|]. split.
  - intros q Hq. simpl in Hq. repeat (destruct Hq as [<-|Hq]; [inq|]). contradiction.
  - split; [reflexivity|]. split; [discriminate|]. split; [|discriminate]. vm_compute. repeat split; discriminate.
Qed.
Example C23_face_ex : face (map (valp arithQ arithQ_exact) ex_row) 0 1.
Proof.
  do 2 eexists. exists (5 / 16, 1 / 2, 1 / 2)%R. split; [reflexivity|]. split; [reflexivity|]. unfold valp, val; simpl. unfold Q2R; simpl. split; [lra|]. split; [lra|].
  intros l r Hl N0 N1. pose proof (znth_some _ _ _ Hl) as R. change (zlen _) with 3 in R. assert (l = 2) by lia. subst l. cbv in Hl. injection Hl as <-. simpl; unfold Q2R; simpl. lra.
Qed.

(** [p <> q] is needed: of two equal points neither lists the other, although
    every point near them is equidistant to both. *)
Definition ex_twin : list (point arithQ) := [ptq 2 8 8; ptq 2 8 8; ptq 14 8 8].
Definition ex_view (r : res (outcome arithQ)) := match r with Ok o => Some (o_pts _ o, d_list (o_dnn _ o), d_offs (o_dnn _ o), o_states _ o) | Err _ => None end.
Definition ex_twin_run := tess_core arithQ (ex_world [] 4 false) ex_row_cfg cpu ex_twin.
Lemma ex_twin_view : ex_view ex_twin_run = Some (ex_twin, [2; 2; 0], [0; 1; 2; 3], [0; 0; 0]).
Proof. vm_compute. reflexivity. Qed.
Theorem C23_equal_points_refuted : exists o, tess_core arithQ (ex_world [] 4 false) ex_row_cfg cpu ex_twin = Ok o /\
  znth (o_states arithQ o) 0 = Some 0 /\ validated 2 3 0 /\ face (map (valp arithQ arithQ_exact) (o_pts arithQ o)) 0 1 /\ ~ lists (o_dnn arithQ o) 0 1.
Proof.
  generalize ex_twin_view. unfold ex_twin_run. generalize (tess_core arithQ (ex_world [] 4 false) ex_row_cfg cpu ex_twin). intros [o|] H; [|discriminate].
  destruct o as [ps [dl dof] rows sts st a b]. unfold ex_view in H. cbn [o_pts o_dnn o_states d_list d_offs] in H.
  assert (Eps : ps = ex_twin) by congruence. assert (Edl : dl = [2; 2; 0]) by congruence. assert (Edo : dof = [0; 1; 2; 3]) by congruence. assert (Est : sts = [0; 0; 0]) by congruence. clear H. subst. exists (mkOutcome arithQ ex_twin (mkDnn [2; 2; 0] [0; 1; 2; 3]) rows [0; 0; 0] st a b).
  split; [reflexivity|]. cbn [o_states o_pts o_dnn]. split; [reflexivity|]. split; [split; [repeat split|right; discriminate]|]. split.
  - do 2 eexists. exists (1 / 8, 1 / 2, 1 / 2)%R. split; [reflexivity|]. split; [reflexivity|]. unfold valp, val; simpl. unfold Q2R; simpl. split; [lra|]. split; [lra|].
    intros l r Hl N0 N1. pose proof (znth_some _ _ _ Hl) as R. change (zlen _) with 3 in R. assert (l = 2) by lia. subst l. cbv in Hl. injection Hl as <-. simpl; unfold Q2R; simpl. lra.
  - intros (sz & m & A & B & D). cbv in A. injection A as <-. assert (m = 0) by lia. subst m. cbv in D. discriminate.
Qed.
Print Assumptions C23_equal_points_refuted.
