(** C87, C88: cells that do not fit into the buffers. *)
From Verif Require Import Base Arith MUtils MXyz MCell MDnn MArgs MTess Exact SpecDnn SpecGeom SpecSort SpecKnn SpecVor SpecRows SpecParam SpecArgs SpecApi SpecResult SpecCap SpecCert SpecCapEx
  ArithQ PExact PGeomFinal PCap PCapEx PropsTess PropsGeom.
From Coq Require Import Reals Lra Lia Permutation QArith.
Import SpecGeom.
Local Open Scope Z_scope.

(** ** C87.  [facets S i J W]: the cell of point i has a face with each point of J and one
    on each wall of W.  A convex body with f faces has at least 2 f - 4 triangles in its
    dual surface, so a cell that is reported as complete has no more faces than that. *)
Theorem C87_fits : forall (N : Arith) (E : Exact N) (w : world N) c P0 o, api_ok N E c P0 -> tess_core N w c cpu P0 = Ok o ->
  forall i b J W, znth (o_states N o) i = Some b -> validated (c_k c) (zlen P0) b -> facets (map (valp N E) (o_pts N o)) i J W ->
  2 * (zlen J + zlen W) - 4 <= c_tmax c /\ zlen J + 6 <= c_pmax c.
Proof. exact api_facets. Qed.
Print Assumptions C87_fits.
(** A cell with more of them is flagged, if k was large enough for it. *)
Theorem C87_flagged : forall (N : Arith) (E : Exact N) (w : world N) c P0 o, api_ok N E c P0 -> tess_core N w c cpu P0 = Ok o ->
  forall i b J W, znth (o_states N o) i = Some b -> facets (map (valp N E) (o_pts N o)) i J W ->
  c_tmax c < 2 * (zlen J + zlen W) - 4 \/ c_pmax c < zlen J + 6 -> zlen P0 - 1 <= c_k c \/ Z.testbit b 0 = true ->
  Z.testbit b 4 = true \/ Z.testbit b 5 = true.
Proof. exact api_flagged. Qed.
Print Assumptions C87_flagged.
(** Its row consists of the k nearest points, padded with 0. *)
Theorem C87_flagged_row : forall (N : Arith) (E : Exact N) (w : world N) c P0 o i b, api_ok N E c P0 -> tess_core N w c cpu P0 = Ok o -> znth (o_states N o) i = Some b -> ~ errorless b ->
  exists near, nearest (sqdist N E (o_pts N o) i) (fun q => 0 <= q < zlen P0 /\ q <> i) near /\ zlen near = Z.min (c_k c) (zlen P0 - 1) /\
    znth (o_rows N o) i = Some (near ++ repeat 0 (Z.to_nat (c_k c - zlen near))).
Proof. exact flagged_row. Qed.
Print Assumptions C87_flagged_row.
(** Without flag a row has at most t_maxsize / 2 + 2 and p_maxsize - 6 entries, k large or not. *)
Theorem C87_short : forall (N : Arith) (E : Exact N) (w : world N) c P0 o, api_ok N E c P0 -> tess_core N w c cpu P0 = Ok o ->
  forall i b row, znth (o_states N o) i = Some b -> errorless b -> znth (o_rows N o) i = Some row -> 2 * zlen row - 4 <= c_tmax c /\ zlen row + 6 <= c_pmax c.
Proof. exact api_row_len. Qed.
Print Assumptions C87_short.

(** The smallest buffers that are accepted: a point between two others, one plane too
    few for its two faces (k = 2, p_maxsize 7). *)
Example C87_ex : let P := [ptq 2 8 8; ptq 8 8 8; ptq 14 8 8] in api_ok arithQ arithQ_exact (mkCfg 2 1 7 10 1 1 false 0 false) P /\
  facets (map (valp arithQ arithQ_exact) P) 1 [0; 2] [2; 3; 4; 5] /\
  exists o, tess_core arithQ (ex_world [] 4 false) (mkCfg 2 1 7 10 1 1 false 0 false) cpu P = Ok o /\ o_pts arithQ o = P /\ o_states arithQ o = [0; 16; 0] /\ o_rows arithQ o = [[1]; [0; 2]; [1]].
Proof.
  cbv zeta. split; [|split].
  - unfold api_ok. split; [vm_compute; repeat split; discriminate|]. split; [reflexivity|]. split; [discriminate|]. split.
    + intros q Hq. simpl in Hq. destruct Hq as [<-|[<-|[<-|[]]]]; inq.
    + split; [reflexivity|]. split; [discriminate|]. split; [vm_compute; repeat split; discriminate|discriminate].
  - assert (E : map (valp arithQ arithQ_exact) [ptq 2 8 8; ptq 8 8 8; ptq 14 8 8] = [(1 / 8, 1 / 2, 1 / 2)%R; (1 / 2, 1 / 2, 1 / 2)%R; (7 / 8, 1 / 2, 1 / 2)%R]).
    { cbn [map]. assert (T : forall x y z x' y' z' : R, x = x' -> y = y' -> z = z' -> (x, y, z) = (x', y', z')) by congruence.
      f_equal; [|f_equal; [|f_equal]]; unfold valp, val, arithQ_exact, ptq, xq_val, Q2R; cbn [Qnum Qden]; apply T; lra. }
    rewrite E. split; [|split; [|split]].
    + repeat constructor; simpl; intuition discriminate.
    + repeat constructor; simpl; intuition discriminate.
    + assert (Z3 : forall l r, znth [(1 / 8, 1 / 2, 1 / 2)%R; (1 / 2, 1 / 2, 1 / 2)%R; (7 / 8, 1 / 2, 1 / 2)%R] l = Some r -> (l = 0 /\ r = (1 / 8, 1 / 2, 1 / 2)%R) \/ (l = 1 /\ r = (1 / 2, 1 / 2, 1 / 2)%R) \/ (l = 2 /\ r = (7 / 8, 1 / 2, 1 / 2)%R)).
      { intros l r H. pose proof (PBase.znth_some _ _ _ H) as B. change (0 <= l < 3) in B. assert (C : l = 0 \/ l = 1 \/ l = 2) by lia.
        destruct C as [->|[->| ->]]; injection H as <-; auto. }
      intros j [<-|[<-|[]]].
      * split; [|exists (1 / 2, 1 / 2, 1 / 2)%R, (1 / 8, 1 / 2, 1 / 2)%R; repeat split; intros [= H]; lra].
        exists (1 / 2, 1 / 2, 1 / 2)%R, (1 / 8, 1 / 2, 1 / 2)%R, (5 / 16, 1 / 2, 1 / 2)%R. split; [reflexivity|]. split; [reflexivity|]. split; [simpl; lra|]. split; [simpl; lra|].
        intros l r H. apply Z3 in H as [(-> & ->)|[(-> & ->)|(-> & ->)]]; try lia. intros _ _. simpl. lra.
      * split; [|exists (1 / 2, 1 / 2, 1 / 2)%R, (7 / 8, 1 / 2, 1 / 2)%R; repeat split; intros [= H]; lra].
        exists (1 / 2, 1 / 2, 1 / 2)%R, (7 / 8, 1 / 2, 1 / 2)%R, (11 / 16, 1 / 2, 1 / 2)%R. split; [reflexivity|]. split; [reflexivity|]. split; [simpl; lra|]. split; [simpl; lra|].
        intros l r H. apply Z3 in H as [(-> & ->)|[(-> & ->)|(-> & ->)]]; try lia. intros _ _. simpl. lra.
    + assert (WX : forall w x, on_wall w x -> (let '(a, b, c) := x in a = 1 / 2)%R -> wall_facet [(1 / 8, 1 / 2, 1 / 2)%R; (1 / 2, 1 / 2, 1 / 2)%R; (7 / 8, 1 / 2, 1 / 2)%R] 1 w).
      { intros w x O X. exists (1 / 2, 1 / 2, 1 / 2)%R, x. split; [reflexivity|]. split; [assumption|]. destruct x as [[a b] c]. subst a. intros l r H Nl. pose proof (PBase.znth_some _ _ _ H) as B. change (0 <= l < 3) in B.
        assert (C : l = 0 \/ l = 2) by lia. destruct C as [->| ->]; injection H as <-; simpl; lra. }
      intros w [<-|[<-|[<-|[<-|[]]]]].
      * apply (WX 2 (1 / 2, 0, 1 / 2)%R); [|reflexivity]. unfold on_wall. cbv zeta. right; right; left. repeat split; lra.
      * apply (WX 3 (1 / 2, 1, 1 / 2)%R); [|reflexivity]. unfold on_wall. cbv zeta. right; right; right; left. repeat split; lra.
      * apply (WX 4 (1 / 2, 1 / 2, 0)%R); [|reflexivity]. unfold on_wall. cbv zeta. right; right; right; right; left. repeat split; lra.
      * apply (WX 5 (1 / 2, 1 / 2, 1)%R); [|reflexivity]. unfold on_wall. cbv zeta. right; right; right; right; right. repeat split; lra.
  - eexists. split; [vm_compute; reflexivity|]. split; [reflexivity|]. split; reflexivity.
Qed.

(** ** C88.  Full statement: with the default parameters the rows of up to 65 points
    (k = 64) are complete.  True up to 13 points (C55_defaults).  With cc_t_maxsize = 32 every cell
    with 19 faces is flagged, and its row is no list of neighbours. *)
Theorem C88_nineteen : forall (N : Arith) (E : Exact N) (w : world N) P0 o i b J W, 1 <= w_hwc N w -> (forall q, In q P0 -> inside N E q) -> zlen P0 <= 100000 -> tesellate N w args_init cpu P0 = Ok o ->
  znth (o_states N o) i = Some b -> zlen P0 <= 65 \/ Z.testbit b 0 = true -> facets (map (valp N E) (o_pts N o)) i J W -> 19 <= zlen J + zlen W \/ 27 <= zlen J ->
  (Z.testbit b 4 = true \/ Z.testbit b 5 = true) /\
  exists near, nearest (sqdist N E (o_pts N o) i) (fun q => 0 <= q < zlen P0 /\ q <> i) near /\ zlen near = Z.min 64 (zlen P0 - 1) /\ znth (o_rows N o) i = Some (near ++ repeat 0 (Z.to_nat (64 - zlen near))).
Proof. exact default_flagged. Qed.
Print Assumptions C88_nineteen.
(** 14 points, in any order: the row of the centre lists all others, then point 0
    51 times (more often if the centre is not point 0) *)
Theorem C88_refuted : forall (N : Arith) (E : Exact N) (w : world N) P0, 1 <= w_hwc N w -> (forall q, In q P0 -> inside N E q) -> Permutation crowd_pts (map (valp N E) P0) ->
  exists o i b near, tesellate N w args_init cpu P0 = Ok o /\ znth (map (valp N E) (o_pts N o)) i = Some (1 / 2, 1 / 2, 1 / 2)%R /\
    znth (o_states N o) i = Some b /\ Z.testbit b 5 = true /\ Permutation (i :: near) (zrange 0 14) /\ znth (o_rows N o) i = Some (near ++ repeat 0 51) /\ ~ complete N E P0 o.
Proof. exact crowd_default. Qed.
Print Assumptions C88_refuted.
(** such points exist *)
Definition crowd_q : list (point arithQ) := map (fun p => let '(a, b, c) := p in ptq a b c) crowd.
Example C88_ex : (forall q, In q crowd_q -> inside arithQ arithQ_exact q) /\ Permutation crowd_pts (map (valp arithQ arithQ_exact) crowd_q) /\ zlen crowd_q = 14.
Proof.
  assert (G : forall a b c, valp arithQ arithQ_exact (ptq a b c) = upt 16 (a, b, c)).
  { intros a b c. unfold valp, val, arithQ_exact, ptq, xq_val, Q2R, upt. cbn [Qnum Qden]. reflexivity. }
  split; [|split; [|reflexivity]].
  - intros q Hq. simpl in Hq. repeat (destruct Hq as [<-|Hq]; [inq|]). destruct Hq.
  - unfold crowd_q, crowd_pts. rewrite map_map. replace (map (upt 16) crowd) with (map (fun x => valp arithQ arithQ_exact (let '(a, b, c) := x in ptq a b c)) crowd); [reflexivity|].
    apply map_ext. intros [[a b] c]. apply G.
Qed.
