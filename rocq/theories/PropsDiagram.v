(** C98: what a table of neighbours is good for, in single precision and on the device. *)
From Verif Require Import Base Arith PBase MUtils MXyz MDnn MArgs MTess Exact Arith32 SpecPoints SpecGeom SpecSort SpecVor SpecRows SpecNear SpecDev SpecSpread SpecParam SpecApi SpecSingle SpecRobust SpecText SpecFace SpecFew
  SpecDiagram PFloatRows PRobustRun PRobustLine PDiagram PDiagramRun PFewRun PropsFloat PropsNear PropsRobust PropsFew.
From Coq Require Import Reals Lra Lia Permutation.
Import SpecGeom.
Local Open Scope Z_scope.

(** ** C98.  For points in general position the table of face neighbours is a complete and
    minimal description of the Voronoi diagram ([diagram], SpecDiagram): the listed
    neighbours decide what is in a cell and none can be left out; nearest points are
    listed; any two points are connected by steps not longer than their distance; going
    to a nearer neighbour as long as there is one ends in the cell that contains the
    target; and removing a point changes the cells of its neighbours and no others. *)
Theorem C98_table : forall S rows, (forall r, In r S -> in_open_cube r) -> generic S -> face_rows S rows -> diagram S rows.
Proof. intros S rows HC HG HF. exact (table_diagram S rows HC (proj1 HF) HG HF). Qed.
Print Assumptions C98_table.
(** the rows of a call in single precision on points in robust position, with buffers for
    the cuts that occur *)
Theorem C98_single : forall c P0 (w : world arith32) M, few_cfg c (zlen P0) M -> Forall open01p P0 -> all_robust (map real_pt P0) -> few_near eps20 (map real_pt P0) M ->
  exists o, tess_core arith32 w c cpu P0 = Ok o /\ Permutation P0 (o_pts arith32 o) /\ face_rows (map real_pt (o_pts arith32 o)) (o_rows arith32 o) /\ diagram (map real_pt (o_pts arith32 o)) (o_rows arith32 o).
Proof. exact single_call. Qed.
Print Assumptions C98_single.
(** of the device *)
Theorem C98_device : forall c P0 (w : world arith32) r M M', float_cfg c (zlen P0) -> c_k c < zlen P0 -> c_recompute c = false -> Forall open01p P0 -> all_robust (map real_pt P0) ->
  covered (map real_pt P0) r -> crowd (map real_pt P0) (r + eps20 / 2) M' -> M' <= c_k c -> few_near eps20 (map real_pt P0) M -> roomy c M -> dev_ok c (zlen P0) -> w_gpu arith32 w = true ->
  exists o, tess_core arith32 w c gpu P0 = Ok o /\ Permutation P0 (o_pts arith32 o) /\ face_rows (map real_pt (o_pts arith32 o)) (o_rows arith32 o) /\ diagram (map real_pt (o_pts arith32 o)) (o_rows arith32 o).
Proof. exact device_call. Qed.
Print Assumptions C98_device.
(** of exact arithmetic; to find a cell general position is not needed *)
Theorem C98_exact : forall (N : Arith) (E : Exact N) (w : world N) c P0, enough N E c P0 -> generic (map (valp N E) P0) ->
  exists o, tess_core N w c cpu P0 = Ok o /\ Permutation P0 (o_pts N o) /\ face_rows (map (valp N E) (o_pts N o)) (o_rows N o) /\ diagram (map (valp N E) (o_pts N o)) (o_rows N o).
Proof. exact exact_call. Qed.
Print Assumptions C98_exact.
Theorem C98_exact_locate : forall (N : Arith) (E : Exact N) (w : world N) c P0, enough N E c P0 ->
  exists o, tess_core N w c cpu P0 = Ok o /\ Permutation P0 (o_pts N o) /\ can_locate (map (valp N E) (o_pts N o)) (o_rows N o).
Proof. exact exact_locate. Qed.
Print Assumptions C98_exact_locate.

(** Four points in a row and the rows of [C92_ex_run].  From the first point the last is
    reached in three steps. *)
Example C98_ex : few_cfg (mkCfg 1 2 8 12 1 1 false 0 true) (zlen (row24 4)) 2 /\ Forall open01p (row24 4) /\ all_robust (map real_pt (row24 4)) /\ few_near eps20 (map real_pt (row24 4)) 2.
Proof.
  pose proof (row24_line 4 ltac:(lia)) as L. split; [exact (proj1 C92_ex_run)|]. split; [apply row24_open; lia|]. split; [intros i _; eexists; apply on_line_robust; exact L|exact (on_line_few _ _ L)].
Qed.
Example C98_ex_walk : walk (neighbour (map real_pt (row24 4)) [[1]; [0; 2]; [3; 1]; [2]]) (1, 0, 0)%R (1 / 128, 1 / 4, 1 / 4)%R (4 / 128, 1 / 4, 1 / 4)%R.
Proof.
  assert (E : map real_pt (row24 4) = [(1 / 128, 1 / 4, 1 / 4); (2 / 128, 1 / 4, 1 / 4); (3 / 128, 1 / 4, 1 / 4); (4 / 128, 1 / 4, 1 / 4)]%R).
  { change (map real_pt (row24 4)) with (map real_pt (map (fun i => pt24 i 4194304 4194304) [131072; 262144; 393216; 524288])).
    cbn [map]. rewrite !real_pt24 by lia. repeat (apply f_equal2; [apply f_equal2; [apply f_equal2|]; lra|]). reflexivity. }
  rewrite E. apply walk_cons with (2 / 128, 1 / 4, 1 / 4)%R; [exists 0, 1, [1]; repeat split; now left|simpl; lra|].
  apply walk_cons with (3 / 128, 1 / 4, 1 / 4)%R; [exists 1, 2, [0; 2]; repeat split; right; now left|simpl; lra|].
  apply walk_cons with (4 / 128, 1 / 4, 1 / 4)%R; [exists 2, 3, [3; 1]; repeat split; now left|simpl; lra|]. constructor.
Qed.
