(** C100: larger buffers. *)
From Verif Require Import Base Arith ArithQ PBase MUtils MXyz MDnn MArgs MTess Arith32 Exact SpecPoints SpecGeom SpecVor SpecRows SpecParam SpecSingle SpecRobust SpecRoom
  PCanon PRoom PropsCell PropsTess PropsGeom PropsRec PropsFull PropsCanon PropsFloat PropsNear PropsRobust PropsFew PropsUpdate.
From Coq Require Import Reals Lia Permutation.
Local Open Scope Z_scope.

(** ** C100.  Larger buffers should do no harm.  Refuted: three points in a row have exact rows
    with 8 planes, and with 255; with 256 planes (the counter of the boundary search has
    eight bits, C18) every cell is in error and the outer points list each other. *)
Definition planes (pm : Z) : cfg := mkCfg 2 1 pm 12 1 1 false 0 false.
Theorem C100_refuted : enough arithQ arithQ_exact (planes 8) ex_row /\ generic (map (valp arithQ arithQ_exact) ex_row) /\ more_room (planes 8) (planes 256) /\
  rows_of (tess_core arithQ (ex_world [] 4 false) (planes 8) cpu ex_row) = Some ([[1]; [0; 2]; [1]], [0; 0; 0]) /\
  rows_of (tess_core arithQ (ex_world [] 4 false) (planes 256) cpu ex_row) = Some ([[1; 2]; [0; 2]; [1; 0]], [66; 66; 66]).
Proof.
  split; [|split; [exact C52_generic_ex|split; [repeat split; discriminate|split; vm_compute; reflexivity]]].
  left. split; [|split; [split; discriminate|discriminate]]. unfold api_ok. split; [unfold cfg_ok; simpl; lia|]. split; [reflexivity|]. split; [discriminate|]. split.
  - intros q Hq. simpl in Hq. repeat (destruct Hq as [<-|Hq]; [inq|]). contradiction.
  - split; [reflexivity|]. split; [discriminate|]. split; [vm_compute; repeat split; discriminate|discriminate].
Qed.
Print Assumptions C100_refuted.
(** the same for triangles: their number is narrowed to 16 bits, and 65536 of them are none *)
Definition triangles (tm : Z) : cfg := mkCfg 2 1 8 tm 1 1 false 0 false.
Theorem C100_triangles_refuted : enough arithQ arithQ_exact (triangles 12) ex_row /\ generic (map (valp arithQ arithQ_exact) ex_row) /\ more_room (triangles 12) (triangles 65536) /\ fits (triangles 65536) 3 /\
  rows_of (tess_core arithQ (ex_world [] 4 false) (triangles 65536) cpu ex_row) = Some ([[1; 2]; [0; 2]; [1; 0]], [2 ^ error_t_overflow; 2 ^ error_t_overflow; 2 ^ error_t_overflow]).
Proof.
  split; [exact (proj1 C100_refuted)|]. split; [exact C52_generic_ex|]. split; [repeat split; discriminate|]. split; [vm_compute; repeat split; discriminate|]. vm_compute. reflexivity.
Qed.
Print Assumptions C100_triangles_refuted.
(** and for planes beyond 65535: 65542 of them are six, those of the cube, and 65544 are eight *)
Theorem C100_planes_refuted : enough arithQ arithQ_exact (planes 8) ex_row /\ more_room (planes 8) (planes 65542) /\ fits (planes 65542) 3 /\
  rows_of (tess_core arithQ (ex_world [] 4 false) (planes 65542) cpu ex_row) = Some ([[1; 2]; [0; 2]; [1; 0]], [2 ^ error_p_overflow; 2 ^ error_p_overflow; 2 ^ error_p_overflow]) /\
  rows_of (tess_core arithQ (ex_world [] 4 false) (planes 65544) cpu ex_row) = Some ([[1]; [0; 2]; [1]], [0; 0; 0]).
Proof.
  split; [exact (proj1 C100_refuted)|]. split; [repeat split; discriminate|]. split; [vm_compute; repeat split; discriminate|]. split; vm_compute; reflexivity.
Qed.
Print Assumptions C100_planes_refuted.
(** in single precision; use_recompute does not help *)
Theorem C100_single_refuted : more_room (mkCfg 1 2 8 12 1 1 false 0 true) (mkCfg 1 2 256 12 1 1 false 0 true) /\
  rows32 (tess_core arith32 (w32 []) (mkCfg 1 2 8 12 1 1 false 0 true) cpu ex_fline) = Some ([[1]; [0; 2]; [1]], [0; 0; 0]) /\
  rows32 (tess_core arith32 (w32 []) (mkCfg 1 2 256 12 1 1 false 0 true) cpu ex_fline) = Some ([[1; 2]; [0; 2]; [1; 0]], [66; 66; 66]).
Proof. split; [repeat split; discriminate|split; vm_compute; reflexivity]. Qed.
Print Assumptions C100_single_refuted.
(** Up to 255 planes and 65535 triangles it is true, for points in general position and
    exact arithmetic, and for points in robust position and single precision. *)
Theorem C100_harmless : forall (N : Arith) (E : Exact N) (w w' : world N) c c' P0, enough N E c P0 -> more_room c c' -> c_pmax c' <= 255 -> c_tmax c' <= 65535 -> fits c' (zlen P0) -> generic (map (valp N E) P0) ->
  exists o o', tess_core N w c cpu P0 = Ok o /\ tess_core N w' c' cpu P0 = Ok o' /\
  forall p q, neighbour (map (valp N E) (o_pts N o)) (o_rows N o) p q <-> neighbour (map (valp N E) (o_pts N o')) (o_rows N o') p q.
Proof. exact room_exact_calls. Qed.
Print Assumptions C100_harmless.
Theorem C100_single : forall c c' P0 M (w w' : world arith32), single_ok c P0 M -> more_room c c' -> c_pmax c' <= 255 -> c_tmax c' <= 65535 -> fits c' (zlen P0) -> zlen P0 * c_pmax c' * 4 <= int_max -> zlen P0 * c_tmax c' * 3 <= int_max ->
  exists o o', tess_core arith32 w c cpu P0 = Ok o /\ tess_core arith32 w' c' cpu P0 = Ok o' /\
  forall p q, neighbour (map real_pt (o_pts arith32 o)) (o_rows arith32 o) p q <-> neighbour (map real_pt (o_pts arith32 o')) (o_rows arith32 o') p q.
Proof. exact room_single_calls. Qed.
Print Assumptions C100_single.
(** 8 planes and 255; with 255 the rows of [C100_refuted] are right *)
Example C100_ex : more_room (planes 8) (planes 255) /\ fits (planes 255) 3 /\ single_ok ex_cfg1 (row24 3) 2 /\ more_room ex_cfg1 (mkCfg 1 2 255 65535 1 1 false 0 true) /\ fits (mkCfg 1 2 255 65535 1 1 false 0 true) 3 /\ rows_of (tess_core arithQ (ex_world [] 4 false) (planes 255) cpu ex_row) = Some ([[1]; [0; 2]; [1]], [0; 0; 0]).
Proof.
  split; [repeat split; discriminate|]. split; [vm_compute; repeat split; discriminate|]. split; [exact (proj1 C99_ex_removal)|]. split; [repeat split; discriminate|]. split; [vm_compute; repeat split; discriminate|]. vm_compute. reflexivity.
Qed.
