(** C81: use_recompute with device gpu. *)
From Verif Require Import Base Arith PBase Prog MUtils MHeap MXyz MKnn MBoundary MCell MDnn MArgs MTess Exact ArithQ PExact Arith32 SpecGeom SpecHeap SpecVor SpecKnn SpecRows SpecAny SpecDev
  PXyz PFloat POrder PSlotHost PTessRun PTessFinal PRec PRecFinal PKnnAny PRowsAny PDist32 PFloatRows PNearRows PGeomFinal PNoFailApi PExactApi PGpuRec PGpuRec32 PropsCell PropsTess PropsGeom PropsRec PropsGpu PropsFloat PropsNear PropsGpu32.
From Flocq Require Import IEEE754.BinarySingleNaN.
From Coq Require Import Reals Lra Permutation.
Import SpecGeom.
Local Open Scope Z_scope.

(** ** C81.  The device does not initialise the cell states (C37), and the recompute
    loop takes the cells to be repeated from them.  Exact arithmetic, one chunk,
    parameters as for C29: whatever the memory held, the call returns, and each cell
    whose leftover byte does not have bit 0 has its complete row. *)
Theorem C81_rows : forall (N : Arith) (E : Exact N) r (w : world N) c P0, api_rec N E r c P0 -> dev_ok c (zlen P0) -> w_gpu N w = true ->
  exists o, tess_core N w c gpu P0 = Ok o /\ Permutation P0 (o_pts N o) /\ zlen (o_rows N o) = zlen P0 /\ zlen (o_states N o) = zlen P0 /\ shows (o_dnn N o) (o_rows N o) /\
  forall i row b, clean N w [security_radius_reached] i -> znth (o_rows N o) i = Some row -> znth (o_states N o) i = Some b -> errorless b -> exact_row (map (valp N E) (o_pts N o)) i row.
Proof. exact gpu_rec_rows. Qed.
Print Assumptions C81_rows.

(** Memory without the bits for "radius reached" and the two overflows: the call is the
    same as on the CPU, states and statistics included, for any parameters of the CPU
    path that fit the device (also where recompute fails). *)
Theorem C81_same : forall (N : Arith) (E : Exact N) (w : world N) c P0, cfg_ok c -> 0 < c_gr c -> c_gr c * c_gr c * c_gr c <= int_max -> (forall q, In q P0 -> inside N E q) ->
  c_recompute c = true -> 1 <= c_nthreads c -> fits c (zlen P0) -> dev_ok c (zlen P0) -> (forall x, 0 <= x < zlen P0 -> clean N w rec_flags x) ->
  tess_core N w c gpu P0 = tess_core N w c cpu P0.
Proof. exact gpu_rec_same. Qed.
Print Assumptions C81_same.

(** the same in single precision, for points strictly inside the cube *)
Theorem C81_single_same : forall (w : world arith32) c P0, float_ok c P0 -> dev_ok c (zlen P0) -> c_recompute c = true -> (forall x, 0 <= x < zlen P0 -> clean arith32 w rec_flags x) ->
  tess_core arith32 w c gpu P0 = tess_core arith32 w c cpu P0.
Proof. exact single_rec_same. Qed.
Print Assumptions C81_single_same.

(** and C79 with recompute on the device, whatever the memory held *)
Theorem C81_single_nearest : forall r (w : world arith32) c P0, float_ok c P0 -> dev_ok c (zlen P0) -> c_recompute c = true -> rec_ok r c (zlen P0) -> c_k c < zlen P0 -> w_gpu arith32 w = true ->
  exists o, tess_core arith32 w c gpu P0 = Ok o /\ Permutation P0 (o_pts arith32 o) /\ zlen (o_rows arith32 o) = zlen P0 /\
  forall i row, znth (o_rows arith32 o) i = Some row -> exists near, c_k c <= zlen near < zlen P0 /\
    nearest_within eps20 (real_dist (o_pts arith32 o) i) (others (zlen P0) i) near /\ incl row near /\ ordered_within eps20 (real_dist (o_pts arith32 o) i) row.
Proof. exact single_rec_near. Qed.
Print Assumptions C81_single_nearest.

(** The row of three points, k = 1.  Bytes 0, 7, 14: point 1 has bit 0 and keeps one
    neighbour, the rows of 0 and 2 are complete.  Bytes 0, 48, 96: overflow bits, all
    rows are complete. *)
Definition jw (z : Z) : world arithQ := mkWorld arithQ (fun _ => []) (fun _ => []) (fun _ => []) 4 true (mkJunk arithQ (fun _ => fofZ arithQ 77) (fun i => i * z)).
Definition all_of (r : res (outcome arithQ)) : option (list (list Z) * list Z) := match r with Ok o => Some (o_rows _ o, o_states _ o) | Err _ => None end.
Example C81_case : api_rec arithQ arithQ_exact 1 ex_rec_cfg ex_row /\ dev_ok ex_rec_cfg (zlen ex_row) /\
  clean arithQ (jw 7) [security_radius_reached] 0 /\ clean arithQ (jw 7) [security_radius_reached] 2 /\
  all_of (tess_core arithQ (jw 7) ex_rec_cfg gpu ex_row) = Some ([[1]; [0]; [1]], [0; 0; 0]) /\
  all_of (tess_core arithQ (jw 48) ex_rec_cfg gpu ex_row) = Some ([[1]; [0; 2]; [1]], [0; 0; 0]).
Proof.
  split; [apply C29_hypotheses_ex|]. split; [vm_compute; repeat split; try discriminate; now left|].
  split; [intros f [<-|[]]; reflexivity|]. split; [intros f [<-|[]]; reflexivity|]. split; vm_compute; reflexivity.
Qed.
(** bytes 0, 6, 12: no bit that recompute reads; the states of the first run are not those of the CPU *)
Example C81_same_case : cfg_ok ex_rec_cfg /\ fits ex_rec_cfg 3 /\ (forall x, 0 <= x < 3 -> clean arithQ (jw 6) rec_flags x) /\
  all_of (tess_core arithQ (jw 6) ex_rec_cfg gpu ex_row) = Some ([[1]; [0; 2]; [1]], [0; 0; 0]) /\
  all_of (tess_core arithQ (jw 6) (mkCfg 1 1 9 14 2 1 false 0 false) gpu ex_row) = Some ([[1]; [0]; [1]], [0; 6; 4]).
Proof.
  split; [vm_compute; repeat split; discriminate|]. split; [vm_compute; repeat split; discriminate|]. split; [|split; vm_compute; reflexivity].
  intros x Hx f Hf. assert (C : x = 0 \/ x = 1 \/ x = 2) by lia. simpl in Hf. destruct C as [->|[->| ->]]; intuition; subst f; reflexivity.
Qed.
Example C81_single_case : float_ok cfg32r ex_f3 /\ dev_ok cfg32r 3 /\ rec_ok 1 cfg32r 3 /\ c_k cfg32r < 3 /\
  (forall x, 0 <= x < 3 -> clean arith32 (g32 [] 6) rec_flags x).
Proof.
  split; [float_case ltac:(by10)|]. split; [vm_compute; repeat split; try discriminate; now left|]. split; [vm_compute; repeat split; discriminate|]. split; [reflexivity|].
  intros x Hx f Hf. assert (C : x = 0 \/ x = 1 \/ x = 2) by lia. simpl in Hf. destruct C as [->|[->| ->]]; intuition; subst f; reflexivity.
Qed.
