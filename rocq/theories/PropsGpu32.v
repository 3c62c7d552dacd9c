(** C80: the device path in single precision. *)
From Verif Require Import Base Arith PBase Prog MUtils MHeap MXyz MKnn MBoundary MCell MDnn MArgs MTess Arith32 SpecGeom SpecHeap SpecVor SpecKnn SpecRows SpecAny SpecDev SpecFlags
  PXyz PFloat POrder PSlotHost PTessRun PTessFinal PRec PRecFinal PKnnAny PRowsAny PDist32 PFloatRows PNearRows PGpu32 PropsFloat PropsNear.
From Flocq Require Import IEEE754.BinarySingleNaN.
From Coq Require Import Reals Lra Permutation Sorting.Sorted.
Import SpecGeom.
Local Open Scope Z_scope.

(** ** C80.  C37 without exact arithmetic: in single precision, for points strictly
    inside the cube and one chunk, the call on the device returns the points, rows and
    neighbour object of the call on the CPU, bit for bit.  The device selects by
    multiplying with 0 and 1 and starts from 128 instead of infinity; neither changes a
    comparison.  A state flag set on the CPU is set on the device. *)
Theorem C80_device_rows : forall (w : world arith32) c P0, float_ok c P0 -> dev_ok c (zlen P0) -> c_recompute c = false -> w_gpu arith32 w = true ->
  exists o o', tess_core arith32 w c cpu P0 = Ok o /\ tess_core arith32 w c gpu P0 = Ok o' /\ o_pts arith32 o' = o_pts arith32 o /\ o_rows arith32 o' = o_rows arith32 o /\ o_dnn arith32 o' = o_dnn arith32 o /\
    (forall x s s', znth (o_states arith32 o) x = Some s -> znth (o_states arith32 o') x = Some s' ->
         forall f, In f flags -> (st_get s f = true -> st_get s' f = true) /\
           (st_get s' f = true -> st_get s f = true \/ st_get (w8 (jZ arith32 (w_junk arith32 w) x)) f = true)) /\
    ((forall x, jZ arith32 (w_junk arith32 w) x = st_init) -> o' = o).
Proof. exact gpu_single. Qed.
Print Assumptions C80_device_rows.

(** device states that happen to be zero: the two calls are the same, recompute or not *)
Theorem C80_zero_states : forall (w : world arith32) c P0, float_ok c P0 -> dev_ok c (zlen P0) -> (forall x, jZ arith32 (w_junk arith32 w) x = st_init) ->
  tess_core arith32 w c gpu P0 = tess_core arith32 w c cpu P0.
Proof. exact gpu_single_zero. Qed.
Print Assumptions C80_zero_states.

(** so C79 holds on the device: the candidates are the nearest points up to 2^-20 *)
Theorem C80_nearest : forall (w : world arith32) c P0, float_ok c P0 -> dev_ok c (zlen P0) -> c_recompute c = false -> c_k c < zlen P0 -> w_gpu arith32 w = true ->
  exists o, tess_core arith32 w c gpu P0 = Ok o /\ Permutation P0 (o_pts arith32 o) /\ zlen (o_rows arith32 o) = zlen P0 /\
  forall i row, znth (o_rows arith32 o) i = Some row -> exists near, zlen near = c_k c /\
    nearest_within eps20 (real_dist (o_pts arith32 o) i) (others (zlen P0) i) near /\ incl row near /\ ordered_within eps20 (real_dist (o_pts arith32 o) i) row.
Proof. exact gpu_near. Qed.
Print Assumptions C80_nearest.

(** three points, work items interleaved, and the same points with rows on the CPU; the
    device states are made from what was in memory *)
Definition g32 (s : list nat) (z : Z) : world arith32 := mkWorld arith32 (fun _ => s) (fun _ => s) (fun _ => s) 4 true (mkJunk arith32 (fun _ => fofZ arith32 77) (fun i => i * z)).
Example C80_case : float_ok (cfg32 2) ex_f3 /\ dev_ok (cfg32 2) 3 /\
  rows32 (tess_core arith32 (g32 [2; 0; 1; 1; 0; 2; 2]%nat 7) (cfg32 2) gpu ex_f3) = Some ([[1]; [2; 0]; [1; 0]], [0; 7; 6]) /\
  rows32 (tess_core arith32 (g32 [] 0) (cfg32 2) gpu ex_f3) = Some ([[1]; [2; 0]; [1; 0]], [0; 0; 0]).
Proof. split; [float_case ltac:(by10)|]. split; [vm_compute; repeat split; try discriminate; now left|]. split; vm_compute; reflexivity. Qed.
Example C80_nearest_case : float_ok (cfg32g 1) ex_fline /\ dev_ok (cfg32g 1) 3 /\
  rows32 (tess_core arith32 (g32 [1; 1; 2; 0]%nat 0) (cfg32g 1) gpu ex_fline) = Some ([[1]; [0]; [1]], [0; 0; 0]).
Proof. split; [float_case ltac:(by24)|]. split; [vm_compute; repeat split; try discriminate; now left|]. vm_compute; reflexivity. Qed.
