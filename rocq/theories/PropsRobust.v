(** C82: exact rows from single precision, for points in robust position. *)
From Verif Require Import Base Arith PBase Prog MUtils MHeap MXyz MKnn MBoundary MCell MDnn MArgs MTess Arith32 SpecGeom SpecHeap SpecVor SpecKnn SpecRows SpecAny SpecDev SpecFlags SpecNear SpecRobust
  PXyz PFloat POrder PSlotHost PTessRun PTessFinal PRec PRecFinal PKnnAny PRowsAny PDist32 PFloatRows PNearRows PGpu32 PNoFailApi PRobustLine PRobustRun PropsFloat PropsNear PropsGpu32.
From Flocq Require Import IEEE754.BinarySingleNaN.
From Coq Require Import Reals Lra Permutation.
Import SpecGeom.
Local Open Scope Z_scope.

(** ** C82.  C63 is refuted: in single precision rows may differ from the true
    neighbours.  They do not differ for a point in robust position: when every corner
    that the nearest points can cut out keeps the distance 2^-16 / (rho D) from the
    bisector planes of the points still to come, each of the roundings in the distance,
    the plane, the corner and its side falls short of turning a comparison.  The walk
    then cuts exactly the corners the exact walk cuts, no corner is lost, and a
    validated row is the row of the true Voronoi cell of the floats as real numbers. *)
Theorem C82_robust : forall c P0 (w : world arith32), float_ok c P0 -> c_k c < zlen P0 -> c_recompute c = false ->
  exists o, tess_core arith32 w c cpu P0 = Ok o /\ Permutation P0 (o_pts arith32 o) /\ zlen (o_rows arith32 o) = zlen P0 /\ zlen (o_states arith32 o) = zlen P0 /\
  forall i row b rho, znth (o_rows arith32 o) i = Some row -> znth (o_states arith32 o) i = Some b -> robust (map real_pt (o_pts arith32 o)) i rho ->
    (Z.testbit b 1 = false /\ Z.testbit b 6 = false) /\ (roomy c (c_k c) -> errorless b) /\ (validated (c_k c) (zlen P0) b -> exact_cell (map real_pt (o_pts arith32 o)) i row).
Proof. intros c P0 w HF Kn. exact (robust_plain c P0 HF Kn w). Qed.
Print Assumptions C82_robust.

(** with recompute, for the points that end without an error *)
Theorem C82_recompute : forall r c P0 (w : world arith32), float_ok c P0 -> c_k c < zlen P0 -> c_recompute c = true -> rec_ok r c (zlen P0) ->
  exists o, tess_core arith32 w c cpu P0 = Ok o /\ Permutation P0 (o_pts arith32 o) /\ zlen (o_rows arith32 o) = zlen P0 /\ zlen (o_states arith32 o) = zlen P0 /\
  forall i row b rho, znth (o_rows arith32 o) i = Some row -> znth (o_states arith32 o) i = Some b -> robust (map real_pt (o_pts arith32 o)) i rho ->
    errorless b -> exact_cell (map real_pt (o_pts arith32 o)) i row.
Proof. intros r c P0 w HF Kn. exact (robust_rec c P0 HF Kn r w). Qed.
Print Assumptions C82_recompute.

(** all points robust and room for the cells: the whole diagram, no error anywhere *)
Theorem C82_all : forall c P0 (w : world arith32), float_ok c P0 -> c_k c < zlen P0 -> roomy c (zlen P0 - 1) -> (c_recompute c = true \/ zlen P0 - 1 <= c_k c) ->
  (forall i, 0 <= i < zlen P0 -> exists rho, robust (map real_pt P0) i rho) ->
  exists o, tess_core arith32 w c cpu P0 = Ok o /\ Permutation P0 (o_pts arith32 o) /\ zlen (o_rows arith32 o) = zlen P0 /\ zlen (o_states arith32 o) = zlen P0 /\
  forall i row b, znth (o_rows arith32 o) i = Some row -> znth (o_states arith32 o) i = Some b -> errorless b /\ exact_cell (map real_pt (o_pts arith32 o)) i row.
Proof. intros c P0 w HF Kn. exact (robust_all c P0 HF Kn w). Qed.
Print Assumptions C82_all.

(** on the device *)
Theorem C82_device : forall c P0 (w : world arith32), float_ok c P0 -> c_k c < zlen P0 -> dev_ok c (zlen P0) -> c_recompute c = false -> w_gpu arith32 w = true ->
  exists o, tess_core arith32 w c gpu P0 = Ok o /\ Permutation P0 (o_pts arith32 o) /\ zlen (o_rows arith32 o) = zlen P0 /\ zlen (o_states arith32 o) = zlen P0 /\
  forall i row b rho, clean arith32 w [security_radius_reached] i -> znth (o_rows arith32 o) i = Some row -> znth (o_states arith32 o) i = Some b -> robust (map real_pt (o_pts arith32 o)) i rho ->
    validated (c_k c) (zlen P0) b -> exact_cell (map real_pt (o_pts arith32 o)) i row.
Proof. intros c P0 w HF Kn. exact (robust_gpu c P0 HF Kn w). Qed.
Print Assumptions C82_device.

Theorem C82_device_recompute : forall r c P0 (w : world arith32), float_ok c P0 -> c_k c < zlen P0 -> dev_ok c (zlen P0) -> c_recompute c = true -> rec_ok r c (zlen P0) -> w_gpu arith32 w = true ->
  exists o, tess_core arith32 w c gpu P0 = Ok o /\ Permutation P0 (o_pts arith32 o) /\ zlen (o_rows arith32 o) = zlen P0 /\ zlen (o_states arith32 o) = zlen P0 /\
  forall i row b rho, clean arith32 w [security_radius_reached] i -> znth (o_rows arith32 o) i = Some row -> znth (o_states arith32 o) i = Some b -> robust (map real_pt (o_pts arith32 o)) i rho ->
    errorless b -> exact_cell (map real_pt (o_pts arith32 o)) i row.
Proof. intros r c P0 w HF Kn. exact (robust_gpu_rec c P0 HF Kn r w). Qed.
Print Assumptions C82_device_recompute.

(** robust position does occur: any number of points on a line parallel to the first
    axis, 2^-7.5 or more apart *)
Theorem C82_line : forall c P0 (w : world arith32) d, float_ok c P0 -> c_k c < zlen P0 -> roomy c (zlen P0 - 1) -> (c_recompute c = true \/ zlen P0 - 1 <= c_k c) ->
  on_line d (map real_pt P0) ->
  exists o, tess_core arith32 w c cpu P0 = Ok o /\ Permutation P0 (o_pts arith32 o) /\ zlen (o_rows arith32 o) = zlen P0 /\ zlen (o_states arith32 o) = zlen P0 /\
  forall i row b, znth (o_rows arith32 o) i = Some row -> znth (o_states arith32 o) i = Some b -> errorless b /\ exact_cell (map real_pt (o_pts arith32 o)) i row.
Proof. intros c P0 w d HF Kn Ro Hk HL. exact (robust_all c P0 HF Kn w Ro Hk (fun i _ => ex_intro _ d (on_line_robust d _ HL i))). Qed.
Print Assumptions C82_line.

(** the three points of C79_line, on the line y = z = 1/4 *)
Example C82_case : float_ok (cfg32g 2) ex_fline /\ c_k (cfg32g 2) < zlen ex_fline /\ roomy (cfg32g 2) (zlen ex_fline - 1) /\ on_line (1 / 8) (map real_pt ex_fline) /\
  view32 (tess_core arith32 (w32 []) (cfg32g 2) cpu ex_fline) = Some (map bits ex_fline, [[1]; [0; 2]; [1]], [0; 0; 0]).
Proof.
  split; [float_case ltac:(by24)|]. split; [reflexivity|]. split; [vm_compute; split; discriminate|]. split; [|vm_compute; reflexivity].
  split; [lra|]. split; [lra|]. exists (1 / 4)%R, (1 / 4)%R. unfold ex_fline. cbn [map]. rewrite !real_pt24 by lia.
  assert (Q : forall j q, znth [(4194304 / 16777216, 4194304 / 16777216, 4194304 / 16777216); (8388608 / 16777216, 4194304 / 16777216, 4194304 / 16777216); (14680064 / 16777216, 4194304 / 16777216, 4194304 / 16777216)]%R j = Some q ->
    exists t, q = (t, 1 / 4, 1 / 4)%R /\ (j = 0 /\ t = (1 / 4)%R \/ j = 1 /\ t = (1 / 2)%R \/ j = 2 /\ t = (7 / 8)%R)).
  { intros j q H. pose proof (znth_some _ _ _ H) as Hj. unfold zlen in Hj. simpl in Hj. assert (C : j = 0 \/ j = 1 \/ j = 2) by lia.
    destruct C as [->|[->| ->]]; injection H as <-; eexists; (split; [f_equal; [f_equal|]; lra|]); [left|right; left|right; right]; (split; [reflexivity|lra]). }
  split.
  - intros j q H. destruct (Q j q H) as (t & -> & C). exists t. split; [reflexivity|]. destruct C as [(_ & ->)|[(_ & ->)|(_ & ->)]]; lra.
  - intros i j t t' Nij Hi Hj. destruct (Q i _ Hi) as (u & E & C). injection E as ->. destruct (Q j _ Hj) as (v & E & C'). injection E as ->.
    destruct C as [(-> & ->)|[(-> & ->)|(-> & ->)]]; destruct C' as [(-> & ->)|[(-> & ->)|(-> & ->)]]; try contradiction; split_Rabs; lra.
Qed.
(** the same points with one neighbour asked for and recompute, on both paths *)
Example C82_recompute_case : float_ok cfg32r ex_fline /\ dev_ok cfg32r 3 /\ rec_ok 1 cfg32r 3 /\ c_k cfg32r < 3 /\ roomy cfg32r 2 /\ clean arith32 (g32 [] 0) [security_radius_reached] 1 /\
  rows32 (tess_core arith32 (w32 []) cfg32r cpu ex_fline) = Some ([[1]; [0; 2]; [1]], [0; 0; 0]) /\
  rows32 (tess_core arith32 (g32 [1; 1; 2; 0]%nat 0) cfg32r gpu ex_fline) = Some ([[1]; [0; 2]; [1]], [0; 0; 0]).
Proof.
  split; [float_case ltac:(by24)|]. split; [vm_compute; repeat split; try discriminate; now left|]. split; [vm_compute; repeat split; discriminate|]. split; [reflexivity|]. split; [vm_compute; split; discriminate|].
  split; [repeat constructor|]. split; vm_compute; reflexivity.
Qed.
