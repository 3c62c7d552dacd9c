(** C62, C63: the rows of a run in single precision (the command line and the Python
    module use float), and how they can differ from the exact tessellation of the
    same points. *)
From Verif Require Import Base Arith PBase Prog MUtils MHeap MXyz MKnn MBoundary MCell MDnn MArgs MTess Arith32 SpecGeom SpecHeap SpecVor SpecRows SpecAny
  PXyz PFloat POrder PSlotHost PTessRun PTessFinal PRec PRecFinal PKnnAny PRowsAny PDist32 PFloatRows.
From Flocq Require Import IEEE754.BinarySingleNaN.
From Coq Require Import Reals Lra Permutation Sorting.Sorted.
Import SpecGeom.
Local Open Scope Z_scope.

(** ** C62.  Rows in single precision: with k < n every row, also that of a cell with
    an error flag, names at most k different points, none of them its own, in the order
    of the computed distances.  The call returns.  [float_ok]: parameters in range, points
    in the open cube, a resolution without the defect of C05, buffers below 2^31. *)
Theorem C62_float32_rows : forall (w : world arith32) c P0, float_ok c P0 -> c_recompute c = false -> c_k c < zlen P0 ->
  exists o, tess_core arith32 w c cpu P0 = Ok o /\ Permutation P0 (o_pts arith32 o) /\ zlen (o_rows arith32 o) = zlen P0 /\ shows (o_dnn arith32 o) (o_rows arith32 o) /\
  forall i row, znth (o_rows arith32 o) i = Some row -> index_row (zlen P0) i (c_k c) row /\ by_distance arith32 (o_pts arith32 o) i row.
Proof. exact float_rows. Qed.
Print Assumptions C62_float32_rows.

(** the same with recompute (rec_ok as in C28); rows can then have up to n - 1 entries *)
Theorem C62_float32_recompute : forall r (w : world arith32) c P0, float_ok c P0 -> c_recompute c = true -> rec_ok r c (zlen P0) -> c_k c < zlen P0 ->
  exists o, tess_core arith32 w c cpu P0 = Ok o /\ Permutation P0 (o_pts arith32 o) /\ zlen (o_rows arith32 o) = zlen P0 /\ shows (o_dnn arith32 o) (o_rows arith32 o) /\
  forall i row, znth (o_rows arith32 o) i = Some row -> index_row (zlen P0) i (zlen P0 - 1) row /\ by_distance arith32 (o_pts arith32 o) i row.
Proof. exact float_rec. Qed.
Print Assumptions C62_float32_recompute.

(** and for any arithmetic whose comparison is a weak order on the distances that occur
    (any_ok); without k < n the entries are still indices of points, at most k of them *)
Theorem C62_any_rows : forall (N : Arith) S (w : world N) c P0, any_ok N S c P0 -> c_recompute c = false ->
  exists o, tess_core N w c cpu P0 = Ok o /\ Permutation P0 (o_pts N o) /\ zlen (o_rows N o) = zlen P0 /\ shows (o_dnn N o) (o_rows N o) /\
  forall i row, znth (o_rows N o) i = Some row -> (forall j, In j row -> 0 <= j < zlen P0) /\ zlen row <= c_k c /\
    (c_k c <= zlen P0 - 1 -> index_row (zlen P0) i (c_k c) row /\ by_distance N (o_pts N o) i row).
Proof. exact plain_any. Qed.
Print Assumptions C62_any_rows.

(** *** cases *)
Definition w32 (s : list nat) : world arith32 := mkWorld arith32 (fun _ => s) (fun _ => s) (fun _ => s) 4 false (mkJunk arith32 (fun _ => fofZ arith32 77) (fun i => i * 7)).
(** a / 10, rounded *)
Definition tenth (a : Z) : f32 := fdiv arith32 (fofZ arith32 a) (fofZ arith32 10).
Definition pt10 (a b c : Z) : point arith32 := (tenth a, tenth b, tenth c).
Definition cfg32 (k : Z) : cfg := mkCfg k 1 16 32 1 1 false 0 false.
Definition rows32 (r : res (outcome arith32)) : option (list (list Z) * list Z) := match r with Ok o => Some (o_rows _ o, o_states _ o) | Err _ => None end.
Definition ex_f3 : list (point arith32) := [pt10 1 3 3; pt10 5 7 5; pt10 7 9 3].
Example C62_case : float_ok (cfg32 2) ex_f3 /\ rows32 (tess_core arith32 (w32 []) (cfg32 2) cpu ex_f3) = Some ([[1]; [2; 0]; [1; 0]], [0; 0; 0]).
Proof. split; [float_case ltac:(by10)|vm_compute; reflexivity]. Qed.
Definition cfg32r : cfg := mkCfg 1 1 16 32 1 1 false 0 true.
Example C62_recompute_case : float_ok cfg32r ex_f3 /\ rec_ok 1 cfg32r 3 /\
  rows32 (tess_core arith32 (w32 []) cfg32r cpu ex_f3) = Some ([[1]; [2; 0]; [1; 0]], [0; 0; 0]).
Proof. split; [float_case ltac:(by10)|]. split; [vm_compute; repeat split; discriminate|vm_compute; reflexivity]. Qed.

(** k >= n: two points, k = 3.  The candidate list is padded with index 0, and in row 1
    the rounded second cut by the bisector with point 0 cuts again: 0 is listed twice. *)
Definition ex_fdup : list (point arith32) := [pt10 5 3 4; pt10 7 9 3].
Theorem C62_refuted : float_ok (cfg32 3) ex_fdup /\ rows32 (tess_core arith32 (w32 []) (cfg32 3) cpu ex_fdup) = Some ([[1]; [0; 0]], [0; 0]).
Proof. split; [float_case ltac:(by10)|vm_compute; reflexivity]. Qed.
Print Assumptions C62_refuted.

(** ** C63.  "A run in single precision finds the exact tessellation of the floats it is
    given" (C10, C22, C23, C46 for float) is false in each of its parts. *)
(** a run without flags whose row 0 lacks point 2, with which cell 0 shares a face *)
Definition ex_fmiss : list (point arith32) := [pt24 4194304 4194305 12582913; pt24 4194305 4194306 12582912; pt24 12582913 4194306 12582911].
Theorem C63_missing_refuted : float_ok (cfg32 2) ex_fmiss /\ face (map real_pt ex_fmiss) 0 2 /\
  view32 (tess_core arith32 (w32 []) (cfg32 2) cpu ex_fmiss) = Some (map bits ex_fmiss, [[1]; [0; 2]; [1]], [0; 0; 0]).
Proof.
  split; [float_case ltac:(by24)|]. split; [|vm_compute; reflexivity].
  unfold ex_fmiss. cbn [map]. rewrite !real_pt24 by lia.
  exists (4194304 / 16777216, 4194305 / 16777216, 12582913 / 16777216)%R, (12582913 / 16777216, 4194306 / 16777216, 12582911 / 16777216)%R, (23456254350678 / 46912501710848, 2097152 / 16777216, 14680064 / 16777216)%R.
  split; [reflexivity|]. split; [reflexivity|]. split; [cbv beta iota delta [in_open_cube]; lra|]. split; [cbv beta iota delta [d2]; field|].
  intros l r Hl N0 N2. destruct (Z.eq_dec l 1) as [->|N1]; [injection Hl as <-; cbv beta iota delta [d2]; lra|].
  pose proof (znth_some _ _ _ Hl) as B. change (0 <= l < 3) in B. lia.
Qed.
Print Assumptions C63_missing_refuted.

(** a run without flags whose row 0 lists point 3, although the two cells do not touch *)
Definition ex_fextra : list (point arith32) := [pt24 4194304 12582913 8388609; pt24 12582910 4194303 12582912; pt24 12582913 8388610 8388610; pt24 12582914 4194305 12582910].
Theorem C63_extra_refuted : float_ok (cfg32 3) ex_fextra /\
  (exists p q, znth (map real_pt ex_fextra) 0 = Some p /\ znth (map real_pt ex_fextra) 3 = Some q /\ forall x, ~ touches (map real_pt ex_fextra) p q x) /\
  view32 (tess_core arith32 (w32 []) (cfg32 3) cpu ex_fextra) = Some (map bits ex_fextra, [[2; 1; 3]; [3; 2; 0]; [3; 1; 0]; [1; 2]], [0; 0; 0; 0]).
Proof.
  split; [float_case ltac:(by24)|]. split; [|vm_compute; reflexivity].
  unfold ex_fextra. cbn [map]. rewrite !real_pt24 by lia. do 2 eexists. split; [reflexivity|]. split; [reflexivity|].
  intros [[x y] z] (C & D & A). pose proof (A _ (or_intror (or_introl eq_refl))) as A1. pose proof (A _ (or_intror (or_intror (or_introl eq_refl)))) as A2. clear A.
  unfold in_cube in C. cbv beta iota delta [d2] in *. lra.
Qed.
Print Assumptions C63_extra_refuted.

(** k = 1: row 0 lists point 1, but point 2 is nearer *)
Definition ex_fnear : list (point arith32) := [pt24 8388609 4194302 12582911; pt24 8388610 8388607 4194305; pt24 12582912 4194303 4194304].
Theorem C63_nearest_refuted : float_ok (cfg32 1) ex_fnear /\
  (exists p q r, map real_pt ex_fnear = [p; q; r] /\ (d2 r p < d2 q p)%R) /\
  view32 (tess_core arith32 (w32 []) (cfg32 1) cpu ex_fnear) = Some (map bits ex_fnear, [[1]; [2]; [1]], [0; 0; 0]).
Proof.
  split; [float_case ltac:(by24)|]. split; [|vm_compute; reflexivity].
  unfold ex_fnear. cbn [map]. rewrite !real_pt24 by lia. do 3 eexists. split; [reflexivity|]. cbv beta iota delta [d2]. lra.
Qed.
Print Assumptions C63_nearest_refuted.

(** two points, k = 3: the clipping of cell 1 ends in infinite_boundary (bits 1 and 6),
    which cannot happen in exact arithmetic (C46) *)
Definition ex_fstuck : list (point arith32) := [pt10 4 9 4; pt10 7 2 7].
Theorem C63_stuck_refuted : float_ok (cfg32 3) ex_fstuck /\
  rows32 (tess_core arith32 (w32 []) (cfg32 3) cpu ex_fstuck) = Some ([[1]; [0; 0; 0]], [0; 66]) /\ Z.testbit 66 1 = true /\ Z.testbit 66 6 = true.
Proof. split; [float_case ltac:(by10)|]. split; [vm_compute; reflexivity|split; reflexivity]. Qed.
Print Assumptions C63_stuck_refuted.

(** six points within 10^-6: cell 3 carries the flag "security radius reached" (bit 0) and
    no error, but its row lacks point 0, with which it shares a face *)
Definition ex_freach : list (point arith32) := [pt24 8388604 8388607 8388610; pt24 8388606 8388609 8388611; pt24 8388608 8388609 8388607; pt24 8388609 8388609 8388608; pt24 8388611 8388605 8388609; pt24 8388612 8388611 8388608].
Theorem C63_reached_refuted : float_ok (cfg32 5) ex_freach /\ face (map real_pt ex_freach) 3 0 /\
  view32 (tess_core arith32 (w32 []) (cfg32 5) cpu ex_freach) =
    Some (map bits ex_freach, [[1; 2; 3; 4]; [0; 3; 2; 4; 5]; [3; 1; 5; 4; 0]; [2; 5; 1; 4]; [3; 2; 5; 1; 0]; [3; 2; 4; 1]], [0; 0; 0; 1; 0; 0]).
Proof.
  split; [float_case ltac:(by24)|]. split; [|vm_compute; reflexivity].
  unfold ex_freach. cbn [map]. rewrite !real_pt24 by lia.
  exists (8388609 / 16777216, 8388609 / 16777216, 8388608 / 16777216)%R, (8388604 / 16777216, 8388607 / 16777216, 8388610 / 16777216)%R, (83886073 / 167772160, 8388606 / 16777216, 8388609 / 16777216)%R.
  split; [reflexivity|]. split; [reflexivity|]. split; [cbv beta iota delta [in_open_cube]; lra|]. split; [cbv beta iota delta [d2]; field|].
  intros l r Hl N3 N0. pose proof (znth_some _ _ _ Hl) as B. change (0 <= l < 6) in B.
  destruct (Z.eq_dec l 1) as [->|N1]; [injection Hl as <-; cbv beta iota delta [d2]; lra|].
  destruct (Z.eq_dec l 2) as [->|N2]; [injection Hl as <-; cbv beta iota delta [d2]; lra|].
  destruct (Z.eq_dec l 4) as [->|N4]; [injection Hl as <-; cbv beta iota delta [d2]; lra|].
  destruct (Z.eq_dec l 5) as [->|N5]; [injection Hl as <-; cbv beta iota delta [d2]; lra|]. lia.
Qed.
Print Assumptions C63_reached_refuted.
