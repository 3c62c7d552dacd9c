(** The rows of a device run, exact arithmetic. *)
From Verif Require Import Base Arith PBase Prog MUtils MHeap MXyz MKnn MBoundary MCell MDnn MArgs MTess Exact PExact SpecGeom SpecSort SpecVor SpecRows SpecSlot
  PXyz PGrid PSortFinal PHeap PReloc PHeapFinal PKnnFinal PCellSim PCellRun PSlot PSlotHost PSlotFinal PTess PTessRun PTessFinal PGpuRun PGeomFinal PRecGeom PNoFailApi PExactApi PCanon.
From Coq Require Import Permutation.
From Verif Require Export SpecDev.
Local Open Scope Z_scope.

Section G.
Variable N : Arith.
Variable E : Exact N.
Notation valp := (valp N E).

Lemma gpu_rows w c P0 : api_ok N E c P0 -> dev_ok c (zlen P0) -> w_gpu N w = true ->
  exists o o', tess_core N w c cpu P0 = Ok o /\ tess_core N w c gpu P0 = Ok o' /\ o_pts N o' = o_pts N o /\ o_rows N o' = o_rows N o /\ o_dnn N o' = o_dnn N o /\ zlen (o_states N o') = zlen P0.
Proof.
  intros (Hc & Hgr & Hg3 & Hin & Rc & Hnt & Fit & HkN) (D1 & D2 & D3 & D4 & D5) Hw.
  pose proof (in_range_exact N E (c_gr c) P0 Hgr Hg3 Hin) as Hr.
  destruct (xyz_sort_total N (c_gr c) P0 ltac:(lia) Hg3 Hr) as (P & ids & offs & HS).
  pose proof (perm_points N _ _ _ _ _ HS) as PP. assert (LP : zlen P = zlen P0) by (unfold zlen; rewrite (Permutation_length PP); reflexivity).
  rewrite <- LP in Fit, D3, D4, D5.
  destruct (gpu_final N E c P0 P ids offs) as (o & Ro & Po & G); auto; [split; auto|].
  destruct (G w Hw) as (o' & Ro' & X1 & X2 & X3 & X4 & _). exists o, o'. rewrite Po. repeat split; auto. lia.
Qed.

(** the rows of a device run are exact as well; the state bytes are not *)
Lemma gpu_exact w c P0 : api_ok N E c P0 -> roomy c (zlen P0 - 1) -> zlen P0 - 1 <= c_k c -> dev_ok c (zlen P0) -> w_gpu N w = true ->
  exists o, tess_core N w c gpu P0 = Ok o /\ Permutation P0 (o_pts N o) /\ zlen (o_rows N o) = zlen P0 /\ shows (o_dnn N o) (o_rows N o) /\
  forall i row, znth (o_rows N o) i = Some row -> exact_row (map valp (o_pts N o)) i row.
Proof.
  intros Ha Ro Hk Hd Hw. destruct (gpu_rows w c P0 Ha Hd Hw) as (o & o' & R & R' & E1 & E2 & E3 & _). exists o'. split; [assumption|]. rewrite E1, E2, E3.
  destruct (api_complete N E w c P0 Ha Ro Hk) as (o2 & R2 & (C1 & C2 & C3 & C4 & C5 & C6)). rewrite R in R2. injection R2 as <-. auto.
Qed.
End G.
