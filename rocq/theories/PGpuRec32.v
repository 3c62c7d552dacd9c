(** The device path with recompute, single precision. *)
From Verif Require Import Base Arith PBase Prog MUtils MHeap MXyz MKnn MBoundary MCell MDnn MArgs MTess Arith32 SpecGeom SpecHeap SpecVor SpecKnn SpecRows SpecAny SpecSort
  PXyz PSortFinal PFloat POrder PKnn PLock PSlotHost PTessRun PTessFinal PRec PRecFinal PKnnAny PRowsAny PRowsNear PDist32 PFloatRows PNearRows PGpuRun PGpu32 PGpuRec.
From Flocq Require Import IEEE754.BinarySingleNaN.
From Coq Require Import Reals Lra Permutation.
Import SpecGeom.
Local Open Scope Z_scope.

Lemma single_rec_same w c P0 : float_ok c P0 -> dev_ok c (zlen P0) -> c_recompute c = true -> (forall x, 0 <= x < zlen P0 -> clean arith32 w rec_flags x) ->
  tess_core arith32 w c gpu P0 = tess_core arith32 w c cpu P0.
Proof.
  intros (Hc & Hgr & H3 & Hs & HO & Hnt & Fit & HkN) (D1 & D2 & D3 & D4 & D5) Rc Hj.
  assert (IR : in_range_ids arith32 (c_gr c) P0) by (apply in_range32; assumption).
  destruct (xyz_sort_total arith32 (c_gr c) P0 ltac:(lia) H3 IR) as (P & ids & offs & HS).
  pose proof (perm_points arith32 _ _ _ _ _ HS) as PP. assert (LP : zlen P = zlen P0) by (unfold zlen; rewrite (Permutation_length PP); reflexivity).
  rewrite <- LP in *.
  assert (HA : knn_agree arith32 (c_gr c) (c_k c) P ids offs). { apply (agree32 (c_gr c) (c_k c) P0); auto; [lia|]. destruct Hc as (K1 & _). lia. }
  apply (gpu_same_gen arith32 c P0 P ids offs w); auto. split; auto.
Qed.

Lemma single_rec_near r w c P0 : float_ok c P0 -> dev_ok c (zlen P0) -> c_recompute c = true -> rec_ok r c (zlen P0) -> c_k c < zlen P0 -> w_gpu arith32 w = true ->
  exists o, tess_core arith32 w c gpu P0 = Ok o /\ Permutation P0 (o_pts arith32 o) /\ zlen (o_rows arith32 o) = zlen P0 /\
  forall i row, znth (o_rows arith32 o) i = Some row -> exists near, c_k c <= zlen near < zlen P0 /\
    nearest_within eps20 (real_dist (o_pts arith32 o) i) (others (zlen P0) i) near /\ incl row near /\ ordered_within eps20 (real_dist (o_pts arith32 o) i) row.
Proof.
  intros H (D1 & D2 & D3 & D4 & D5) Rc HR Kn Hw. assert (Ha := float_any c P0 H). destruct H as (Hc & Hgr & H3 & Hs & HO & Hnt & Fit & HkN).
  assert (IR : in_range_ids arith32 (c_gr c) P0) by (apply in_range32; assumption).
  destruct (xyz_sort_total arith32 (c_gr c) P0 ltac:(lia) H3 IR) as (P & ids & offs & HS).
  pose proof (perm_points arith32 _ _ _ _ _ HS) as PP. assert (LP : zlen P = zlen P0) by (unfold zlen; rewrite (Permutation_length PP); reflexivity).
  assert (OD : ordered_dists arith32 not_nan P) by (apply (ordered_perm arith32 not_nan _ P PP); apply Ha).
  rewrite <- LP in *.
  assert (HA : knn_agree arith32 (c_gr c) (c_k c) P ids offs). { apply (agree32 (c_gr c) (c_k c) P0); auto; [lia|]. destruct Hc as (K1 & _). lia. }
  destruct (gpu_rec_run arith32 r c P0 P ids offs w) as (rs & st & rows' & st' & o & (Rs & _) & Hi & RR & Ro & A1 & A2 & A3 & A4 & _); auto; [split; auto|].
  exists o. split; [exact Ro|]. rewrite A1. split; [assumption|]. split; [assumption|].
  intros i row Hrow. pose proof (znth_some _ _ _ Hrow) as Hi0. rewrite A3 in Hrow.
  destruct (rec_near arith32 not_nan (c_gr c) P0 P ids offs Hgr IR HS OD c _ _ _ _ _ RR (c_k c) ltac:(apply Hc) ltac:(lia) ltac:(lia) eq_refl Hi) with (x := i) (row := row) as (near & L & KL & Tk); [rewrite zlen_map, zlen_zrange; lia| |exact Hrow|].
  - intros x rw Hrw. pose proof (znth_some _ _ _ Hrw) as Hx. rewrite zlen_map, zlen_zrange in Hx by lia. rewrite znth_map, znth_zrange in Hrw by lia. rewrite Z.add_0_l in Hrw. injection Hrw as <-.
    destruct (slot_near arith32 not_nan (c_gr c) P0 P ids offs Hgr IR HS OD c rs x Hc eq_refl Rs ltac:(lia) ltac:(lia)) as (near & L & KL & Tk & _). exists near. split; [lia|]. split; assumption.
  - pose proof (near32 (c_gr c) P0 Hgr H3 Hs HO P ids offs i near HS ltac:(lia) KL) as N1.
    exists near. split; [lia|]. split; [assumption|]. apply (taken_ordered _ _ _ _ _ N1 Tk).
Qed.
