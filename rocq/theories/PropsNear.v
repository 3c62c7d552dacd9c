(** C79: single precision, how far the k-NN candidates can be from the truth. *)
From Verif Require Import Base Arith PBase Prog MUtils MHeap MXyz MKnn MBoundary MCell MDnn MArgs MTess Arith32 SpecGeom SpecHeap SpecVor SpecKnn SpecRows SpecAny
  PXyz PFloat POrder PSlotHost PTessRun PTessFinal PRec PRecFinal PKnnAny PRowsAny PDist32 PFloatRows PNearRows PropsFloat.
From Flocq Require Import IEEE754.BinarySingleNaN.
From Coq Require Import Reals Lra Permutation Sorting.Sorted.
Import SpecGeom.
Local Open Scope Z_scope.

(** ** C79.  In single precision the nearest neighbours need not be the nearest
    (C63_nearest_refuted), but they are up to 2^-20: each row comes from k points none of
    which is farther than a point left out, or than one after it, by more than 2^-20.
    Distances are those of the floats taken as real numbers.  A cell that ends with an
    error returns the k points. *)
Theorem C79_nearest : forall (w : world arith32) c P0, float_ok c P0 -> c_recompute c = false -> c_k c < zlen P0 ->
  exists o, tess_core arith32 w c cpu P0 = Ok o /\ Permutation P0 (o_pts arith32 o) /\ zlen (o_rows arith32 o) = zlen P0 /\ zlen (o_states arith32 o) = zlen P0 /\
  forall i row b, znth (o_rows arith32 o) i = Some row -> znth (o_states arith32 o) i = Some b -> exists near, zlen near = c_k c /\
    nearest_within eps20 (real_dist (o_pts arith32 o) i) (others (zlen P0) i) near /\ incl row near /\ ordered_within eps20 (real_dist (o_pts arith32 o) i) row /\ (~ errorless b -> row = near).
Proof. exact near_plain. Qed.
Print Assumptions C79_nearest.

(** with recompute: the points are k or more *)
Theorem C79_recompute : forall r (w : world arith32) c P0, float_ok c P0 -> c_recompute c = true -> rec_ok r c (zlen P0) -> c_k c < zlen P0 ->
  exists o, tess_core arith32 w c cpu P0 = Ok o /\ Permutation P0 (o_pts arith32 o) /\ zlen (o_rows arith32 o) = zlen P0 /\
  forall i row, znth (o_rows arith32 o) i = Some row -> exists near, c_k c <= zlen near < zlen P0 /\
    nearest_within eps20 (real_dist (o_pts arith32 o) i) (others (zlen P0) i) near /\ incl row near /\ ordered_within eps20 (real_dist (o_pts arith32 o) i) row.
Proof. exact near_rec. Qed.
Print Assumptions C79_recompute.

(** where distances to a point are equal or differ by more than 2^-20, its candidates are the
    nearest points, and its row is in order *)
Theorem C79_separated : forall (w : world arith32) c P0, float_ok c P0 -> c_recompute c = false -> c_k c < zlen P0 ->
  exists o, tess_core arith32 w c cpu P0 = Ok o /\ Permutation P0 (o_pts arith32 o) /\ zlen (o_rows arith32 o) = zlen P0 /\ zlen (o_states arith32 o) = zlen P0 /\
  forall i row b, znth (o_rows arith32 o) i = Some row -> znth (o_states arith32 o) i = Some b -> 
    separated eps20 (real_dist (o_pts arith32 o) i) (others (zlen P0) i) ->
    exists near, zlen near = c_k c /\ nearest (real_dist (o_pts arith32 o) i) (others (zlen P0) i) near /\ incl row near /\ ordered_within 0 (real_dist (o_pts arith32 o) i) row /\ (~ errorless b -> row = near).
Proof. exact near_separated. Qed.
Print Assumptions C79_separated.

(** points whose coordinates are multiples of 1/512: exact nearest neighbours, ties
    included, at every usable resolution (C05) *)
Theorem C79_lattice : forall (w : world arith32) c P0, float_ok c P0 -> Forall lattice9 P0 -> c_recompute c = false -> c_k c < zlen P0 ->
  exists o, tess_core arith32 w c cpu P0 = Ok o /\ Permutation P0 (o_pts arith32 o) /\ zlen (o_rows arith32 o) = zlen P0 /\ zlen (o_states arith32 o) = zlen P0 /\
  forall i row b, znth (o_rows arith32 o) i = Some row -> znth (o_states arith32 o) i = Some b -> 
    exists near, zlen near = c_k c /\ nearest (real_dist (o_pts arith32 o) i) (others (zlen P0) i) near /\ incl row near /\ ordered_within 0 (real_dist (o_pts arith32 o) i) row /\ (~ errorless b -> row = near).
Proof. exact near_lattice. Qed.
Print Assumptions C79_lattice.

(** *** cases *)
(** the points of C63_nearest_refuted: row 0 lists point 1, point 2 is nearer, by less than 2^-20 *)
Example C79_case : float_ok (cfg32 1) ex_fnear /\
  view32 (tess_core arith32 (w32 []) (cfg32 1) cpu ex_fnear) = Some (map bits ex_fnear, [[1]; [2]; [1]], [0; 0; 0]) /\
  (real_dist ex_fnear 0 2 < real_dist ex_fnear 0 1 <= real_dist ex_fnear 0 2 + eps20)%R.
Proof.
  split; [float_case ltac:(by24)|]. split; [vm_compute; reflexivity|].
  unfold real_dist. change (znth ex_fnear 0) with (Some (pt24 8388609 4194302 12582911)). change (znth ex_fnear 1) with (Some (pt24 8388610 8388607 4194305)). change (znth ex_fnear 2) with (Some (pt24 12582912 4194303 4194304)).
  cbv beta iota. rewrite !real_pt24 by lia. cbv beta iota delta [d2]. split.
  - apply sqrt_lt_1_alt. lra.
  - match goal with |- (sqrt ?a <= sqrt ?b + _)%R => pose proof (sqrt_pos b) as P1; assert (Q : (a <= b + eps20 * eps20)%R) by (unfold eps20; lra); assert (Pb : (0 <= b)%R) by lra; set (B := b) in *; set (A := a) in * end.
    pose proof (sqrt_sqrt B Pb) as S1. assert (0 < eps20)%R by (unfold eps20; lra). apply PNear32.root_le; [lra|]. nra.
Qed.
(** three points on a line, the grid cut in 2 x 2 x 2 cells *)
Definition ex_fline : list (point arith32) := [pt24 4194304 4194304 4194304; pt24 8388608 4194304 4194304; pt24 14680064 4194304 4194304].
Definition cfg32g (k : Z) : cfg := mkCfg k 2 16 32 1 1 false 0 false.
Example C79_line : float_ok (cfg32g 1) ex_fline /\
  view32 (tess_core arith32 (w32 []) (cfg32g 1) cpu ex_fline) = Some (map bits ex_fline, [[1]; [0]; [1]], [0; 0; 0]) /\
  forall i, 0 <= i < 3 -> separated eps20 (real_dist ex_fline i) (others 3 i).
Proof.
  split; [float_case ltac:(by24)|]. split; [vm_compute; reflexivity|].
  assert (V : forall a b c d, 0 < a < 16777216 -> 0 < b < 16777216 -> 0 < c < 16777216 -> 0 < d < 16777216 -> 
    sqrt (d2 (real_pt (pt24 a c d)) (real_pt (pt24 b c d))) = Rabs (IZR a / 16777216 - IZR b / 16777216)).
  { intros a b c d Ha Hb Hc Hd. rewrite !real_pt24 by assumption. cbv beta iota delta [d2]. rewrite <- sqrt_Rsqr_abs. f_equal. unfold Rsqr. ring. }
  assert (X : forall i j a b, znth ex_fline i = Some (pt24 a 4194304 4194304) -> znth ex_fline j = Some (pt24 b 4194304 4194304) -> 0 < a < 16777216 -> 0 < b < 16777216 -> real_dist ex_fline i j = Rabs (IZR b / 16777216 - IZR a / 16777216)).
  { intros i j a b Hi Hj Ha Hb. unfold real_dist. rewrite Hi, Hj. apply V; lia. }
  assert (D01 : real_dist ex_fline 0 1 = (1 / 4)%R) by (rewrite (X 0 1 4194304 8388608) by (reflexivity || lia); rewrite Rabs_pos_eq by lra; lra).
  assert (D02 : real_dist ex_fline 0 2 = (5 / 8)%R) by (rewrite (X 0 2 4194304 14680064) by (reflexivity || lia); rewrite Rabs_pos_eq by lra; lra).
  assert (D12 : real_dist ex_fline 1 2 = (3 / 8)%R) by (rewrite (X 1 2 8388608 14680064) by (reflexivity || lia); rewrite Rabs_pos_eq by lra; lra).
  assert (D10 : real_dist ex_fline 1 0 = (1 / 4)%R) by (rewrite (X 1 0 8388608 4194304) by (reflexivity || lia); rewrite Rabs_minus_sym, Rabs_pos_eq by lra; lra).
  assert (D20 : real_dist ex_fline 2 0 = (5 / 8)%R) by (rewrite (X 2 0 14680064 4194304) by (reflexivity || lia); rewrite Rabs_minus_sym, Rabs_pos_eq by lra; lra).
  assert (D21 : real_dist ex_fline 2 1 = (3 / 8)%R) by (rewrite (X 2 1 14680064 8388608) by (reflexivity || lia); rewrite Rabs_minus_sym, Rabs_pos_eq by lra; lra).
  assert (A : forall x y, (1 / 16 <= Rabs (x - y))%R -> (eps20 < Rabs (x - y))%R) by (intros; unfold eps20; lra).
  intros i Hi p q (Hp & Np) (Hq & Nq). destruct (Z.eq_dec p q) as [->|Npq]; [left; reflexivity|right]. apply A.
  assert (C : i = 0 /\ (p = 1 /\ q = 2 \/ p = 2 /\ q = 1) \/ i = 1 /\ (p = 0 /\ q = 2 \/ p = 2 /\ q = 0) \/ i = 2 /\ (p = 0 /\ q = 1 \/ p = 1 /\ q = 0)) by lia.
  destruct C as [(-> & [(-> & ->)|(-> & ->)])|[(-> & [(-> & ->)|(-> & ->)])|(-> & [(-> & ->)|(-> & ->)])]]; rewrite ?D01, ?D02, ?D10, ?D12, ?D20, ?D21; split_Rabs; lra.
Qed.
(** a resolution that does not fit the lattice *)
Example C79_lattice_case : float_ok (mkCfg 2 3 16 32 1 1 false 0 false) ex_fline /\ Forall lattice9 ex_fline /\
  view32 (tess_core arith32 (w32 []) (mkCfg 2 3 16 32 1 1 false 0 false) cpu ex_fline) = Some (map bits ex_fline, [[1]; [0; 2]; [1]], [0; 0; 0]).
Proof.
  split; [float_case ltac:(by24)|]. split; [|vm_compute; reflexivity].
  assert (L : forall a b c, 0 < a < 512 -> 0 < b < 512 -> 0 < c < 512 -> lattice9 (pt24 (32768 * a) (32768 * b) (32768 * c))).
  { intros a b c Ha Hb Hc. exists a, b, c. rewrite real_pt24 by lia. rewrite !mult_IZR. f_equal; [f_equal|]; field. }
  constructor; [apply (L 128 128 128); lia|]. constructor; [apply (L 256 128 128); lia|]. constructor; [apply (L 448 128 128); lia|]. constructor.
Qed.
(** with recompute *)
Example C79_recompute_case : float_ok cfg32r ex_f3 /\ rec_ok 1 cfg32r 3 /\ c_k cfg32r < 3.
Proof. split; [float_case ltac:(by10)|]. split; [vm_compute; repeat split; discriminate|reflexivity]. Qed.
