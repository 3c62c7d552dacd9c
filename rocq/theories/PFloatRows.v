(** Runs in single precision: hypotheses, points with coordinates a / 2^24. *)
From Verif Require Import Base Arith PBase Prog MUtils MXyz MDnn MArgs MTess Arith32 SpecGeom SpecAny SpecRows PXyz PFloat POrder PSlotHost PTessRun PTessFinal PRec PRecFinal PKnnAny PRowsAny PDist32.
From Flocq Require Import Core IEEE754.BinarySingleNaN.
From Coq Require Import Reals Lra Permutation.
From Verif Require Export SpecSingle.
Local Open Scope Z_scope.

Lemma float_any c P0 : float_ok c P0 -> any_ok arith32 not_nan c P0.
Proof.
  intros (A & B & C & D & E & G & H & I). split; [assumption|]. split; [assumption|]. split; [assumption|]. split; [apply in_range32; assumption|].
  split; [apply ordered32; assumption|]. auto.
Qed.

Lemma float_rows : forall (w : world arith32) c P0, float_ok c P0 -> c_recompute c = false -> c_k c < zlen P0 ->
  exists o, tess_core arith32 w c cpu P0 = Ok o /\ Permutation P0 (o_pts arith32 o) /\ zlen (o_rows arith32 o) = zlen P0 /\ shows (o_dnn arith32 o) (o_rows arith32 o) /\
  forall i row, znth (o_rows arith32 o) i = Some row -> index_row (zlen P0) i (c_k c) row /\ by_distance arith32 (o_pts arith32 o) i row.
Proof.
  intros w c P0 H Rc Kn. destruct (plain_any arith32 not_nan w c P0 (float_any c P0 H) Rc) as (o & R & PP & L & Sh & Q). exists o. repeat (split; [assumption|]).
  intros i row Hr. destruct (Q i row Hr) as (_ & _ & A). apply A. lia.
Qed.
Lemma float_rec : forall r (w : world arith32) c P0, float_ok c P0 -> c_recompute c = true -> rec_ok r c (zlen P0) -> c_k c < zlen P0 ->
  exists o, tess_core arith32 w c cpu P0 = Ok o /\ Permutation P0 (o_pts arith32 o) /\ zlen (o_rows arith32 o) = zlen P0 /\ shows (o_dnn arith32 o) (o_rows arith32 o) /\
  forall i row, znth (o_rows arith32 o) i = Some row -> index_row (zlen P0) i (zlen P0 - 1) row /\ by_distance arith32 (o_pts arith32 o) i row.
Proof.
  intros r w c P0 H Rc Hr Kn. destruct (rec_any arith32 not_nan r w c P0 (float_any c P0 H) Rc Hr) as (o & R & PP & L & Sh & Q). exists o. repeat (split; [assumption|]).
  intros i row. apply Q. lia.
Qed.

Lemma pt24_open a b c : 0 < a < 16777216 -> 0 < b < 16777216 -> 0 < c < 16777216 -> open01p (pt24 a b c).
Proof. intros A B C. split; [now apply q24_open|]. split; now apply q24_open. Qed.
Lemma open_bits (x : f32) : is_finite x && f32_lt zero32 x && f32_lt x one32 = true -> open01 x.
Proof.
  rewrite !andb_true_iff. intros ((A & B) & C). split; [exact A|]. destruct one32_val as (O1 & O2). destruct zero32_val as (Z1 & Z2).
  unfold f32_lt in *. rewrite Bltb_correct in B, C by assumption. rewrite Z1 in B. rewrite O1 in C.
  destruct (Rlt_bool_spec 0 (B2R x)); [|discriminate]. destruct (Rlt_bool_spec (B2R x) 1); [|discriminate]. lra.
Qed.
Ltac float_case tac := split; [unfold cfg_ok; simpl; lia|]; split; [reflexivity|]; split; [discriminate|]; split; [vm_compute; reflexivity|];
  split; [repeat (apply Forall_cons; [tac|]); apply Forall_nil|];
  split; [discriminate|]; split; [vm_compute; repeat split; discriminate|discriminate].
Ltac by24 := apply pt24_open; lia.
Ltac by10 := split; [|split]; apply open_bits; vm_compute; reflexivity.

Lemma real_pt24 a b c : 0 < a < 16777216 -> 0 < b < 16777216 -> 0 < c < 16777216 ->
  real_pt (pt24 a b c) = (IZR a / 16777216, IZR b / 16777216, IZR c / 16777216)%R.
Proof. intros A B C. unfold real_pt, pt24. rewrite (proj1 (q24_val a ltac:(lia))), (proj1 (q24_val b ltac:(lia))), (proj1 (q24_val c ltac:(lia))). reflexivity. Qed.

