(** Exact reals with one infinity (not executable). *)
From Verif Require Import Base Arith Exact.

Inductive xr := RFin (x : R) | RInf.

Definition rlift2 (f : R -> R -> R) (a b : xr) : xr :=
  match a, b with RFin x, RFin y => RFin (f x y) | _, _ => RInf end.
Definition xr_lt (a b : xr) : bool :=
  match a, b with
  | RFin x, RFin y => if Rlt_dec x y then true else false
  | RFin _, RInf => true
  | RInf, _ => false
  end.
Definition xr_le (a b : xr) : bool :=
  match a, b with
  | RFin x, RFin y => if Rle_dec x y then true else false
  | _, RInf => true
  | RInf, RFin _ => false
  end.
Definition xr_eq (a b : xr) : bool :=
  match a, b with
  | RFin x, RFin y => if Req_EM_T x y then true else false
  | RInf, RInf => true
  | _, _ => false
  end.
Definition xr_div (a b : xr) : xr :=
  match a, b with
  | RFin x, RFin y => if Req_EM_T y 0 then RInf else RFin (x / y)
  | RFin _, RInf => RFin 0
  | RInf, _ => RInf
  end.
Definition rfloor (x : R) : Z := (up x - 1)%Z.
Definition xr_fmod (a b : xr) : xr :=
  match a, b with
  | RFin x, RFin y =>
      if Req_EM_T y 0 then RInf
      else
        let t := if Rle_dec 0 (x / y) then IZR (rfloor (x / y))
                 else (- IZR (rfloor (- (x / y))))%R in
        RFin (x - t * y)
  | _, _ => RInf
  end.

Definition arithR : Arith :=
  mkArith xr (rlift2 Rplus) (rlift2 Rminus) (rlift2 Rmult) xr_div
    (fun a => match a with RFin x => RFin (- x) | RInf => RInf end)
    xr_lt xr_le xr_eq (fun z => RFin (IZR z))
    (fun a => match a with RFin x => Some (rfloor x) | RInf => None end)
    xr_fmod RInf.

Definition xr_fin (a : xr) : Prop := a <> RInf.
Definition xr_val (a : xr) : R := match a with RFin x => x | RInf => 0%R end.

Lemma rfloor_spec x z : (IZR z <= x < IZR z + 1)%R -> rfloor x = z.
Proof.
  intros H. unfold rfloor. destruct (archimed x) as [A B].
  assert (IZR (up x) < IZR (z + 2))%R by (rewrite plus_IZR; lra).
  assert (IZR z < IZR (up x))%R by lra.
  apply lt_IZR in H0, H1. lia.
Qed.

Lemma arithR_exact : Exact arithR.
Proof.
  refine (mkExact arithR xr_fin xr_val _ _ _ _ _ _ _ _ _ _ _ _ _ _ _);
  unfold xr_fin; simpl.
  1-3: intros [x|] [y|] Ha Hb; try congruence; simpl; split; [discriminate|reflexivity].
  - intros [x|] [y|] Ha Hb Hn; try congruence; simpl in *.
    destruct (Req_EM_T y 0); [contradiction|]. split; [discriminate|reflexivity].
  - intros [x|] Ha; try congruence. split; [discriminate|reflexivity].
  - intros z. split; [discriminate|reflexivity].
  - intros [x|] [y|] Ha Hb; try congruence. simpl.
    destruct (Rlt_dec x y); split; intros; try lra; congruence.
  - intros [x|] [y|] Ha Hb; try congruence. simpl.
    destruct (Rle_dec x y); split; intros; try lra; congruence.
  - intros [x|] [y|] Ha Hb; try congruence. simpl.
    destruct (Req_EM_T x y); split; intros; try lra; congruence.
  - intros [x|] z Ha H; try congruence. simpl in *. f_equal. now apply rfloor_spec.
  - intros [x|] [y|] z Ha Hb Hy Hx H; try congruence; simpl in *.
    destruct (Req_EM_T y 0); [lra|]. split; [discriminate|]. simpl.
    assert (Hq : (IZR z <= x / y < IZR z + 1)%R).
    { split.
      - apply Rmult_le_reg_r with y; [lra|].
        unfold Rdiv. rewrite Rmult_assoc, Rinv_l by lra. lra.
      - apply Rmult_lt_reg_r with y; [lra|].
        unfold Rdiv. rewrite Rmult_assoc, Rinv_l by lra. lra. }
    destruct (Rle_dec 0 (x / y)).
    + now rewrite (rfloor_spec _ _ Hq).
    + exfalso. apply n0. unfold Rdiv. apply Rmult_le_pos; [lra|].
      left. apply Rinv_0_lt_compat. lra.
  - congruence.
  - intros [x|] Ha; [reflexivity|congruence].
  - reflexivity.
  - reflexivity.
Defined.
