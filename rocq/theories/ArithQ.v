(** Exact rationals with one infinity: executable. *)
From Verif Require Import Base Arith Exact.
From Coq Require Import QArith Qround Qreals Qreduction.

Inductive xq := Fin (q : Q) | Inf.

Definition lift2 (f : Q -> Q -> Q) (a b : xq) : xq :=
  match a, b with Fin x, Fin y => Fin (Qred (f x y)) | _, _ => Inf end.
Definition xq_div (a b : xq) : xq :=
  match a, b with
  | Fin x, Fin y => if Qeq_bool y 0 then Inf else Fin (Qred (x / y))
  | Fin _, Inf => Fin 0
  | Inf, _ => Inf
  end.
Definition xq_neg (a : xq) : xq := match a with Fin x => Fin (Qred (- x)) | Inf => Inf end.
Definition Qlt_bool (x y : Q) : bool := negb (Qle_bool y x).
Definition xq_lt (a b : xq) : bool :=
  match a, b with
  | Fin x, Fin y => Qlt_bool x y
  | Fin _, Inf => true
  | Inf, _ => false
  end.
Definition xq_le (a b : xq) : bool :=
  match a, b with
  | Fin x, Fin y => Qle_bool x y
  | _, Inf => true
  | Inf, Fin _ => false
  end.
Definition xq_eq (a b : xq) : bool :=
  match a, b with
  | Fin x, Fin y => Qeq_bool x y
  | Inf, Inf => true
  | _, _ => false
  end.
Definition xq_floor (a : xq) : option Z :=
  match a with Fin x => Some (Qfloor x) | Inf => None end.
Definition Qtrunc (x : Q) : Z := Z.quot (Qnum x) (Zpos (Qden x)).
Definition xq_fmod (a b : xq) : xq :=
  match a, b with
  | Fin x, Fin y =>
      if Qeq_bool y 0 then Inf else Fin (Qred (x - inject_Z (Qtrunc (x / y)) * y))
  | _, _ => Inf
  end.

Definition arithQ : Arith :=
  mkArith xq (lift2 Qplus) (lift2 Qminus) (lift2 Qmult) xq_div xq_neg
    xq_lt xq_le xq_eq (fun z => Fin (inject_Z z)) xq_floor xq_fmod Inf.

Definition xq_fin (a : xq) : Prop := a <> Inf.
Definition xq_val (a : xq) : R := match a with Fin x => Q2R x | Inf => 0%R end.

Lemma Q2R_red x : Q2R (Qred x) = Q2R x.
Proof. apply Qeq_eqR, Qred_correct. Qed.

Lemma Q2R_Z z : Q2R (inject_Z z) = IZR z.
Proof. unfold Q2R; simpl. lra. Qed.

Lemma Qle_bool_R x y : Qle_bool x y = true <-> (Q2R x <= Q2R y)%R.
Proof. rewrite Qle_bool_iff. split; [apply Qle_Rle | apply Rle_Qle]. Qed.

Lemma Qlt_bool_R x y : Qlt_bool x y = true <-> (Q2R x < Q2R y)%R.
Proof.
  unfold Qlt_bool. rewrite negb_true_iff.
  destruct (Qle_bool y x) eqn:E.
  - apply Qle_bool_R in E. split; [discriminate | lra].
  - split; [intros _ | reflexivity].
    destruct (Rlt_le_dec (Q2R x) (Q2R y)); [lra|].
    apply Qle_bool_R in r. congruence.
Qed.

Lemma Qeq_bool_R x y : Qeq_bool x y = true <-> Q2R x = Q2R y.
Proof. rewrite Qeq_bool_iff. split; [apply Qeq_eqR | apply eqR_Qeq]. Qed.

Lemma Qfloor_R x z : (IZR z <= Q2R x < IZR z + 1)%R -> Qfloor x = z.
Proof.
  intros [H1 H2].
  pose proof (Qfloor_le x) as A. pose proof (Qlt_floor x) as B.
  apply Qle_Rle in A. apply Qlt_Rlt in B. rewrite Q2R_Z in A, B.
  rewrite plus_IZR in B.
  assert ((IZR z < IZR (Qfloor x) + 1)%R) by lra.
  assert ((IZR (Qfloor x) < IZR z + 1)%R) by lra.
  rewrite <- plus_IZR in *. apply lt_IZR in H, H0. lia.
Qed.

Lemma Qtrunc_floor x : (0 <= Q2R x)%R -> Qtrunc x = Qfloor x.
Proof.
  intros H. unfold Qtrunc. destruct x as [n d]. simpl.
  assert (0 <= n)%Z.
  { apply le_IZR. unfold Q2R in H. simpl in H.
    assert (0 < / IZR (Zpos d))%R by (apply Rinv_0_lt_compat; apply IZR_lt; lia).
    nra. }
  apply Z.quot_div_nonneg; lia.
Qed.

Local Arguments Qred : simpl never.
Local Arguments Qplus : simpl never.
Local Arguments Qminus : simpl never.
Local Arguments Qmult : simpl never.
Local Arguments Qdiv : simpl never.
Local Arguments Qopp : simpl never.
Local Arguments Qeq_bool : simpl never.
Local Arguments Q2R : simpl never.

Lemma arithQ_exact : Exact arithQ.
Proof.
  refine (mkExact arithQ xq_fin xq_val _ _ _ _ _ _ _ _ _ _ _ _ _ _ _);
  unfold xq_fin; simpl.
  1-3: intros [x|] [y|] Ha Hb; try congruence; simpl; rewrite Q2R_red;
    split; [discriminate|]; auto using Q2R_plus, Q2R_minus, Q2R_mult.
  - intros [x|] [y|] Ha Hb Hn; try congruence; simpl in *.
    destruct (Qeq_bool y 0) eqn:E.
    + apply Qeq_bool_R in E. change (Q2R 0) with (Q2R (inject_Z 0)) in E.
      rewrite Q2R_Z in E. lra.
    + split; [discriminate|]. simpl. rewrite Q2R_red. apply Q2R_div.
      intro H. apply Qeq_bool_iff in H. congruence.
  - intros [x|] Ha; try congruence; simpl. rewrite Q2R_red. split; [discriminate|].
    apply Q2R_opp.
  - intros z. split; [discriminate|]. apply Q2R_Z.
  - intros [x|] [y|] Ha Hb; try congruence. apply Qlt_bool_R.
  - intros [x|] [y|] Ha Hb; try congruence. apply Qle_bool_R.
  - intros [x|] [y|] Ha Hb; try congruence. apply Qeq_bool_R.
  - intros [x|] z Ha H; try congruence. simpl in *. f_equal. now apply Qfloor_R.
  - intros [x|] [y|] z Ha Hb Hy Hx H; try congruence; simpl in *.
    assert (E : Qeq_bool y 0 = false).
    { destruct (Qeq_bool y 0) eqn:E; [|reflexivity].
      apply Qeq_bool_R in E. change (Q2R 0) with (Q2R (inject_Z 0)) in E.
      rewrite Q2R_Z in E. lra. }
    rewrite E. split; [discriminate|]. simpl. rewrite Q2R_red, Q2R_minus, Q2R_mult, Q2R_Z.
    assert (Hd : Q2R (x / y) = (Q2R x / Q2R y)%R).
    { apply Q2R_div. intro K. apply Qeq_bool_iff in K. congruence. }
    assert (Hq : (IZR z <= Q2R (x / y) < IZR z + 1)%R).
    { rewrite Hd. split.
      - apply Rmult_le_reg_r with (Q2R y); [lra|].
        unfold Rdiv. rewrite Rmult_assoc, Rinv_l by lra. lra.
      - apply Rmult_lt_reg_r with (Q2R y); [lra|].
        unfold Rdiv. rewrite Rmult_assoc, Rinv_l by lra. lra. }
    rewrite Qtrunc_floor.
    + now rewrite (Qfloor_R _ _ Hq).
    + rewrite Hd. unfold Rdiv. apply Rmult_le_pos; [lra|].
      left. apply Rinv_0_lt_compat. lra.
  - congruence.
  - intros [x|] Ha; [reflexivity|congruence].
  - reflexivity.
  - reflexivity.
Defined.
