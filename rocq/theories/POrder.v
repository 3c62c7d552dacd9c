(** Comparison is a strict weak order: on exact numbers with infinity, and on
    all binary32 values except NaN. *)
From Verif Require Import Base Arith Exact SpecHeap PExact Arith32.
From Flocq Require Import Core IEEE754.BinarySingleNaN.
From Coq Require Import Reals Lra Lia.
From Verif Require Export SpecPoints SpecSingle.

Lemma exact_weak_order N (E : Exact N) : weak_order N (fin_or_inf E).
Proof.
  assert (FI : forall a, fin E a -> flt N a (finf N) = true) by apply (ex_lt_inf _ E).
  assert (IFF : forall a, fin E a -> flt N (finf N) a = false) by apply (ex_inf_lt _ E).
  pose proof (ex_inf_inf _ E) as II.
  constructor.
  - intros x y [Hx| ->] [Hy| ->] H; auto; try congruence.
    + apply (flt_true N E) in H; auto. apply (flt_false N E); auto. lra.
    + rewrite IFF in H by assumption. discriminate.
  - intros x y z [Hx| ->] [Hy| ->] [Hz| ->] H1 H2; auto; try congruence.
    + apply (flt_false N E) in H1; auto. apply (flt_false N E) in H2; auto. apply (flt_false N E); auto. lra.
    + rewrite FI in H2 by assumption. discriminate.
    + rewrite FI in H1 by assumption. discriminate.
Qed.

Definition rk (x : f32) : Z :=
  match x with B754_infinity true => -1 | B754_infinity false => 1 | _ => 0 end.

Lemma f32_lt_spec x y : not_nan x -> not_nan y ->
  f32_lt x y = true <-> (rk x < rk y)%Z \/ (rk x = 0 /\ rk y = 0 /\ (B2R x < B2R y)%R)%Z.
Proof.
  intros Hx Hy. unfold not_nan in *.
  assert (FF : is_finite x = true -> is_finite y = true -> f32_lt x y = true <-> (B2R x < B2R y)%R).
  { intros F1 F2. unfold f32_lt. rewrite Bltb_correct by assumption.
    destruct (Rlt_bool_spec (B2R x) (B2R y)); split; intros; auto; try discriminate; lra. }
  destruct x as [sx|[]| |sx mx ex bx], y as [sy|[]| |sy my ey by_]; try congruence;
    try (rewrite FF by reflexivity; simpl rk; split; [intros; right; split; [reflexivity|split; [reflexivity|assumption]]|intros [H|(_ & _ & H)]; [lia|assumption]]);
    simpl rk; (split; [intros H; try (left; lia); try discriminate|intros [H|(H1 & H2 & H)]; try lia; try reflexivity]).
Qed.

Lemma f32_weak_order : weak_order arith32 not_nan.
Proof.
  assert (FL : forall x y, not_nan x -> not_nan y -> flt arith32 x y = false <->
     ~ ((rk x < rk y)%Z \/ (rk x = 0 /\ rk y = 0 /\ (B2R x < B2R y)%R)%Z)).
  { intros x y Hx Hy. change (flt arith32 x y) with (f32_lt x y). rewrite <- f32_lt_spec by assumption.
    destruct (f32_lt x y); split; intros H; congruence. }
  constructor.
  - intros x y Hx Hy H. change (flt arith32 x y) with (f32_lt x y) in H. apply f32_lt_spec in H; auto.
    apply FL; auto. intros [H'|(A & B & H')]; destruct H as [H|(C & D & H)]; try lia. lra.
  - intros x y z Hx Hy Hz H1 H2. apply FL in H1; auto. apply FL in H2; auto. apply FL; auto.
    intros [H|(A & B & H)].
    + assert (~ (rk y < rk x)%Z) by tauto. assert (~ (rk z < rk y)%Z) by tauto. lia.
    + destruct (Z.lt_trichotomy (rk y) (rk x)) as [Q|[Q|Q]]; [tauto| |].
      * destruct (Rlt_dec (B2R y) (B2R x)); [apply H1; right; repeat split; auto; lia|].
        destruct (Rlt_dec (B2R z) (B2R y)); [apply H2; right; repeat split; auto; lia|]. lra.
      * apply H2. left. lia.
Qed.
