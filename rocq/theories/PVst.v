(** C95: boundary::vstatus. *)
From Verif Require Import Base PBase MUtils.
From Coq Require Import Bool.
Local Open Scope Z_scope.

(** set_true for each position of a list, on a new object (src/boundary.ipp:7) *)
Definition vs_made (bs : list Z) : Z := fold_left vs_set_true bs 0.

Lemma vs_bits byte b c : 0 <= b <= 7 -> 0 <= c <= 7 -> Z.testbit (vs_set_true byte b) c = (c =? b) || Z.testbit byte c.
Proof.
  intros Hb Hc. unfold vs_set_true, w8. change 256 with (2 ^ 8). rewrite Z.mod_pow2_bits_low by lia. rewrite Z.lor_spec, Z.shiftl_spec by lia.
  destruct (Z.eqb_spec c b) as [->|N]; [rewrite Z.sub_diag; simpl; apply orb_true_r|]. simpl. destruct (Z.ltb_spec c b).
  - rewrite (Z.testbit_neg_r 1) by lia. apply orb_false_r.
  - change 1 with (2 ^ 0). rewrite Z.pow2_bits_false by lia. apply orb_false_r.
Qed.
Lemma vs_get_bit byte b : 0 <= b -> vs_get byte b = if Z.testbit byte b then 1 else 0.
Proof. intros Hb. unfold vs_get. change 1 with (Z.ones 1) at 1. rewrite Z.land_ones by lia. change (2 ^ 1) with 2. rewrite <- Z.bit0_mod. rewrite Z.shiftr_spec by lia. rewrite Z.add_0_l. now destruct (Z.testbit byte b). Qed.
Lemma vs_fold bs : forall byte c, Forall (fun b => 0 <= b <= 7) bs -> 0 <= c <= 7 -> Z.testbit (fold_left vs_set_true bs byte) c = existsb (Z.eqb c) bs || Z.testbit byte c.
Proof.
  induction bs as [|b bs IH]; intros byte c HB Hc; [reflexivity|]. inversion HB; subst. simpl. rewrite IH, vs_bits by assumption. now destruct (c =? b), (existsb (Z.eqb c) bs).
Qed.
Lemma vs_made_get bs b : Forall (fun b => 0 <= b <= 7) bs -> 0 <= b <= 7 -> (In b bs -> vs_get (vs_made bs) b = 1) /\ (~ In b bs -> vs_get (vs_made bs) b = 0).
Proof.
  intros HB Hb. rewrite vs_get_bit by lia. unfold vs_made. rewrite vs_fold by assumption. rewrite Z.bits_0, orb_false_r. split; intros H.
  - replace (existsb (Z.eqb b) bs) with true; [reflexivity|]. symmetry. apply existsb_exists. exists b. split; [assumption|apply Z.eqb_refl].
  - replace (existsb (Z.eqb b) bs) with false; [reflexivity|]. symmetry. destruct (existsb (Z.eqb b) bs) eqn:E; [|reflexivity]. apply existsb_exists in E as (x & Hx & Q). apply Z.eqb_eq in Q. subst. contradiction.
Qed.
Lemma vs_set_low byte b : 0 <= byte <= 7 -> 0 <= b <= 2 -> 0 <= vs_set_true byte b <= 7.
Proof.
  intros Hy Hb. assert (C : b = 0 \/ b = 1 \/ b = 2) by lia. assert (D : byte = 0 \/ byte = 1 \/ byte = 2 \/ byte = 3 \/ byte = 4 \/ byte = 5 \/ byte = 6 \/ byte = 7) by lia.
  destruct C as [->|[->| ->]]; destruct D as [->|[->|[->|[->|[->|[->|[->| ->]]]]]]]; vm_compute; split; discriminate.
Qed.
Lemma vs_made_low bs : Forall (fun b => 0 <= b <= 2) bs -> 0 <= vs_made bs <= 7.
Proof.
  unfold vs_made. assert (G : forall byte, 0 <= byte <= 7 -> Forall (fun b => 0 <= b <= 2) bs -> 0 <= fold_left vs_set_true bs byte <= 7); [|intros H; apply G; [lia|assumption]].
  induction bs as [|b bs IH]; intros byte Hy HB; [assumption|]. inversion HB; subst. simpl. apply IH; [|assumption]. now apply vs_set_low.
Qed.
(** the positions among 0, 1, 2 that were set, and those that were not *)
Lemma vs_count bs on off : Forall (fun b => 0 <= b <= 2) bs -> NoDup on -> NoDup off -> (forall b, In b on <-> In b bs) -> (forall b, In b off <-> 0 <= b <= 2 /\ ~ In b bs) ->
  vs_nshared (vs_made bs) = zlen on /\
  match on, off with
  | [b], _ | _, [b] => vs_position (vs_made bs) = b
  | _, _ => vs_position (vs_made bs) = 255
  end.
Proof.
  intros HB N1 N2 I1 I2. pose proof (vs_made_low bs HB) as L.
  assert (HB7 : Forall (fun b => 0 <= b <= 7) bs) by (eapply Forall_impl; [|exact HB]; cbv beta; lia).
  assert (B : forall b, 0 <= b <= 2 -> (In b on <-> Z.testbit (vs_made bs) b = true) /\ (In b off <-> Z.testbit (vs_made bs) b = false)).
  { intros b Hb. destruct (vs_made_get bs b HB7 ltac:(lia)) as [G1 G0]. rewrite vs_get_bit in G1, G0 by lia. rewrite I1, I2.
    destruct (in_dec Z.eq_dec b bs) as [Ib|Ib]; [specialize (G1 Ib)|specialize (G0 Ib)]; destruct (Z.testbit (vs_made bs) b); try discriminate; split; split; intros H; try reflexivity; try assumption; try discriminate; try tauto. }
  assert (R1 : forall b, In b on -> b = 0 \/ b = 1 \/ b = 2) by (intros b Ib; apply I1 in Ib; rewrite Forall_forall in HB; specialize (HB b Ib); cbv beta in HB; lia).
  assert (R2 : forall b, In b off -> b = 0 \/ b = 1 \/ b = 2) by (intros b Ib; apply I2 in Ib; lia).
  pose proof (B 0 ltac:(lia)) as B0. pose proof (B 1 ltac:(lia)) as B1. pose proof (B 2 ltac:(lia)) as B2. clear B.
  assert (D : vs_made bs = 0 \/ vs_made bs = 1 \/ vs_made bs = 2 \/ vs_made bs = 3 \/ vs_made bs = 4 \/ vs_made bs = 5 \/ vs_made bs = 6 \/ vs_made bs = 7) by lia.
  assert (SAME : forall (l l' : list Z), NoDup l -> NoDup l' -> (forall x, In x l <-> In x l') -> zlen l = zlen l').
  { intros l l' X Y Z0. unfold zlen. f_equal. apply Nat.le_antisymm; apply NoDup_incl_length; auto; intros x; apply Z0. }
  assert (ONE : forall (l : list Z) x, NoDup l -> (forall y, In y l <-> y = x) -> l = [x]).
  { intros l x X Y. pose proof (SAME l [x] X ltac:(repeat constructor; simpl; tauto) ltac:(intros y; rewrite Y; simpl; split; intros Q; [now left; symmetry|destruct Q as [Q|[]]; now symmetry])) as Z0.
    destruct l as [|a [|b l]]; try (unfold zlen in Z0; simpl in Z0; lia). f_equal. apply Y. now left. }
  assert (MANY : forall (l : list Z) x y, In x l -> In y l -> x <> y -> exists a b t, l = a :: b :: t).
  { intros l x y X Y N. destruct l as [|a [|b t]]; [destruct X| |eauto]. simpl in X, Y. destruct X as [<-|[]], Y as [<-|[]]. contradiction. }
  assert (NONE : forall l : list Z, (forall x, ~ In x l) -> l = []) by (intros [|a l] H; [reflexivity|exfalso; apply (H a); now left]).
  assert (ND : forall l : list Z, l = [] \/ (exists a, l = [a]) \/ l = [0; 1] \/ l = [0; 2] \/ l = [1; 2] \/ l = [0; 1; 2] -> True) by auto. clear ND.
  Local Ltac kill := intuition (subst; congruence || discriminate || auto).
  destruct D as [E|[E|[E|[E|[E|[E|[E|E]]]]]]]; rewrite E in *; cbn in B0, B1, B2; destruct B0 as [P0 Q0], B1 as [P1 Q1], B2 as [P2 Q2].
  - assert (on = []) by (apply NONE; intros x Hx; destruct (R1 x Hx) as [->|[->| ->]]; [apply P0 in Hx|apply P1 in Hx|apply P2 in Hx]; discriminate). subst on.
    destruct (MANY off 0 1 (proj2 Q0 eq_refl) (proj2 Q1 eq_refl) ltac:(discriminate)) as (a & b & t & ->). split; reflexivity.
  - assert (on = [0]). { apply ONE; [assumption|]. intros y; split; [intros Hx; destruct (R1 y Hx) as [->|[->| ->]]; [reflexivity|apply P1 in Hx; discriminate|apply P2 in Hx; discriminate]|intros ->; now apply P0]. } subst on. split; reflexivity.
  - assert (on = [1]). { apply ONE; [assumption|]. intros y; split; [intros Hx; destruct (R1 y Hx) as [->|[->| ->]]; [apply P0 in Hx; discriminate|reflexivity|apply P2 in Hx; discriminate]|intros ->; now apply P1]. } subst on. split; reflexivity.
  - assert (off = [2]). { apply ONE; [assumption|]. intros y; split; [intros Hx; destruct (R2 y Hx) as [->|[->| ->]]; [apply Q0 in Hx; discriminate|apply Q1 in Hx; discriminate|reflexivity]|intros ->; now apply Q2]. } subst off.
    assert (L2 : zlen on = zlen [0; 1]). { apply SAME; auto; [repeat constructor; simpl; kill; lia|]. intros x; split; [intros Hx; destruct (R1 x Hx) as [->|[->| ->]]; [now left|right; now left|apply P2 in Hx; discriminate]|intros [<-|[<-|[]]]; [now apply P0|now apply P1]]. }
    destruct (MANY on 0 1 (proj2 P0 eq_refl) (proj2 P1 eq_refl) ltac:(discriminate)) as (a & b & t & ->). rewrite L2. split; reflexivity.
  - assert (on = [2]). { apply ONE; [assumption|]. intros y; split; [intros Hx; destruct (R1 y Hx) as [->|[->| ->]]; [apply P0 in Hx; discriminate|apply P1 in Hx; discriminate|reflexivity]|intros ->; now apply P2]. } subst on. split; reflexivity.
  - assert (off = [1]). { apply ONE; [assumption|]. intros y; split; [intros Hx; destruct (R2 y Hx) as [->|[->| ->]]; [apply Q0 in Hx; discriminate|reflexivity|apply Q2 in Hx; discriminate]|intros ->; now apply Q1]. } subst off.
    assert (L2 : zlen on = zlen [0; 2]). { apply SAME; auto; [repeat constructor; simpl; kill; lia|]. intros x; split; [intros Hx; destruct (R1 x Hx) as [->|[->| ->]]; [now left|apply P1 in Hx; discriminate|right; now left]|intros [<-|[<-|[]]]; [now apply P0|now apply P2]]. }
    destruct (MANY on 0 2 (proj2 P0 eq_refl) (proj2 P2 eq_refl) ltac:(discriminate)) as (a & b & t & ->). rewrite L2. split; reflexivity.
  - assert (off = [0]). { apply ONE; [assumption|]. intros y; split; [intros Hx; destruct (R2 y Hx) as [->|[->| ->]]; [reflexivity|apply Q1 in Hx; discriminate|apply Q2 in Hx; discriminate]|intros ->; now apply Q0]. } subst off.
    assert (L2 : zlen on = zlen [1; 2]). { apply SAME; auto; [repeat constructor; simpl; kill; lia|]. intros x; split; [intros Hx; destruct (R1 x Hx) as [->|[->| ->]]; [apply P0 in Hx; discriminate|now left|right; now left]|intros [<-|[<-|[]]]; [now apply P1|now apply P2]]. }
    destruct (MANY on 1 2 (proj2 P1 eq_refl) (proj2 P2 eq_refl) ltac:(discriminate)) as (a & b & t & ->). rewrite L2. split; reflexivity.
  - assert (off = []) by (apply NONE; intros x Hx; destruct (R2 x Hx) as [->|[->| ->]]; [apply Q0 in Hx|apply Q1 in Hx|apply Q2 in Hx]; discriminate). subst off.
    assert (L2 : zlen on = zlen [0; 1; 2]). { apply SAME; auto; [repeat constructor; simpl; kill; lia|]. intros x; split; [intros Hx; destruct (R1 x Hx) as [->|[->| ->]]; simpl; auto|intros [<-|[<-|[<-|[]]]]; [now apply P0|now apply P1|now apply P2]]. }
    destruct (MANY on 0 1 (proj2 P0 eq_refl) (proj2 P1 eq_refl) ltac:(discriminate)) as (a & b & t & ->). rewrite L2. split; reflexivity.
Qed.
