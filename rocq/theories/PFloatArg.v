(** Proofs about floating-point parameter values. *)
From Verif Require Export SpecFloatArg.
From Verif Require Import Base PBase MDnn MArgs MPy Arith32 MFloatArg PText PArgs PDnn.
From Flocq Require Import Core IEEE754.BinarySingleNaN.
From Coq Require Import String Ascii Reals Lia Lra.
Local Open Scope Z_scope.

Lemma ten n : 0 <= n -> bpow radix10 n = IZR (10 ^ n).
Proof. intros H. rewrite <- (IZR_Zpower radix10 n H). reflexivity. Qed.
Lemma ten_pos n : (0 < bpow radix10 n)%R.
Proof. apply bpow_gt_0. Qed.

(** ** round_half_even is rounding to nearest even *)
Lemma rhe_nearest n p : 0 < p -> round_half_even n p = ZnearestE (IZR n / IZR p).
Proof.
  intros Hp. assert (P : (0 < IZR p)%R) by now apply IZR_lt. unfold Znearest. rewrite (Zfloor_div n p) by lia.
  pose proof (Z.div_mod n p ltac:(lia)) as D. pose proof (Z.mod_pos_bound n p Hp) as B.
  assert (E : (IZR n / IZR p - IZR (n / p) = IZR (n mod p) / IZR p)%R).
  { rewrite D at 1. rewrite plus_IZR, mult_IZR. field. lra. }
  assert (C : n mod p <> 0 -> Zceil (IZR n / IZR p) = n / p + 1).
  { intros N. rewrite Zceil_floor_neq; rewrite (Zfloor_div n p) by lia; [reflexivity|]. intros Q. apply N. apply eq_IZR.
    assert (IZR (n mod p) / IZR p = 0)%R by lra. apply (Rmult_eq_reg_r (/ IZR p)); [|apply Rinv_neq_0_compat; lra]. unfold Rdiv in H. lra. }
  unfold round_half_even. cbv zeta. rewrite E.
  destruct (Z.ltb_spec (2 * (n mod p)) p) as [L|L].
  - rewrite Rcompare_Lt; [reflexivity|]. apply (Rmult_lt_reg_r (IZR p)); [exact P|]. unfold Rdiv. rewrite Rmult_assoc, Rinv_l by lra. apply IZR_lt in L. rewrite mult_IZR in L. lra.
  - destruct (Z.ltb_spec p (2 * (n mod p))) as [G|G].
    + rewrite Rcompare_Gt; [symmetry; apply C; lia|]. apply (Rmult_lt_reg_r (IZR p)); [exact P|]. unfold Rdiv. rewrite Rmult_assoc, Rinv_l by lra. apply IZR_lt in G. rewrite mult_IZR in G. lra.
    + rewrite Rcompare_Eq. { rewrite C by lia. destruct (Z.even (n / p)); reflexivity. }
      assert (Q : 2 * (n mod p) = p) by lia. apply (f_equal IZR) in Q. rewrite mult_IZR in Q. apply (Rmult_eq_reg_r (IZR p)); [|lra]. unfold Rdiv. rewrite Rmult_assoc, Rinv_l by lra. lra.
Qed.

(** ** the position of the first digit *)
Lemma below_ok den fuel : forall num, 0 < num < 10 * den -> den <= num * 10 ^ Z.of_nat fuel ->
  below_one fuel num den <= 0 /\ den <= num * 10 ^ (- below_one fuel num den) < 10 * den.
Proof.
  induction fuel as [|f IH]; intros num Hn Hf.
  - cbn [below_one]. change (10 ^ Z.of_nat 0) with 1 in Hf. change (10 ^ (- 0)) with 1. lia.
  - cbn [below_one]. destruct (Z.leb_spec den num) as [L|L]; [change (10 ^ (- 0)) with 1; lia|].
    rewrite Nat2Z.inj_succ, Z.pow_succ_r in Hf by lia. destruct (IH (num * 10)) as (I1 & I2); [lia|lia|].
    set (b := below_one f (num * 10) den) in *. split; [lia|]. replace (- (b - 1)) with (Z.succ (- b)) by lia. rewrite Z.pow_succ_r by lia. lia.
Qed.
Lemma first_ok num den : 0 < num -> 0 < den -> (bpow radix10 (first_digit num den) <= IZR num / IZR den < bpow radix10 (first_digit num den + 1))%R.
Proof.
  intros Hn Hd. assert (D : (0 < IZR den)%R) by now apply IZR_lt. unfold first_digit. destruct (Z.leb_spec den num) as [L|L].
  - assert (Q : 1 <= num / den) by (apply Z.div_le_lower_bound; lia).
    destruct (num_digits_ok (S (Z.to_nat (Z.log2 (num / den)))) (num / den)) as (D1 & D2 & D3). { split; [lia|]. apply log2_fuel. lia. }
    set (nd := num_digits _ _) in *. replace (nd - 1 + 1) with nd by lia. rewrite !ten by lia.
    pose proof (Z.div_mod num den ltac:(lia)). pose proof (Z.mod_pos_bound num den Hd). split.
    + apply (Rmult_le_reg_r (IZR den)); [exact D|]. unfold Rdiv. rewrite Rmult_assoc, Rinv_l, Rmult_1_r by lra. rewrite <- mult_IZR. apply IZR_le. nia.
    + apply (Rmult_lt_reg_r (IZR den)); [exact D|]. unfold Rdiv. rewrite Rmult_assoc, Rinv_l, Rmult_1_r by lra. rewrite <- mult_IZR. apply IZR_lt. nia.
  - destruct (below_ok den (S (Z.to_nat (Z.log2 den))) num) as (B1 & B2 & B3); [lia| |].
    { pose proof (log2_fuel den ltac:(lia)) as P. assert (2 ^ Z.of_nat (S (Z.to_nat (Z.log2 den))) <= 10 ^ Z.of_nat (S (Z.to_nat (Z.log2 den)))) by (apply Z.pow_le_mono_l; lia).
      apply Z.le_trans with (1 * 10 ^ Z.of_nat (S (Z.to_nat (Z.log2 den)))); [lia|]. apply Z.mul_le_mono_nonneg_r; [|lia]. apply Z.pow_nonneg. lia. }
    set (b := below_one _ _ _) in *. clearbody b.
    assert (E : (bpow radix10 b = / IZR (10 ^ (- b)))%R) by (rewrite <- ten by lia; rewrite <- bpow_opp, Z.opp_involutive; reflexivity).
    rewrite bpow_plus, E. change (bpow radix10 1) with 10%R. set (t := IZR (10 ^ (- b))) in *.
    assert (T : (0 < t)%R) by (apply IZR_lt, Z.pow_pos_nonneg; lia).
    apply IZR_le in B2. apply IZR_lt in B3. rewrite mult_IZR in B2, B3. rewrite mult_IZR in B3. fold t in B2, B3.
    split; (apply (Rmult_le_reg_r (IZR den * t)) || apply (Rmult_lt_reg_r (IZR den * t))); try (now apply Rmult_lt_0_compat).
    + replace (/ t * (IZR den * t))%R with (IZR den) by (field; lra). replace (IZR num / IZR den * (IZR den * t))%R with (IZR num * t)%R by (field; lra). lra.
    + replace (/ t * 10 * (IZR den * t))%R with (10 * IZR den)%R by (field; lra). replace (IZR num / IZR den * (IZR den * t))%R with (IZR num * t)%R by (field; lra). lra.
Qed.

(** ** the six digits *)
Lemma digits_ok num den : 0 < num -> 0 < den -> let '(m, d) := digits6 num den in
  100000 <= m < 1000000 /\ six (IZR num / IZR den) = (IZR m * bpow radix10 (d - 5))%R.
Proof.
  intros Hn Hd. pose proof (first_ok num den Hn Hd) as F. unfold digits6. set (d := first_digit num den) in *. clearbody d.
  assert (D : (0 < IZR den)%R) by now apply IZR_lt. set (x := (IZR num / IZR den)%R) in *.
  set (m := if d <=? 5 then _ else _).
  assert (M : m = ZnearestE (x * bpow radix10 (5 - d))).
  { unfold m. destruct (Z.leb_spec d 5).
    - rewrite rhe_nearest by assumption. f_equal. unfold x. rewrite mult_IZR, ten by lia. unfold Rdiv. ring.
    - assert (0 < 10 ^ (d - 5)) by (apply Z.pow_pos_nonneg; lia). rewrite rhe_nearest by nia. f_equal. unfold x. rewrite mult_IZR. replace (5 - d) with (- (d - 5)) by lia. rewrite bpow_opp, ten by lia. assert (IZR (10 ^ (d - 5)) <> 0)%R by (apply IZR_neq; lia). field. split; lra. }
  clearbody m.
  assert (S : six x = (IZR m * bpow radix10 (d - 5))%R).
  { unfold six, round, F2R. cbn [Fnum Fexp]. assert (C : cexp radix10 (FLX_exp 6) x = d - 5).
    { unfold cexp. rewrite (mag_unique_pos radix10 x (d + 1)); [unfold FLX_exp; lia|]. replace (d + 1 - 1) with d by lia. exact F. }
    unfold scaled_mantissa. rewrite C. rewrite M. do 3 f_equal. do 2 f_equal. lia. }
  assert (Y : (bpow radix10 5 <= x * bpow radix10 (5 - d) <= bpow radix10 6)%R).
  { pose proof (ten_pos (5 - d)). replace 5 with (d + (5 - d)) at 1 by lia. replace 6 with (d + 1 + (5 - d)) by lia. rewrite !(bpow_plus radix10 _ (5 - d)). split; apply Rmult_le_compat_r; lra. }
  assert (B : 100000 <= m <= 1000000).
  { rewrite M. rewrite <- (Zrnd_IZR ZnearestE 100000), <- (Zrnd_IZR ZnearestE 1000000) at 1. split; [exact (Zrnd_le ZnearestE _ _ (proj1 Y))|exact (Zrnd_le ZnearestE _ _ (proj2 Y))]. }
  destruct (Z.eqb_spec m 1000000) as [E|E].
  - split; [lia|]. rewrite S, E. replace (d + 1 - 5) with (1 + (d - 5)) by lia. rewrite (bpow_plus radix10 1). change (bpow radix10 1) with 10%R. lra.
  - split; [lia|exact S].
Qed.
(** ** reading back *)
Lemma frac_stop nd r t : (forall v, read_digits t v = v) -> forall v, read_digits (append (frac_text nd r) t) v = v.
Proof.
  intros H v. unfold frac_text. destruct (r =? 0); [exact (H v)|]. destruct (strip_zeros (Z.to_nat nd) r nd) as [r' nd']. destruct (show_nat (10 ^ nd' + r')); [exact (H v)|reflexivity].
Qed.
Lemma exp_stop d v : read_digits (exp_text d) v = v.
Proof. unfold exp_text. destruct (d <? 0); reflexivity. Qed.

Definition reads (r : R) (v : Z) : Prop :=
  (plain r -> v = Zfloor r) /\ (~ plain r -> 1 <= v < 10 /\ exists e, (IZR v * bpow radix10 e <= r < IZR (v + 1) * bpow radix10 e)%R).
Lemma pos_read num den : 0 < num -> 0 < den -> exists v t, show_pos num den = append (show_nat v) t /\ (forall u, read_digits t u = u) /\ 0 <= v < 1000000 /\
  (0 < six (IZR num / IZR den))%R /\ reads (six (IZR num / IZR den)) v.
Proof.
  intros Hn Hd. pose proof (digits_ok num den Hn Hd) as G. unfold show_pos. destruct (digits6 num den) as [m d]. destruct G as (M & S). rewrite S. clear S.
  pose proof (ten_pos (d - 5)) as P.
  assert (M5 : (bpow radix10 5 <= IZR m < bpow radix10 6)%R) by (split; [apply (IZR_le 100000)|apply (IZR_lt _ 1000000)]; lia).
  assert (L : (bpow radix10 d <= IZR m * bpow radix10 (d - 5) < bpow radix10 (d + 1))%R).
  { replace d with (5 + (d - 5)) at 1 by lia. replace (d + 1) with (6 + (d - 5)) by lia. rewrite (bpow_plus radix10 5), (bpow_plus radix10 6). split; [apply Rmult_le_compat_r; lra|apply Rmult_lt_compat_r; lra]. }
  assert (R0 : (0 < IZR m * bpow radix10 (d - 5))%R) by (pose proof (ten_pos d); lra).
  assert (T4 : bpow radix10 (-4) = (1 / 10000)%R) by (change (bpow radix10 (-4)) with (/ IZR 10000)%R; lra).
  assert (T6 : bpow radix10 6 = 1000000%R) by reflexivity.
  destruct ((-4 <=? d) && (d <? 6)) eqn:Q.
  - exists (m / 10 ^ (5 - d)), (frac_text (5 - d) (m mod 10 ^ (5 - d))). assert (T : 0 < 10 ^ (5 - d)) by (apply Z.pow_pos_nonneg; lia).
    split; [reflexivity|]. split. { intros u. rewrite <- (append_nil_r (frac_text _ _)). now apply frac_stop. }
    split. { split; [apply Z.div_pos; lia|]. apply Z.div_lt_upper_bound; [lia|]. nia. }
    split; [exact R0|]. split.
    + intros _. rewrite <- (Zfloor_div m (10 ^ (5 - d))) by lia. f_equal. unfold Rdiv. f_equal. replace (d - 5) with (- (5 - d)) by lia. rewrite bpow_opp, ten by lia. reflexivity.
    + intros N. exfalso. apply N. right. rewrite Rabs_pos_eq by lra. rewrite <- T4, <- T6.
      assert (bpow radix10 (-4) <= bpow radix10 d)%R by (apply bpow_le; lia). assert (bpow radix10 (d + 1) <= bpow radix10 6)%R by (apply bpow_le; lia). lra.
  - exists (m / 100000), (append (frac_text 5 (m mod 100000)) (exp_text d)).
    split; [reflexivity|]. split. { apply frac_stop. apply exp_stop. }
    pose proof (Z.div_mod m 100000 ltac:(lia)). pose proof (Z.mod_pos_bound m 100000 ltac:(lia)).
    split; [lia|]. split; [exact R0|]. split.
    + intros [Z0|B]; [lra|]. rewrite Rabs_pos_eq in B by lra. exfalso. rewrite <- T4, <- T6 in B.
      assert (C : d < -4 \/ 6 <= d) by lia. destruct C as [C|C].
      * assert (bpow radix10 (d + 1) <= bpow radix10 (-4))%R by (apply bpow_le; lia). lra.
      * assert (bpow radix10 6 <= bpow radix10 d)%R by (apply bpow_le; lia). lra.
    + intros _. split; [lia|]. exists d. assert (E : (bpow radix10 d = 100000 * bpow radix10 (d - 5))%R) by (change 100000%R with (bpow radix10 5); rewrite <- bpow_plus; f_equal; lia).
      rewrite E, <- !Rmult_assoc. split; [apply Rmult_le_compat_r; [lra|]|apply Rmult_lt_compat_r; [lra|]].
      * rewrite <- mult_IZR. apply IZR_le. lia.
      * rewrite <- mult_IZR. apply IZR_lt. lia.
Qed.
Lemma zero_read u : read_digits "0" u = read_digits "" (10 * u + 0).
Proof. reflexivity. Qed.
Lemma six_zero : six 0 = 0%R.
Proof. unfold six. apply round_0. apply valid_rnd_N. Qed.
Lemma six_opp x : six (- x) = (- six x)%R.
Proof. apply round_NE_opp. Qed.

Lemma float_read neg m e : 0 <= m -> exists v, read_num (show_g (FFin neg m e)) = Some (neg, v) /\ 0 <= v < 1000000 /\
  reads (six (IZR m * bpow radix2 e)) v /\ (0 <= six (IZR m * bpow radix2 e))%R /\ (~ plain (six (IZR m * bpow radix2 e)) -> (0 < six (IZR m * bpow radix2 e))%R).
Proof.
  intros Hm. cbn [show_g]. destruct (Z.eqb_spec m 0) as [->|N].
  - exists 0. split; [destruct neg; reflexivity|]. split; [lia|]. rewrite Rmult_0_l, six_zero. split; [split|split; [lra|]].
    + intros _. change 0%R with (IZR 0). now rewrite Zfloor_IZR.
    + intros H. destruct H. now left.
    + intros H. destruct H. now left.
  - assert (G : exists v t, (if 0 <=? e then show_pos (m * 2 ^ e) 1 else show_pos m (2 ^ (- e))) = append (show_nat v) t /\ (forall u, read_digits t u = u) /\ 0 <= v < 1000000 /\
      (0 < six (IZR m * bpow radix2 e))%R /\ reads (six (IZR m * bpow radix2 e)) v).
    { destruct (Z.leb_spec 0 e).
      - assert (0 < 2 ^ e) by (apply Z.pow_pos_nonneg; lia). replace (IZR m * bpow radix2 e)%R with (IZR (m * 2 ^ e) / IZR 1)%R; [apply pos_read; nia|].
        rewrite mult_IZR, <- (IZR_Zpower radix2 e) by lia. change (radix2 ^ e) with (2 ^ e). field.
      - assert (0 < 2 ^ (- e)) by (apply Z.pow_pos_nonneg; lia). replace (IZR m * bpow radix2 e)%R with (IZR m / IZR (2 ^ (- e)))%R; [apply pos_read; lia|].
        replace e with (- (- e)) at 2 by lia. rewrite bpow_opp, <- (IZR_Zpower radix2 (- e)) by lia. reflexivity. }
    destruct G as (v & t & E & T & V & P & RD). exists v. split.
    { rewrite E. destruct neg; [rewrite read_num_neg by lia|rewrite read_num_nat by lia]; now rewrite T. }
    split; [exact V|]. split; [exact RD|]. split; [lra|auto].
Qed.
(** ** the values *)
Lemma six_sign (neg : bool) r : six ((if neg then - r else r)) = (if neg then - six r else six r)%R.
Proof. destruct neg; [apply six_opp|reflexivity]. Qed.
Lemma fval_sign (neg : bool) m e : fvalR (FFin neg m e) = (if neg then - (IZR m * bpow radix2 e) else IZR m * bpow radix2 e)%R.
Proof. simpl. destruct neg; ring. Qed.
Lemma plain_opp r : plain (- r) <-> plain r.
Proof. unfold plain. rewrite Rabs_Ropp. split; (intros [H|H]; [left; lra|now right]). Qed.

Lemma float_num x : finite x -> exists neg v, read_num (show_g x) = Some (neg, v) /\ 0 <= v < 1000000 /\
  (plain (six (fvalR x)) -> Ztrunc (six (fvalR x)) = if neg then - v else v) /\ (~ plain (six (fvalR x)) -> leading (six (fvalR x)) (if neg then - v else v)) /\
  ((0 <= fvalR x)%R -> neg = false \/ v = 0).
Proof.
  destruct x as [|n|neg m e]; [intros []|intros []|]. intros Hm. destruct (float_read neg m e Hm) as (v & E & V & (R1 & R2) & P & PP). exists neg, v. split; [exact E|]. split; [exact V|].
  rewrite fval_sign, six_sign. set (r := six (IZR m * bpow radix2 e)) in *. split; [|split].
  - intros PL. assert (PL' : plain r) by (destruct neg; [now apply plain_opp|exact PL]). rewrite (R1 PL'). destruct neg; [rewrite Ztrunc_opp|]; rewrite Ztrunc_floor by lra; reflexivity.
  - intros PL. assert (PL' : ~ plain r) by (intros Q; apply PL; destruct neg; [now apply plain_opp|exact Q]). destruct (R2 PL') as (V' & ee & L). specialize (PP PL'). assert (VP : (0 < IZR v)%R) by (apply IZR_lt; lia).
    pose proof (Rmult_lt_0_compat _ _ VP PP). split; [destruct neg; lia|]. split; [destruct neg; rewrite ?opp_IZR; lra|]. exists ee. replace (Z.abs (if neg then - v else v)) with v by (destruct neg; lia). replace (Rabs (if neg then - r else r)) with r; [exact L|]. destruct neg; rewrite ?Rabs_Ropp, Rabs_pos_eq; lra.
  - intros Q. destruct neg; [right|now left]. pose proof (bpow_gt_0 radix2 e) as B. assert (M0 : (0 <= IZR m)%R) by (apply IZR_le; exact Hm). assert (M : m = 0). { apply eq_IZR. nra. }
    subst m. unfold show_g in E. cbn in E. now inversion E.
Qed.

Lemma int_of a key x a' : args_set_float a key x = Ok a' -> get_int a' key = from_int (show_g x).
Proof. intros H. unfold get_int. now rewrite (find_set_same _ _ _ _ H). Qed.
Lemma bool_of a key x a' : args_set_float a key x = Ok a' -> get_bool a' key = from_bool (show_g x).
Proof. intros H. unfold get_bool. now rewrite (find_set_same _ _ _ _ H). Qed.
Lemma fits v (neg : bool) : 0 <= v < 1000000 -> Base.in_int (if neg then - v else v) = true.
Proof. unfold Base.in_int, int_min, int_max. destruct neg; lia. Qed.

Lemma plain_value a key x a' : finite x -> plain (six (fvalR x)) -> args_set_float a key x = Ok a' -> get_int a' key = Ok (Ztrunc (six (fvalR x))).
Proof.
  intros Hx P H. rewrite (int_of _ _ _ _ H). destruct (float_num x Hx) as (neg & v & E & V & T & _). unfold from_int. rewrite E, (T P), fits by exact V. reflexivity.
Qed.
Lemma exponent_value a key x a' : finite x -> ~ plain (six (fvalR x)) -> args_set_float a key x = Ok a' -> exists v, get_int a' key = Ok v /\ leading (six (fvalR x)) v.
Proof.
  intros Hx P H. rewrite (int_of _ _ _ _ H). destruct (float_num x Hx) as (neg & v & E & V & _ & T & _). unfold from_int. rewrite E, fits by exact V. eauto.
Qed.
Lemma no_value a key x a' : (forall neg m e, x <> FFin neg m e) -> args_set_float a key x = Ok a' -> get_int a' key = Err EThrow /\ get_bool a' key = Err EThrow.
Proof.
  intros N H. rewrite (int_of _ _ _ _ H), (bool_of _ _ _ _ H). destruct x as [|[]|neg m e]; [split; reflexivity..|]. now destruct (N neg m e).
Qed.
Lemma bool_value a key x a' : finite x -> plain (six (fvalR x)) -> args_set_float a key x = Ok a' ->
  get_bool a' key = if Ztrunc (six (fvalR x)) =? 0 then Ok false else if Ztrunc (six (fvalR x)) =? 1 then Ok true else Err EThrow.
Proof.
  intros Hx P H. rewrite (bool_of _ _ _ _ H). destruct (float_num x Hx) as (neg & v & E & V & T & _). unfold from_bool. rewrite E, (T P). destruct neg; cbn [negb].
  - destruct (Z.eqb_spec v 0); [replace (- v =? 0) with true by lia; reflexivity|]. replace (- v =? 0) with false by lia. replace (- v =? 1) with false by lia. rewrite andb_false_r. reflexivity.
  - rewrite andb_true_r. reflexivity.
Qed.
Lemma leading_mag r v e : 1 <= v < 10 -> (IZR v * bpow radix10 e <= Rabs r < IZR (v + 1) * bpow radix10 e)%R -> mag radix10 r = e + 1 :> Z.
Proof.
  intros V L. pose proof (ten_pos e) as P. assert ((1 <= IZR v)%R) by (apply IZR_le; lia). assert ((IZR (v + 1) <= 10)%R) by (apply IZR_le; lia). apply mag_unique. replace (e + 1 - 1) with e by lia. rewrite bpow_plus. change (bpow radix10 1) with 10%R. nra.
Qed.
Lemma leading_unique r v v' : leading r v -> leading r v' -> v = v'.
Proof.
  intros (V & S & e & L) (V' & S' & e' & L'). pose proof (leading_mag _ _ _ V L) as M. pose proof (leading_mag _ _ _ V' L') as M'. assert (E : e' = e) by lia. subst e'. pose proof (ten_pos e) as P.
  assert (A : Z.abs v < Z.abs v' + 1). { apply lt_IZR. apply (Rmult_lt_reg_r (bpow radix10 e)); [exact P|lra]. }
  assert (A' : Z.abs v' < Z.abs v + 1). { apply lt_IZR. apply (Rmult_lt_reg_r (bpow radix10 e)); [exact P|lra]. }
  destruct (Z_lt_le_dec v 0) as [N|N]; destruct (Z_lt_le_dec v' 0) as [N'|N']; try lia; exfalso; clear - S S' N N' V V'.
  - assert ((IZR v <= -1)%R) by (apply IZR_le; lia). assert ((1 <= IZR v')%R) by (apply IZR_le; lia). nra.
  - assert ((IZR v' <= -1)%R) by (apply IZR_le; lia). assert ((1 <= IZR v)%R) by (apply IZR_le; lia). nra.
Qed.
Lemma bool_exponent a key x a' : finite x -> ~ plain (six (fvalR x)) -> args_set_float a key x = Ok a' ->
  get_bool a' key = Ok true /\ leading (six (fvalR x)) 1 \/ get_bool a' key = Err EThrow /\ ~ leading (six (fvalR x)) 1.
Proof.
  intros Hx P H. rewrite (bool_of _ _ _ _ H). destruct (float_num x Hx) as (neg & v & E & V & _ & T & _). specialize (T P). unfold from_bool. rewrite E. destruct (Z.eqb_spec v 0) as [->|N0]. { destruct T as (T & _). destruct neg; simpl in T; lia. }
  destruct (Z.eqb_spec v 1) as [->|N1]; destruct neg; cbn [andb negb]; [right|left|right|right]; (split; [reflexivity|]); try exact T; intros L; pose proof (leading_unique _ _ _ L T); lia.
Qed.
Lemma threads_value a x a' hwc : finite x -> plain (six (fvalR x)) -> (0 <= fvalR x)%R -> args_set_float a "cpu_nthreads" x = Ok a' ->
  get_nthreads hwc a' = Ok (if Ztrunc (six (fvalR x)) =? 0 then hwc else Ztrunc (six (fvalR x))).
Proof.
  intros Hx P N H. unfold get_nthreads. rewrite (find_set_same _ _ _ _ H). cbn [rbind to_str]. destruct (float_num x Hx) as (neg & v & E & V & T & _ & S). specialize (S N). unfold from_size_t, from_uint, from_unsigned. rewrite E, (T P).
  replace (v <? 18446744073709551616) with true by lia. replace (v <? 4294967296) with true by lia. destruct neg.
  - destruct S as [S| ->]; [discriminate|]. reflexivity.
  - cbn [rbind]. destruct (v =? 0); reflexivity.
Qed.

(** ** truncation *)
Lemma six_format z e : Z.abs z < 1000000 -> six (IZR z * bpow radix10 e) = (IZR z * bpow radix10 e)%R.
Proof.
  intros H. apply round_generic; [apply valid_rnd_N|]. apply generic_format_FLX. exists (Float radix10 z e); [reflexivity|exact H].
Qed.
Lemma six_le x y : (x <= y)%R -> (six x <= six y)%R.
Proof. apply round_le; [apply FLX_exp_valid; reflexivity|apply valid_rnd_N]. Qed.
Lemma six_near x : (Rabs x < 100000)%R -> (Rabs (six x - x) <= 1 / 20)%R.
Proof.
  intros H. destruct (Req_dec x 0) as [->|N]; [rewrite six_zero, Rminus_0_r, Rabs_R0; lra|].
  assert (FV : Valid_exp (FLX_exp 6)) by (apply FLX_exp_valid; reflexivity).
  pose proof (error_le_half_ulp radix10 (FLX_exp 6) (fun z => negb (Z.even z)) x) as E. change (round radix10 (FLX_exp 6) (Znearest (fun z => negb (Z.even z))) x) with (six x) in E.
  rewrite ulp_neq_0 in E by exact N. unfold cexp, FLX_exp in E. assert (M : mag radix10 x <= 5) by (apply mag_le_bpow; [exact N|exact H]).
  assert (B : (bpow radix10 (mag radix10 x - 6) <= bpow radix10 (-1))%R) by (apply bpow_le; lia). change (bpow radix10 (-1)) with (/ 10)%R in B. lra.
Qed.
Lemma trunc_value x z : (0 <= z < 100000) -> (IZR z <= x < IZR z + 19 / 20)%R -> (x = 0 \/ 1 / 10000 <= x)%R -> plain (six x) /\ Ztrunc (six x) = z.
Proof.
  intros Hz Hx H0. assert (Z0 : (0 <= IZR z)%R) by (apply IZR_le; lia). assert (Z1 : (IZR z <= 99999)%R) by (apply IZR_le; lia).
  assert (NE : (Rabs (six x - x) <= 1 / 20)%R) by (apply six_near; rewrite Rabs_pos_eq; lra). apply Rabs_le_inv in NE.
  assert (LO : (IZR z <= six x)%R). { replace (IZR z) with (six (IZR z * bpow radix10 0)) by (rewrite six_format by lia; simpl; ring). apply six_le. simpl. lra. }
  split.
  - destruct H0 as [->|H0]; [left; apply six_zero|]. right. assert (T : (1 / 10000 <= six x)%R).
    { replace (1 / 10000)%R with (six (1 * bpow radix10 (-4))) by (rewrite six_format by reflexivity; change (bpow radix10 (-4)) with (/ IZR 10000)%R; lra). apply six_le. change (bpow radix10 (-4)) with (/ IZR 10000)%R. lra. }
    rewrite Rabs_pos_eq by lra. lra.
  - rewrite Ztrunc_floor by lra. apply Zfloor_imp. rewrite plus_IZR. lra.
Qed.
Lemma truncates a key x a' z : finite x -> 0 <= z < 100000 -> (IZR z <= Rabs (fvalR x) < IZR z + 19 / 20)%R -> (fvalR x = 0 \/ 1 / 10000 <= Rabs (fvalR x))%R ->
  args_set_float a key x = Ok a' -> get_int a' key = Ok (if Rle_bool 0 (fvalR x) then z else - z).
Proof.
  intros Hx Hz B H0 H. destruct (Rle_bool_spec 0 (fvalR x)) as [S|S].
  - rewrite Rabs_pos_eq in B, H0 by exact S. destruct (trunc_value _ _ Hz B H0) as (P & T). rewrite (plain_value _ _ _ _ Hx P H), T. reflexivity.
  - rewrite Rabs_left in B, H0 by exact S. assert (H0' : (- fvalR x = 0 \/ 1 / 10000 <= - fvalR x)%R) by (destruct H0; [left; lra|now right]). destruct (trunc_value _ _ Hz B H0') as (P & T). rewrite six_opp in P, T. rewrite Ztrunc_opp in T. apply -> plain_opp in P. rewrite (plain_value _ _ _ _ Hx P H). f_equal. lia.
Qed.

(** ** Python *)
Lemma f32_val_ok (b : f32) : is_finite b = true -> finite (f32_val b) /\ fvalR (f32_val b) = B2R b.
Proof.
  destruct b as [s|s| |s m e He]; try discriminate; intros _.
  - split; [simpl; lia|]. simpl. destruct s; ring.
  - split; [simpl; lia|]. unfold f32_val, fvalR, B2R, F2R. cbn [Fnum Fexp]. destruct s; [|reflexivity]. rewrite <- opp_IZR. reflexivity.
Qed.
Lemma to_float_ok x : finite x -> (Rabs (fvalR x) <= bpow radix2 127)%R -> finite (to_float x) /\ fvalR (to_float x) = single (fvalR x).
Proof.
  destruct x as [|n|neg m e]; [intros []|intros []|]. intros Hm B. unfold to_float. destruct (Z.eqb_spec m 0) as [->|N].
  - split; [simpl; lia|]. simpl. replace ((if neg then - 0 else 0) * 1)%R with 0%R by (destruct neg; ring). replace ((if neg then - 0 else 0) * bpow radix2 e)%R with 0%R by (destruct neg; ring). unfold single. rewrite round_0; [reflexivity|apply valid_rnd_N].
  - pose proof (binary_normalize_correct 24 128 f32_prec f32_emax mode_NE (if neg then - m else m) e false) as C. cbv zeta in C.
    assert (V : F2R (Float radix2 (if neg then - m else m) e) = fvalR (FFin neg m e)) by (unfold F2R, fvalR; cbn [Fnum Fexp]; destruct neg; rewrite ?opp_IZR; reflexivity).
    rewrite V in C. change (round radix2 (SpecFloat.fexp 24 128) (round_mode mode_NE) (fvalR (FFin neg m e))) with (single (fvalR (FFin neg m e))) in C.
    rewrite Rlt_bool_true in C.
    + destruct C as (C1 & C2 & _). destruct (f32_val_ok _ C2) as (F & E). split; [exact F|]. unfold f32_norm. rewrite E. exact C1.
    + apply Rle_lt_trans with (bpow radix2 127); [|apply bpow_lt; reflexivity]. apply abs_round_le_generic; [apply FLT_exp_valid; reflexivity|apply valid_rnd_N|apply generic_format_bpow; unfold FLT_exp; lia|exact B].
Qed.
Lemma python_value a key x a' : finite x -> (Rabs (fvalR x) <= bpow radix2 127)%R -> plain (six (single (fvalR x))) -> py_setitem_float a key x = Ok a' ->
  get_int a' key = Ok (Ztrunc (six (single (fvalR x)))).
Proof.
  intros Hx B P H. destruct (to_float_ok x Hx B) as (F & E). rewrite <- E in P |- *. now apply plain_value with a.
Qed.

(** ** integral values: the text of MArgs *)
Lemma strip_tail L : forall f n f' r, 1 <= n -> 0 < r < 10 ^ n -> n <= Z.of_nat f -> n <= Z.of_nat f' ->
  let '(r', n') := strip_zeros f' r n in strip_zeros f (L * 10 ^ n + r) (n + 1) = (L * 10 ^ n' + r', n' + 1) /\ 1 <= n' <= n /\ 0 < r' < 10 ^ n'.
Proof.
  induction f as [|f IH]; intros n f' r Hn Hr Hf Hf'; [lia|]. destruct f' as [|f']; [lia|]. cbn [strip_zeros].
  assert (T : 10 ^ n = 10 * 10 ^ (n - 1)) by (rewrite <- Z.pow_succ_r by lia; f_equal; lia).
  assert (M : (L * 10 ^ n + r) mod 10 = r mod 10). { rewrite T. replace (L * (10 * 10 ^ (n - 1)) + r) with (r + L * 10 ^ (n - 1) * 10) by ring. apply Z.mod_add. lia. }
  rewrite M. replace (1 <? n + 1) with true by lia. rewrite andb_true_r. destruct (Z.eqb_spec (r mod 10) 0) as [E|E]; cbn [andb].
  - pose proof (Z.div_mod r 10 ltac:(lia)) as D. destruct (Z.ltb_spec 1 n) as [N|N].
    + assert (Q : (L * 10 ^ n + r) / 10 = L * 10 ^ (n - 1) + r / 10). { rewrite T. replace (L * (10 * 10 ^ (n - 1)) + r) with (L * 10 ^ (n - 1) * 10 + r) by ring. rewrite Z.div_add_l by lia. reflexivity. }
      rewrite Q. specialize (IH (n - 1) f' (r / 10) ltac:(lia) ltac:(lia) ltac:(lia) ltac:(lia)). destruct (strip_zeros f' (r / 10) (n - 1)) as [r' n']. destruct IH as (I1 & I2 & I3).
      replace (n + 1 - 1) with (n - 1 + 1) by lia. rewrite I1. repeat split; lia.
    + assert (n = 1) by lia. subst n. change (10 ^ 1) with 10 in Hr. lia.
  - split; [reflexivity|lia].
Qed.
Lemma strip_whole f L : 1 <= L < 10 -> 5 <= Z.of_nat f -> strip_zeros f (L * 10 ^ 5) 6 = (L, 1).
Proof.
  intros HL Hf. do 5 (destruct f as [|f]; [simpl in Hf; lia|]). change (10 ^ 5) with 100000. cbn [strip_zeros].
  assert (G : forall p, (L * (10 * p)) mod 10 = 0 /\ (L * (10 * p)) / 10 = L * p). { intros p. replace (L * (10 * p)) with (L * p * 10) by ring. split; [now apply Z.mod_mul|now apply Z.div_mul]. }
  change 100000 with (10 * 10000). rewrite (proj1 (G 10000)), (proj2 (G 10000)). cbn [Z.eqb andb Z.ltb Z.compare Pos.compare Pos.compare_cont]. 
  change 10000 with (10 * 1000). rewrite (proj1 (G 1000)), (proj2 (G 1000)). change 1000 with (10 * 100). rewrite (proj1 (G 100)), (proj2 (G 100)). change 100 with (10 * 10). rewrite (proj1 (G 10)), (proj2 (G 10)). replace (L * 10) with (L * (10 * 1)) by ring. rewrite (proj1 (G 1)), (proj2 (G 1)), Z.mul_1_r.
  simpl. destruct f; [reflexivity|]. simpl. rewrite andb_false_r. reflexivity.
Qed.
Lemma rhe_one n : round_half_even n 1 = n.
Proof. unfold round_half_even. rewrite Z.div_1_r, Z.mod_1_r. reflexivity. Qed.
Lemma show_pos_int n : 0 < n -> show_pos n 1 = if n <? 1000000 then show_nat n else show_sci n.
Proof.
  intros Hn. assert (F : first_digit n 1 = num_digits (Datatypes.S (Z.to_nat (Z.log2 n))) n - 1). { unfold first_digit. replace (1 <=? n) with true by lia. rewrite Z.div_1_r. reflexivity. }
  destruct (num_digits_ok (Datatypes.S (Z.to_nat (Z.log2 n))) n) as (D1 & D2 & D3). { split; [lia|]. apply log2_fuel. lia. }
  unfold show_pos, digits6. rewrite F. unfold show_sci. set (nd := num_digits _ _) in *. clearbody nd.
  destruct (Z.ltb_spec n 1000000) as [L|L].
  - assert (N6 : nd <= 6). { destruct (Z_lt_le_dec 6 nd); [|assumption]. assert (10 ^ 6 <= 10 ^ (nd - 1)) by (apply Z.pow_le_mono_r; lia). change (10 ^ 6) with 1000000 in *. lia. }
    replace (nd - 1 <=? 5) with true by lia. rewrite rhe_one.
    assert (T : 0 < 10 ^ (5 - (nd - 1))) by (apply Z.pow_pos_nonneg; lia).
    assert (B : n * 10 ^ (5 - (nd - 1)) < 1000000). { change 1000000 with (10 ^ 6). replace 6 with (nd + (5 - (nd - 1))) by lia. rewrite Z.pow_add_r by lia. nia. }
    replace (n * 10 ^ (5 - (nd - 1)) =? 1000000) with false by lia. replace ((-4 <=? nd - 1) && (nd - 1 <? 6)) with true by lia.
    rewrite Z.div_mul, Z.mod_mul by lia. unfold frac_text. simpl. apply append_nil_r.
  - assert (N7 : 7 <= nd). { destruct (Z_lt_le_dec nd 7); [|assumption]. assert (10 ^ nd <= 10 ^ 6) by (apply Z.pow_le_mono_r; lia). change (10 ^ 6) with 1000000 in *. lia. }
    replace (nd - 1 <=? 5) with false by lia. replace (nd - 1 - 5) with (nd - 6) by lia. rewrite Z.mul_1_l.
    set (p := 10 ^ (nd - 6)) in *. assert (Hp : 0 < p) by (apply Z.pow_pos_nonneg; lia).
    assert (P1 : 10 ^ (nd - 1) = 100000 * p). { change 100000 with (10 ^ 5). unfold p. rewrite <- Z.pow_add_r by lia. f_equal. lia. }
    assert (P2 : 10 ^ nd = 1000000 * p). { change 1000000 with (10 ^ 6). unfold p. rewrite <- Z.pow_add_r by lia. f_equal. lia. }
    assert (Q : 100000 <= n / p < 1000000). { split; [apply Z.div_le_lower_bound; lia|apply Z.div_lt_upper_bound; lia]. }
    pose proof (round_bounds n p Hp) as R. set (m := round_half_even n p) in *. clearbody m.
    replace (if m =? 1000000 then (100000, nd - 1 + 1) else (m, nd - 1)) with (if m =? 1000000 then (100000, nd) else (m, nd - 1)) by (destruct (m =? 1000000); [f_equal; lia|reflexivity]).
    assert (X : exists m' d, (if m =? 1000000 then (100000, nd) else (m, nd - 1)) = (m', d) /\ 100000 <= m' < 1000000 /\ 6 <= d) by (destruct (Z.eqb_spec m 1000000); eexists; eexists; (split; [reflexivity|]); lia).
    destruct X as (m' & d & -> & M & Hd). replace ((-4 <=? d) && (d <? 6)) with false by lia.
    assert (EX : show_exp d = exp_text d). { unfold show_exp, exp_text. replace (d <? 0) with false by lia. rewrite Z.abs_eq by lia. destruct (d <? 10); reflexivity. }
    rewrite EX. set (L0 := m' / 100000). set (r := m' mod 100000). assert (DM : m' = L0 * 10 ^ 5 + r) by (change (10 ^ 5) with 100000; unfold L0, r; pose proof (Z.div_mod m' 100000 ltac:(lia)); lia).
    assert (HR : 0 <= r < 100000) by (apply Z.mod_pos_bound; lia). change (10 ^ 5) with 100000 in DM. assert (HL : 1 <= L0 < 10) by lia. clearbody L0 r. subst m'.
    unfold frac_text. destruct (Z.eqb_spec r 0) as [->|NR].
    + rewrite Z.add_0_r. change 100000 with (10 ^ 5). rewrite strip_whole by (simpl; lia). change (10 ^ (1 - 1)) with 1. rewrite Z.div_1_r. reflexivity.
    + pose proof (strip_tail L0 6 5 (Z.to_nat 5) r ltac:(lia) ltac:(change (10 ^ 5) with 100000; lia) ltac:(simpl; lia) ltac:(simpl; lia)) as ST. destruct (strip_zeros (Z.to_nat 5) r 5) as [r' n']. destruct ST as (S1 & S2 & S3).
      change (10 ^ 5) with 100000 in S1. change (5 + 1) with 6 in S1. rewrite S1. replace (n' + 1 - 1) with n' by lia. replace (n' + 1 =? 1) with false by lia.
      rewrite Z.div_add_l by lia. rewrite (Z.div_small r') by lia. rewrite Z.add_0_r. replace ((L0 * 10 ^ n' + r') mod 10 ^ n') with r'; [reflexivity|].
      rewrite Z.add_comm, Z.mod_add by lia. symmetry. apply Z.mod_small. lia.
Qed.
Lemma show_int_float z : show_g (FFin (z <? 0) (Z.abs z) 0) = show_float_int z.
Proof.
  unfold show_g, show_float_int. change (0 <=? 0) with true. cbv iota. change (2 ^ 0) with 1. rewrite Z.mul_1_r.
  assert (R : round_half_even (Z.abs z) 1 = Z.abs z) by (unfold round_half_even; rewrite Z.div_1_r, Z.mod_1_r; reflexivity). rewrite R.
  destruct (Z.eqb_spec (Z.abs z) 0) as [E|E]; [assert (z = 0) by lia; now subst z|]. rewrite show_pos_int by lia.
  destruct (Z.ltb_spec (Z.abs z) 1000000); [replace (Z.abs z =? 1000000) with false by lia|]; reflexivity.
Qed.
