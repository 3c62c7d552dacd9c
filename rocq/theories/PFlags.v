(** Proofs about cc::state (src/status.ipp). *)
From Verif Require Import Base PBase MUtils.
From Verif Require Export SpecFlags.

Lemma st_get_testbit b s : 0 <= s -> st_get b s = Z.testbit b s.
Proof.
  intros Hs. unfold st_get. rewrite Z.shiftl_mul_pow2, Z.mul_1_l by lia.
  destruct (Z.testbit b s) eqn:T.
  - destruct (Z.land b (2 ^ s) =? 0) eqn:Q; [|reflexivity].
    apply Z.eqb_eq in Q. assert (Z.testbit (Z.land b (2 ^ s)) s = false) by (rewrite Q; apply Z.bits_0).
    rewrite Z.land_spec, T, Z.pow2_bits_true in H by lia. discriminate.
  - destruct (Z.land b (2 ^ s) =? 0) eqn:Q; [reflexivity|].
    apply Z.eqb_neq in Q. exfalso. apply Q. apply Z.bits_inj'. intros n Hn.
    rewrite Z.land_spec, Z.bits_0. destruct (Z.eq_dec n s) as [->|Hns]; [now rewrite T|].
    rewrite Z.pow2_bits_false by lia. apply andb_false_r.
Qed.

Lemma w8_testbit x s : 0 <= s < 8 -> Z.testbit (w8 x) s = Z.testbit x s.
Proof. intros. unfold w8. change 256 with (2 ^ 8). now rewrite Z.mod_pow2_bits_low by lia. Qed.

Lemma get_set_true b s t : 0 <= s < 8 -> 0 <= t < 8 ->
  st_get (st_set_true b s) t = (t =? s) || st_get b t.
Proof.
  intros. rewrite !st_get_testbit by lia. unfold st_set_true.
  rewrite w8_testbit, Z.lor_spec, Z.shiftl_mul_pow2, Z.mul_1_l by lia.
  destruct (t =? s) eqn:Q.
  - apply Z.eqb_eq in Q. subst. rewrite Z.pow2_bits_true by lia. apply orb_true_r.
  - apply Z.eqb_neq in Q. rewrite Z.pow2_bits_false by lia. apply orb_false_r.
Qed.

Lemma get_set_false b s t : 0 <= s < 8 -> 0 <= t < 8 ->
  st_get (st_set_false b s) t = negb (t =? s) && st_get b t.
Proof.
  intros. rewrite !st_get_testbit by lia. unfold st_set_false.
  rewrite w8_testbit, Z.land_spec, Z.lnot_spec, Z.shiftl_mul_pow2, Z.mul_1_l by lia.
  destruct (t =? s) eqn:Q.
  - apply Z.eqb_eq in Q. subst. rewrite Z.pow2_bits_true by lia. apply andb_false_r.
  - apply Z.eqb_neq in Q. rewrite Z.pow2_bits_false by lia. simpl. apply andb_true_r.
Qed.

Lemma set_true_byte b s : 0 <= st_set_true b s < 256.
Proof. unfold st_set_true. apply w8_range. Qed.
Lemma set_false_byte b s : 0 <= st_set_false b s < 256.
Proof. unfold st_set_false. apply w8_range. Qed.

Lemma get_reset t : st_get st_reset t = false.
Proof. unfold st_get, st_reset. now rewrite Z.land_0_l. Qed.

(** two bytes with the same eight flags are equal *)
Lemma byte_ext a b : 0 <= a < 256 -> 0 <= b < 256 ->
  (forall t, 0 <= t < 8 -> st_get a t = st_get b t) -> a = b.
Proof.
  intros Ha Hb H. apply Z.bits_inj'. intros n Hn. destruct (Z_lt_ge_dec n 8).
  - rewrite <- !st_get_testbit by lia. apply H. lia.
  - rewrite !Z.bits_above_log2; auto; try lia.
    + destruct (Z.eq_dec b 0) as [->|]; [simpl; lia|].
      apply Z.log2_lt_pow2; [lia|]. apply Z.lt_le_trans with (2^8); [lia|]. apply Z.pow_le_mono_r; lia.
    + destruct (Z.eq_dec a 0) as [->|]; [simpl; lia|].
      apply Z.log2_lt_pow2; [lia|]. apply Z.lt_le_trans with (2^8); [lia|]. apply Z.pow_le_mono_r; lia.
Qed.

Lemma flags_last_value l b t : Forall op_ok l -> 0 <= t < 8 ->
  st_get (apply_ops l b) t = last_value (rev l) (st_get b t) t.
Proof.
  intros Hl Ht. induction l as [|o l IH] using rev_ind; [reflexivity|].
  apply Forall_app in Hl. destruct Hl as [Hl Ho]. inversion_clear Ho.
  unfold apply_ops in *. rewrite fold_left_app, rev_app_distr. simpl.
  destruct o as [s|s|]; simpl in *.
  - rewrite get_set_true by assumption. rewrite (Z.eqb_sym t s).
    destruct (s =? t); [reflexivity|]. simpl. now apply IH.
  - rewrite get_set_false by assumption. rewrite (Z.eqb_sym t s).
    destruct (s =? t); [reflexivity|]. simpl. now apply IH.
  - apply get_reset.
Qed.
