(** Proofs about the parameter table. *)
From Verif Require Import Base PBase MDnn MArgs PDnn PText.
From Coq Require Import String Ascii List.
From Verif Require Export SpecArgs.
Local Open Scope res_scope.

Lemma from_int_show z : int_min <= z <= int_max -> from_int (show_int z) = Ok z.
Proof.
  intros H. unfold from_int. rewrite read_num_int.
  replace (if z <? 0 then - Z.abs z else Z.abs z) with z by (destruct (z <? 0) eqn:Q; lia).
  unfold in_int. replace ((int_min <=? z) && (z <=? int_max)) with true by lia. reflexivity.
Qed.
Lemma from_int_out z : ~ int_min <= z <= int_max -> from_int (show_int z) = Err EThrow.
Proof.
  intros H. unfold from_int. rewrite read_num_int.
  replace (if z <? 0 then - Z.abs z else Z.abs z) with z by (destruct (z <? 0) eqn:Q; lia).
  unfold in_int. replace ((int_min <=? z) && (z <=? int_max)) with false by lia. reflexivity.
Qed.
Lemma from_bool_show z : from_bool (show_int z) =
  if z =? 0 then Ok false else if z =? 1 then Ok true else Err EThrow.
Proof.
  unfold from_bool. rewrite read_num_int.
  destruct (z =? 0) eqn:Q0; [replace (Z.abs z =? 0) with true by lia; reflexivity|].
  replace (Z.abs z =? 0) with false by lia.
  destruct (z =? 1) eqn:Q1.
  - replace ((Z.abs z =? 1) && negb (z <? 0)) with true; [reflexivity|]. symmetry.
    apply andb_true_iff. split; [lia|]. destruct (z <? 0) eqn:Q; [lia|reflexivity].
  - replace ((Z.abs z =? 1) && negb (z <? 0)) with false; [reflexivity|]. symmetry.
    apply andb_false_iff. destruct (z <? 0) eqn:Q; [right; reflexivity|left; lia].
Qed.

Definition keys (a : vtargs) : list string := map fst a.

Lemma find_set_same a : forall key v a', args_set a key v = Ok a' -> args_find a' key = Ok (to_str v).
Proof.
  induction a as [|[k s] a IH]; intros key v a' H; [discriminate|]. cbn [args_set] in H.
  destruct (String.eqb k key) eqn:Q.
  - injection H as <-. cbn [args_find]. now rewrite Q.
  - apply rbind_ok in H as (b & Hb & H). injection H as <-. cbn [args_find]. rewrite Q. eauto.
Qed.
Lemma find_set_other a : forall key key' v a', args_set a key v = Ok a' -> key' <> key ->
  args_find a' key' = args_find a key'.
Proof.
  induction a as [|[k s] a IH]; intros key key' v a' H N; [discriminate|]. cbn [args_set] in H.
  destruct (String.eqb k key) eqn:Q.
  - injection H as <-. cbn [args_find]. apply String.eqb_eq in Q. subst k.
    destruct (String.eqb key key') eqn:Q; [|reflexivity]. apply String.eqb_eq in Q. congruence.
  - apply rbind_ok in H as (b & Hb & H). injection H as <-. cbn [args_find].
    rewrite (IH _ _ _ _ Hb N). reflexivity.
Qed.
Lemma set_keys a : forall key v a', args_set a key v = Ok a' -> keys a' = keys a.
Proof.
  induction a as [|[k s] a IH]; intros key v a' H; [discriminate|]. cbn [args_set] in H.
  destruct (String.eqb k key) eqn:Q.
  - injection H as <-. reflexivity.
  - apply rbind_ok in H as (b & Hb & H). injection H as <-. unfold keys. simpl. f_equal. eapply IH; eauto.
Qed.
Lemma set_known a : forall key v, In key (keys a) -> exists a', args_set a key v = Ok a'.
Proof.
  induction a as [|[k s] a IH]; intros key v H; [destruct H|]. cbn [args_set].
  destruct (String.eqb k key) eqn:Q; [eauto|]. destruct H as [H|H].
  - simpl in H. apply String.eqb_neq in Q. congruence.
  - destruct (IH key v H) as [a' ->]. simpl. eauto.
Qed.
Lemma unknown_throws a : forall key, ~ In key (keys a) ->
  args_find a key = Err EThrow /\ forall v, args_set a key v = Err EThrow.
Proof.
  induction a as [|[k s] a IH]; intros key H; [split; reflexivity|]. cbn [args_set args_find].
  destruct (String.eqb k key) eqn:Q.
  - apply String.eqb_eq in Q. destruct H. now left.
  - destruct (IH key) as [F G]; [intros HI; apply H; now right|]. split; [assumption|].
    intros v. now rewrite G.
Qed.

Lemma run_assign_ok ops : forall a, Forall (fun o => In (fst o) (keys a)) ops ->
  exists a', run_assign a ops = Ok a' /\ keys a' = keys a.
Proof.
  induction ops as [|[k v] ops IH]; intros a H.
  - exists a. split; reflexivity.
  - inversion_clear H. destruct (set_known a k v H0) as [a1 E1]. pose proof (set_keys _ _ _ _ E1) as K.
    destruct (IH a1) as (a' & E & K'); [now rewrite K|]. exists a'. unfold run_assign. cbn [rfold]. rewrite E1.
    cbn [rbind]. split; [exact E|congruence].
Qed.
Lemma run_assign_find ops : forall a a' key, run_assign a ops = Ok a' ->
  args_find a' key = match last_value key ops with Some v => Ok (to_str v) | None => args_find a key end.
Proof.
  induction ops as [|[k v] ops IH] using rev_ind; intros a a' key H.
  - injection H as <-. reflexivity.
  - unfold run_assign in H. rewrite rfold_app in H. apply rbind_ok in H as (a1 & H1 & H).
    cbn [rfold] in H. apply rbind_ok in H as (a2 & H & H2). injection H2 as <-.
    unfold last_value. rewrite fold_left_app. cbn [fold_left].
    destruct (String.eqb k key) eqn:Q.
    + apply String.eqb_eq in Q. subst k. eapply find_set_same; eauto.
    + rewrite (find_set_other _ _ key _ _ H) by (apply String.eqb_neq in Q; congruence).
      apply IH. exact H1.
Qed.
Lemma run_assign_unknown a ops1 k v ops2 : Forall (fun o => In (fst o) (keys a)) ops1 -> ~ In k (keys a) ->
  run_assign a (ops1 ++ (k, v) :: ops2) = Err EThrow.
Proof.
  intros H N. destruct (run_assign_ok ops1 a H) as (a1 & E & K). unfold run_assign in *.
  rewrite rfold_app, E. cbn [rbind rfold]. rewrite <- K in N. now rewrite (proj2 (unknown_throws a1 k N)).
Qed.

(** ** floating-point values with an integral value *)
Lemma float_small z : Z.abs z < 1000000 -> show_float_int z = show_int z.
Proof.
  intros H. unfold show_float_int. replace (Z.abs z <? 1000000) with true by lia.
  assert (round_half_even (Z.abs z) 1 = Z.abs z) as R.
  { unfold round_half_even. rewrite Z.div_1_r, Z.mod_1_r. reflexivity. }
  rewrite R. replace (Z.abs z =? 1000000) with false by lia. unfold show_int.
  destruct (z <? 0) eqn:Q; repeat f_equal; lia.
Qed.

Lemma num_digits_ok fuel : forall n, 1 <= n < 2 ^ Z.of_nat fuel ->
  1 <= num_digits fuel n /\ 10 ^ (num_digits fuel n - 1) <= n < 10 ^ (num_digits fuel n).
Proof.
  induction fuel as [|f IH]; intros n Hn.
  - change (2 ^ Z.of_nat 0) with 1 in Hn. lia.
  - cbn [num_digits]. destruct (n <? 10) eqn:Q.
    + change (10 ^ (1 - 1)) with 1. change (10 ^ 1) with 10. lia.
    + rewrite Nat2Z.inj_succ, Z.pow_succ_r in Hn by lia.
      pose proof (Z.div_mod n 10 ltac:(lia)). pose proof (Z.mod_pos_bound n 10 ltac:(lia)).
      destruct (IH (n / 10)) as (I1 & I2 & I3); [lia|].
      set (d := num_digits f (n / 10)) in *. split; [lia|].
      replace (1 + d - 1) with (Z.succ (d - 1)) by lia. replace (1 + d) with (Z.succ d) by lia.
      rewrite !Z.pow_succ_r by lia. lia.
Qed.

Lemma strip_ok fuel : forall n nd, 1 <= nd -> 10 ^ (nd - 1) <= n < 10 ^ nd ->
  let '(m, d) := strip_zeros fuel n nd in 1 <= d <= nd /\ 10 ^ (d - 1) <= m < 10 ^ d /\ n = m * 10 ^ (nd - d).
Proof.
  induction fuel as [|f IH]; intros n nd H1 Hn; [simpl; rewrite Z.sub_diag; lia|]. cbn [strip_zeros].
  destruct ((n mod 10 =? 0) && (1 <? nd)) eqn:Q; [|rewrite Z.sub_diag; lia].
  pose proof (Z.div_mod n 10 ltac:(lia)).
  enough (10 ^ (nd - 1 - 1) <= n / 10 < 10 ^ (nd - 1)).
  { specialize (IH (n / 10) (nd - 1) ltac:(lia) ltac:(assumption)). destruct (strip_zeros f (n / 10) (nd - 1)) as [m d]. destruct IH as (I1 & I2 & I3). split; [lia|]. split; [assumption|].
    replace (nd - d) with (Z.succ (nd - 1 - d)) by lia. rewrite Z.pow_succ_r by lia. lia. }
  replace nd with (Z.succ (nd - 1)) in Hn at 2 by lia.
  replace (nd - 1) with (Z.succ (nd - 1 - 1)) in Hn at 1 by lia.
  rewrite !Z.pow_succ_r in Hn by lia. lia.
Qed.

Lemma round_near n p : 0 < p -> 2 * n - p <= 2 * (round_half_even n p * p) <= 2 * n + p.
Proof.
  intros H. unfold round_half_even. pose proof (Z.div_mod n p ltac:(lia)) as E. pose proof (Z.mod_pos_bound n p H).
  destruct (Z.ltb_spec (2 * (n mod p)) p); [nia|]. destruct (Z.ltb_spec p (2 * (n mod p))); [nia|]. destruct (Z.even (n / p)); nia.
Qed.
Lemma round_bounds n p : 0 < p -> n / p <= round_half_even n p <= n / p + 1.
Proof. intros H. unfold round_half_even. repeat match goal with |- context[if ?b then _ else _] => destruct b end; lia. Qed.

(** a value of a million or more is read back as its leading digit *)
Lemma sci_read n : 1000000 <= n -> exists l t, 1 <= l < 10 /\ (exists e, 6 <= e /\ 2 * (l * 10 ^ e) - 10 ^ (e - 5) <= 2 * n < 2 * ((l + 1) * 10 ^ e)) /\ show_sci n = append (show_nat l) t /\
  forall v, read_digits t v = v.
Proof.
  intros H. unfold show_sci.
  destruct (num_digits_ok (S (Z.to_nat (Z.log2 n))) n) as (D1 & D2 & D3).
  { split; [lia|]. apply log2_fuel. lia. }
  set (nd := num_digits (S (Z.to_nat (Z.log2 n))) n) in *.
  assert (Hnd : 7 <= nd).
  { destruct (Z_lt_le_dec nd 7); [|assumption]. assert (10 ^ nd <= 10 ^ 6) by (apply Z.pow_le_mono_r; lia).
    change (10 ^ 6) with 1000000 in *. lia. }
  set (p := 10 ^ (nd - 6)) in *. assert (Hp : 0 < p) by (apply Z.pow_pos_nonneg; lia).
  assert (P1 : 10 ^ (nd - 1) = 100000 * p).
  { change 100000 with (10 ^ 5). unfold p. rewrite <- Z.pow_add_r by lia. f_equal. lia. }
  assert (P2 : 10 ^ nd = 1000000 * p).
  { change 1000000 with (10 ^ 6). unfold p. rewrite <- Z.pow_add_r by lia. f_equal. lia. }
  assert (Q : 100000 <= n / p < 1000000).
  { split; [apply Z.div_le_lower_bound; lia|apply Z.div_lt_upper_bound; lia]. }
  pose proof (round_bounds n p Hp) as R. pose proof (round_near n p Hp) as RN. set (m := round_half_even n p) in *.
  assert (exists m' e, (if m =? 1000000 then (100000, nd) else (m, nd - 1)) = (m', e) /\
     10 ^ (6 - 1) <= m' < 10 ^ 6 /\ 6 <= e /\ 2 * n - 10 ^ (e - 5) <= 2 * (m' * 10 ^ (e - 5)) <= 2 * n + 10 ^ (e - 5)) as (m' & e & E & M & E6 & ME).
  { change (10 ^ (6 - 1)) with 100000. change (10 ^ 6) with 1000000.
    destruct (m =? 1000000) eqn:QQ; do 2 eexists; (split; [reflexivity|]); (split; [lia|]); (split; [lia|]).
    - replace (nd - 5) with (Z.succ (nd - 6)) by lia. rewrite Z.pow_succ_r by lia. fold p. lia.
    - replace (nd - 1 - 5) with (nd - 6) by lia. fold p. lia. }
  rewrite E. pose proof (strip_ok 6 m' 6 ltac:(lia) M) as S. destruct (strip_zeros 6 m' 6) as [m2 d].
  destruct S as (S1 & S2 & S3).
  assert (L : 1 <= m2 / 10 ^ (d - 1) < 10).
  { assert (0 < 10 ^ (d - 1)) by (apply Z.pow_pos_nonneg; lia). split.
    - apply Z.div_le_lower_bound; lia.
    - apply Z.div_lt_upper_bound; [lia|]. replace d with (Z.succ (d - 1)) in S2 at 2 by lia.
      rewrite Z.pow_succ_r in S2 by lia. lia. }
  assert (LD : m2 / 10 ^ (d - 1) * 100000 <= m' < (m2 / 10 ^ (d - 1) + 1) * 100000).
  { assert (Hq : 0 < 10 ^ (6 - d)) by (apply Z.pow_pos_nonneg; lia). assert (Hr : 0 < 10 ^ (d - 1)) by (apply Z.pow_pos_nonneg; lia).
    assert (PQ : 100000 = 10 ^ (d - 1) * 10 ^ (6 - d)) by (rewrite <- Z.pow_add_r by lia; replace (d - 1 + (6 - d)) with 5 by lia; reflexivity).
    rewrite PQ, S3. pose proof (Z.div_mod m2 (10 ^ (d - 1)) ltac:(lia)). pose proof (Z.mod_pos_bound m2 (10 ^ (d - 1)) Hr). nia. }
  do 2 eexists. split; [exact L|]. split.
  { exists e. split; [assumption|]. assert (He : 10 ^ e = 100000 * 10 ^ (e - 5)) by (change 100000 with (10 ^ 5); rewrite <- Z.pow_add_r by lia; f_equal; lia).
    rewrite He. assert (0 < 10 ^ (e - 5)) by (apply Z.pow_pos_nonneg; lia). nia. }
  split; [reflexivity|]. intros v.
  destruct (d =? 1); [unfold show_exp; destruct (e <? 10); reflexivity|].
  destruct (show_nat (10 ^ (d - 1) + m2 mod 10 ^ (d - 1))); [unfold show_exp; destruct (e <? 10); reflexivity|].
  reflexivity.
Qed.

Lemma float_large z : 1000000 <= Z.abs z -> exists v, from_int (show_float_int z) = Ok v /\ 1 <= Z.abs v < 10 /\ Z.sgn v = Z.sgn z /\
  exists e, 6 <= e /\ 2 * (Z.abs v * 10 ^ e) - 10 ^ (e - 5) <= 2 * Z.abs z < 2 * ((Z.abs v + 1) * 10 ^ e).
Proof.
  intros H. unfold show_float_int. replace (Z.abs z <? 1000000) with false by lia.
  destruct (sci_read (Z.abs z) H) as (l & t & Hl & (e & He) & -> & Ht). unfold from_int.
  destruct (Z.ltb_spec z 0).
  - rewrite read_num_neg by lia. rewrite Ht. unfold in_int, int_min, int_max.
    replace ((-2147483648 <=? - l) && (- l <=? 2147483647)) with true by lia. eexists. split; [reflexivity|]. split; [lia|]. split; [rewrite ?Z.sgn_neg, ?Z.sgn_pos by lia; reflexivity|]. exists e. rewrite ?Z.abs_opp, (Z.abs_eq l) by lia. exact He.
  - rewrite read_num_nat by lia. rewrite Ht. unfold in_int, int_min, int_max.
    replace ((-2147483648 <=? l) && (l <=? 2147483647)) with true by lia. eexists. split; [reflexivity|]. split; [lia|]. split; [rewrite ?Z.sgn_neg, ?Z.sgn_pos by lia; reflexivity|]. exists e. rewrite ?Z.abs_opp, (Z.abs_eq l) by lia. exact He.
Qed.

(** thread count: how the stored text is interpreted *)
Lemma from_unsigned_show m z : 0 < m -> Z.abs z < m -> from_unsigned m (show_int z) = Ok (z mod m).
Proof.
  intros Hm H. unfold from_unsigned. rewrite read_num_int. replace (Z.abs z <? m) with true by lia.
  destruct (z <? 0) eqn:Q; f_equal.
  - f_equal. lia.
  - rewrite Z.mod_small; lia.
Qed.

(** ** final forms *)
Lemma int_roundtrip a key z a' :
  int_min <= z <= int_max -> args_set a key (VInt z) = Ok a' -> get_int a' key = Ok z.
Proof. intros H E. unfold get_int. rewrite (find_set_same _ _ _ _ E). now apply from_int_show. Qed.
Lemma bool_roundtrip a key b a' :
  args_set a key (VBool b) = Ok a' -> get_bool a' key = Ok b /\ get_int a' key = Ok (b2z b).
Proof.
  intros E. unfold get_int, get_bool. rewrite (find_set_same _ _ _ _ E). now destruct b.
Qed.
Lemma out_of_range a key z a' :
  args_set a key (VStr (show_int z)) = Ok a' ->
  (~ int_min <= z <= int_max -> get_int a' key = Err EThrow) /\
  (z <> 0 -> z <> 1 -> get_bool a' key = Err EThrow).
Proof.
  intros E. unfold get_int, get_bool. rewrite (find_set_same _ _ _ _ E). cbn [to_str rbind]. split.
  - intros H. now apply from_int_out.
  - intros H0 H1. rewrite from_bool_show. replace (z =? 0) with false by lia. now replace (z =? 1) with false by lia.
Qed.
Lemma wrong_form a key c t blanks a' :
  all_chars (fun c => is_space c = true) blanks ->
  is_space c = false -> digit_val c = None -> c <> "-"%char -> c <> "+"%char ->
  args_set a key (VStr (append blanks (String c t))) = Ok a' ->
  get_int a' key = Err EThrow /\ get_bool a' key = Err EThrow.
Proof.
  intros Hb Hs Hd Hm Hp E. unfold get_int, get_bool. rewrite (find_set_same _ _ _ _ E). cbn [to_str rbind].
  unfold from_int, from_bool.
  assert (R : read_num (append blanks (String c t)) = None).
  { unfold read_num. replace (skip_ws (append blanks (String c t))) with (String c t).
    - rewrite sign_match by assumption. unfold starts_digit. now rewrite Hd.
    - symmetry. clear E. induction blanks as [|b bs IH]; simpl; [now rewrite Hs|]. destruct Hb as [-> Hb]. auto. }
  now rewrite R.
Qed.

Lemma last_wins ops : Forall (fun o => In (fst o) (keys args_init)) ops ->
  exists a, run_assign args_init ops = Ok a /\
    forall key, args_find a key =
      match last_value key ops with Some v => Ok (to_str v) | None => args_find args_init key end.
Proof.
  intros H. destruct (run_assign_ok ops args_init H) as (a & E & _). exists a. split; [exact E|].
  intros key. now apply run_assign_find.
Qed.
Lemma unknown_key ops a key v :
  Forall (fun o => In (fst o) (keys args_init)) ops -> run_assign args_init ops = Ok a ->
  ~ In key (keys args_init) -> args_find a key = Err EThrow /\ args_set a key v = Err EThrow.
Proof.
  intros H E N. destruct (run_assign_ok ops args_init H) as (a1 & E1 & K). rewrite E in E1. injection E1 as <-.
  rewrite <- K in N. destruct (unknown_throws a key N) as [U1 U2]. auto.
Qed.
Lemma defaults :
  get_int args_init "k" = Ok 64 /\ get_int args_init "cpu_nthreads" = Ok 0 /\
  get_int args_init "gpu_ndsize" = Ok 1 /\ get_int args_init "chunksize" = Ok 8196 /\
  get_bool args_init "use_chunking" = Ok false /\ get_bool args_init "use_recompute" = Ok false /\
  get_int args_init "knn_grid_resolution" = Ok 16 /\ get_int args_init "cc_p_maxsize" = Ok 32 /\
  get_int args_init "cc_t_maxsize" = Ok 32.
Proof. repeat split; vm_compute; reflexivity. Qed.
Lemma float_roundtrip a key z a' :
  Z.abs z < 1000000 -> args_set a key (VFloatInt z) = Ok a' -> get_int a' key = Ok z.
Proof.
  intros H E. unfold get_int. rewrite (find_set_same _ _ _ _ E). cbn [to_str rbind].
  rewrite float_small by assumption. apply from_int_show. unfold int_min, int_max. lia.
Qed.
Lemma float_truncated a key z a' :
  1000000 <= Z.abs z -> args_set a key (VFloatInt z) = Ok a' ->
  exists v, get_int a' key = Ok v /\ 1 <= Z.abs v < 10 /\ Z.sgn v = Z.sgn z /\
    exists e, 6 <= e /\ 2 * (Z.abs v * 10 ^ e) - 10 ^ (e - 5) <= 2 * Z.abs z < 2 * ((Z.abs v + 1) * 10 ^ e).
Proof.
  intros H E. unfold get_int. rewrite (find_set_same _ _ _ _ E). now apply float_large.
Qed.
Lemma float_witness : exists a', args_set args_init "chunksize" (VFloatInt 1000000) = Ok a' /\
  get_int a' "chunksize" = Ok 1.
Proof. eexists. split; [vm_compute; reflexivity|]. vm_compute. reflexivity. Qed.
