(** C96: text as the value of a parameter. *)
From Verif Require Import Base PBase MDnn MArgs MTess PArgs.
From Verif Require PText.
From Coq Require Import Bool String Ascii List.
From Verif Require Import MMain PMain.
From Verif Require Export SpecWord SpecOption.
Local Open Scope Z_scope.

Lemma space_blank c : is_space c = true <-> blank c.
Proof.
  unfold is_space, blank. set (n := nat_of_ascii c). rewrite orb_true_iff, andb_true_iff, Nat.eqb_eq, !Nat.leb_le. simpl. lia.
Qed.
Lemma digit_code d : 0 <= d <= 9 -> nat_of_ascii (digit_of d) = Z.to_nat (48 + d).
Proof. intros H. unfold digit_of. apply nat_ascii_embedding. lia. Qed.
Lemma digit_some d : 0 <= d <= 9 -> digit_val (digit_of d) = Some d.
Proof. intros H. unfold digit_val. rewrite digit_code by assumption. rewrite Z2Nat.id by lia. replace ((48 <=? 48 + d) && (48 + d <=? 57)) with true by lia. f_equal. lia. Qed.
Lemma digit_inv c d : digit_val c = Some d -> 0 <= d <= 9 /\ c = digit_of d.
Proof.
  unfold digit_val. intros H. destruct ((48 <=? Z.of_nat (nat_of_ascii c)) && (Z.of_nat (nat_of_ascii c) <=? 57)) eqn:E; [|discriminate]. injection H as <-. split; [lia|].
  unfold digit_of. replace (48 + (Z.of_nat (nat_of_ascii c) - 48)) with (Z.of_nat (nat_of_ascii c)) by lia. rewrite Nat2Z.id. symmetry. apply ascii_nat_embedding.
Qed.
Lemma digit_blank d : 0 <= d <= 9 -> ~ blank (digit_of d).
Proof. intros H. unfold blank. rewrite digit_code by assumption. cbn [In]. lia. Qed.
Lemma digit_sign d : 0 <= d <= 9 -> digit_of d <> "-"%char /\ digit_of d <> "+"%char.
Proof. intros H. split; intros E; apply (f_equal nat_of_ascii) in E; rewrite digit_code in E by assumption; [change (nat_of_ascii "-") with 45%nat in E|change (nat_of_ascii "+") with 43%nat in E]; lia. Qed.

Lemma skip_blanks b s : every blank b -> skip_ws (append b s) = skip_ws s.
Proof. induction b as [|c b IH]; [reflexivity|]. intros [H H']. simpl. rewrite (proj2 (space_blank c) H). auto. Qed.
Lemma skip_split s : exists b, every blank b /\ s = append b (skip_ws s) /\ match skip_ws s with EmptyString => True | String c _ => is_space c = false end.
Proof.
  induction s as [|c s IH]; [exists EmptyString; repeat split|]. simpl. destruct (is_space c) eqn:E.
  - destruct IH as (b & B & S & T). exists (String c b). split; [split; [now apply space_blank|assumption]|]. split; [simpl; now rewrite <- S|assumption].
  - exists EmptyString. repeat split. assumption.
Qed.
Lemma read_text ds : forall acc rest, Forall (fun d => 0 <= d <= 9) ds -> no_digit_next rest -> read_digits (append (digits_text ds) rest) acc = fold_left (fun v d => 10 * v + d) ds acc.
Proof.
  induction ds as [|d ds IH]; intros acc rest HD HR.
  - simpl. destruct rest as [|c t]; [reflexivity|]. simpl. destruct (digit_val c) as [d|] eqn:E; [|reflexivity]. apply digit_inv in E as [Hd E]. exfalso. now apply (HR d).
  - inversion HD; subst. simpl. rewrite digit_some by assumption. now apply IH.
Qed.
Lemma read_split s : exists ds rest, Forall (fun d => 0 <= d <= 9) ds /\ no_digit_next rest /\ s = append (digits_text ds) rest.
Proof.
  induction s as [|c s IH]; [exists [], EmptyString; repeat split; constructor|]. destruct (digit_val c) as [d|] eqn:E.
  - apply digit_inv in E as [Hd ->]. destruct IH as (ds & rest & H1 & H2 & ->). exists (d :: ds), rest. repeat split; auto.
  - exists [], (String c s). split; [constructor|]. split; [|reflexivity]. intros d Hd ->. rewrite digit_some in E by assumption. discriminate.
Qed.
(** the number that is read is the number of the text *)
Definition sgn (neg : bool) (v : Z) : Z := if neg then - v else v.
Lemma read_number s neg v : read_num s = Some (neg, v) -> number s (sgn neg v) /\ 0 <= v.
Proof.
  intros H. destruct (skip_split s) as (b & B & S & T). unfold read_num in H. cbv zeta in H. remember (skip_ws s) as t eqn:Et. clear Et.
  assert (G : forall u n w, starts_digit u = true -> Some (n, read_digits u 0) = Some (neg, w) -> w = v -> exists ds rest, is_digits ds /\ no_digit_next rest /\ u = append (digits_text ds) rest /\ n = neg /\ v = digits_value ds /\ 0 <= v).
  { intros u n w SD E <-. injection E as <- <-. destruct (read_split u) as (ds & rest & D & R & ->). exists ds, rest. rewrite read_text by assumption. split; [|split; [assumption|split; [reflexivity|split; [reflexivity|split; [reflexivity|]]]]].
    - split; [|assumption]. intros ->. simpl in SD. destruct rest as [|c r]; [discriminate|]. simpl in SD. destruct (digit_val c) as [d|] eqn:Q; [|discriminate]. apply digit_inv in Q as [Hd ->]. now apply (R d).
    - assert (P : forall l a, Forall (fun d => 0 <= d <= 9) l -> 0 <= a -> 0 <= fold_left (fun v d => 10 * v + d) l a) by (induction l as [|x l IHl]; intros a F Ha; [assumption|]; inversion F; subst; simpl; apply IHl; [assumption|lia]). apply P; [assumption|lia]. }
  destruct t as [|c u]; [discriminate|].
  destruct (ascii_dec c "-") as [->|N1]; [|destruct (ascii_dec c "+") as [->|N2]].
  - destruct (starts_digit u) eqn:SD; [|discriminate]. destruct (G u true v SD H eq_refl) as (ds & rest & D & R & -> & <- & -> & P). split; [|assumption]. exists b, ds, rest. repeat (split; [assumption|]). right. right. split; [assumption|reflexivity].
  - destruct (starts_digit u) eqn:SD; [|discriminate]. destruct (G u false v SD H eq_refl) as (ds & rest & D & R & -> & <- & -> & P). split; [|assumption]. exists b, ds, rest. repeat (split; [assumption|]). right. left. split; [assumption|reflexivity].
  - rewrite (PText.sign_match c u N1 N2) in H. destruct (starts_digit (String c u)) eqn:SD; [|discriminate]. destruct (G (String c u) false v SD H eq_refl) as (ds & rest & D & R & E & <- & -> & P). split; [|assumption]. exists b, ds, rest. repeat (split; [assumption|]). left. split; [now rewrite <- E|reflexivity].
Qed.
Lemma number_read s z : number s z -> exists neg v, read_num s = Some (neg, v) /\ z = sgn neg v.
Proof.
  intros (b & ds & rest & B & (D0 & D) & R & C). destruct ds as [|d ds]; [contradiction|]. inversion D; subst.
  assert (NS : is_space (digit_of d) = false) by (destruct (is_space (digit_of d)) eqn:Q; [exfalso; apply space_blank in Q; now apply (digit_blank d)|reflexivity]).
  destruct (digit_sign d) as [N1 N2]; [assumption|]. assert (SD : forall t, starts_digit (String (digit_of d) t) = true) by (intros t; simpl; now rewrite digit_some).
  pose proof (read_text (d :: ds) 0 rest D R) as RT. change (append (digits_text (d :: ds)) rest) with (String (digit_of d) (append (digits_text ds) rest)) in *.
  destruct C as [[-> ->]|[[-> ->]|[-> ->]]].
  - exists false, (digits_value (d :: ds)). split; [|reflexivity]. unfold read_num. rewrite skip_blanks by assumption. cbn [skip_ws]. rewrite NS. rewrite (PText.sign_match _ _ N1 N2), SD. now rewrite RT.
  - exists false, (digits_value (d :: ds)). split; [|reflexivity]. unfold read_num. rewrite skip_blanks by assumption. cbn [skip_ws]. change (is_space "+") with false. cbv iota zeta. rewrite SD. now rewrite RT.
  - exists true, (digits_value (d :: ds)). split; [|reflexivity]. unfold read_num. rewrite skip_blanks by assumption. cbn [skip_ws]. change (is_space "-") with false. cbv iota zeta. rewrite SD. now rewrite RT.
Qed.
Lemma number_unique s z z' : number s z -> number s z' -> z = z'.
Proof. intros H H'. apply number_read in H as (n & v & E & ->). apply number_read in H' as (n' & v' & E' & ->). congruence. Qed.

Section Val.
Variables (a a' : vtargs) (key s : string).
Hypothesis HA : args_set a key (VStr s) = Ok a'.
Lemma val_find : args_find a' key = Ok s. Proof. exact (find_set_same _ _ _ _ HA). Qed.
Lemma word_int : (forall z, get_int a' key = Ok z <-> number s z /\ int_min <= z <= int_max) /\ ((forall z, number s z -> ~ int_min <= z <= int_max) -> get_int a' key = Err EThrow).
Proof.
  unfold get_int. rewrite val_find. cbn [rbind]. unfold from_int. split.
  - intros z. split.
    + destruct (read_num s) as [[neg v]|] eqn:E; [|discriminate]. apply read_number in E as [E _]. change (if neg then - v else v) with (sgn neg v) in *. destruct (in_int (sgn neg v)) eqn:I; [|discriminate]. intros Q. injection Q as <-. split; [assumption|]. unfold in_int, int_min, int_max in *. lia.
    + intros [H R]. apply number_read in H as (neg & v & -> & ->). change (if neg then - v else v) with (sgn neg v). replace (in_int (sgn neg v)) with true; [reflexivity|]. unfold in_int, int_min, int_max in *. lia.
  - intros H. destruct (read_num s) as [[neg v]|] eqn:E; [|reflexivity]. apply read_number in E as [E _]. change (if neg then - v else v) with (sgn neg v). specialize (H _ E). destruct (in_int (sgn neg v)) eqn:I; [|reflexivity]. exfalso. apply H. unfold in_int, int_min, int_max in *. lia.
Qed.
Lemma word_bool : (forall b, get_bool a' key = Ok b <-> number s (if b : bool then 1 else 0)) /\ (~ number s 0 -> ~ number s 1 -> get_bool a' key = Err EThrow).
Proof.
  unfold get_bool. rewrite val_find. cbn [rbind]. unfold from_bool. split.
  - intros b. split.
    + destruct (read_num s) as [[neg v]|] eqn:E; [|discriminate]. apply read_number in E as [E P]. destruct (v =? 0) eqn:V0.
      * intros Q. injection Q as <-. assert (v = 0) by lia. subst v. destruct neg; exact E.
      * destruct ((v =? 1) && negb neg) eqn:V1; [|discriminate]. intros Q. injection Q as <-. apply andb_true_iff in V1 as [V1 NN]. destruct neg; [discriminate|]. assert (v = 1) by lia. subst v. exact E.
    + intros H. apply number_read in H as (neg & v & E & Z0). rewrite E. apply read_number in E as [_ P]. destruct b; destruct neg; unfold sgn in Z0.
      * exfalso. lia.
      * assert (v = 1) by lia. subst v. reflexivity.
      * assert (v = 0) by lia. subst v. reflexivity.
      * assert (v = 0) by lia. subst v. reflexivity.
  - intros H0 H1. destruct (read_num s) as [[neg v]|] eqn:E; [|reflexivity]. apply read_number in E as [E P]. destruct (v =? 0) eqn:V0.
    + exfalso. assert (v = 0) by lia. subst v. destruct neg; contradiction.
    + destruct ((v =? 1) && negb neg) eqn:V1; [|reflexivity]. exfalso. apply andb_true_iff in V1 as [V1 NN]. destruct neg; [discriminate|]. assert (v = 1) by lia. subst v. contradiction.
Qed.
End Val.
Lemma word_threads a a' s hwc : args_set a "cpu_nthreads" (VStr s) = Ok a' ->
  (forall z, number s z -> - 4294967296 < z < 4294967296 -> get_nthreads hwc a' = Ok (if z =? 0 then hwc else z mod 4294967296)) /\
  ((forall z, number s z -> ~ - 4294967296 < z < 4294967296) -> get_nthreads hwc a' = Err EThrow).
Proof.
  intros HA. unfold get_nthreads. rewrite (val_find _ _ _ _ HA). cbn [rbind]. unfold from_size_t, from_uint, from_unsigned. split.
  - intros z H R. apply number_read in H as (neg & v & E & ->). rewrite E. apply read_number in E as [_ P]. assert (V : v < 4294967296) by (destruct neg; unfold sgn in R; lia). replace (v <? 18446744073709551616) with true by lia. cbn [rbind].
    destruct (Z.eqb_spec v 0) as [->|Nv]; [destruct neg; reflexivity|]. replace (sgn neg v =? 0) with false by (destruct neg; unfold sgn; lia).
    assert (M : (if neg then (- v) mod 18446744073709551616 else v) <> 0). { destruct neg; [|assumption]. intros Q. apply Z.mod_divide in Q; [|lia]. destruct Q as [q Q]. assert (q = 0 \/ q <= -1 \/ 1 <= q) by lia. lia. }
    replace ((if neg then (- v) mod 18446744073709551616 else v) =? 0) with false by lia. replace (v <? 4294967296) with true by lia. destruct neg; [reflexivity|]. unfold sgn. now rewrite Z.mod_small by lia.
  - intros H. destruct (read_num s) as [[neg v]|] eqn:E; [|reflexivity]. apply read_number in E as [E P]. specialize (H _ E). assert (V : 4294967296 <= v) by (destruct neg; unfold sgn in H; lia).
    destruct (v <? 18446744073709551616) eqn:B; [|reflexivity]. cbn [rbind].
    assert (M : (if neg then (- v) mod 18446744073709551616 else v) <> 0). { destruct neg; [|lia]. intros Q. apply Z.mod_divide in Q; [|lia]. destruct Q as [q Q]. assert (q = 0 \/ q <= -1 \/ 1 <= q) by lia. lia. }
    replace ((if neg then (- v) mod 18446744073709551616 else v) =? 0) with false by lia. replace (v <? 4294967296) with false by lia. reflexivity.
Qed.

(** ** arguments of options *)
Lemma parse_keys os : forall p p', rfold os parse_opt p = Ok p' -> keys (ps_args p') = keys (ps_args p).
Proof.
  induction os as [|o os IH]; intros p p' H; [injection H as <-; reflexivity|]. cbn [rfold] in H. apply rbind_ok in H as (p1 & H1 & H). rewrite (IH _ _ H).
  destruct o; cbn [parse_opt] in H1; unfold set_atoi in H1; try (injection H1 as <-; reflexivity);
    try (apply rbind_ok in H1 as (v & E0 & H1)); try (apply rbind_ok in H1 as (a1 & E & H1)); injection H1 as <-; cbn [ps_args];
    eapply set_keys; eassumption.
Qed.
Lemma word_option os p o key s : parse_args os = Ok p -> with_number o key s ->
  (forall z, number s z -> int_min <= z <= int_max -> exists p', parse_args (os ++ [o]) = Ok p' /\ get_int (ps_args p') key = Ok z) /\
  ((forall z, ~ number s z) -> exists p', parse_args (os ++ [o]) = Ok p' /\ get_int (ps_args p') key = Ok 0) /\
  (forall z, number s z -> ~ int_min <= z <= int_max -> parse_args (os ++ [o]) = Err EUB).
Proof.
  intros HP HW. assert (PO : parse_args (os ++ [o]) = set_atoi p key s).
  { unfold parse_args in *. rewrite rfold_app, HP. cbn [rbind rfold]. destruct HW; cbn [parse_opt]; match goal with |- rbind ?x _ = _ => destruct x; reflexivity end. }
  rewrite PO. assert (KN : In key (keys (ps_args p))). { rewrite (parse_keys _ _ _ HP). destruct HW; simpl; tauto. }
  assert (SET : forall z, int_min <= z <= int_max -> atoi s = Ok z -> exists p', set_atoi p key s = Ok p' /\ get_int (ps_args p') key = Ok z).
  { intros z R A. unfold set_atoi. rewrite A. cbn [rbind]. destruct (set_known (ps_args p) key (VInt z) KN) as [a' Ea]. rewrite Ea. cbn [rbind]. eexists. split; [reflexivity|]. cbn [ps_args]. unfold get_int. rewrite (find_set_same _ _ _ _ Ea). cbn [rbind]. now apply from_int_show. }
  split; [|split].
  - intros z H R. apply SET; [assumption|]. apply number_read in H as (neg & v & E & ->). unfold atoi. rewrite E. change (if neg then - v else v) with (sgn neg v). replace (in_int (sgn neg v)) with true; [reflexivity|]. unfold in_int, int_min, int_max in *. lia.
  - intros H. apply SET; [unfold int_min, int_max; lia|]. unfold atoi. destruct (read_num s) as [[neg v]|] eqn:E; [|reflexivity]. apply read_number in E as [E _]. now apply H in E.
  - intros z H R. apply number_read in H as (neg & v & E & ->). unfold set_atoi, atoi. rewrite E. change (if neg then - v else v) with (sgn neg v). replace (in_int (sgn neg v)) with false; [reflexivity|]. unfold in_int, int_min, int_max in *. lia.
Qed.
