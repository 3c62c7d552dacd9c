(** Decimal text: printing and reading back. *)
From Verif Require Import Base PBase MDnn MArgs PDnn SpecDnn.
From Coq Require Import String Ascii List.
From Verif Require Export SpecArgs.
Local Open Scope res_scope.

Definition is_digit (c : ascii) : Prop := exists d, digit_val c = Some d.

Lemma digit_char_val d : 0 <= d < 10 -> digit_val (digit_char d) = Some d.
Proof.
  intros H. unfold digit_val, digit_char. rewrite nat_ascii_embedding by lia.
  replace (Z.of_nat (Z.to_nat (48 + d))) with (48 + d) by lia.
  replace ((48 <=? 48 + d) && (48 + d <=? 57)) with true by lia. f_equal. lia.
Qed.

Lemma show_digits_read fuel : forall n acc, 0 <= n < 2 ^ Z.of_nat fuel -> (1 <= fuel)%nat ->
  read_digits (show_digits fuel n acc) 0 = read_digits acc n.
Proof.
  induction fuel as [|f IH]; intros n acc Hn Hf; [lia|]. cbn [show_digits].
  assert (Hm : 0 <= n mod 10 < 10) by (apply Z.mod_pos_bound; lia).
  pose proof (Z.div_mod n 10 ltac:(lia)) as Hd.
  destruct (n / 10 =? 0) eqn:Q.
  - cbn [read_digits]. rewrite digit_char_val by assumption. f_equal. lia.
  - assert (0 <= n / 10) by (apply Z.div_pos; lia).
    rewrite Nat2Z.inj_succ, Z.pow_succ_r in Hn by lia.
    destruct f as [|f]; [change (2 ^ Z.of_nat 0) with 1 in Hn; lia|].
    rewrite IH by lia. cbn [read_digits]. rewrite digit_char_val by assumption. f_equal. lia.
Qed.

Lemma log2_fuel n : 0 <= n -> n < 2 ^ Z.of_nat (S (Z.to_nat (Z.log2 n))).
Proof.
  intros H. rewrite Nat2Z.inj_succ, Z2Nat.id by apply Z.log2_nonneg.
  destruct (Z.eq_dec n 0) as [->|]; [reflexivity|]. apply Z.log2_spec. lia.
Qed.

Lemma show_digits_app fuel : forall n acc,
  show_digits fuel n acc = append (show_digits fuel n EmptyString) acc.
Proof.
  induction fuel as [|f IH]; intros n acc; [reflexivity|]. cbn [show_digits].
  destruct (n / 10 =? 0); [reflexivity|]. rewrite IH. symmetry. rewrite IH.
  now rewrite append_assoc.
Qed.

Lemma read_show_nat n t : 0 <= n -> read_digits (append (show_nat n) t) 0 = read_digits t n.
Proof.
  intros H. unfold show_nat. rewrite <- show_digits_app. apply show_digits_read; [|lia].
  split; [assumption|]. now apply log2_fuel.
Qed.

Lemma show_digits_all fuel : forall n acc, all_chars is_digit acc ->
  all_chars is_digit (show_digits fuel n acc).
Proof.
  induction fuel as [|f IH]; intros n acc Ha; [assumption|]. cbn [show_digits].
  assert (all_chars is_digit (String (digit_char (n mod 10)) acc)).
  { split; [|assumption]. exists (n mod 10). apply digit_char_val. apply Z.mod_pos_bound; lia. }
  destruct (n / 10 =? 0); auto.
Qed.
Lemma show_nat_all n : all_chars is_digit (show_nat n).
Proof. apply show_digits_all. exact I. Qed.

Lemma show_digits_cons fuel : forall n acc, (1 <= fuel)%nat \/ acc <> EmptyString ->
  exists c t, show_digits fuel n acc = String c t.
Proof.
  induction fuel as [|f IH]; intros n acc Ha.
  - destruct acc; [destruct Ha; [lia|congruence]|simpl; eauto].
  - cbn [show_digits]. destruct (n / 10 =? 0); [eauto|]. apply IH. right. discriminate.
Qed.
Lemma show_nat_cons n : exists c t, show_nat n = String c t.
Proof. apply show_digits_cons. left. lia. Qed.

Lemma digit_not_space c : is_digit c -> is_space c = false.
Proof.
  intros [d Hd]. unfold digit_val in Hd.
  destruct ((48 <=? Z.of_nat (nat_of_ascii c)) && (Z.of_nat (nat_of_ascii c) <=? 57)) eqn:Q; [|discriminate].
  unfold is_space. apply andb_true_iff in Q as [Q1 Q2].
  destruct (nat_of_ascii c =? 32)%nat eqn:E1; [apply Nat.eqb_eq in E1; lia|].
  destruct (nat_of_ascii c <=? 13)%nat eqn:E2; [apply Nat.leb_le in E2; lia|].
  now rewrite andb_false_r.
Qed.
Lemma digit_not_sign c : is_digit c -> c <> "-"%char /\ c <> "+"%char.
Proof. intros [d Hd]. split; intros ->; discriminate. Qed.

Lemma sign_match (c : ascii) (t : string) : c <> "-"%char -> c <> "+"%char ->
  match String c t with
    | String "-"%char t => (true, t)
    | String "+"%char t => (false, t)
    | _ => (false, String c t)
    end = (false, String c t).
Proof.
  destruct c as [[] [] [] [] [] [] [] []]; intros H1 H2; try reflexivity; congruence.
Qed.

Lemma read_num_nat n t : 0 <= n -> read_num (append (show_nat n) t) = Some (false, read_digits t n).
Proof.
  intros H. destruct (show_nat_cons n) as (c & s & E). pose proof (show_nat_all n) as A.
  pose proof (read_show_nat n t H) as R. rewrite E in *. cbn [append] in *. destruct A as [Ac _].
  unfold read_num. cbn [skip_ws]. rewrite digit_not_space by assumption.
  destruct (digit_not_sign c Ac). rewrite sign_match by assumption.
  unfold starts_digit. destruct Ac as [d ->]. now rewrite R.
Qed.
Lemma read_num_neg n t : 0 <= n ->
  read_num (String "-" (append (show_nat n) t)) = Some (true, read_digits t n).
Proof.
  intros H. destruct (show_nat_cons n) as (c & s & E). pose proof (show_nat_all n) as A.
  pose proof (read_show_nat n t H) as R. rewrite E in *. cbn [append] in *. destruct A as [Ac _].
  unfold read_num. cbn [skip_ws]. change (is_space "-"%char) with false. cbv iota beta.
  unfold starts_digit. destruct Ac as [d ->]. now rewrite R.
Qed.

Lemma read_num_int z : read_num (show_int z) = Some (z <? 0, Z.abs z).
Proof.
  unfold show_int. destruct (z <? 0) eqn:Q.
  - rewrite <- (append_nil_r (show_nat (- z))), read_num_neg by lia. cbn [read_digits]. do 2 f_equal. lia.
  - rewrite <- (append_nil_r (show_nat z)), read_num_nat by lia. cbn [read_digits]. do 2 f_equal. lia.
Qed.

Lemma show_int_inj z z' : show_int z = show_int z' -> z = z'.
Proof.
  intros H. pose proof (read_num_int z) as E. rewrite H, read_num_int in E.
  injection E as E1 E2. lia.
Qed.

(** printed integers contain no separator *)
Definition no_sep (c : ascii) : Prop := c <> " "%char /\ c <> ascii_of_nat 10 /\ c <> ","%char /\ c <> "}"%char.
Lemma all_chars_imp (P Q : ascii -> Prop) s : (forall c, P c -> Q c) -> all_chars P s -> all_chars Q s.
Proof. intros H. induction s; simpl; [auto|]. intros []. auto. Qed.
Lemma show_int_chars z : all_chars no_sep (show_int z).
Proof.
  assert (D : forall c, is_digit c -> no_sep c).
  { intros c [d Hd]. repeat split; intros ->; discriminate. }
  unfold show_int. destruct (z <? 0).
  - split; [repeat split; discriminate|]. eapply all_chars_imp; [exact D|apply show_nat_all].
  - eapply all_chars_imp; [exact D|apply show_nat_all].
Qed.

Lemma tok_inj (P : ascii -> Prop) s : forall s' c c' t t', all_chars P s -> all_chars P s' -> ~ P c -> ~ P c' ->
  append s (String c t) = append s' (String c' t') -> s = s' /\ c = c' /\ t = t'.
Proof.
  induction s as [|a s IH]; intros s' c c' t t' Hs Hs' Hc Hc' E.
  - destruct s' as [|a' s']; simpl in E; injection E as E1 E2; [auto|]. subst a'. destruct Hs'. contradiction.
  - destruct s' as [|a' s']; simpl in E; injection E as E1 E2; [subst a; destruct Hs; contradiction|].
    subst a'. destruct Hs, Hs'. destruct (IH _ _ _ _ _ H0 H2 Hc Hc' E2) as (-> & -> & ->). auto.
Qed.

Lemma row_text_inj r : forall r' t t',
  append (row_text show_int " " r) (append newline t) = append (row_text show_int " " r') (append newline t') ->
  r = r' /\ t = t'.
Proof.
  assert (N1 : ~ no_sep " "%char) by (intros [H _]; congruence).
  assert (N2 : ~ no_sep (ascii_of_nat 10)) by (intros (_ & H & _); congruence).
  induction r as [|x r IH]; intros r' t t' E; destruct r' as [|x' r'];
    cbn [row_text fold_right] in E; rewrite ?append_assoc in E.
  - split; [reflexivity|]. unfold newline in E. cbn [append] in E. now injection E.
  - exfalso. apply (tok_inj no_sep EmptyString _ _ _ _ _ I (show_int_chars x') N2 N1) in E as (_ & E & _). discriminate.
  - exfalso. apply (tok_inj no_sep _ EmptyString _ _ _ _ (show_int_chars x) I N1 N2) in E as (_ & E & _). discriminate.
  - apply (tok_inj no_sep _ _ _ _ _ _ (show_int_chars x) (show_int_chars x') N1 N1) in E as (E1 & _ & E2).
    apply show_int_inj in E1 as ->. apply IH in E2 as [-> ->]. auto.
Qed.

Lemma lines_text_inj rows : forall rows', lines_text show_int rows = lines_text show_int rows' -> rows = rows'.
Proof.
  induction rows as [|r rows IH]; intros [|r' rows'] E; auto.
  - exfalso. rewrite lines_cons in E. simpl in E. destruct (row_text show_int " " r'); discriminate.
  - exfalso. rewrite lines_cons in E. simpl in E. destruct (row_text show_int " " r); discriminate.
  - rewrite !lines_cons in E. apply row_text_inj in E as [-> E]. f_equal. auto.
Qed.

(** number of lines *)
Fixpoint count_char (c : ascii) (s : string) : Z :=
  match s with EmptyString => 0 | String a s => (if Ascii.eqb a c then 1 else 0) + count_char c s end.

Lemma savetxt_final tmpnn d : let rows := map visible tmpnn in
  rows <> [] -> Forall (fun r => r <> []) (tl rows) -> total rows <= int_max ->
  getdnn tmpnn = Ok d -> dnn_savetxt d = Ok (lines_text show_int rows).
Proof.
  intros rows H1 H2 H3 H. rewrite getdnn_ok in H by assumption. injection H as <-. now apply savetxt_ok.
Qed.
Lemma print_final tmpnn d : let rows := map visible tmpnn in
  rows <> [] -> Forall (fun r => r <> []) rows -> total rows <= int_max ->
  getdnn tmpnn = Ok d -> dnn_print d = Ok (braces_text show_int rows).
Proof.
  intros rows H1 H2 H3 H. rewrite getdnn_ok in H by assumption. injection H as <-. now apply print_ok.
Qed.
Lemma savetxt_witness : exists t1 t2 d1 d2 s p,
  getdnn t1 = Ok d1 /\ getdnn t2 = Ok d2 /\ map visible t1 <> map visible t2 /\
  dnn_savetxt d1 = Ok s /\ dnn_savetxt d2 = Ok s /\ s <> lines_text show_int (map visible t1) /\
  dnn_print d1 = Ok p /\ dnn_print d2 = Ok p /\ p <> braces_text show_int (map visible t1).
Proof.
  exists [[1]; []; [2]], [[1]; [2]; []]. do 4 eexists.
  split; [vm_compute; reflexivity|]. split; [vm_compute; reflexivity|]. split; [discriminate|].
  split; [vm_compute; reflexivity|]. split; [vm_compute; reflexivity|]. split; [vm_compute; discriminate|].
  split; [vm_compute; reflexivity|]. split; [vm_compute; reflexivity|]. vm_compute. discriminate.
Qed.
