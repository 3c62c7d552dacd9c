(** Lemmas about the modelling primitives. *)
From Verif Require Import Base.
From Coq Require Import Permutation.
Global Arguments Z.add : simpl never.
Global Arguments Z.sub : simpl never.
Global Arguments Z.mul : simpl never.
Global Arguments zlen : simpl never.
Global Arguments znth : simpl never.
Global Arguments zupd : simpl never.
Global Arguments zrange : simpl never.

(** ** zrange *)
Lemma zrange_nil a b : b <= a -> zrange a b = [].
Proof. intros H. unfold zrange. replace (Z.to_nat (b - a)) with 0%nat by lia. reflexivity. Qed.

Lemma zrange_cons a b : a < b -> zrange a b = a :: zrange (a + 1) b.
Proof.
  intros H. unfold zrange.
  replace (Z.to_nat (b - a)) with (S (Z.to_nat (b - (a + 1)))) by lia.
  simpl. f_equal; [lia|]. rewrite <- seq_shift, map_map. apply map_ext. intros; lia.
Qed.

Lemma zrange_snoc a b : a <= b -> zrange a (b + 1) = zrange a b ++ [b].
Proof.
  intros H. unfold zrange.
  replace (Z.to_nat (b + 1 - a)) with (Z.to_nat (b - a) + 1)%nat by lia.
  rewrite seq_app, map_app. simpl. repeat f_equal. lia.
Qed.

Lemma zrange_app a b c : a <= b <= c -> zrange a c = zrange a b ++ zrange b c.
Proof.
  intros H. unfold zrange.
  replace (Z.to_nat (c - a)) with (Z.to_nat (b - a) + Z.to_nat (c - b))%nat by lia.
  rewrite seq_app, map_app. f_equal. simpl.
  rewrite <- (Nat.add_0_r (Z.to_nat (b - a))) at 1.
  generalize 0%nat. induction (Z.to_nat (c - b)) as [|n IH]; intros s; simpl; [reflexivity|].
  f_equal; [lia|]. rewrite <- IH. f_equal. f_equal. lia.
Qed.

Lemma in_zrange a b x : In x (zrange a b) <-> a <= x < b.
Proof.
  unfold zrange. rewrite in_map_iff. split.
  - intros (n & <- & Hn). apply in_seq in Hn. lia.
  - intros H. exists (Z.to_nat (x - a)). split; [lia|]. apply in_seq. lia.
Qed.

Lemma zrange_length a b : length (zrange a b) = Z.to_nat (b - a).
Proof. unfold zrange. now rewrite map_length, seq_length. Qed.

Lemma nth_error_zrange a b n :
  (n < Z.to_nat (b - a))%nat -> nth_error (zrange a b) n = Some (a + Z.of_nat n).
Proof.
  intros H. unfold zrange. rewrite nth_error_map.
  rewrite (nth_error_nth' _ 0%nat) by (rewrite seq_length; lia).
  simpl. rewrite seq_nth by lia. reflexivity.
Qed.

Lemma NoDup_zrange a b : NoDup (zrange a b).
Proof.
  unfold zrange. apply FinFun.Injective_map_NoDup; [|apply seq_NoDup].
  intros x y H. lia.
Qed.

Lemma in_zrange_down a b x : In x (zrange_down a b) <-> a <= x < b.
Proof. unfold zrange_down. rewrite <- in_rev. apply in_zrange. Qed.

Lemma zrange_down_nil a b : b <= a -> zrange_down a b = [].
Proof. intros. unfold zrange_down. now rewrite zrange_nil. Qed.

Lemma zrange_down_cons a b : a <= b -> zrange_down a (b + 1) = b :: zrange_down a b.
Proof. intros. unfold zrange_down. rewrite zrange_snoc by lia. now rewrite rev_app_distr. Qed.

(** ** zlen, znth, zupd *)
Lemma zlen_nonneg {A} (l : list A) : 0 <= zlen l.
Proof. unfold zlen. lia. Qed.
Lemma zlen_nil {A} : zlen (@nil A) = 0. Proof. reflexivity. Qed.
Lemma zlen_cons {A} (x : A) l : zlen (x :: l) = zlen l + 1.
Proof. unfold zlen. simpl. lia. Qed.
Lemma zlen_app {A} (l l' : list A) : zlen (l ++ l') = zlen l + zlen l'.
Proof. unfold zlen. rewrite app_length. lia. Qed.
Lemma zlen_map {A B} (f : A -> B) l : zlen (map f l) = zlen l.
Proof. unfold zlen. now rewrite map_length. Qed.
Lemma zlen_repeat {A} (x : A) n : zlen (repeat x n) = Z.of_nat n.
Proof. unfold zlen. now rewrite repeat_length. Qed.
Lemma zlen_zrange a b : a <= b -> zlen (zrange a b) = b - a.
Proof. intros. unfold zlen. rewrite zrange_length. lia. Qed.

Lemma znth_some {A} (l : list A) i v : znth l i = Some v -> 0 <= i < zlen l.
Proof.
  unfold znth, zlen. destruct (0 <=? i) eqn:E; [|discriminate]. intros H.
  assert (nth_error l (Z.to_nat i) <> None) as H0 by congruence.
  apply nth_error_Some in H0. lia.
Qed.
Lemma znth_in_range {A} (l : list A) i : 0 <= i < zlen l -> exists v, znth l i = Some v.
Proof.
  unfold znth, zlen. intros H. destruct (0 <=? i) eqn:E; [|lia].
  destruct (nth_error l (Z.to_nat i)) eqn:E'; [eauto|].
  apply nth_error_None in E'. lia.
Qed.
Lemma znth_none {A} (l : list A) i : znth l i = None <-> ~ 0 <= i < zlen l.
Proof.
  split; intros H.
  - intros K. apply znth_in_range in K as [v K]. congruence.
  - destruct (znth l i) eqn:E; [|reflexivity]. apply znth_some in E. tauto.
Qed.
Lemma znth_in {A} (l : list A) i v : znth l i = Some v -> In v l.
Proof. unfold znth. destruct (0 <=? i); [|discriminate]. apply nth_error_In. Qed.
Lemma in_znth {A} (l : list A) v : In v l -> exists i, 0 <= i < zlen l /\ znth l i = Some v.
Proof.
  intros H. apply In_nth_error in H as [n H]. exists (Z.of_nat n).
  unfold znth. rewrite (proj2 (Z.leb_le 0 (Z.of_nat n))) by lia.
  rewrite Nat2Z.id. split; [|assumption].
  assert (nth_error l n <> None) as H0 by congruence.
  apply nth_error_Some in H0. unfold zlen. lia.
Qed.
Lemma znth_0 {A} (x : A) l : znth (x :: l) 0 = Some x.
Proof. reflexivity. Qed.
Lemma znth_cons {A} (x : A) l i : 0 < i -> znth (x :: l) i = znth l (i - 1).
Proof.
  intros H. unfold znth. replace (0 <=? i) with true by lia.
  replace (0 <=? i - 1) with true by lia.
  replace (Z.to_nat i) with (S (Z.to_nat (i - 1))) by lia. reflexivity.
Qed.
Lemma znth_app1 {A} (l l' : list A) i : i < zlen l -> znth (l ++ l') i = znth l i.
Proof.
  unfold znth, zlen. intros H. destruct (0 <=? i) eqn:E; [|reflexivity].
  apply nth_error_app1. lia.
Qed.
Lemma znth_app2 {A} (l l' : list A) i : zlen l <= i -> znth (l ++ l') i = znth l' (i - zlen l).
Proof.
  unfold znth, zlen. intros H. replace (0 <=? i) with true by lia.
  replace (0 <=? i - Z.of_nat (length l)) with true by lia.
  rewrite nth_error_app2 by lia. f_equal. lia.
Qed.
Lemma znth_map {A B} (f : A -> B) l i : znth (map f l) i = option_map f (znth l i).
Proof. unfold znth. destruct (0 <=? i); [|reflexivity]. apply nth_error_map. Qed.
Lemma znth_repeat {A} (x : A) n i : 0 <= i < Z.of_nat n -> znth (repeat x n) i = Some x.
Proof.
  intros H. destruct (znth_in_range (repeat x n) i) as [v E].
  - now rewrite zlen_repeat.
  - rewrite E. apply znth_in, repeat_spec in E. congruence.
Qed.
Lemma znth_zrange a b i : 0 <= i < b - a -> znth (zrange a b) i = Some (a + i).
Proof.
  intros H. unfold znth. replace (0 <=? i) with true by lia.
  rewrite nth_error_zrange by lia. f_equal. lia.
Qed.
Lemma znth_ext {A} (l l' : list A) : (forall i, znth l i = znth l' i) -> l = l'.
Proof.
  revert l'. induction l as [|x l IH]; intros [|y l'] H; auto.
  - specialize (H 0). discriminate.
  - specialize (H 0). discriminate.
  - f_equal.
    + specialize (H 0). rewrite !znth_0 in H. congruence.
    + apply IH. intros i. destruct (Z_lt_le_dec i 0) as [L|L].
      * unfold znth. replace (0 <=? i) with false by lia. reflexivity.
      * specialize (H (i + 1)). rewrite !znth_cons in H by lia.
        now replace (i + 1 - 1) with i in H by lia.
Qed.
Lemma znth_ext_range {A} (l l' : list A) : zlen l = zlen l' ->
  (forall i, 0 <= i < zlen l -> znth l i = znth l' i) -> l = l'.
Proof.
  intros Hl H. apply znth_ext. intros i.
  destruct (Z_le_gt_dec 0 i), (Z_lt_ge_dec i (zlen l)); auto;
  rewrite (proj2 (znth_none l i)), (proj2 (znth_none l' i)) by lia; reflexivity.
Qed.

Lemma nupd_length {A} (l : list A) n v : length (nupd l n v) = length l.
Proof. revert n. induction l; intros [|n]; simpl; auto. Qed.
Lemma nth_error_nupd_same {A} (l : list A) n v :
  (n < length l)%nat -> nth_error (nupd l n v) n = Some v.
Proof. revert n. induction l; intros [|n] H; simpl in *; auto; try lia. apply IHl. lia. Qed.
Lemma nth_error_nupd_other {A} (l : list A) n m v :
  n <> m -> nth_error (nupd l n v) m = nth_error l m.
Proof. revert n m. induction l; intros [|n] [|m] H; simpl; auto; try lia. Qed.

Lemma zlen_zupd {A} (l : list A) i v : zlen (zupd l i v) = zlen l.
Proof. unfold zupd, zlen. destruct (0 <=? i); [now rewrite nupd_length|reflexivity]. Qed.
Lemma znth_zupd_same {A} (l : list A) i v : 0 <= i < zlen l -> znth (zupd l i v) i = Some v.
Proof.
  intros H. unfold znth, zupd, zlen in *. replace (0 <=? i) with true by lia.
  apply nth_error_nupd_same. lia.
Qed.
Lemma znth_zupd_other {A} (l : list A) i j v : i <> j -> znth (zupd l i v) j = znth l j.
Proof.
  intros H. unfold znth, zupd. destruct (0 <=? j) eqn:E, (0 <=? i) eqn:E'; auto.
  apply nth_error_nupd_other. lia.
Qed.
Lemma znth_zupd {A} (l : list A) i j v :
  znth (zupd l i v) j = if (i =? j) && (0 <=? i) && (i <? zlen l) then Some v else znth l j.
Proof.
  destruct (i =? j) eqn:E; simpl.
  - apply Z.eqb_eq in E. subst j. destruct (0 <=? i) eqn:E1, (i <? zlen l) eqn:E2; simpl.
    + apply znth_zupd_same. lia.
    + rewrite !(proj2 (znth_none _ _)); [reflexivity|lia|rewrite zlen_zupd; lia].
    + unfold znth. now rewrite E1.
    + unfold znth. now rewrite E1.
  - apply znth_zupd_other. lia.
Qed.
Lemma zupd_comm {A} (l : list A) i j v w :
  i <> j -> zupd (zupd l i v) j w = zupd (zupd l j w) i v.
Proof.
  intros H. apply znth_ext. intros x. rewrite !znth_zupd, !zlen_zupd.
  destruct (j =? x) eqn:E1, (i =? x) eqn:E2; simpl; try reflexivity. lia.
Qed.
Lemma zupd_same {A} (l : list A) i v : znth l i = Some v -> zupd l i v = l.
Proof.
  intros H. apply znth_ext. intros x. rewrite znth_zupd.
  destruct (i =? x) eqn:E; simpl; [|reflexivity].
  apply Z.eqb_eq in E. subst x. pose proof (znth_some _ _ _ H).
  replace (0 <=? i) with true by lia. replace (i <? zlen l) with true by lia. auto.
Qed.
Lemma zupd_twice {A} (l : list A) i v w : zupd (zupd l i v) i w = zupd l i w.
Proof.
  apply znth_ext. intros x. rewrite !znth_zupd, !zlen_zupd.
  destruct (i =? x); simpl; try reflexivity.
  destruct ((0 <=? i) && (i <? zlen l)); reflexivity.
Qed.

(** ** checked access *)
Lemma rget_ok {A} (l : list A) i v : rget l i = Ok v <-> znth l i = Some v.
Proof. unfold rget. destruct (znth l i); split; intros; congruence. Qed.
Lemma rget_some {A} (l : list A) i v : znth l i = Some v -> rget l i = Ok v.
Proof. intros H. unfold rget. now rewrite H. Qed.
Lemma rset_some {A} (l : list A) i v : 0 <= i < zlen l -> rset l i v = Ok (zupd l i v).
Proof. intros H. unfold rset. destruct (znth_in_range l i H) as [x ->]. reflexivity. Qed.
Lemma rset_ok {A} (l l' : list A) i v :
  rset l i v = Ok l' -> 0 <= i < zlen l /\ l' = zupd l i v.
Proof.
  unfold rset. destruct (znth l i) eqn:E; [|discriminate]. intros H.
  injection H as <-. split; [now apply znth_some in E|reflexivity].
Qed.

Lemma rbind_ok {A B} (x : res A) (f : A -> res B) b :
  rbind x f = Ok b -> exists a, x = Ok a /\ f a = Ok b.
Proof. destruct x; simpl; [eauto|discriminate]. Qed.

Lemma rfold_app {S X} (l l' : list X) (f : S -> X -> res S) s :
  rfold (l ++ l') f s = rbind (rfold l f s) (rfold l' f).
Proof.
  revert s. induction l as [|x l IH]; intros s; simpl; [reflexivity|].
  destruct (f s x); simpl; auto.
Qed.

(** Invariant rule: the list of already processed elements is visible. *)
Lemma rfold_inv {S X} (f : S -> X -> res S) (P : list X -> S -> Prop) l s :
  P [] s ->
  (forall pre x post s, l = pre ++ x :: post -> P pre s ->
     exists s', f s x = Ok s' /\ P (pre ++ [x]) s') ->
  exists s', rfold l f s = Ok s' /\ P l s'.
Proof.
  intros H0 Hstep.
  assert (G : forall post pre s, l = pre ++ post -> P pre s ->
            exists s', rfold post f s = Ok s' /\ P l s').
  { induction post as [|x post IH]; intros pre s' E HP; simpl.
    - exists s'. split; [reflexivity|]. rewrite E, app_nil_r. exact HP.
    - destruct (Hstep pre x post s' E HP) as (s1 & E1 & P1). rewrite E1. simpl.
      apply (IH (pre ++ [x])); [|exact P1]. now rewrite <- app_assoc. }
  apply (G l []); auto.
Qed.

(** The same for ranges, indexed by the number of the next element. *)
Lemma rfold_zrange_inv {S} (f : S -> Z -> res S) (P : Z -> S -> Prop) a b s :
  a <= b -> P a s ->
  (forall i s, a <= i < b -> P i s -> exists s', f s i = Ok s' /\ P (i + 1) s') ->
  exists s', rfold (zrange a b) f s = Ok s' /\ P b s'.
Proof.
  intros Hab H0 Hstep. remember (Z.to_nat (b - a)) as n eqn:En.
  revert a s Hab H0 Hstep En. induction n as [|n IH]; intros a s Hab H0 Hstep En.
  - rewrite zrange_nil by lia. exists s. split; [reflexivity|]. now replace b with a by lia.
  - rewrite zrange_cons by lia. simpl.
    destruct (Hstep a s) as (s1 & E1 & P1); [lia|assumption|]. rewrite E1. simpl.
    apply (IH (a + 1)); auto; try lia. intros i s' Hi. apply Hstep. lia.
Qed.

Lemma rfold_zrange_down_inv {S} (f : S -> Z -> res S) (P : Z -> S -> Prop) a b s :
  a <= b -> P b s ->
  (forall i s, a <= i < b -> P (i + 1) s -> exists s', f s i = Ok s' /\ P i s') ->
  exists s', rfold (zrange_down a b) f s = Ok s' /\ P a s'.
Proof.
  intros Hab H0 Hstep. remember (Z.to_nat (b - a)) as n eqn:En.
  revert b s Hab H0 Hstep En. induction n as [|n IH]; intros b s Hab H0 Hstep En.
  - rewrite zrange_down_nil by lia. exists s. split; [reflexivity|]. now replace a with b by lia.
  - replace b with (b - 1 + 1) by lia. rewrite zrange_down_cons by lia. simpl.
    destruct (Hstep (b - 1) s) as (s1 & E1 & P1);
      [lia|now replace (b - 1 + 1) with b by lia|].
    rewrite E1. simpl. apply (IH (b - 1)); auto; try lia. intros i s' Hi. apply Hstep. lia.
Qed.

(** ** machine integers *)
Lemma w8_range x : 0 <= w8 x < 256. Proof. apply Z.mod_pos_bound; lia. Qed.
Lemma w8_id x : 0 <= x < 256 -> w8 x = x. Proof. apply Z.mod_small. Qed.
Lemma w16_range x : 0 <= w16 x < 65536. Proof. apply Z.mod_pos_bound; lia. Qed.
Lemma w16_id x : 0 <= x < 65536 -> w16 x = x. Proof. apply Z.mod_small. Qed.
Lemma w64_id x : 0 <= x < 18446744073709551616 -> w64 x = x. Proof. apply Z.mod_small. Qed.
Lemma chk_ok x : int_min <= x <= int_max -> chk x = Ok x.
Proof. intros H. unfold chk, in_int. replace (int_min <=? x) with true by lia.
  replace (x <=? int_max) with true by lia. reflexivity. Qed.
Lemma chk_inv x y : chk x = Ok y -> y = x /\ int_min <= x <= int_max.
Proof. unfold chk, in_int. destruct ((int_min <=? x) && (x <=? int_max)) eqn:E; [|discriminate].
  intros H. injection H as <-. lia. Qed.
