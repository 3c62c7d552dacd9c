(** Counting, stable bucket sort, and radix sort on lists. *)
From Verif Require Import Base PBase SpecSort.

(** number of elements satisfying a test *)
Definition cnt {A} (P : A -> bool) (l : list A) : Z := zlen (filter P l).

Lemma cnt_nil {A} (P : A -> bool) : cnt P [] = 0. Proof. reflexivity. Qed.
Lemma cnt_cons {A} (P : A -> bool) x l : cnt P (x :: l) = b2z (P x) + cnt P l.
Proof. unfold cnt. simpl. destruct (P x); simpl; rewrite ?zlen_cons; lia. Qed.
Lemma cnt_app {A} (P : A -> bool) l l' : cnt P (l ++ l') = cnt P l + cnt P l'.
Proof. unfold cnt. rewrite filter_app, zlen_app. lia. Qed.
Lemma cnt_nonneg {A} (P : A -> bool) l : 0 <= cnt P l.
Proof. apply zlen_nonneg. Qed.
Lemma cnt_le {A} (P : A -> bool) l : cnt P l <= zlen l.
Proof. induction l; [now rewrite cnt_nil|]. rewrite cnt_cons, zlen_cons. destruct (P a); simpl; lia. Qed.
Lemma cnt_ext {A} (P Q : A -> bool) l : (forall x, In x l -> P x = Q x) -> cnt P l = cnt Q l.
Proof. intros H. unfold cnt. f_equal. now apply filter_ext_in. Qed.
Lemma cnt_all {A} (P : A -> bool) l : (forall x, In x l -> P x = true) -> cnt P l = zlen l.
Proof.
  induction l; intros H; [reflexivity|]. rewrite cnt_cons, zlen_cons, IHl by firstorder.
  rewrite H by (now left). simpl. lia.
Qed.
Lemma cnt_none {A} (P : A -> bool) l : (forall x, In x l -> P x = false) -> cnt P l = 0.
Proof.
  induction l; intros H; [reflexivity|]. rewrite cnt_cons, IHl by firstorder.
  rewrite H by (now left). reflexivity.
Qed.
Lemma cnt_split {A} (f : A -> Z) d l :
  cnt (fun x => f x <? d + 1) l = cnt (fun x => f x <? d) l + cnt (fun x => f x =? d) l.
Proof.
  induction l; [reflexivity|]. rewrite !cnt_cons, IHl. unfold b2z.
  destruct (f a <? d + 1) eqn:A1, (f a <? d) eqn:A2, (f a =? d) eqn:A3; lia.
Qed.
Lemma cnt_mono {A} (P Q : A -> bool) l : (forall x, In x l -> P x = true -> Q x = true) -> cnt P l <= cnt Q l.
Proof.
  induction l; intros H; [now rewrite !cnt_nil|]. rewrite !cnt_cons.
  assert (cnt P l <= cnt Q l) by (apply IHl; firstorder).
  assert (P a = true -> Q a = true) by (apply H; now left).
  destruct (P a), (Q a); simpl; try lia; try (intuition discriminate).
Qed.
Lemma cnt_pos {A} (P : A -> bool) l x : In x l -> P x = true -> 0 < cnt P l.
Proof.
  induction l; intros H HP; [destruct H|]. destruct H as [->|H]; rewrite cnt_cons.
  - rewrite HP. simpl. pose proof (cnt_nonneg P l). lia.
  - specialize (IHl H HP). destruct (P a); simpl; lia.
Qed.

Lemma cnt_map {A B} (f : A -> B) (P : B -> bool) l : cnt P (map f l) = cnt (fun x => P (f x)) l.
Proof. induction l; [reflexivity|]. simpl. now rewrite !cnt_cons, IHl. Qed.

(** ** firstn / skipn at a position *)
Lemma skipn_znth {A} (l : list A) i x :
  znth l i = Some x -> skipn (Z.to_nat i) l = x :: skipn (Z.to_nat (i + 1)) l.
Proof.
  intros H. pose proof (znth_some _ _ _ H). unfold znth in H.
  replace (0 <=? i) with true in H by lia.
  replace (Z.to_nat (i + 1)) with (S (Z.to_nat i)) by lia.
  revert H. generalize (Z.to_nat i) as n. clear H0. induction l; intros [|n] H; simpl in *; try discriminate.
  - congruence.
  - now apply IHl.
Qed.
Lemma firstn_znth {A} (l : list A) i x :
  znth l i = Some x -> firstn (Z.to_nat (i + 1)) l = firstn (Z.to_nat i) l ++ [x].
Proof.
  intros H. pose proof (znth_some _ _ _ H). unfold znth in H.
  replace (0 <=? i) with true in H by lia.
  replace (Z.to_nat (i + 1)) with (S (Z.to_nat i)) by lia.
  revert H. generalize (Z.to_nat i) as n. clear H0. induction l; intros [|n] H; simpl in *; try discriminate.
  - congruence.
  - f_equal. now apply IHl.
Qed.

Lemma map_zupd {A B} (f : A -> B) l i x : map f (zupd l i x) = zupd (map f l) i (f x).
Proof.
  apply znth_ext. intros j. rewrite znth_map, !znth_zupd, zlen_map, znth_map.
  destruct ((i =? j) && (0 <=? i) && (i <? zlen l)); reflexivity.
Qed.

(** ** A list is determined by its segments *)
Lemma nth_error_firstn {A} (l : list A) n i : (i < n)%nat -> nth_error (firstn n l) i = nth_error l i.
Proof. revert n i. induction l; intros [|n] [|i] H; simpl; auto; try lia. apply IHl. lia. Qed.
Lemma nth_error_skipn {A} (l : list A) n i : nth_error (skipn n l) i = nth_error l (n + i).
Proof. revert n. induction l; intros [|n]; simpl; auto. now destruct i. Qed.
Lemma nth_error_ext {A} (l l' : list A) : (forall i, nth_error l i = nth_error l' i) -> l = l'.
Proof.
  revert l'. induction l; intros [|b l'] H; auto.
  - specialize (H 0%nat). discriminate.
  - specialize (H 0%nat). discriminate.
  - f_equal. + specialize (H 0%nat). simpl in H. congruence.
    + apply IHl. intros i. exact (H (S i)).
Qed.

Lemma concat_ext {A} (segs : list (list A)) : forall t,
  length t = length (concat segs) ->
  (forall pre s post, segs = pre ++ s :: post -> forall r x, nth_error s r = Some x ->
     nth_error t (length (concat pre) + r) = Some x) ->
  t = concat segs.
Proof.
  induction segs as [|s segs IH]; intros t Hl H; simpl in *.
  - destruct t; [reflexivity|discriminate].
  - rewrite app_length in Hl. rewrite <- (firstn_skipn (length s) t). f_equal.
    + apply nth_error_ext. intros i. destruct (Nat.lt_ge_cases i (length s)) as [L|L].
      * rewrite nth_error_firstn by assumption.
        destruct (nth_error s i) eqn:E; [|apply nth_error_None in E; lia].
        now apply (H [] s segs).
      * rewrite !(proj2 (nth_error_None _ _)); auto. rewrite firstn_length. lia.
    + apply IH.
      * rewrite skipn_length. lia.
      * intros pre s' post E r x Hx. rewrite nth_error_skipn.
        rewrite <- (H (s :: pre) s' post) with (r := r); [|now rewrite E|assumption].
        simpl. rewrite app_length. f_equal. lia.
Qed.

(** ** Buckets *)
Definition bucket {A} (f : A -> Z) (m : Z) (l : list A) : list A :=
  concat (map (fun d => filter (fun x => f x =? d) l) (zrange 0 m)).

Lemma bucket_length {A} (f : A -> Z) m l : 0 <= m -> (forall x, In x l -> 0 <= f x) ->
  zlen (bucket f m l) = cnt (fun x => f x <? m) l.
Proof.
  intros Hm Hf. replace m with (Z.of_nat (Z.to_nat m)) by lia. clear Hm.
  induction (Z.to_nat m) as [|n IH].
  - unfold bucket. simpl. rewrite cnt_none; [reflexivity|]. intros x Hx. specialize (Hf x Hx). simpl. lia.
  - rewrite Nat2Z.inj_succ, <- Z.add_1_r. unfold bucket in *.
    rewrite zrange_snoc, map_app, concat_app, zlen_app, IH by lia.
    simpl. rewrite app_nil_r, cnt_split. reflexivity.
Qed.

Lemma filter_filter {A} (P Q : A -> bool) l :
  filter P (filter Q l) = filter (fun x => P x && Q x) l.
Proof. induction l as [|x l IH]; [reflexivity|]. simpl. destruct (Q x); simpl; [destruct (P x); simpl; now rewrite IH|].
  rewrite andb_false_r. exact IH. Qed.

Lemma filter_concat {A} (P : A -> bool) ll : filter P (concat ll) = concat (map (filter P) ll).
Proof. induction ll; simpl; [reflexivity|]. now rewrite filter_app, IHll. Qed.

Lemma filter_none {A} (P : A -> bool) l : (forall x, In x l -> P x = false) -> filter P l = [].
Proof. induction l; intros H; simpl; [reflexivity|]. rewrite H by now left. apply IHl. firstorder. Qed.

Lemma concat_single {A} (g : Z -> list A) a b d : a <= d < b ->
  (forall e, a <= e < b -> e <> d -> g e = []) -> concat (map g (zrange a b)) = g d.
Proof.
  intros Hd H. rewrite (zrange_app a d b) by lia. rewrite (zrange_cons d b) by lia.
  rewrite map_app, concat_app. simpl.
  assert (N : forall l, (forall e, In e l -> g e = []) -> concat (map g l) = []).
  { induction l; intros Hl; simpl; [reflexivity|]. rewrite Hl by now left. apply IHl. firstorder. }
  rewrite (N (zrange a d)), (N (zrange (d + 1) b)); [apply app_nil_r| |].
  - intros e He. apply in_zrange in He. apply H; lia.
  - intros e He. apply in_zrange in He. apply H; lia.
Qed.

(** bucketing does not disturb elements that share a bucket *)
Lemma bucket_filter {A} (f : A -> Z) m (P : A -> bool) d l :
  0 <= d < m -> (forall x, In x l -> P x = true -> f x = d) ->
  filter P (bucket f m l) = filter P l.
Proof.
  intros Hd HP. unfold bucket. rewrite filter_concat, map_map.
  rewrite (concat_single _ 0 m d Hd).
  - rewrite filter_filter. apply filter_ext_in. intros x Hx.
    destruct (P x) eqn:E; [|reflexivity]. simpl. apply Z.eqb_eq. auto.
  - intros e _ He. rewrite filter_filter. apply filter_none. intros x Hx.
    destruct (P x) eqn:E; [|reflexivity]. simpl. apply Z.eqb_neq. rewrite (HP x Hx E). auto.
Qed.

Lemma bucket_in {A} (f : A -> Z) m l x : In x (bucket f m l) -> In x l.
Proof.
  unfold bucket. intros H. apply in_concat in H as (s & Hs & Hx).
  apply in_map_iff in Hs as (d & <- & _). now apply filter_In in Hx.
Qed.

Lemma partition_perm {A} (P : A -> bool) l :
  Permutation l (filter P l ++ filter (fun x => negb (P x)) l).
Proof.
  induction l as [|x l IH]; [constructor|]. simpl. destruct (P x); simpl.
  - now constructor.
  - now apply Permutation_cons_app.
Qed.

Lemma bucket_perm {A} (f : A -> Z) m l : 0 <= m -> (forall x, In x l -> 0 <= f x < m) ->
  Permutation l (bucket f m l).
Proof.
  intros Hm Hf.
  assert (G : forall n : nat, Permutation (filter (fun x => f x <? Z.of_nat n) l)
              (concat (map (fun d => filter (fun x => f x =? d) l) (zrange 0 (Z.of_nat n))))).
  { induction n as [|n IH].
    - rewrite filter_none; [constructor|]. intros x Hx. specialize (Hf x Hx). simpl. lia.
    - rewrite Nat2Z.inj_succ, <- Z.add_1_r, zrange_snoc by lia.
      rewrite map_app, concat_app. simpl. rewrite app_nil_r, <- IH.
      rewrite (partition_perm (fun x => f x <? Z.of_nat n) (filter (fun x => f x <? Z.of_nat n + 1) l)).
      rewrite !filter_filter. apply Permutation_app.
      + rewrite (filter_ext _ (fun x => f x <? Z.of_nat n)); [reflexivity|]. intros x.
        destruct (f x <? Z.of_nat n) eqn:E; [|reflexivity]. simpl. lia.
      + rewrite (filter_ext _ (fun x => f x =? Z.of_nat n)); [reflexivity|]. intros x.
        destruct (f x <? Z.of_nat n) eqn:E, (f x <? Z.of_nat n + 1) eqn:E', (f x =? Z.of_nat n) eqn:E''; simpl; lia. }
  unfold bucket. specialize (G (Z.to_nat m)). rewrite Z2Nat.id in G by lia. rewrite <- G.
  assert (filter (fun x => f x <? m) l = l) as ->; [|reflexivity].
  clear -Hf. induction l; [reflexivity|]. simpl.
  replace (f a <? m) with true. 2:{ specialize (Hf a (or_introl eq_refl)). lia. }
  f_equal. apply IHl. firstorder.
Qed.

Lemma ssorted_app {A} (R : A -> A -> Prop) l l' :
  StronglySorted R l -> StronglySorted R l' -> (forall x y, In x l -> In y l' -> R x y) ->
  StronglySorted R (l ++ l').
Proof.
  induction l; intros H1 H2 H; simpl; [assumption|]. inversion_clear H1. constructor.
  - apply IHl; auto. intros; apply H; auto; now right.
  - apply Forall_app. split; [assumption|]. apply Forall_forall. intros; apply H; auto; now left.
Qed.

Lemma ssorted_filter {A} (R : A -> A -> Prop) P l : StronglySorted R l -> StronglySorted R (filter P l).
Proof.
  induction l; intros H; simpl; [constructor|]. inversion_clear H. destruct (P a); [|auto].
  constructor; auto. rewrite Forall_forall in *. intros x Hx. apply filter_In in Hx. firstorder.
Qed.

Lemma ssorted_weaken {A} (R S : A -> A -> Prop) l :
  StronglySorted R l -> (forall x y, In x l -> In y l -> R x y -> S x y) -> StronglySorted S l.
Proof.
  induction l; intros H HW; [constructor|]. inversion_clear H. constructor.
  - apply IHl; auto. intros; apply HW; auto; now right.
  - rewrite Forall_forall in *. intros x Hx. apply HW; [now left|now right|auto].
Qed.

(** bucketing a list sorted by [lo] sorts it by [f * w + lo] when 0 <= lo < w *)
Lemma bucket_sorted {A} (f lo key : A -> Z) m l :
  sorted_by lo l ->
  (forall x y, In x l -> In y l -> f x < f y -> key x <= key y) ->
  (forall x y, In x l -> In y l -> f x = f y -> lo x <= lo y -> key x <= key y) ->
  sorted_by key (bucket f m l).
Proof.
  intros Hl H1 H2. unfold bucket. destruct (Z_lt_le_dec m 0) as [L|L].
  { rewrite zrange_nil by lia. constructor. }
  replace m with (Z.of_nat (Z.to_nat m)) by lia. induction (Z.to_nat m) as [|n IH]; [constructor|].
  rewrite Nat2Z.inj_succ, <- Z.add_1_r, zrange_snoc, map_app, concat_app by lia. simpl.
  rewrite app_nil_r. apply ssorted_app; [exact IH| |].
  - eapply ssorted_weaken; [apply ssorted_filter; exact Hl|]. simpl.
    intros x y Hx Hy Hxy. apply filter_In in Hx, Hy. apply H2; try tauto; lia.
  - intros x y Hx Hy. apply in_concat in Hx as (s & Hs & Hx).
    apply in_map_iff in Hs as (d & <- & Hd). apply in_zrange in Hd.
    apply filter_In in Hx, Hy. apply H1; try tauto; lia.
Qed.

(** ** Uniqueness of the stable sort *)
Lemma sorted_filters_unique {A} (key : A -> Z) : forall l1 l2,
  sorted_by key l1 -> sorted_by key l2 ->
  (forall c, filter (fun x => key x =? c) l1 = filter (fun x => key x =? c) l2) -> l1 = l2.
Proof.
  induction l1 as [|x l1 IH]; intros l2 H1 H2 HF.
  - destruct l2 as [|y l2]; [reflexivity|]. specialize (HF (key y)). simpl in HF.
    rewrite Z.eqb_refl in HF. discriminate.
  - destruct l2 as [|y l2].
    { specialize (HF (key x)). simpl in HF. rewrite Z.eqb_refl in HF. discriminate. }
    inversion_clear H1 as [|? ? S1 F1]. inversion_clear H2 as [|? ? S2 F2].
    rewrite Forall_forall in F1, F2.
    assert (Hxy : key x = key y).
    { assert (In x (y :: l2)).
      { assert (In x (filter (fun z => key z =? key x) (x :: l1))) as K.
        { apply filter_In. split; [now left|]. lia. }
        rewrite HF in K. now apply filter_In in K. }
      assert (In y (x :: l1)).
      { assert (In y (filter (fun z => key z =? key y) (y :: l2))) as K.
        { apply filter_In. split; [now left|]. lia. }
        rewrite <- HF in K. now apply filter_In in K. }
      destruct H as [->|H]; [reflexivity|]. destruct H0 as [->|H0]; [reflexivity|].
      apply F2 in H. apply F1 in H0. lia. }
    assert (x = y) as ->.
    { specialize (HF (key x)). simpl in HF. rewrite Z.eqb_refl in HF.
      rewrite <- Hxy, Z.eqb_refl in HF. congruence. }
    f_equal. apply IH; auto. intros c. specialize (HF c). simpl in HF.
    destruct (key y =? c); [congruence|assumption].
Qed.

Lemma stable_sort_unique {A} (key : A -> Z) l l1 l2 :
  stable_sort_of key l l1 -> stable_sort_of key l l2 -> l1 = l2.
Proof.
  intros (_ & S1 & F1) (_ & S2 & F2). apply (sorted_filters_unique key); auto.
  intros c. now rewrite F1, F2.
Qed.

Lemma stable_sort_sorted {A} (key : A -> Z) l : sorted_by key l -> stable_sort_of key l l.
Proof. intros H. repeat split; auto. Qed.
