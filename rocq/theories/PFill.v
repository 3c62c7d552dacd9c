(** tmpnn_fill: the rows of a chunk reach the table of all rows. *)
From Verif Require Import Base PBase MUtils MDnn PSort SpecDnn PDnn.
From Verif Require Export SpecDnn.
Local Open Scope res_scope.

Lemma slice_cons {A} (l : list A) a n x : znth l a = Some x -> 0 < n ->
  slice l a n = x :: slice l (a + 1) (n - 1).
Proof.
  intros H Hn. unfold slice. rewrite (skipn_znth _ _ _ H).
  replace (Z.to_nat n) with (S (Z.to_nat (n - 1))) by lia. reflexivity.
Qed.
Lemma slice_0 {A} (l : list A) a n : n <= 0 -> slice l a n = [].
Proof. intros H. unfold slice. now replace (Z.to_nat n) with O by lia. Qed.
Lemma slice_snoc {A} (l : list A) a n x : 0 <= n -> 0 <= a -> znth l (a + n) = Some x ->
  slice l a (n + 1) = slice l a n ++ [x].
Proof.
  intros Hn. replace n with (Z.of_nat (Z.to_nat n)) by lia. revert a.
  induction (Z.to_nat n) as [|m IH]; intros a Ha H.
  - change (Z.of_nat 0) with 0 in *. rewrite Z.add_0_r in H.
    rewrite (slice_cons _ _ _ _ H) by lia. rewrite !slice_0 by lia. reflexivity.
  - pose proof (znth_some _ _ _ H). destruct (znth_in_range l a ltac:(lia)) as [y Hy].
    rewrite !(slice_cons l a _ y Hy) by lia.
    replace (Z.of_nat (S m) + 1 - 1) with (Z.of_nat m + 1) by lia.
    replace (Z.of_nat (S m) - 1) with (Z.of_nat m) by lia.
    rewrite IH; [reflexivity|lia|]. replace (a + 1 + Z.of_nat m) with (a + Z.of_nat (S m)) by lia. assumption.
Qed.
Lemma zlen_slice {A} (l : list A) a n : 0 <= a -> 0 <= n -> a + n <= zlen l -> zlen (slice l a n) = n.
Proof.
  intros. unfold slice, zlen in *. rewrite firstn_length, skipn_length. lia.
Qed.
Lemma nth_error_firstn_lt {A} (l : list A) : forall n i, (i < n)%nat -> nth_error (firstn n l) i = nth_error l i.
Proof.
  induction l as [|x l IH]; intros [|n] [|i] H; simpl; auto; try lia. apply IH. lia.
Qed.
Lemma znth_slice {A} (l : list A) a n i : 0 <= a -> 0 <= i < n -> znth (slice l a n) i = znth l (a + i).
Proof.
  intros Ha Hi. unfold znth, slice. replace (0 <=? i) with true by lia. replace (0 <=? a + i) with true by lia.
  rewrite nth_error_firstn_lt by lia. rewrite nth_error_skipn. f_equal. lia.
Qed.

Lemma count_ok fuel : forall knn base j k, 0 <= j <= k -> Z.to_nat (k - j) = fuel ->
  0 <= base -> base + k <= zlen knn ->
  exists n, count_row fuel knn base j k = Ok n /\ j <= n <= k /\
    visible (slice knn (base + j) (k - j)) = slice knn (base + j) (n - j).
Proof.
  induction fuel as [|f IH]; intros knn base j k Hj Hf Hb Hk.
  - exists j. split; [reflexivity|]. split; [lia|]. rewrite !slice_0 by lia. reflexivity.
  - cbn [count_row]. replace (j <? k) with true by lia.
    destruct (znth_in_range knn (base + j) ltac:(lia)) as [x Hx].
    rewrite (rget_some _ _ _ Hx). cbn [rbind]. rewrite (slice_cons _ _ (k - j) _ Hx) by lia.
    unfold k_undefined. cbn [visible]. destruct (x =? -32) eqn:Q.
    + exists j. split; [reflexivity|]. split; [lia|]. rewrite slice_0 by lia. reflexivity.
    + destruct (IH knn base (j + 1) k) as (n & E & Hn & V); try lia.
      exists n. split; [exact E|]. split; [lia|]. rewrite (slice_cons _ _ (n - j) _ Hx) by lia. f_equal.
      replace (base + (j + 1)) with (base + j + 1) in V by lia.
      replace (k - (j + 1)) with (k - j - 1) in V by lia. replace (n - (j + 1)) with (n - j - 1) in V by lia.
      exact V.
Qed.

Lemma copy_ok knn base n : 0 <= n -> 0 <= base -> base + n <= zlen knn ->
  copy_row knn base n = Ok (slice knn base n).
Proof.
  intros Hn Hb Hk. unfold copy_row.
  destruct (rfold_zrange_inv (fun row j => x <-r rget knn (base + j) ;; Ok (row ++ [x]))
    (fun j row => row = slice knn base j) 0 n []) as (row & E & ->).
  - lia.
  - now rewrite slice_0 by lia.
  - intros i row Hi ->. destruct (znth_in_range knn (base + i) ltac:(lia)) as [x Hx].
    rewrite (rget_some _ _ _ Hx). cbn [rbind]. eexists. split; [reflexivity|].
    symmetry. apply slice_snoc; [lia|lia|assumption].
  - exact E.
Qed.

Lemma fill_ok k indices size knn tmpnn :
  0 <= k -> 0 <= size <= zlen indices -> k * size <= zlen knn ->
  (forall i x, 0 <= i < size -> znth indices i = Some x -> 0 <= x < zlen tmpnn) ->
  (forall i j x, 0 <= i < size -> 0 <= j < size -> znth indices i = Some x -> znth indices j = Some x -> i = j) ->
  exists t, tmpnn_fill k indices size knn tmpnn = Ok t /\ zlen t = zlen tmpnn /\
    (forall i x, 0 <= i < size -> znth indices i = Some x -> znth t x = Some (visible (slice knn (k * i) k))) /\
    (forall x, (forall i, 0 <= i < size -> znth indices i <> Some x) -> znth t x = znth tmpnn x).
Proof.
  intros Hk Hs Hl Hr Hd. unfold tmpnn_fill.
  destruct (rfold_zrange_inv (fun tmpnn i =>
    index <-r rget indices i ;;
    n <-r count_row (Z.to_nat k) knn (k * i) 0 k ;;
    row <-r copy_row knn (k * i) n ;;
    rset tmpnn index row)
    (fun m t => zlen t = zlen tmpnn /\
    (forall i x, 0 <= i < m -> znth indices i = Some x -> znth t x = Some (visible (slice knn (k * i) k))) /\
    (forall x, (forall i, 0 <= i < m -> znth indices i <> Some x) -> znth t x = znth tmpnn x)) 0 size tmpnn)
    as (t & E & L & P1 & P2).
  - lia.
  - split; [reflexivity|]. split; [lia|auto].
  - intros i t Hi (L & P1 & P2).
    destruct (znth_in_range indices i ltac:(lia)) as [x Hx]. rewrite (rget_some _ _ _ Hx). cbn [rbind].
    destruct (count_ok (Z.to_nat k) knn (k * i) 0 k) as (n & En & Hn & V); try nia.
    rewrite En. cbn [rbind]. rewrite copy_ok by nia. cbn [rbind].
    rewrite !Z.add_0_r, !Z.sub_0_r in V. rewrite <- V.
    pose proof (Hr i x ltac:(lia) Hx) as Hxr.
    rewrite rset_some by lia. eexists. split; [reflexivity|]. split; [now rewrite zlen_zupd|]. split.
    + intros i' x' Hi' Hx'. destruct (Z.eq_dec i' i) as [->|N].
      * rewrite Hx in Hx'. injection Hx' as <-. now rewrite znth_zupd_same by lia.
      * rewrite znth_zupd_other; [apply P1; [lia|assumption]|].
        intros <-. apply N. apply (Hd i' i x); auto; lia.
    + intros x' Hx'. rewrite znth_zupd_other; [apply P2; intros; apply Hx'; lia|].
      intros <-. apply (Hx' i); [lia|assumption].
  - exists t. auto.
Qed.
