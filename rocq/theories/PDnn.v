(** Proofs about dnn, tmpnn_fill and tmpnn_getdnn. *)
From Verif Require Import Base PBase MUtils MDnn PSort SpecDnn.
From Coq Require Import String Ascii List.
Local Open Scope res_scope.

Lemma take_defined_visible row : take_defined row = visible row.
Proof. induction row as [|x r IH]; [reflexivity|]. simpl. unfold k_undefined. now rewrite IH. Qed.

(** sum of the lengths of the first i rows *)
Definition osum (rows : list (list Z)) (i : Z) : Z := zlen (concat (firstn (Z.to_nat i) rows)).

Lemma osum_0 rows : osum rows 0 = 0. Proof. reflexivity. Qed.
Lemma osum_step rows i r : znth rows i = Some r -> osum rows (i + 1) = osum rows i + zlen r.
Proof.
  intros H. unfold osum. rewrite (firstn_znth _ _ _ H), concat_app, zlen_app. simpl.
  now rewrite app_nil_r.
Qed.
Lemma osum_all rows i : zlen rows <= i -> osum rows i = zlen (concat rows).
Proof. intros H. unfold osum. rewrite firstn_all2; [reflexivity|]. unfold zlen in H. lia. Qed.
Lemma osum_nonneg rows i : 0 <= osum rows i. Proof. apply zlen_nonneg. Qed.
Lemma osum_le rows i : osum rows i <= zlen (concat rows).
Proof.
  unfold osum. rewrite <- (firstn_skipn (Z.to_nat i) rows) at 2. rewrite concat_app, zlen_app.
  pose proof (zlen_nonneg (concat (skipn (Z.to_nat i) rows))). lia.
Qed.

Lemma rowloop_ok (i : Z) (row : list Z) : forall (lst offs : list Z) v,
  znth offs (i + 1) = Some v -> int_min <= v -> v + zlen row <= int_max ->
  rfold row (fun '(lst, offs) x =>
     o <-r rget offs (i + 1) ;; o' <-r chk (o + 1) ;;
     offs <-r rset offs (i + 1) o' ;; Ok (lst ++ [x], offs)) (lst, offs)
  = Ok (lst ++ row, zupd offs (i + 1) (v + zlen row)).
Proof.
  induction row as [|x row IH]; intros lst offs v Hv Hm HM.
  - simpl. rewrite app_nil_r. change (zlen (@nil Z)) with 0. rewrite Z.add_0_r.
    now rewrite zupd_same.
  - pose proof (znth_some _ _ _ Hv). rewrite zlen_cons in *. pose proof (zlen_nonneg row).
    cbn [rfold]. rewrite (rget_some _ _ _ Hv). cbn [rbind].
    rewrite chk_ok by lia. cbn [rbind]. rewrite rset_some by assumption. cbn [rbind].
    rewrite (IH _ _ (v + 1)); [|apply znth_zupd_same; assumption|lia|lia].
    rewrite <- app_assoc. simpl. rewrite zupd_twice. do 3 f_equal. lia.
Qed.

Definition shape (rows : list (list Z)) : list Z :=
  map (fun i => osum rows i) (zrange 0 (zlen rows + 1)).

Lemma prefix_chk_ok (c : list Z) (g G : Z -> Z) n :
  zlen c = n -> 1 <= n ->
  (forall d, 0 <= d < n -> znth c d = Some (g d)) ->
  (forall d, 0 <= d < n -> int_min <= G d <= int_max) ->
  G 0 = g 0 -> (forall d, 0 < d < n -> G d = G (d - 1) + g d) ->
  exists c', rfold (zrange 1 n) (fun c i =>
      a <-r rget c i ;; b <-r rget c (i - 1) ;; s <-r chk (a + b) ;; rset c i s) c = Ok c' /\
    zlen c' = n /\ forall d, 0 <= d < n -> znth c' d = Some (G d).
Proof.
  intros Hl Hn Hg HI H0 HS.
  destruct (rfold_zrange_inv (fun c i => a <-r rget c i ;; b <-r rget c (i - 1) ;; s <-r chk (a + b) ;; rset c i s)
    (fun i c' => zlen c' = n /\ (forall d, 0 <= d < i -> znth c' d = Some (G d)) /\
       (forall d, i <= d < n -> znth c' d = Some (g d))) 1 n c) as (c' & E & L & P & _).
  - lia.
  - split; [assumption|]. split; intros d Hd.
    + replace d with 0 by lia. rewrite H0. apply Hg. lia.
    + apply Hg. lia.
  - intros i c' Hi (L & P1 & P2).
    rewrite (rget_some _ _ _ (P2 i ltac:(lia))). cbn [rbind].
    rewrite (rget_some _ _ _ (P1 (i - 1) ltac:(lia))). cbn [rbind].
    pose proof (HI i ltac:(lia)). rewrite (HS i) in H by lia.
    rewrite chk_ok by lia. cbn [rbind].
    rewrite rset_some by lia. eexists. split; [reflexivity|]. split; [now rewrite zlen_zupd|].
    split; intros d Hd.
    + destruct (Z.eq_dec d i) as [->|].
      * rewrite znth_zupd_same by lia. f_equal. rewrite (HS i) by lia. lia.
      * rewrite znth_zupd_other by lia. apply P1. lia.
    + rewrite znth_zupd_other by lia. apply P2. lia.
  - exists c'. split; [exact E|]. split; [exact L|exact P].
Qed.

Lemma getdnn_ok tmpnn : let rows := map visible tmpnn in
  total rows <= int_max ->
  getdnn tmpnn = Ok (mkDnn (concat rows) (shape rows)).
Proof.
  intros rows Htot. change (zlen (concat rows) <= int_max) in Htot.
  unfold getdnn. set (n := zlen tmpnn). pose proof (zlen_nonneg tmpnn) as Hn. fold n in Hn.
  assert (Ln : zlen rows = n) by apply zlen_map.
  assert (Zn : Z.of_nat (S (List.length tmpnn)) = n + 1) by (unfold n, zlen; lia).
  destruct (rfold_zrange_inv
    (fun '(lst, offs) i =>
         row <-r rget tmpnn i ;;
         rfold (take_defined row) (fun '(lst, offs) x =>
           o <-r rget offs (i + 1) ;; o' <-r chk (o + 1) ;;
           offs <-r rset offs (i + 1) o' ;;
           Ok (lst ++ [x], offs)) (lst, offs))
    (fun i '(lst, offs) => lst = concat (firstn (Z.to_nat i) rows) /\ zlen offs = n + 1 /\
       znth offs 0 = Some 0 /\
       (forall d r, 0 < d <= i -> znth rows (d - 1) = Some r -> znth offs d = Some (zlen r)) /\
       (forall d, i < d <= n -> znth offs d = Some 0))
    0 n ([], repeat 0 (S (List.length tmpnn)))) as ([lst offs] & E & El & Lo & O0 & Po & _).
  - assumption.
  - split; [reflexivity|]. rewrite zlen_repeat. split; [lia|]. split; [apply znth_repeat; lia|].
    split; [lia|]. intros d Hd. apply znth_repeat. lia.
  - intros i [lst offs] Hi (El & Lo & O0 & P1 & P2).
    destruct (znth_in_range tmpnn i Hi) as [row Hrow].
    assert (Hr : znth rows i = Some (visible row)) by (unfold rows; rewrite znth_map, Hrow; reflexivity).
    rewrite (rget_some _ _ _ Hrow). cbn [rbind].
    rewrite take_defined_visible. pose proof (osum_step _ _ _ Hr). pose proof (osum_le rows (i + 1)).
    pose proof (osum_nonneg rows i).
    rewrite (rowloop_ok i (visible row) lst offs 0) by (try apply P2; unfold int_min; lia).
    eexists. split; [reflexivity|]. split.
    { rewrite (firstn_znth _ _ _ Hr), concat_app, <- El. simpl. now rewrite app_nil_r. }
    rewrite zlen_zupd. split; [assumption|]. split; [rewrite znth_zupd_other by lia; assumption|]. split.
    + intros d r Hd Hdr. destruct (Z.eq_dec d (i + 1)) as [->|].
      * rewrite znth_zupd_same by lia. replace (i + 1 - 1) with i in Hdr by lia.
        rewrite Hr in Hdr. injection Hdr as <-. reflexivity.
      * rewrite znth_zupd_other by lia. apply P1; [lia|assumption].
    + intros d Hd. rewrite znth_zupd_other by lia. apply P2. lia.
  - rewrite E. cbn [rbind].
    set (g := fun d => if d =? 0 then 0 else match znth rows (d - 1) with Some r => zlen r | None => 0 end).
    destruct (prefix_chk_ok offs g (osum rows) (n + 1)) as (c & Ec & Lc & Pc); auto; try lia.
    + intros d Hd. unfold g. destruct (d =? 0) eqn:Q.
      * apply Z.eqb_eq in Q. now subst d.
      * destruct (znth_in_range rows (d - 1) ltac:(lia)) as [r Hr]. rewrite Hr. apply Po; [lia|assumption].
    + intros d Hd. pose proof (osum_le rows d). pose proof (osum_nonneg rows d). unfold int_min. lia.
    + intros d Hd. unfold g. replace (d =? 0) with false by lia.
      destruct (znth_in_range rows (d - 1) ltac:(lia)) as [r Hr]. rewrite Hr.
      replace d with (d - 1 + 1) at 1 by lia. now apply osum_step.
    + rewrite Ec. cbn [rbind]. do 2 f_equal.
      * rewrite El. rewrite firstn_all2; [reflexivity|]. unfold zlen in Ln. lia.
      * apply znth_ext_range.
        { unfold shape. rewrite zlen_map, zlen_zrange by lia. lia. }
        intros i Hi. rewrite Pc by lia. unfold shape. rewrite znth_map, znth_zrange by lia. reflexivity.
Qed.

Lemma znth_shape rows i : 0 <= i <= zlen rows -> znth (shape rows) i = Some (osum rows i).
Proof. intros H. unfold shape. rewrite znth_map, znth_zrange by lia. reflexivity. Qed.
Lemma zlen_shape rows : zlen (shape rows) = zlen rows + 1.
Proof. unfold shape. pose proof (zlen_nonneg rows). rewrite zlen_map, zlen_zrange; lia. Qed.

Lemma znth_concat rows i r j x : znth rows i = Some r -> znth r j = Some x ->
  znth (concat rows) (osum rows i + j) = Some x.
Proof.
  intros Hi Hj. pose proof (znth_some _ _ _ Hi). pose proof (znth_some _ _ _ Hj).
  unfold osum. rewrite <- (firstn_skipn (Z.to_nat i) rows) at 1.
  rewrite (skipn_znth _ _ _ Hi). rewrite concat_app. simpl.
  rewrite znth_app2 by lia. rewrite znth_app1 by lia. now replace (_ + j - _) with j by lia.
Qed.

Lemma dnn_view tmpnn d : let rows := map visible tmpnn in
  zlen tmpnn <= int_max -> total rows <= int_max -> getdnn tmpnn = Ok d ->
  dnn_size d = zlen tmpnn /\
  (forall i r, znth rows i = Some r ->
     row_size d i = Ok (zlen r) /\
     forall j x, znth r j = Some x -> row_get d i j = Ok x) /\
  d_list d = concat rows /\ ~ In (-32) (d_list d).
Proof.
  intros rows Hn Ht H. rewrite getdnn_ok in H by assumption. injection H as <-. fold rows.
  assert (Ln : zlen rows = zlen tmpnn) by apply zlen_map.
  pose proof (zlen_nonneg rows). unfold int_max in *. change (zlen (concat rows) <= 2147483647) in Ht.
  split; [|split; [|split; [reflexivity|]]].
  - unfold dnn_size. simpl. rewrite zlen_shape. rewrite w64_id by lia. lia.
  - intros i r Hi. pose proof (znth_some _ _ _ Hi). split.
    + unfold row_size. simpl. rewrite zlen_shape, w64_id by lia.
      replace (i =? zlen rows + 1 - 1) with false by lia.
      rewrite (rget_some _ _ _ (znth_shape rows (i + 1) ltac:(lia))). cbn [rbind].
      rewrite (rget_some _ _ _ (znth_shape rows i ltac:(lia))). cbn [rbind].
      rewrite (osum_step _ _ _ Hi). f_equal. replace (osum rows i + zlen r - osum rows i) with (zlen r) by lia.
      apply w64_id. pose proof (osum_le rows (i + 1)). rewrite (osum_step _ _ _ Hi) in H1.
      pose proof (osum_nonneg rows i). pose proof (zlen_nonneg r). lia.
    + intros j x Hj. unfold row_get. simpl.
      rewrite (rget_some _ _ _ (znth_shape rows i ltac:(lia))). cbn [rbind].
      apply rget_some. eapply znth_concat; eauto.
  - simpl. rewrite in_concat. intros (r & Hr & Hx). unfold rows in Hr. apply in_map_iff in Hr as (row & <- & _).
    clear -Hx. induction row as [|y row IH]; simpl in Hx; [assumption|].
    destruct (y =? -32) eqn:Q; [destruct Hx|]. destruct Hx as [->|Hx]; [discriminate|auto].
Qed.

(** when the offsets do not fit an int the sum overflows *)
Lemma getdnn_overflow tmpnn : total (map visible tmpnn) > int_max -> exists e, getdnn tmpnn = Err e.
Proof.
  intros H. destruct (getdnn tmpnn) as [dd|e] eqn:E; [|eauto]. exfalso. revert E.
  unfold getdnn. set (n := zlen tmpnn). set (rows := map visible tmpnn) in *.
  pose proof (zlen_nonneg tmpnn) as Hn. fold n in Hn.
  intros E. apply rbind_ok in E as ([lst offs] & E1 & E). apply rbind_ok in E as (offs2 & E2 & _).
  (* invariant of the first loop, when it succeeds *)
  assert (I1 : forall m, 0 <= m <= n -> forall s, rfold (zrange 0 m) (fun '(lst, offs) i =>
         row <-r rget tmpnn i ;;
         rfold (take_defined row) (fun '(lst, offs) x =>
           o <-r rget offs (i + 1) ;; o' <-r chk (o + 1) ;;
           offs <-r rset offs (i + 1) o' ;;
           Ok (lst ++ [x], offs)) (lst, offs)) ([], repeat 0 (S (List.length tmpnn))) = Ok s ->
     zlen (snd s) = n + 1 /\ znth (snd s) 0 = Some 0 /\
       (forall d r, 0 < d <= m -> znth rows (d - 1) = Some r -> znth (snd s) d = Some (zlen r)) /\
       (forall d, m < d <= n -> znth (snd s) d = Some 0)).
  { assert (Zn : Z.of_nat (S (List.length tmpnn)) = n + 1) by (unfold n, zlen; lia).
    intros m Hm. replace m with (Z.of_nat (Z.to_nat m)) in * by lia. revert Hm.
    induction (Z.to_nat m) as [|k IH]; intros Hm s Hs.
    - rewrite zrange_nil in Hs by lia. cbn [rfold] in Hs. assert (Es : s = ([], repeat 0 (S (List.length tmpnn)))) by congruence. subst s. cbn [snd]. rewrite zlen_repeat. split; [lia|].
      split; [apply znth_repeat; lia|]. split; [lia|]. intros d Hd. apply znth_repeat. lia.
    - rewrite Nat2Z.inj_succ, <- Z.add_1_r in *. rewrite zrange_snoc, rfold_app in Hs by lia.
      apply rbind_ok in Hs as ([l1 o1] & Hs1 & Hs2). specialize (IH ltac:(lia) _ Hs1) as (L & O0 & P1 & P2).
      simpl in L, O0, P1, P2. cbn [rfold] in Hs2. apply rbind_ok in Hs2 as ([l2 o2] & Hs2 & Hs3).
      injection Hs3 as <-. apply rbind_ok in Hs2 as (row & Hrow & Hs2). apply rget_ok in Hrow.
      assert (Hr : znth rows (Z.of_nat k) = Some (visible row)) by (unfold rows; rewrite znth_map, Hrow; reflexivity).
      rewrite take_defined_visible in Hs2.
      assert (G : forall (rw l1 o1 l2 o2 : list Z) v, znth o1 (Z.of_nat k + 1) = Some v ->
        rfold rw (fun '(lst, offs) x => o <-r rget offs (Z.of_nat k + 1) ;; o' <-r chk (o + 1) ;;
           offs <-r rset offs (Z.of_nat k + 1) o' ;; Ok (lst ++ [x], offs)) (l1, o1) = Ok (l2, o2) ->
        o2 = zupd o1 (Z.of_nat k + 1) (v + zlen rw)).
      { clear. induction rw as [|x rw IH]; intros l1 o1 l2 o2 v Hv Hs.
        - injection Hs as _ <-. change (zlen (@nil Z)) with 0. now rewrite Z.add_0_r, zupd_same.
        - pose proof (znth_some _ _ _ Hv). cbn [rfold] in Hs. rewrite (rget_some _ _ _ Hv) in Hs. cbn [rbind] in Hs.
          apply rbind_ok in Hs as (s1 & Hs1 & Hs). apply rbind_ok in Hs1 as (v' & Hv' & Hs1).
          apply chk_inv in Hv' as [-> _]. rewrite rset_some in Hs1 by assumption. injection Hs1 as <-.
          apply (IH _ _ _ _ (v + 1)) in Hs; [|apply znth_zupd_same; assumption].
          rewrite Hs, zupd_twice, zlen_cons. f_equal. lia. }
      specialize (G _ _ _ _ _ 0 (P2 (Z.of_nat k + 1) ltac:(lia)) Hs2). simpl snd. subst o2.
      rewrite zlen_zupd. split; [assumption|]. split; [rewrite znth_zupd_other by lia; assumption|]. split.
      + intros d r Hd Hdr. destruct (Z.eq_dec d (Z.of_nat k + 1)) as [->|].
        * rewrite znth_zupd_same by lia. replace (Z.of_nat k + 1 - 1) with (Z.of_nat k) in Hdr by lia.
          rewrite Hr in Hdr. injection Hdr as <-. reflexivity.
        * rewrite znth_zupd_other by lia. apply P1; [lia|assumption].
      + intros d Hd. rewrite znth_zupd_other by lia. apply P2. lia. }
  specialize (I1 n ltac:(lia) _ E1) as (L & O0 & P1 & _). simpl in L, O0, P1. clear E1.
  (* the second loop would have to produce the total *)
  assert (I2 : forall m, 1 <= m <= n + 1 -> forall c, rfold (zrange 1 m) (fun offs i =>
         a <-r rget offs i ;; b <-r rget offs (i - 1) ;; c <-r chk (a + b) ;; rset offs i c) offs = Ok c ->
     zlen c = n + 1 /\ znth c (m - 1) = Some (osum rows (m - 1)) /\
     (forall d, m <= d <= n -> znth c d = znth offs d) /\ (1 < m -> osum rows (m - 1) <= int_max)).
  { intros m Hm. replace m with (1 + Z.of_nat (Z.to_nat (m - 1))) in * by lia. revert Hm.
    induction (Z.to_nat (m - 1)) as [|k IH]; intros Hm c Hc.
    - simpl in Hc. injection Hc as <-. change (1 + Z.of_nat 0 - 1) with 0. rewrite osum_0.
      repeat split; auto. lia.
    - rewrite Nat2Z.inj_succ, <- Z.add_1_r in *. rewrite Z.add_assoc in *.
      rewrite zrange_snoc, rfold_app in Hc by lia. apply rbind_ok in Hc as (c1 & Hc1 & Hc).
      destruct (IH ltac:(lia) _ Hc1) as (L1 & Q1 & Q2 & _). cbn [rfold] in Hc.
      apply rbind_ok in Hc as (c2 & Hc & Hc3). injection Hc3 as <-.
      set (i := 1 + Z.of_nat k) in *. assert (Hi : 1 <= i <= n) by lia. clear IH Hc1.
      destruct (znth_in_range rows (i - 1)) as [r Hr]; [unfold rows; rewrite zlen_map; fold n; lia|].
      rewrite (rget_some _ _ (zlen r)) in Hc by (rewrite Q2 by lia; apply P1; [lia|assumption]). cbn [rbind] in Hc.
      rewrite (rget_some _ _ _ Q1) in Hc. cbn [rbind] in Hc. apply rbind_ok in Hc as (v & Hv & Hc).
      apply chk_inv in Hv as [-> Hv]. apply rset_ok in Hc as [_ ->].
      replace (i + 1 - 1) with i by lia.
      assert (HS : osum rows i = zlen r + osum rows (i - 1)).
      { replace i with (i - 1 + 1) at 1 by lia. rewrite (osum_step _ _ _ Hr). lia. }
      rewrite zlen_zupd, HS. split; [assumption|]. split; [apply znth_zupd_same; lia|]. split.
      + intros d Hd. rewrite znth_zupd_other by lia. apply Q2. lia.
      + intros _. lia. }
  destruct (I2 (n + 1) ltac:(lia) _ E2) as (_ & _ & _ & HT). replace (n + 1 - 1) with n in HT by lia.
  change (zlen (concat rows) > int_max) in H.
  rewrite osum_all in HT by (unfold rows; rewrite zlen_map; fold n; lia).
  destruct (Z.eq_dec n 0) as [Z0|].
  - assert (rows = []) as Er. { unfold rows. destruct tmpnn; [reflexivity|]. unfold n in Z0. rewrite zlen_cons in Z0. pose proof (zlen_nonneg tmpnn). lia. }
    rewrite Er in H. simpl in H. change (zlen (@nil Z)) with 0 in H. unfold int_max in H. lia.
  - specialize (HT ltac:(lia)). lia.
Qed.

(** ** print and savetxt when every row is non-empty *)
Lemma append_assoc a b c : append (append a b) c = append a (append b c).
Proof. induction a; simpl; [reflexivity|]. now rewrite IHa. Qed.
Lemma append_nil_r a : append a EmptyString = a.
Proof. induction a; simpl; [reflexivity|]. now rewrite IHa. Qed.

(** elements inside a row: no separator *)
Lemma out_row sep fin offs : forall row rest index counter acc o,
  znth offs counter = Some o -> index + zlen row <= o ->
  out_loop sep fin offs (row ++ rest) index counter acc =
  out_loop sep fin offs rest (index + zlen row) counter (append acc (row_text show_int fin row)).
Proof.
  induction row as [|x row IH]; intros rest index counter acc o Ho Hi.
  - simpl. change (zlen (@nil Z)) with 0. now rewrite Z.add_0_r, append_nil_r.
  - rewrite zlen_cons in *. pose proof (zlen_nonneg row). simpl. rewrite (rget_some _ _ _ Ho). cbn [rbind].
    replace (index =? o) with false by lia. simpl.
    rewrite (IH _ _ _ _ o) by (auto; lia). f_equal; [lia|].
    now rewrite !append_assoc.
Qed.

(** the text of the rows from i on, with separators before all but the first *)
Definition sep_rows (sep fin : string) (rows : list (list Z)) : string :=
  fold_right (fun r s => append sep (append (row_text show_int fin r) s)) EmptyString rows.

Lemma out_rows sep fin rows : forall todo i acc, 0 < i -> i + zlen todo = zlen rows ->
  skipn (Z.to_nat i) rows = todo -> Forall (fun r => r <> []) todo ->
  out_loop sep fin (shape rows) (concat todo) (osum rows i) i acc =
  Ok (append acc (sep_rows sep fin todo)).
Proof.
  induction todo as [|r todo IH]; intros i acc Hi Hl Hs HF.
  - simpl. now rewrite append_nil_r.
  - inversion_clear HF. destruct r as [|x r]; [congruence|]. rewrite zlen_cons in Hl.
    pose proof (zlen_nonneg todo).
    assert (Hr : znth rows i = Some (x :: r)).
    { unfold znth. replace (0 <=? i) with true by lia.
      rewrite <- (Nat.add_0_r (Z.to_nat i)), <- nth_error_skipn, Hs. reflexivity. }
    simpl concat. cbn [app out_loop].
    rewrite (rget_some _ _ _ (znth_shape rows i ltac:(lia))). cbn [rbind]. rewrite Z.eqb_refl.
    rewrite zlen_shape. replace (i <? zlen rows + 1 - 1) with true by lia. cbn [andb].
    pose proof (osum_step _ _ _ Hr) as Hos. rewrite zlen_cons in Hos.
    rewrite (out_row _ _ _ r _ _ _ _ (osum rows (i + 1))) by (try (apply znth_shape; lia); lia).
    replace (osum rows i + 1 + zlen r) with (osum rows (i + 1)) by lia.
    rewrite IH; [| lia | lia | | assumption].
    + simpl. f_equal. now rewrite !append_assoc.
    + rewrite (skipn_znth _ _ _ Hr) in Hs. congruence.
Qed.

Lemma out_all sep fin rows r0 todo acc : rows = r0 :: todo -> Forall (fun r => r <> []) todo ->
  out_loop sep fin (shape rows) (concat rows) 0 1 acc =
  Ok (append acc (append (row_text show_int fin r0) (sep_rows sep fin todo))).
Proof.
  intros -> HF. simpl concat. 
  assert (H1 : osum (r0 :: todo) 1 = zlen r0) by (unfold osum; simpl; now rewrite app_nil_r).
  pose proof (zlen_nonneg todo).
  rewrite (out_row _ _ _ r0 _ _ _ _ (zlen r0)); [|rewrite znth_shape by (rewrite zlen_cons; lia); now rewrite H1|lia].
  rewrite Z.add_0_l, <- H1. rewrite (out_rows sep fin (r0 :: todo) todo 1); auto; try lia.
  - now rewrite append_assoc.
  - rewrite zlen_cons. lia.
Qed.

Lemma sep_rows_cons sep fin r t : sep_rows sep fin (r :: t) =
  append sep (append (row_text show_int fin r) (sep_rows sep fin t)).
Proof. reflexivity. Qed.
Lemma lines_cons r t : lines_text show_int (r :: t) =
  append (row_text show_int " " r) (append nl (lines_text show_int t)).
Proof. reflexivity. Qed.

Lemma sep_lines todo : append (sep_rows nl " " todo) nl = append nl (lines_text show_int todo).
Proof.
  induction todo as [|r todo IH]; [reflexivity|]. rewrite sep_rows_cons, lines_cons.
  now rewrite !append_assoc, IH.
Qed.

Lemma savetxt_ok rows : rows <> [] -> Forall (fun r => r <> []) (tl rows) ->
  dnn_savetxt (mkDnn (concat rows) (shape rows)) = Ok (lines_text show_int rows).
Proof.
  intros Hn HF. destruct rows as [|r0 todo]; [congruence|]. cbn [tl] in HF.
  unfold dnn_savetxt. cbn [d_list d_offs]. rewrite (out_all nl " " (r0 :: todo) r0 todo) by auto. cbn [rbind].
  simpl append at 2. rewrite append_assoc, sep_lines. reflexivity.
Qed.

Definition brace_rows tail (rows : list (list Z)) : string :=
  fold_right (fun r s => append "  {" (append (row_text show_int ", " r)
     (append "}" (append newline s)))) tail rows.
Lemma brace_cons tail r t : brace_rows tail (r :: t) =
  append "  {" (append (row_text show_int ", " r) (append "}" (append nl (brace_rows tail t)))).
Proof. reflexivity. Qed.

Lemma sep_braces todo tail :
  append (sep_rows (append "}" (append nl "  {")) ", " todo) (append "}" (append nl tail)) =
  append "}" (append nl (brace_rows tail todo)).
Proof.
  induction todo as [|r todo IH]; [reflexivity|]. rewrite sep_rows_cons, brace_cons.
  now rewrite !append_assoc, IH.
Qed.

Lemma print_ok rows : rows <> [] -> Forall (fun r => r <> []) rows ->
  dnn_print (mkDnn (concat rows) (shape rows)) = Ok (braces_text show_int rows).
Proof.
  intros Hn HF. destruct rows as [|r0 todo]; [congruence|]. inversion_clear HF.
  unfold dnn_print. cbn [d_list d_offs].
  assert (exists x l, concat (r0 :: todo) = x :: l) as (x & l & Ex).
  { destruct r0 as [|x r0]; [congruence|]. simpl. eauto. }
  rewrite Ex. rewrite <- Ex. rewrite (out_all _ ", " (r0 :: todo) r0 todo) by auto. cbn [rbind].
  rewrite !append_assoc, sep_braces. unfold braces_text, nl, newline. reflexivity.
Qed.

(** every failure is undefined behaviour *)
Definition only_ub {A} (r : res A) : Prop := forall e, r = Err e -> e = EUB.
Lemma ub_ok {A} (a : A) : only_ub (Ok a). Proof. intros e H. discriminate. Qed.
Lemma ub_bind {A B} (r : res A) (f : A -> res B) : only_ub r -> (forall a, only_ub (f a)) -> only_ub (rbind r f).
Proof. intros H1 H2 e. destruct r as [a|e0]; simpl; [apply H2|]. intros [= ->]. now apply H1. Qed.
Lemma ub_fold {S X} (f : S -> X -> res S) : (forall s x, only_ub (f s x)) ->
  forall l s, only_ub (rfold l f s).
Proof. intros Hf. induction l as [|x l IH]; intros s; [apply ub_ok|]. cbn [rfold]. apply ub_bind; auto. Qed.
Lemma ub_rget {A} (l : list A) i : only_ub (rget l i).
Proof. intros e. unfold rget. destruct (znth l i); congruence. Qed.
Lemma ub_rset {A} (l : list A) i v : only_ub (rset l i v).
Proof. intros e. unfold rset. destruct (znth l i); congruence. Qed.
Lemma ub_chk x : only_ub (chk x).
Proof. intros e. unfold chk. destruct (Base.in_int x); congruence. Qed.

Lemma getdnn_ub tmpnn : total (map visible tmpnn) > int_max -> getdnn tmpnn = Err EUB.
Proof.
  intros H. destruct (getdnn_overflow _ H) as [e E]. rewrite E. f_equal. revert e E.
  change (only_ub (getdnn tmpnn)). unfold getdnn.
  apply ub_bind.
  - apply ub_fold. intros [l o] i. apply ub_bind; [apply ub_rget|]. intros row. apply ub_fold.
    intros [l' o'] x. apply ub_bind; [apply ub_rget|]. intros v. apply ub_bind; [apply ub_chk|].
    intros v'. apply ub_bind; [apply ub_rset|]. intros. apply ub_ok.
  - intros [l o]. apply ub_bind; [|intros; apply ub_ok]. apply ub_fold. intros s i.
    apply ub_bind; [apply ub_rget|]. intros a. apply ub_bind; [apply ub_rget|]. intros b.
    apply ub_bind; [apply ub_chk|]. intros. apply ub_rset.
Qed.
