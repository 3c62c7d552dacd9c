(** C93: objects of class dnn used directly. *)
From Verif Require Import Base PBase MUtils MDnn PSort MIndex PDnn SpecDnn SpecRows SpecText.
From Coq Require Import String List.
From Verif Require Export SpecIndex.
Local Open Scope Z_scope.

Lemma znth_out {A} (l : list A) i : ~ 0 <= i < zlen l -> znth l i = None.
Proof. apply znth_none. Qed.
Lemma rget_none {A} (l : list A) i : ~ 0 <= i < zlen l -> rget l i = Err EUB.
Proof. intros H. unfold rget. now rewrite (znth_out _ _ H). Qed.
Lemma start_osum rows i : start rows i = osum rows i. Proof. reflexivity. Qed.
Lemma starts_shape rows offs : starts rows offs -> offs = shape rows.
Proof.
  intros [L H]. apply znth_ext. intros i. destruct (Z_le_dec 0 i) as [G|G]; [|rewrite !znth_out by lia; reflexivity].
  destruct (Z_le_dec i (zlen rows)) as [G'|G']; [rewrite H, znth_shape by lia; reflexivity|]. rewrite !znth_out; [reflexivity|rewrite zlen_shape; lia|lia].
Qed.
Lemma shape_starts rows : starts rows (shape rows).
Proof. split; [apply zlen_shape|]. intros i Hi. now apply znth_shape. Qed.

Section Obj.
Variables (rows : list (list Z)) (offs : list Z).
Hypothesis Hn : zlen rows <= int_max.
Hypothesis Ht : total rows <= int_max.
Hypothesis HO : starts rows offs.
Notation d := (dnn_make (concat rows) offs).
Let tot : zlen (concat rows) <= int_max := Ht.

Lemma made_shape : d = mkDnn (concat rows) (shape rows).
Proof. unfold dnn_make. now rewrite (starts_shape _ _ HO). Qed.
Lemma made_size : dnn_size d = zlen rows.
Proof. rewrite made_shape. unfold dnn_size. cbn [d_offs]. pose proof (zlen_nonneg rows). unfold int_max in *. rewrite zlen_shape, w64_id by lia. lia. Qed.
Lemma made_row i r : znth rows i = Some r -> row_size d i = Ok (zlen r).
Proof.
  intros Hi. rewrite made_shape. pose proof (znth_some _ _ _ Hi). unfold int_max in *. unfold row_size. cbn [d_offs d_list]. rewrite zlen_shape, w64_id by lia.
  replace (i =? zlen rows + 1 - 1) with false by lia. rewrite (rget_some _ _ _ (znth_shape rows (i + 1) ltac:(lia))). cbn [rbind]. rewrite (rget_some _ _ _ (znth_shape rows i ltac:(lia))). cbn [rbind].
  rewrite (osum_step _ _ _ Hi). replace (osum rows i + zlen r - osum rows i) with (zlen r) by lia. f_equal. apply w64_id.
  pose proof (osum_le rows (i + 1)) as Q. rewrite (osum_step _ _ _ Hi) in Q. pose proof (osum_nonneg rows i). pose proof (zlen_nonneg r). unfold int_max in *. lia.
Qed.
Lemma made_shows : shows d rows.
Proof.
  split; [exact made_size|]. intros i r Hi. split; [now apply made_row|]. intros m x Hm. pose proof (znth_some _ _ _ Hi). rewrite made_shape. unfold row_get. cbn [d_offs d_list].
  rewrite (rget_some _ _ _ (znth_shape rows i ltac:(lia))). cbn [rbind]. apply rget_some. eapply znth_concat; eauto.
Qed.
(** the row after the last one is empty, the next ones do not exist *)
Lemma made_past : idx_size d (zlen rows) = Ok 0 /\ forall i, zlen rows < i <= int_max -> idx_size d i = Err EUB /\ forall j, idx_get d i j = Err EUB.
Proof.
  rewrite made_shape. pose proof (zlen_nonneg rows) as N0. unfold int_max in *. split.
  - unfold idx_size, at_row, row_size. cbn [d_offs d_list]. rewrite zlen_shape, !w64_id by lia. replace (zlen rows =? zlen rows + 1 - 1) with true by lia.
    rewrite (rget_some _ _ _ (znth_shape rows (zlen rows) ltac:(lia))). cbn [rbind]. rewrite osum_all by lia. f_equal. now rewrite Z.sub_diag.
  - intros i Hi. assert (R : rget (shape rows) i = Err EUB) by (apply rget_none; rewrite zlen_shape; lia).
    assert (R1 : rget (shape rows) (i + 1) = Err EUB) by (apply rget_none; rewrite zlen_shape; lia). split.
    + unfold idx_size, at_row, row_size. cbn [d_offs d_list]. rewrite zlen_shape, !w64_id by lia. replace (i =? zlen rows + 1 - 1) with false by lia. now rewrite R1.
    + intros j. unfold idx_get, idx_at, at_row. cbn [d_offs d_list]. rewrite w64_id by lia. now rewrite R.
Qed.
(** positions count from the start of the row through the whole list, in both directions *)
Lemma made_at i j : 0 <= i < zlen rows -> - int_max <= j <= int_max ->
  idx_get d i j = match znth (concat rows) (start rows i + j) with Some x => Ok x | None => Err EUB end.
Proof.
  intros Hi Hj. rewrite made_shape. unfold idx_get, idx_at, at_row. cbn [d_offs d_list]. unfold int_max in *. rewrite (w64_id i) by lia. rewrite (rget_some _ _ _ (znth_shape rows i ltac:(lia))). cbn [rbind].
  change (start rows i) with (osum rows i). pose proof (osum_nonneg rows i) as O0. pose proof (osum_le rows i) as O1. pose proof tot as T. unfold int_max in T.
  assert (E : w64 (osum rows i + w64 j) = w64 (osum rows i + j)) by (unfold w64; rewrite Zplus_mod_idemp_r; reflexivity). rewrite E.
  destruct (Z_lt_dec (osum rows i + j) 0) as [G|G].
  - rewrite (znth_out (concat rows)) by lia. apply rget_none. unfold w64. rewrite <- (Z.mod_unique (osum rows i + j) 18446744073709551616 (-1) (osum rows i + j + 18446744073709551616)) by lia. lia.
  - rewrite w64_id by lia. destruct (znth (concat rows) (osum rows i + j)) as [x|] eqn:Z0; [now apply rget_some|unfold rget; now rewrite Z0].
Qed.
Lemma made_before i r x : znth rows i = Some (r ++ [x]) -> i + 1 < zlen rows -> idx_get d (i + 1) (-1) = Ok x.
Proof.
  intros Hi L. pose proof (znth_some _ _ _ Hi) as Ri. rewrite made_at by (unfold int_max in *; lia). change (start rows (i + 1)) with (osum rows (i + 1)). rewrite (osum_step _ _ _ Hi), zlen_app.
  replace (osum rows i + (zlen r + zlen [x]) + -1) with (osum rows i + zlen r) by (unfold zlen; simpl; lia).
  rewrite (znth_concat rows i (r ++ [x]) (zlen r) x Hi); [reflexivity|]. rewrite znth_app2 by lia. now rewrite Z.sub_diag.
Qed.
End Obj.

Definition lsum (l : list Z) : Z := fold_right Z.add 0 l.
Lemma concat_lsum rows : zlen (concat rows) = lsum (map (@zlen Z) rows).
Proof. induction rows as [|r rows IH]; [reflexivity|]. simpl. rewrite zlen_app, IH. reflexivity. Qed.
Lemma start_lsum rows i : start rows i = lsum (firstn (Z.to_nat i) (map (@zlen Z) rows)).
Proof. unfold start. change (total ?l) with (zlen (concat l)). now rewrite concat_lsum, firstn_map. Qed.
Lemma starts_same rows rows' offs : map (@zlen Z) rows' = map (@zlen Z) rows -> starts rows offs -> starts rows' offs.
Proof.
  intros E [L H]. assert (Ln : zlen rows' = zlen rows) by (rewrite <- (zlen_map (@zlen Z) rows'), E; apply zlen_map).
  split; [lia|]. intros i Hi. rewrite H by lia. now rewrite !start_lsum, E.
Qed.
Lemma zupd_mid {A} (a b : list A) r j v : 0 <= j < zlen r -> zupd (a ++ r ++ b) (zlen a + j) v = a ++ zupd r j v ++ b.
Proof.
  intros Hj. pose proof (zlen_nonneg a) as A0. pose proof (zlen_nonneg b) as B0. apply znth_ext. intros x. rewrite znth_zupd, !zlen_app.
  destruct (Z_lt_dec x (zlen a)) as [G|G].
  - rewrite !(znth_app1 a) by lia. replace (zlen a + j =? x) with false by lia. reflexivity.
  - rewrite !(znth_app2 a) by lia. destruct (Z_lt_dec (x - zlen a) (zlen r)) as [G'|G'].
    + rewrite (znth_app1 r), (znth_app1 (zupd r j v)) by (rewrite ?zlen_zupd; lia). rewrite znth_zupd.
      destruct (Z.eq_dec j (x - zlen a)) as [->|Nj].
      * replace (zlen a + (x - zlen a) =? x) with true by lia. rewrite Z.eqb_refl. replace (0 <=? x - zlen a) with true by lia. replace (x - zlen a <? zlen r) with true by lia.
        replace (0 <=? zlen a + (x - zlen a)) with true by lia. replace (zlen a + (x - zlen a) <? zlen a + (zlen r + zlen b)) with true by lia. reflexivity.
      * replace (zlen a + j =? x) with false by lia. replace (j =? x - zlen a) with false by lia. reflexivity.
    + rewrite (znth_app2 r), (znth_app2 (zupd r j v)) by (rewrite ?zlen_zupd; lia). rewrite zlen_zupd. replace (zlen a + j =? x) with false by lia. reflexivity.
Qed.
Lemma concat_zupd rows i r j v : znth rows i = Some r -> 0 <= j < zlen r -> concat (zupd rows i (zupd r j v)) = zupd (concat rows) (osum rows i + j) v.
Proof.
  intros Hi Hj. pose proof (znth_some _ _ _ Hi) as Ri. unfold osum. pose proof (firstn_skipn (Z.to_nat i) rows) as S0. rewrite (skipn_znth _ _ _ Hi) in S0. set (a := firstn (Z.to_nat i) rows) in *. set (b := skipn _ _) in *.
  assert (La : zlen a = i) by (unfold a, zlen in *; rewrite firstn_length; lia).
  assert (E1 : concat rows = concat a ++ r ++ concat b) by (rewrite <- S0, concat_app; reflexivity).
  assert (E2 : zupd rows i (zupd r j v) = a ++ [zupd r j v] ++ b).
  { rewrite <- S0 at 1. rewrite <- La. rewrite <- (Z.add_0_r (zlen a)). change (r :: b) with ([r] ++ b). rewrite zupd_mid by (unfold zlen; simpl; lia). reflexivity. }
  rewrite E1, E2, zupd_mid by assumption. rewrite concat_app. reflexivity.
Qed.
(** d[i][j] = v changes this entry only *)
Lemma made_set rows offs i j v r : zlen rows <= int_max -> total rows <= int_max -> starts rows offs -> znth rows i = Some r -> 0 <= j < zlen r ->
  exists d rows', idx_set (dnn_make (concat rows) offs) i j v = Ok d /\ replaced rows rows' i j v /\ shows d rows'.
Proof.
  intros Hn Ht HO Hi Hj. pose proof (znth_some _ _ _ Hi) as Ri. set (rows' := zupd rows i (zupd r j v)).
  assert (EL : map (@zlen Z) rows' = map (@zlen Z) rows).
  { apply znth_ext. intros x. rewrite !znth_map. unfold rows'. rewrite znth_zupd. destruct ((i =? x) && (0 <=? i) && (i <? zlen rows)) eqn:E; [|reflexivity]. assert (x = i) by lia. subst x. rewrite Hi. simpl. now rewrite zlen_zupd. }
  assert (Ln : zlen rows' = zlen rows) by apply zlen_zupd.
  exists (dnn_make (concat rows') offs), rows'. split; [|split].
  - unfold idx_set, idx_at, at_row. rewrite (made_shape _ _ HO). cbn [d_offs d_list]. unfold int_max in *. rewrite (w64_id i) by lia. rewrite (rget_some _ _ _ (znth_shape rows i ltac:(lia))). cbn [rbind].
    change (zlen (concat rows) <= 2147483647) in Ht. destruct (znth_in_range r j Hj) as [x Ex]. pose proof (znth_concat rows i r j x Hi Ex) as EC. pose proof (znth_some _ _ _ EC) as RC.
    rewrite (w64_id j) by (pose proof (osum_nonneg rows i); lia). rewrite w64_id by lia. unfold rset. rewrite EC. cbn [rbind]. unfold rows', dnn_make. rewrite (concat_zupd rows i r j v Hi Hj). now rewrite (starts_shape _ _ HO).
  - split; [exact Ln|]. intros a q Ha. unfold rows'. rewrite znth_zupd. destruct (Z.eq_dec i a) as [<-|Na].
    + rewrite Z.eqb_refl. replace (0 <=? i) with true by lia. replace (i <? zlen rows) with true by lia. cbn [andb]. rewrite Hi in Ha. injection Ha as <-. eexists. split; [reflexivity|]. split; [apply zlen_zupd|].
      intros b x Hb. rewrite znth_zupd. destruct (Z.eqb_spec j b) as [->|Nb]; [rewrite Z.eqb_refl; replace (0 <=? b) with true by lia; replace (b <? zlen r) with true by lia; reflexivity|]. replace (b =? j) with false by lia. exact Hb.
    + replace (i =? a) with false by lia. replace (a =? i) with false by lia. cbn [andb]. exists q. auto.
  - apply made_shows; [lia| |now apply (starts_same rows)]. change (total rows') with (zlen (concat rows')). rewrite concat_lsum, EL, <- concat_lsum. exact Ht.
Qed.

(** the array that a call builds is such an object *)
Lemma call_made tmpnn d : let rows := map visible tmpnn in total rows <= int_max -> getdnn tmpnn = Ok d -> exists offs, starts rows offs /\ d = dnn_make (concat rows) offs.
Proof. intros rows Ht H. rewrite getdnn_ok in H by assumption. injection H as <-. eexists. split; [apply shape_starts|reflexivity]. Qed.

(** the default object *)
Lemma default_obj : dnn_size dnn_default = 18446744073709551615 /\ (forall i, idx_size dnn_default i = Err EUB) /\ (forall i j, idx_get dnn_default i j = Err EUB) /\
  dnn_print dnn_default = Ok (append "{}" newline) /\ dnn_savetxt dnn_default = Ok newline.
Proof.
  assert (R : forall i, rget (@nil Z) i = Err EUB) by (intros i; apply rget_none; unfold zlen; simpl; lia).
  split; [reflexivity|]. split; [|split; [|split; reflexivity]].
  - intros i. unfold idx_size, row_size, dnn_default. cbn [d_offs d_list]. destruct (at_row i =? _); now rewrite !R.
  - intros i j. unfold idx_get, idx_at, dnn_default. cbn [d_offs d_list]. now rewrite R.
Qed.
