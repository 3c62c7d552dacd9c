(** C31: what savetxt and print show, for every table. *)
From Verif Require Import Base PBase MUtils MDnn PSort SpecDnn PDnn PText.
From Coq Require Import String Ascii List Lia.
Local Open Scope res_scope.
Local Open Scope Z_scope.
From Verif Require Export SpecShown.

(** behind a passed offset no separator is written *)
Lemma out_late sep fin offs row : forall index counter acc o, znth offs counter = Some o -> o < index ->
  out_loop sep fin offs row index counter acc = Ok (append acc (row_text show_int fin row)).
Proof.
  induction row as [|x row IH]; intros index counter acc o Ho Hi; simpl; [now rewrite append_nil_r|].
  rewrite (rget_some _ _ _ Ho). cbn [rbind]. replace (index =? o) with false by lia. simpl. rewrite (IH _ _ _ o) by (auto; lia). now rewrite !append_assoc.
Qed.
Lemma out_any sep fin rows : forall todo i acc, 0 < i -> i + zlen todo = zlen rows -> skipn (Z.to_nat i) rows = todo ->
  out_loop sep fin (shape rows) (concat todo) (osum rows i) i acc = Ok (append acc (sep_rows sep fin (shown_tail todo))).
Proof.
  induction todo as [|r todo IH]; intros i acc Hi Hl Hs; [simpl; now rewrite append_nil_r|].
  rewrite zlen_cons in Hl. pose proof (zlen_nonneg todo).
  assert (Hr : znth rows i = Some r).
  { unfold znth. replace (0 <=? i) with true by lia. rewrite <- (Nat.add_0_r (Z.to_nat i)), <- nth_error_skipn, Hs. reflexivity. }
  pose proof (osum_step _ _ _ Hr) as Hos. destruct r as [|x r].
  - change (zlen (@nil Z)) with 0 in Hos. simpl concat. cbn [app shown_tail]. destruct (concat todo) as [|x l]; [simpl; now rewrite append_nil_r|].
    cbn [out_loop]. rewrite (rget_some _ _ _ (znth_shape rows i ltac:(lia))). cbn [rbind]. rewrite Z.eqb_refl, zlen_shape. replace (i <? zlen rows + 1 - 1) with true by lia. cbn [andb].
    rewrite (out_late _ _ _ l _ _ _ (osum rows (i + 1))) by (try (apply znth_shape; lia); lia). unfold sep_rows. simpl. f_equal. now rewrite !append_assoc, append_nil_r.
  - simpl concat. cbn [app out_loop shown_tail].
    rewrite (rget_some _ _ _ (znth_shape rows i ltac:(lia))). cbn [rbind]. rewrite Z.eqb_refl, zlen_shape. replace (i <? zlen rows + 1 - 1) with true by lia. cbn [andb]. rewrite zlen_cons in Hos.
    rewrite (out_row _ _ _ r _ _ _ _ (osum rows (i + 1))) by (try (apply znth_shape; lia); lia). replace (osum rows i + 1 + zlen r) with (osum rows (i + 1)) by lia.
    rewrite IH; [| lia | lia |].
    + rewrite sep_rows_cons. f_equal. simpl. now rewrite !append_assoc.
    + rewrite (skipn_znth _ _ _ Hr) in Hs. congruence.
Qed.
Lemma out_table sep fin r0 todo acc : out_loop sep fin (shape (r0 :: todo)) (concat (r0 :: todo)) 0 1 acc = Ok (append acc (append (row_text show_int fin r0) (sep_rows sep fin (shown_tail todo)))).
Proof.
  simpl concat. assert (H1 : osum (r0 :: todo) 1 = zlen r0) by (unfold osum; simpl; now rewrite app_nil_r). pose proof (zlen_nonneg todo).
  rewrite (out_row _ _ _ r0 _ _ _ _ (zlen r0)); [|rewrite znth_shape by (rewrite zlen_cons; lia); now rewrite H1|lia].
  rewrite Z.add_0_l, <- H1. rewrite (out_any sep fin (r0 :: todo) todo 1); auto; try lia.
  - now rewrite append_assoc.
  - rewrite zlen_cons. lia.
Qed.

Lemma table_dnn tmpnn d : getdnn tmpnn = Ok d -> d = mkDnn (concat (map visible tmpnn)) (shape (map visible tmpnn)).
Proof.
  intros H. destruct (Z_le_gt_dec (total (map visible tmpnn)) int_max); [|rewrite getdnn_ub in H by assumption; discriminate].
  rewrite getdnn_ok in H by assumption. now injection H as <-.
Qed.
Lemma savetxt_shown tmpnn d : getdnn tmpnn = Ok d -> dnn_savetxt d = Ok (lines_text show_int (shown (map visible tmpnn))).
Proof.
  intros H. apply table_dnn in H as ->. destruct (map visible tmpnn) as [|r0 todo]; [reflexivity|]. unfold dnn_savetxt. cbn [d_list d_offs]. rewrite out_table. cbn [rbind shown].
  simpl append at 2. rewrite append_assoc, sep_lines. reflexivity.
Qed.
Lemma print_shown tmpnn d : getdnn tmpnn = Ok d ->
  dnn_print d = Ok (match concat (map visible tmpnn) with [] => append "{}" newline | _ => braces_text show_int (shown (map visible tmpnn)) end).
Proof.
  intros H. apply table_dnn in H as ->. unfold dnn_print. cbn [d_list d_offs]. destruct (concat (map visible tmpnn)) as [|x l] eqn:Ex; [reflexivity|]. rewrite <- Ex.
  destruct (map visible tmpnn) as [|r0 todo]; [discriminate|]. rewrite out_table. cbn [rbind shown]. rewrite !append_assoc, sep_braces. unfold braces_text, nl, newline. reflexivity.
Qed.
Lemma shown_all rows : rows <> [] -> (shown rows = rows <-> Forall (fun r => r <> []) (tl rows)).
Proof.
  intros Hn. destruct rows as [|r0 todo]; [congruence|]. clear Hn. cbn [shown tl].
  assert (L : forall t, concat (shown_tail t) = concat t).
  { induction t as [|r t IH]; [reflexivity|]. destruct r as [|x r]; simpl; [|now rewrite IH]. destruct (concat t); simpl; [reflexivity|now rewrite app_nil_r]. }
  assert (Q : shown_tail todo = todo <-> Forall (fun r => r <> []) todo).
  { induction todo as [|r todo IH]; [split; auto|]. destruct r as [|x r].
    - split; intros H; [exfalso|inversion H; congruence]. cbn [shown_tail] in H. destruct (concat todo); [discriminate|]. injection H as H _. discriminate.
    - cbn [shown_tail]. split; intros H.
      + injection H as H. constructor; [discriminate|now apply IH].
      + inversion_clear H. f_equal. now apply IH. }
  rewrite <- Q. split; intros H; [now injection H|now rewrite H].
Qed.
