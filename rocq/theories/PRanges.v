(** Chunks and thread ranges. *)
From Verif Require Import Base PBase Arith MTess.

Lemma concat_ranges (f : Z -> Z) : forall b a, a <= b -> (forall i, a <= i < b -> f i <= f (i + 1)) ->
  concat (map (fun i => zrange (f i) (f (i + 1))) (zrange a b)) = zrange (f a) (f b) /\ f a <= f b.
Proof.
  intros b a Hab. pattern b. revert b Hab. apply Zlt_lower_bound_ind.
  intros b IH Hab H. destruct (Z.eq_dec a b) as [->|].
  - rewrite (zrange_nil b b), (zrange_nil (f b)) by lia. split; [reflexivity|lia].
  - destruct (IH (b - 1) ltac:(lia)) as [E L]. { intros i Hi. apply H. lia. }
    specialize (H (b - 1) ltac:(lia)) as Q. replace (b - 1 + 1) with b in Q by lia.
    replace b with (b - 1 + 1) at 1 by lia. rewrite zrange_snoc by lia. rewrite map_app, concat_app, E. simpl.
    rewrite app_nil_r. replace (b - 1 + 1) with b by lia. rewrite <- zrange_app by lia. split; [reflexivity|lia].
Qed.

(** C24 *)
Lemma num_runs_pos cs n : 0 <= n -> 1 <= num_runs cs n.
Proof. intros Hn. unfold num_runs, chunked. destruct (Z.ltb_spec 0 cs), (Z.ltb_spec cs n); simpl; try lia. pose proof (Z.div_pos n cs). lia. Qed.

Lemma chunk_bounds cs n run : 0 <= n -> 0 <= run < num_runs cs n ->
  0 <= cstart cs run /\ cstart cs run <= cend cs n run <= n /\ cend cs n run - cstart cs run <= first_subsize cs n /\
  (run < num_runs cs n - 1 -> cend cs n run = cstart cs (run + 1) /\ cend cs n run - cstart cs run = first_subsize cs n) /\
  (run = num_runs cs n - 1 -> cend cs n run = n) /\ (run = 0 -> cstart cs run = 0).
Proof.
  intros Hn. unfold cend, cstart, num_runs, first_subsize, chunked.
  destruct (Z.ltb_spec 0 cs), (Z.ltb_spec cs n); simpl; intros Hr; try (destruct (Z.eqb_spec run 0); simpl; assert (run = 0) by lia; subst; simpl; lia).
  pose proof (Z.div_mod n cs ltac:(lia)). pose proof (Z.mod_pos_bound n cs ltac:(lia)).
  destruct (Z.eqb_spec run (n / cs + 1 - 1)); [assert (run = n / cs) by lia; subst run|]; repeat apply conj; try (intros; repeat apply conj); try nia.
Qed.

Lemma chunks_cover cs n : 0 <= n ->
  concat (map (fun run => zrange (cstart cs run) (cend cs n run)) (zrange 0 (num_runs cs n))) = zrange 0 n.
Proof.
  intros Hn. pose proof (num_runs_pos cs n Hn) as Hp.
  set (f := fun i => if i <? num_runs cs n then cstart cs i else n).
  assert (E : forall run, 0 <= run < num_runs cs n -> f run = cstart cs run /\ f (run + 1) = cend cs n run).
  { intros run Hr. destruct (chunk_bounds cs n run Hn Hr) as (_ & _ & _ & C1 & C2 & _). unfold f.
    destruct (Z.ltb_spec run (num_runs cs n)); [|lia]. split; [reflexivity|]. destruct (Z.ltb_spec (run + 1) (num_runs cs n)).
    - symmetry. apply C1. lia.
    - symmetry. apply C2. lia. }
  destruct (concat_ranges f (num_runs cs n) 0 ltac:(lia)) as [Q _].
  { intros i Hi. destruct (E i Hi) as [-> ->]. apply chunk_bounds; assumption. }
  transitivity (zrange (f 0) (f (num_runs cs n))).
  - rewrite <- Q. f_equal. apply map_ext_in. intros i Hi. apply in_zrange in Hi. destruct (E i Hi) as [-> ->]. reflexivity.
  - unfold f. destruct (Z.ltb_spec 0 (num_runs cs n)); [|lia]. rewrite Z.ltb_irrefl. reflexivity.
Qed.

(** C25 *)
Lemma thread_ranges nt ts sub : 1 <= nt -> 0 <= ts -> 0 <= sub ->
  concat (map (fun i => zrange (fst (trange nt ts sub i)) (snd (trange nt ts sub i))) (zrange 0 nt)) = zrange 0 (Z.max sub ((nt - 1) * ts)).
Proof.
  intros Hn Ht Hs. assert (E : zrange 0 nt = zrange 0 (nt - 1) ++ [nt - 1]) by (rewrite <- zrange_snoc by lia; f_equal; lia). rewrite E, map_app, concat_app. simpl. rewrite Z.eqb_refl, app_nil_r.
  destruct (concat_ranges (fun i => i * ts) (nt - 1) 0 ltac:(lia)) as [Q L]. { intros; nia. } simpl in Q.
  rewrite (map_ext_in _ (fun i => zrange (i * ts) ((i + 1) * ts))).
  - rewrite Q. destruct (Z.max_spec sub ((nt - 1) * ts)) as [[H ->]|[H ->]].
    + rewrite (zrange_nil _ sub) by lia. apply app_nil_r.
    + rewrite <- zrange_app by lia. reflexivity.
  - intros i Hi. apply in_zrange in Hi. unfold trange. simpl. destruct (Z.eqb_spec i (nt - 1)); [lia|]. f_equal. lia.
Qed.
