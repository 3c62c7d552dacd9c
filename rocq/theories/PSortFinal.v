(** The sort theorems in the form used by PropsSort. *)
From Verif Require Import Base PBase SpecSort PSort Arith Exact MUtils MXyz PXyz SpecGeom PExact PGrid.
From Verif Require Export SpecPoints.

Section Final.
Variable N : Arith.
Notation point := (point N).

Notation has_cell := (has_cell N).

Lemma nonneg_of_range gr pts pts' ids o : in_range_ids N gr pts ->
  xyz_sort N gr pts = Ok (pts', ids, o) -> forall i, In i ids -> 0 <= i.
Proof.
  intros Hr H i Hi. apply xyz_sort_inv in H as (l & t & El & Et & Ep & St & Hl & _).
  rewrite <- Et in Hi. apply in_map_iff in Hi as (r & <- & Hi).
  destruct St as (Hp & _). apply (Permutation_in _ (Permutation_sym Hp)) in Hi.
  assert (In (snd r) pts) by (rewrite <- El; now apply in_map).
  destruct (Hr _ H) as (c & Hc & Rc). rewrite (Hl _ Hi) in Hc. injection Hc as ->. lia.
Qed.

Lemma sort_sorted_ids gr pts : 0 <= gr -> gr * gr * gr <= int_max -> in_range_ids N gr pts ->
  exists pts' ids o, xyz_sort N gr pts = Ok (pts', ids, o) /\
    length ids = length pts /\
    StronglySorted Z.le ids /\
    (forall i p, nth_error pts' i = Some p -> exists c, nth_error ids i = Some c /\ has_cell gr p c) /\
    validate_id ids = true /\ validate_sort N gr pts' ids = true.
Proof.
  intros Hg Hm Hr. destruct (xyz_sort_total N gr pts Hg Hm Hr) as (pts' & ids & o & H).
  exists pts', ids, o. split; [assumption|].
  pose proof (nonneg_of_range _ _ _ _ _ Hr H) as Hn.
  apply xyz_sort_spec in H; [|assumption].
  destruct H as (l & t & El & Et & Ep & (P & S & _) & Ht & _).
  assert (Hs : StronglySorted Z.le ids).
  { rewrite <- Et. unfold sorted_by in S. clear -S. induction S as [|a t Hs IH Ha]; simpl; constructor; auto.
    rewrite Forall_forall in *. intros x Hx. apply in_map_iff in Hx as (r & <- & Hx). auto. }
  split; [rewrite <- Et, <- El, !map_length; apply Permutation_length in P; lia|].
  split; [assumption|]. split.
  - intros i p Hi. rewrite <- Ep, nth_error_map in Hi. rewrite <- Et, nth_error_map.
    destruct (nth_error t i) as [r|] eqn:Er; [|discriminate]. injection Hi as <-.
    exists (fst r). split; [reflexivity|]. apply Ht. eapply nth_error_In, Er.
  - split; [now apply validate_id_sorted|]. rewrite <- Ep, <- Et. now apply validate_sort_ok.
Qed.

Lemma sort_offsets gr pts pts' ids o : 0 <= gr -> in_range_ids N gr pts ->
  xyz_sort N gr pts = Ok (pts', ids, o) ->
  zlen o = gr * gr * gr + 1 /\
  znth o 0 = Some 0 /\ znth o (gr * gr * gr) = Some (zlen pts) /\
  (forall c a b, znth o c = Some a -> znth o (c + 1) = Some b -> a <= b) /\
  (forall c a b p, znth o c = Some a -> znth o (c + 1) = Some b -> 0 <= p < zlen pts ->
     (a <= p < b <-> znth ids p = Some c)).
Proof.
  intros Hg Hr H. pose proof (nonneg_of_range _ _ _ _ _ Hr H) as Hn.
  apply xyz_sort_spec in H; [|assumption].
  destruct H as (l & t & El & Et & Ep & (P & S & _) & Ht & _ & Hi & _ & _ & Ho).
  destruct Ho as [Lo Po]; [nia|].
  assert (HL : zlen ids = zlen pts).
  { rewrite <- Et, <- El, !zlen_map. unfold zlen. apply Permutation_length in P. lia. }
  assert (Hs : StronglySorted Z.le ids).
  { rewrite <- Et. unfold sorted_by in S. clear -S. induction S as [|a t Hs IH Ha]; simpl; constructor; auto.
    rewrite Forall_forall in *. intros x Hx. apply in_map_iff in Hx as (r & <- & Hx). auto. }
  split; [assumption|]. split.
  { rewrite Po by nia. f_equal. apply cnt_none. intros x Hx. apply Hi in Hx. lia. }
  split.
  { rewrite Po by nia. f_equal. rewrite <- HL. apply cnt_all. intros x Hx. apply Hi in Hx. lia. }
  assert (Q : forall c v, znth o c = Some v -> v = cnt (fun i => i <? c) ids).
  { intros c v Hv. pose proof (znth_some _ _ _ Hv). rewrite Po in Hv by lia. congruence. }
  split.
  - intros c a b Ha Hb. apply Q in Ha, Hb. subst a b. rewrite cnt_split.
    pose proof (cnt_nonneg (fun x => x =? c) ids). lia.
  - intros c a b p Ha Hb Hp. apply Q in Ha, Hb. subst a b. rewrite <- HL in Hp.
    pose proof (sorted_cnt ids Hs p c Hp) as K1. pose proof (sorted_cnt ids Hs p (c + 1) Hp) as K2.
    destruct (znth_in_range ids p Hp) as [v Hv]. rewrite Hv in *. split.
    + intros [H1 H2]. apply K1 in H1 as (v' & Ev & Hc). injection Ev as <-.
      destruct (Z_le_gt_dec (c + 1) v) as [L|L].
      * assert (cnt (fun i => i <? c + 1) ids <= p) by (apply K2; eauto). lia.
      * f_equal. lia.
    + intros K. injection K as ->. split.
      * apply K1. exists c. split; [reflexivity|lia].
      * destruct (Z_lt_ge_dec p (cnt (fun i => i <? c + 1) ids)) as [L|L]; [assumption|].
        assert (L' : cnt (fun i => i <? c + 1) ids <= p) by lia.
        apply K2 in L' as (v' & Ev & Hc). injection Ev as <-. lia.
Qed.

Notation cellb := (cellb N).

Lemma sort_stable gr pts pts' ids o : in_range_ids N gr pts ->
  xyz_sort N gr pts = Ok (pts', ids, o) ->
  forall c, filter (cellb gr c) pts' = filter (cellb gr c) pts.
Proof.
  intros Hr H c. pose proof (nonneg_of_range _ _ _ _ _ Hr H) as Hn.
  apply xyz_sort_spec in H; [|assumption].
  destruct H as (l & t & <- & Et & <- & (P & S & F) & Ht & Hl & _).
  assert (G : forall u : list (Z * point), (forall r, In r u -> cell_id N gr (grid_len N gr) (snd r) = Ok (fst r)) ->
    filter (cellb gr c) (map snd u) = map snd (filter (fun r => fst r =? c) u)).
  { induction u as [|r u IH]; intros Hu; [reflexivity|]. simpl. unfold cellb at 1.
    rewrite (Hu r) by now left. rewrite IH by (intros; apply Hu; now right). now destruct (fst r =? c). }
  rewrite (G t Ht), (G l Hl). now rewrite F.
Qed.

Lemma sort_idempotent gr pts pts' ids o : in_range_ids N gr pts ->
  xyz_sort N gr pts = Ok (pts', ids, o) -> xyz_sort N gr pts' = Ok (pts', ids, o).
Proof.
  intros Hr H. pose proof (nonneg_of_range _ _ _ _ _ Hr H) as Hn. pose proof H as H'.
  apply xyz_sort_inv in H' as (l & t & El & Et & Ep & St & Hl & R3 & R2 & _ & Eo).
  apply xyz_sort_spec in H; [|assumption].
  destruct H as (l2 & t2 & El2 & Et2 & Ep2 & (P & S & _) & Ht & _).
  assert (Ht2 : rmap (cell_id N gr (grid_len N gr)) pts' = Ok ids).
  { apply rmap_combine. rewrite <- Et2, <- Ep2, !map_length. split; [reflexivity|].
    apply Forall_forall. intros r Hr'.
    assert (In r t2); [|auto]. revert Hr'. clear. induction t2 as [|[a b] t2 IH]; simpl; [tauto|].
    intros [Hh|Hh]; [now left|right; auto]. }
  unfold xyz_sort. rewrite !chk_ok by assumption. cbn [rbind]. rewrite !chk_ok by assumption. cbn [rbind].
  rewrite Ht2. cbn [rbind]. rewrite <- Et2, <- Ep2.
  destruct (radix_sort_ok N t2) as (t3 & E3 & S3). rewrite E3. cbn [rbind].
  assert (t3 = t2) as ->.
  { apply lowkey_stable in S3.
    - eapply stable_sort_unique; [exact S3|]. now apply stable_sort_sorted.
    - intros r Hr'. assert (In (fst r) ids) by (rewrite <- Et2; now apply in_map).
      pose proof (Hn _ H). pose proof (offsets_inv _ _ _ Eo _ H). unfold int_max in R3.
      change (2 ^ 32) with 4294967296. lia. }
  rewrite Et2, Eo. reflexivity.
Qed.

End Final.

(** ** Cases used by the examples *)
From Verif Require Import ArithQ.
From Coq Require Import QArith.
Definition exq (n : Z) : xq := Fin (Qred (n # 1000)).
Definition ex_pt (t : Z * Z * Z) : MUtils.point arithQ := let '(a, b, c) := t in (exq a, exq b, exq c).
Definition ex_pts : list (MUtils.point arithQ) :=
  map ex_pt [(605,223,670);(971,140,566);(99,999,343);(120,120,777);(500,500,500);
             (250,650,320);(870,730,910);(330,880,60);(710,410,150);(45,555,955)]%Z.
