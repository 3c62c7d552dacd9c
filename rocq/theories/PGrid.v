(** Cell ids in exact arithmetic. *)
From Verif Require Import Base PBase SpecSort PSort Arith Exact MUtils MXyz PXyz SpecGeom PExact.
From Verif Require Export SpecPoints.
Local Open Scope res_scope.

Section Grid.
Variable N : Arith.
Variable E : Exact N.
Notation fin := (fin E).
Notation val := (val E).

Lemma int_part_bounds r : (IZR (Int_part r) <= r < IZR (Int_part r) + 1)%R.
Proof. destruct (base_Int_part r). lra. Qed.

Lemma int_part_unique r z : (IZR z <= r < IZR z + 1)%R -> Int_part r = z.
Proof.
  intros H. pose proof (int_part_bounds r).
  assert (Int_part r < z + 1)%Z by (apply lt_IZR; rewrite plus_IZR; lra).
  assert (z < Int_part r + 1)%Z by (apply lt_IZR; rewrite plus_IZR; lra). lia.
Qed.

Lemma int_part_range r (n : Z) : (0 <= r < IZR n)%R -> (0 <= Int_part r < n)%Z.
Proof.
  intros H. pose proof (int_part_bounds r). split.
  - assert (-1 < Int_part r)%Z; [|lia]. apply lt_IZR. lra.
  - apply lt_IZR. lra.
Qed.

Lemma grid_len_exact gr : 0 < gr -> fin (grid_len N gr) /\ val (grid_len N gr) = (/ IZR gr)%R.
Proof.
  intros Hg. unfold grid_len. assert (IZR gr <> 0)%R by (apply IZR_neq; lia).
  split; [apply fin_div|rewrite val_div]; auto with fin; rewrite ?val_ofZ; auto.
  field. assumption.
Qed.

Lemma cell_coord_exact gr x : 0 < gr -> gr <= int_max -> fin x -> (0 <= val x < 1)%R ->
  cell_coord N (grid_len N gr) x = Ok (Int_part (val x * IZR gr)) /\
  0 <= Int_part (val x * IZR gr) < gr.
Proof.
  intros Hg Hm Fx Hx. assert (0 < IZR gr)%R by (apply IZR_lt; lia).
  destruct (grid_len_exact gr Hg) as [Fl Vl].
  assert (Hq : val (fdiv N x (grid_len N gr)) = (val x * IZR gr)%R).
  { rewrite val_div; auto; rewrite Vl; [field; lra|]. apply Rinv_neq_0_compat. lra. }
  assert (Fq : fin (fdiv N x (grid_len N gr))).
  { apply fin_div; auto. rewrite Vl. apply Rinv_neq_0_compat. lra. }
  assert (R : 0 <= Int_part (val x * IZR gr) < gr).
  { apply int_part_range. nra. }
  split; [|exact R]. unfold cell_coord.
  rewrite (ex_floor _ E _ (Int_part (val x * IZR gr)) Fq).
  - unfold Base.in_int. replace (int_min <=? _) with true by (unfold int_min; lia).
    replace (_ <=? int_max) with true by lia. reflexivity.
  - rewrite Hq. apply int_part_bounds.
Qed.

Lemma cell_id_exact gr p : 0 < gr -> gr * gr * gr <= int_max -> finp N E p ->
  (let '(x, y, z) := valp N E p in 0 <= x < 1 /\ 0 <= y < 1 /\ 0 <= z < 1)%R ->
  cell_id N gr (grid_len N gr) p = Ok (grid_cell gr (valp N E p)) /\
  0 <= grid_cell gr (valp N E p) < gr * gr * gr.
Proof.
  destruct p as [[x y] z]. intros Hg Hm (Fx & Fy & Fz) (Hx & Hy & Hz).
  assert (gr <= int_max) by nia.
  destruct (cell_coord_exact gr x Hg H Fx Hx) as [Ex Rx].
  destruct (cell_coord_exact gr y Hg H Fy Hy) as [Ey Ry].
  destruct (cell_coord_exact gr z Hg H Fz Hz) as [Ez Rz].
  unfold cell_id. rewrite Ex, Ey, Ez. cbn [rbind]. simpl valp. cbn [grid_cell].
  set (a := Int_part (val x * IZR gr)) in *. set (b := Int_part (val y * IZR gr)) in *.
  set (c := Int_part (val z * IZR gr)) in *.
  assert (0 <= b * gr <= gr * gr - gr) by nia.
  assert (0 <= c * gr <= gr * gr - gr) by nia.
  assert (0 <= c * gr * gr <= gr * gr * gr - gr * gr) by nia.
  assert (gr * gr <= int_max) by nia.
  unfold int_max in *.
  rewrite (chk_ok (b * gr)) by (unfold int_min, int_max; lia). cbn [rbind].
  rewrite (chk_ok (a + b * gr)) by (unfold int_min, int_max; lia). cbn [rbind].
  rewrite (chk_ok (c * gr)) by (unfold int_min, int_max; lia). cbn [rbind].
  rewrite (chk_ok (c * gr * gr)) by (unfold int_min, int_max; lia). cbn [rbind].
  rewrite chk_ok by (unfold int_min, int_max; lia). split; [reflexivity|lia].
Qed.

Notation inside := (inside N E).

Lemma in_range_exact gr pts : 0 < gr -> gr * gr * gr <= int_max ->
  (forall p, In p pts -> inside p) -> in_range_ids N gr pts.
Proof.
  intros Hg Hm H p Hp. destruct (H p Hp) as [Fp Cp].
  destruct (cell_id_exact gr p Hg Hm Fp) as [E1 R1].
  - destruct p as [[x y] z]. simpl in *. lra.
  - eauto.
Qed.

Lemma coord_ok_exact x : fin x -> coord_ok N x = true <-> (0 < val x < 1)%R.
Proof.
  intros Fx. unfold coord_ok. rewrite negb_true_iff, orb_false_iff.
  rewrite !(fle_false N E) by auto with fin. rewrite !val_ofZ. tauto.
Qed.

Lemma validate_exact pts : Forall (finp N E) pts ->
  validate_xyzset N pts = true <-> Forall (fun p => in_open_cube (valp N E p)) pts.
Proof.
  intros HF. unfold validate_xyzset. rewrite forallb_forall, Forall_forall.
  rewrite Forall_forall in HF. split; intros H p Hp; specialize (H p Hp); specialize (HF p Hp);
  destruct p as [[x y] z]; destruct HF as (?&?&?); simpl in *.
  - rewrite !andb_true_iff, !coord_ok_exact in H by assumption. tauto.
  - rewrite !andb_true_iff, !coord_ok_exact by assumption. tauto.
Qed.

End Grid.

(** ** The validators of the sorted arrays *)
Lemma validate_id_sorted ids : validate_id ids = true <-> StronglySorted Z.le ids.
Proof.
  split; intros H.
  - apply Sorted_StronglySorted; [intros x y z; lia|].
    induction ids as [|a ids IH]; [constructor|]. constructor.
    + apply IH. destruct ids; [reflexivity|]. simpl in H. destruct (z <? a); [discriminate|exact H].
    + destruct ids; constructor. simpl in H. destruct (z <? a) eqn:Q; [discriminate|lia].
  - induction H as [|a l Hs IH Ha]; [reflexivity|]. destruct l as [|b l]; [reflexivity|].
    simpl in *. inversion_clear Ha. replace (b <? a) with false by lia. exact IH.
Qed.

Lemma validate_sort_ok N gr (t : list (Z * point N)) :
  (forall r, In r t -> cell_id N gr (grid_len N gr) (snd r) = Ok (fst r)) ->
  validate_sort N gr (map snd t) (map fst t) = true.
Proof.
  intros H. unfold validate_sort. rewrite !map_length, Nat.leb_refl. simpl.
  apply forallb_forall. intros [p i] Hin.
  assert (In (i, p) t) as K.
  { revert Hin. clear. induction t as [|[i' p'] t IH]; simpl; [tauto|]. intros [Hh|Hh]; [left; congruence|auto]. }
  apply H in K. simpl in K. rewrite K. apply Z.eqb_refl.
Qed.
