(** C07, C08, C09 in terms of the shared arrays. *)
From Verif Require Import Base Arith PBase Prog PProg MUtils MHeap SpecHeap PHeap PReloc.
From Verif Require Export SpecHeap.

Section HF.
Variable N : Arith.
Notation F := (F N).

Notation row_is := (row_is N).

Definition emem : mem F := mkMem [] [] [] [] [] [] [].
Definition hphi (ad : Z -> Z) : reloc := fun a j => match a with AHeapId | AHeapPq => ad j | _ => j end.
Definition hsz (k : Z) (a : arr) : Z := match a with AHeapId | AHeapPq => k | _ => 0 end.

Lemma heap_transport ad (p p' : prog F unit) h m : one_to_one ad (zlen h) -> row_is ad m h ->
  psim (hphi ad) p p' -> forall h', run p (hmem N emem h) = Ok (tt, hmem N emem h') ->
  exists m', run_in (heap_slots ad (zlen h)) p' m = Ok (tt, m') /\ row_is ad m' h'.
Proof.
  intros HI HR HS h' Hr.
  destruct (psim_run (hphi ad) p p' HS (hmem N emem h) m (hsz (zlen h))) with (x := tt) (l' := hmem N emem h')
    as (m' & R & V & Sz & _); auto.
  - intros a. unfold msz. destruct a; simpl; rewrite ?zlen_map; reflexivity.
  - intros a i Hi. destruct a; unfold mrd in *; simpl in *; rewrite ?zlen_map in Hi;
      try (change (zlen (@nil Z)) with 0 in Hi; lia); try (change (zlen (@nil F)) with 0 in Hi; lia).
    + destruct (znth_in_range h i Hi) as [x Hx]. rewrite znth_map, Hx. apply (proj1 (HR i x Hx)).
    + destruct (znth_in_range h i Hi) as [x Hx]. rewrite znth_map, Hx. apply (proj2 (HR i x Hx)).
  - intros a i j Hi Hj E. destruct a; simpl in *; try lia; apply HI; auto.
  - exists m'. split.
    + eapply run_in_mono; [|exact R]. intros a i Hi. apply image_true in Hi as (j & Hj & E).
      destruct a; simpl in *; try lia; apply existsb_exists; exists j; (split; [now apply in_zrange|now apply Z.eqb_eq]).
    + intros j x Hx. pose proof (znth_some _ _ _ Hx) as Hj.
      assert (V1 : znth (m_hid m') (ad j) = znth (map fst h') j)
        by (apply (V AHeapId j); change (0 <= j < zlen (map fst h')); rewrite zlen_map; assumption).
      assert (V2 : znth (m_hpq m') (ad j) = znth (map snd h') j)
        by (apply (V AHeapPq j); change (0 <= j < zlen (map snd h')); rewrite zlen_map; assumption).
      rewrite (znth_map fst h' j), Hx in V1. rewrite (znth_map snd h' j), Hx in V2. split; [exact V1|exact V2].
Qed.

Lemma maxheapify_final (S : F -> Prop) ad h m s i :
  weak_order N S -> Forall (fun x => S (snd x)) h -> one_to_one ad (zlen h) -> row_is ad m h ->
  s <= zlen h -> 0 <= i < zlen h ->
  max_heap N s h (2 * i + 1) -> max_heap N s h (2 * i + 2) ->
  exists m' h', run_in (heap_slots ad (zlen h)) (maxheapify N ad s i) m = Ok (tt, m') /\
    row_is ad m' h' /\ Permutation h' h /\ max_heap N s h' i /\
    (forall j, ~ below i j -> znth h' j = znth h j).
Proof.
  intros WO G HI HR Hs Hi H1 H2.
  pose proof (run_mh N emem (Z.to_nat s) h s i Hs Hi ltac:(lia)) as R.
  destruct (heap_transport ad (maxheapify N (fun j => j) s i) (maxheapify N ad s i) h m HI HR) with (2 := R)
    as (m' & R' & HR').
  - now apply mh_sim.
  - exists m', (mh N (Z.to_nat s) s i h). split; [assumption|]. split; [assumption|]. split; [apply perm_mh|]. split.
    + apply (mh_heap N S); auto; lia.
    + intros j Hj. apply mh_frame; auto.
Qed.

(** without any assumption on the values: termination, permutation, frame *)
Lemma maxheapify_safe ad h m s i :
  one_to_one ad (zlen h) -> row_is ad m h -> s <= zlen h -> 0 <= i < zlen h ->
  exists m' h', run_in (heap_slots ad (zlen h)) (maxheapify N ad s i) m = Ok (tt, m') /\
    row_is ad m' h' /\ Permutation h' h.
Proof.
  intros HI HR Hs Hi.
  pose proof (run_mh N emem (Z.to_nat s) h s i Hs Hi ltac:(lia)) as R.
  destruct (heap_transport ad (maxheapify N (fun j => j) s i) (maxheapify N ad s i) h m HI HR) with (2 := R)
    as (m' & R' & HR'); [now apply mh_sim|].
  exists m', (mh N (Z.to_nat s) s i h). split; [assumption|]. split; [assumption|]. apply perm_mh.
Qed.

Lemma sort_final (S : F -> Prop) ad h m :
  weak_order N S -> Forall (fun x => S (snd x)) h -> one_to_one ad (zlen h) -> row_is ad m h ->
  exists m' h', run_in (heap_slots ad (zlen h)) (heap_sort N ad (zlen h)) m = Ok (tt, m') /\
    row_is ad m' h' /\ Permutation h' h /\ ascending N h'.
Proof.
  intros WO G HI HR. destruct (heap_sort_row N S WO emem h G) as (h' & R & P & A).
  destruct (heap_transport ad (heap_sort N (fun j => j) (zlen h)) (heap_sort N ad (zlen h)) h m HI HR) with (2 := R)
    as (m' & R' & HR').
  - now apply sort_sim.
  - exists m', h'. auto.
Qed.

Notation op_prog := (op_prog N).

Lemma heap_sort_run l h : exists h', run (heap_sort N (fun j => j) (zlen h)) (hmem N l h) = Ok (tt, hmem N l h') /\
  Permutation h' h.
Proof.
  set (k := zlen h). pose proof (zlen_nonneg h) as Hk. fold k in Hk.
  assert (W1 : wp (forM (zrange_down 0 (k / 2)) (fun i => maxheapify N (fun j => j) k i))
    (fun _ m => exists h1, m = hmem N l h1 /\ Permutation h1 h) (hmem N l h)).
  { apply (wp_forM_zrange_down _ (fun i m => exists h1, m = hmem N l h1 /\ Permutation h1 h)).
    - apply Z.div_pos; lia.
    - exists h. auto.
    - intros i m Hi (h1 & -> & P).
      assert (L : zlen h1 = k) by (unfold k, zlen; now rewrite (Permutation_length P)).
      assert (i < k) by (Z.div_mod_to_equations; lia).
      eexists tt, _. split; [apply run_mh; lia|]. eexists. split; [reflexivity|].
      eapply perm_trans; [apply perm_mh|exact P]. }
  destruct W1 as ([] & m1 & R1 & h1 & -> & P1).
  assert (W2 : wp (forM (zrange_down 0 k) (fun i => bind (heap_swap N (fun j => j) 0 i) (fun _ => maxheapify N (fun j => j) i 0)))
    (fun _ m => exists h2, m = hmem N l h2 /\ Permutation h2 h) (hmem N l h1)).
  { apply (wp_forM_zrange_down _ (fun i m => exists h2, m = hmem N l h2 /\ Permutation h2 h)).
    - assumption.
    - exists h1. auto.
    - intros i m Hi (h2 & -> & P).
      assert (L : zlen h2 = k) by (unfold k, zlen; now rewrite (Permutation_length P)).
      eexists tt, _. split.
      + rewrite run_bind, run_swap by lia. apply run_mh; rewrite ?zlen_zswap; lia.
      + eexists. split; [reflexivity|]. eapply perm_trans; [apply perm_mh|]. eapply perm_trans; [apply perm_zswap|exact P]. }
  destruct W2 as ([] & m2 & R2 & h2 & -> & P2).
  exists h2. split; [|assumption]. unfold heap_sort. rewrite run_bind, R1. exact R2.
Qed.

Lemma op_layouts o ad1 ad2 h m1 m2 : op_ok (zlen h) o ->
  one_to_one ad1 (zlen h) -> one_to_one ad2 (zlen h) -> row_is ad1 m1 h -> row_is ad2 m2 h ->
  exists h' m1' m2',
    run_in (heap_slots ad1 (zlen h)) (op_prog ad1 (zlen h) o) m1 = Ok (tt, m1') /\ row_is ad1 m1' h' /\
    run_in (heap_slots ad2 (zlen h)) (op_prog ad2 (zlen h) o) m2 = Ok (tt, m2') /\ row_is ad2 m2' h' /\
    Permutation h' h.
Proof.
  intros Ho I1 I2 R1 R2.
  assert (exists h', run (op_prog (fun j => j) (zlen h) o) (hmem N emem h) = Ok (tt, hmem N emem h') /\ Permutation h' h)
    as (h' & R & P).
  { destruct o as [a b|s i|]; simpl in Ho.
    - eexists. split; [apply run_swap; tauto|apply perm_zswap].
    - eexists. split; [apply run_mh; lia|apply perm_mh].
    - apply heap_sort_run. }
  assert (Sim : forall ad, psim (hphi ad) (op_prog (fun j => j) (zlen h) o) (op_prog ad (zlen h) o)).
  { intros ad. destruct o; simpl; [now apply swap_sim|now apply mh_sim|now apply sort_sim]. }
  destruct (heap_transport ad1 _ _ h m1 I1 R1 (Sim ad1) h' R) as (m1' & E1 & V1).
  destruct (heap_transport ad2 _ _ h m2 I2 R2 (Sim ad2) h' R) as (m2' & E2 & V2).
  exists h', m1', m2'. auto.
Qed.

Lemma swap_final ad h m a b x y : one_to_one ad (zlen h) -> row_is ad m h ->
  znth h a = Some x -> znth h b = Some y ->
  exists m', run_in (heap_slots ad (zlen h)) (heap_swap N ad a b) m = Ok (tt, m') /\
    row_is ad m' (zupd (zupd h a y) b x).
Proof.
  intros HI HR Ha Hb. pose proof (znth_some _ _ _ Ha). pose proof (znth_some _ _ _ Hb).
  assert (R : run (heap_swap N (fun j => j) a b) (hmem N emem h) = Ok (tt, hmem N emem (zupd (zupd h a y) b x))).
  { rewrite run_swap by assumption. unfold zswap. now rewrite Ha, Hb. }
  destruct (heap_transport ad (heap_swap N (fun j => j) a b) (heap_swap N ad a b) h m HI HR) with (2 := R)
    as (m' & E & V); [now apply swap_sim|]. eauto.
Qed.

Lemma host_one_to_one h0 k : one_to_one (ad_host h0) k.
Proof. intros i j Hi Hj. unfold ad_host. lia. Qed.
Lemma strided_one_to_one s i k : 0 < s -> one_to_one (ad_strided s i) k.
Proof. intros Hs a b Ha Hb. unfold ad_strided. nia. Qed.
Lemma strided_column s i k a x : 0 <= i < s -> heap_slots (ad_strided s i) k a x = true -> x mod s = i.
Proof.
  intros Hi. unfold heap_slots, ad_strided. intros H.
  assert (exists j, 0 <= j < k /\ s * j + i = x) as (j & Hj & <-).
  { destruct a; try discriminate; apply existsb_exists in H as (j & Hj & E); apply in_zrange in Hj;
      apply Z.eqb_eq in E; eauto. }
  rewrite Z.mul_comm, Z.add_comm, Z_mod_plus_full. apply Z.mod_small. lia.
Qed.
Lemma host_row h0 k a x : heap_slots (ad_host h0) k a x = true -> h0 <= x < h0 + k.
Proof.
  unfold heap_slots, ad_host. intros H.
  assert (exists j, 0 <= j < k /\ h0 + j = x) as (j & Hj & <-); [|lia].
  destruct a; try discriminate; apply existsb_exists in H as (j & Hj & E); apply in_zrange in Hj;
      apply Z.eqb_eq in E; eauto.
Qed.
End HF.
