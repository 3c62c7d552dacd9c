(** C10, C11, C12: the k-NN kernel on the shared arrays. *)
From Verif Require Import Base Arith PBase Exact Prog PProg MUtils MHeap MXyz MKnn SpecSort SpecHeap SpecGeom SpecKnn PExact PSort PXyz PHeap PReloc PHeapFinal PGrid PSortFinal PKnnSel PKnn.
From Verif Require Export SpecKnn.
Local Open Scope prog_scope.

Lemma NoDup_remove_perm (n i : Z) V : 0 <= i < n -> NoDup V -> (forall p, In p V <-> 0 <= p < n /\ p <> i) ->
  Permutation (i :: V) (zrange 0 n).
Proof.
  intros Hi ND HV. apply NoDup_Permutation.
  - constructor; [|assumption]. rewrite HV. tauto.
  - apply NoDup_zrange.
  - intros x. simpl. rewrite HV, in_zrange. lia.
Qed.

Lemma in_firstn_znth {A} n (l : list A) p : In p (firstn n l) <-> exists i, 0 <= i < Z.of_nat n /\ znth l i = Some p.
Proof.
  revert l. induction n as [|n IH]; intros l; [rewrite firstn_O; simpl; split; [tauto|intros (i & Hi & _); lia]|].
  destruct l as [|x l]; [simpl; split; [tauto|intros (i & Hi & Q); unfold znth in Q; destruct (0 <=? i); destruct (Z.to_nat i); discriminate]|].
  simpl. rewrite IH. split.
  - intros [<-|(i & Hi & Q)]; [exists 0; split; [lia|reflexivity]|].
    exists (i + 1). split; [lia|]. rewrite znth_cons by lia. now replace (i + 1 - 1) with i by lia.
  - intros (i & Hi & Q). destruct (Z.eq_dec i 0) as [->|Ni]; [rewrite znth_0 in Q; injection Q as <-; now left|right].
    exists (i - 1). rewrite znth_cons in Q by lia. split; [lia|assumption].
Qed.

Section KF.
Variable N : Arith.
Variable E : Exact N.
Notation F := (F N).

Notation sqdist := (sqdist N E).
Notation no_neighbour := (no_neighbour N E).

Lemma sort_grid gr P0 P ids offset : 0 < gr -> gr * gr * gr <= int_max ->
  (forall p, In p P0 -> inside N E p) -> xyz_sort N gr P0 = Ok (P, ids, offset) ->
  Permutation P P0 /\
  (forall p, 0 <= p < zlen P -> exists pp, znth P p = Some pp /\ inside N E pp /\
    znth ids p = Some (grid_cell gr (valp N E pp))) /\
  (forall c, 0 <= c < gr * gr * gr -> exists a b,
    znth offset c = Some a /\ znth offset (c + 1) = Some b /\ 0 <= a <= b /\ b <= zlen P /\
    forall p, 0 <= p < zlen P -> (a <= p < b <-> znth ids p = Some c)).
Proof.
  intros Hg Hm Hin H. assert (Hr : in_range_ids N gr P0) by (now apply (in_range_exact N E)).
  pose proof (nonneg_of_range _ _ _ _ _ _ Hr H) as Hn.
  destruct (xyz_sort_spec N gr P0 P ids offset) as (l & t & El & Et & Ep & (Pm & _ & _) & Ht & _); [assumption|assumption|].
  assert (PP : Permutation P P0) by (rewrite <- Ep, <- El; now apply Permutation_map, Permutation_sym).
  split; [assumption|].
  assert (LP : zlen P = zlen P0) by (unfold zlen; now rewrite (Permutation_length PP)).
  split.
  - intros p Hp. destruct (znth_in_range P p Hp) as [pp Epp]. exists pp. split; [assumption|].
    assert (Ip : inside N E pp). { apply Hin. eapply Permutation_in; [exact PP|]. eapply znth_in; eauto. }
    split; [assumption|]. rewrite <- Ep, znth_map in Epp. rewrite <- Et, znth_map.
    destruct (znth t p) as [r|] eqn:Er; [|discriminate]. injection Epp as Epp. simpl. f_equal.
    pose proof (Ht r (znth_in _ _ _ Er)) as Hc. rewrite Epp in Hc. destruct Ip as [Fp Cp].
    destruct (cell_id_exact N E gr pp Hg Hm Fp) as [E1 _].
    { destruct pp as [[x y] z]. simpl in *. lra. }
    congruence.
  - intros c Hc. destruct (sort_offsets N gr P0 P ids offset ltac:(lia) Hr H) as (Lo & O0 & On & Mo & Ho).
    destruct (znth_in_range offset c ltac:(lia)) as [a Ea]. destruct (znth_in_range offset (c + 1) ltac:(lia)) as [b Eb].
    assert (MM : forall j i u v, 0 <= i -> znth offset i = Some u -> znth offset (i + Z.of_nat j) = Some v -> u <= v).
    { induction j as [|j IH]; intros i u v Hi Hu Hv.
      - replace (i + Z.of_nat 0) with i in Hv by lia. assert (u = v) by congruence. lia.
      - pose proof (znth_some _ _ _ Hv). destruct (znth_in_range offset (i + 1) ltac:(lia)) as [w Hw].
        pose proof (Mo _ _ _ Hu Hw). assert (w <= v); [|lia].
        apply (IH (i + 1)); auto; [lia|]. now replace (i + 1 + Z.of_nat j) with (i + Z.of_nat (S j)) by lia. }
    exists a, b. split; [assumption|]. split; [assumption|]. split.
    + split; [|eapply Mo; eauto]. apply (MM (Z.to_nat c) 0 0 a); [lia|assumption|]. now replace (0 + Z.of_nat (Z.to_nat c)) with c by lia.
    + rewrite LP. split; [|intros p Hp; now apply Ho].
      apply (MM (Z.to_nat (gr * gr * gr - (c + 1))) (c + 1)); [lia|assumption|].
      now replace (c + 1 + Z.of_nat (Z.to_nat (gr * gr * gr - (c + 1)))) with (gr * gr * gr) by lia.
Qed.

Lemma init_inv dev D pad k : 0 <= k -> no_neighbour dev pad ->
  Inv N E dev D k [] (repeat (0, pad) (Z.to_nat k)).
Proof.
  intros Hk Hp.
  assert (FR : Forall2 (relO N E dev D) (repeat None (Z.to_nat k)) (repeat (0, pad) (Z.to_nat k))).
  { generalize (Z.to_nat k). induction n; simpl; constructor; auto. split; [reflexivity|exact Hp]. }
  split; [rewrite zlen_repeat; lia|]. split.
  - intros j Hj. assert (forall c, above N k (repeat (0, pad) (Z.to_nat k)) j c).
    { intros c x y _ Hx Hy. unfold pq_at in *.
      destruct (znth (repeat (0, pad) (Z.to_nat k)) j) as [u|] eqn:Eu; [|discriminate].
      destruct (znth (repeat (0, pad) (Z.to_nat k)) c) as [v|] eqn:Ev; [|discriminate].
      apply znth_in, repeat_spec in Eu. apply znth_in, repeat_spec in Ev. subst u v.
      injection Hx as <-. injection Hy as <-.
      apply (rel_ge N E dev D None (0, pad) None (0, pad)); [now split|now split|lra]. }
    split; auto.
  - exists (repeat None (Z.to_nat k)). split; [assumption|]. exists []. rewrite !app_nil_r.
    split; [apply Permutation_refl|]. intros o o' _ [].
Qed.

(** ** the kernel on one row *)
Lemma knn_local l dev wp refs gr P0 P ids offset k index q pad : 0 < gr -> gr * gr * gr <= int_max ->
  (forall p, In p P0 -> inside N E p) -> xyz_sort N gr P0 = Ok (P, ids, offset) ->
  0 < k -> znth P index = Some q -> refs index = Some q ->
  (forall c, 0 <= c < gr -> wp c = c) -> no_neighbour dev pad ->
  exists h row,
    run (knn_compute N (fun j => j) (znth P) dev wp refs k gr gr ids offset index)
        (hmem N l (repeat (0, pad) (Z.to_nat k))) = Ok (tt, hmem N l h) /\
    zlen h = k /\
    nearest (sqdist P index) (fun p => 0 <= p < zlen P /\ p <> index) row /\
    zlen row = Z.min k (zlen P - 1) /\
    (forall j p, znth row j = Some p -> exists x, znth h j = Some (p, x) /\ fin E x /\ val E x = sqdist P index p) /\
    (forall j, zlen row <= j < k -> exists x, znth h j = Some (0, x) /\ no_neighbour dev x).
Proof.
  intros Hg Hm Hin Hs Hk Hi Hrf Hwp Hpad.
  destruct (sort_grid gr P0 P ids offset Hg Hm Hin Hs) as (PP & Hpts & Hoff).
  pose proof (znth_some _ _ _ Hi) as Ri.
  destruct (Hpts index Ri) as (q' & Eq & Iq & Eid). rewrite Hi in Eq. injection Eq as <-.
  destruct (pcell gr (valp N E q)) as [[px py] pz] eqn:Hpc.
  assert (Opx : cell_ok gr (px, py, pz)) by (rewrite <- Hpc; apply pcell_ok; [assumption|apply Iq]).
  set (D := dist N E (znth P) q).
  assert (DD : forall p, 0 <= p < zlen P -> D p = sqdist P index p).
  { intros p Hp. unfold D, dist, sqdist. destruct (znth_in_range P p Hp) as [pp ->]. now rewrite Hi. }
  destruct (face_min_exact N E dev gr q Hg (proj1 Iq) (proj2 Iq)) as [Fmn Vmn].
  destruct (shells_run N E dev gr Hg (znth P) (zlen P) ids offset index q Iq Hpts Hoff px py pz Hpc l k
    (face_min N dev (grid_len N gr) q) Hk Fmn Vmn (Z.to_nat gr) 0 [] (repeat (0, pad) (Z.to_nat k)))
    as (h1 & R1 & L1 & V & ks & ND & HV & H1 & Sel); [lia|lia| |apply init_inv; [lia|assumption]|].
  { split; [constructor|]. intros p. simpl. split; [tauto|]. intros (Hp & _ & Hch).
    destruct (pc N E gr (znth P) p) as [[x y] z]. simpl in Hch. lia. }
  destruct (heap_sort_row N (isval N E dev D) (isval_order N E dev D) l h1) as (h & R2 & P2 & A2).
  { eapply rel_good; eauto. }
  rewrite L1 in R2.
  assert (Lh : zlen h = k) by (rewrite <- L1; unfold zlen; now rewrite (Permutation_length P2)).
  destruct (Permutation_Forall2 (Permutation_sym P2) (Forall2_swap _ _ _ H1)) as (ks' & Pk & Fk).
  apply Forall2_swap in Fk.
  assert (Sel' : selected D k V ks').
  { destruct Sel as (rest & Pr & Dm). exists rest. split.
    - eapply perm_trans; [apply Permutation_app_tail; symmetry; exact Pk|exact Pr].
    - intros o o' Ho Ho'. apply Dm; [|assumption]. eapply Permutation_in; [symmetry; exact Pk|assumption]. }
  destruct (row_final N E dev D (znth P) index k V h ks') as (row & Nr & Lr & Hr & Hpd); auto; try lia.
  { intros p Hp. apply HV in Hp.
    destruct (cand_all N E gr (znth P) (zlen P) ids q Iq Hpts p ltac:(tauto)) as (pp & _ & _ & _ & B). exact B. }
  assert (LV : zlen V = zlen P - 1).
  { pose proof (NoDup_remove_perm (zlen P) index V Ri ND HV) as Q. apply Permutation_length in Q.
    simpl in Q. rewrite zrange_length in Q. unfold zlen in *. lia. }
  exists h, row. split; [|split; [assumption|split; [|split; [lia|split]]]].
  - unfold knn_compute. rewrite Hrf. cbn [pure_opt bind]. rewrite Eid. cbn [pure_opt bind].
    replace (gr =? 0) with false by lia. cbn [bind]. rewrite grid_cell_pcell, Hpc.
    destruct (cidx_decode gr px py pz Opx) as (D1 & D2 & D3). rewrite D1, D2, D3.
    destruct Opx as (O1 & O2 & O3). rewrite !Hwp by assumption.
    fold (grid_len N gr). rewrite run_bind, R1. exact R2.
  - destruct Nr as (N1 & N2 & N3 & N4). split; [assumption|]. split; [intros p Hp; apply HV; auto|]. split.
    + intros i j p p' Hij Ep Ep'. rewrite <- !DD; [eauto| |].
      * apply znth_in, N2, HV in Ep'. tauto.
      * apply znth_in, N2, HV in Ep. tauto.
    + intros p p' Hp Hp' Np'. rewrite <- !DD; [apply N4; auto; now apply HV|tauto|].
      apply N2, HV in Hp. tauto.
  - intros j p Ej. destruct (Hr j p Ej) as ([i x] & Ex & Rx & Fx & Vx & _). simpl in *. subst i.
    exists x. split; [assumption|]. split; [assumption|]. rewrite Vx. apply DD.
    destruct Nr as (_ & N2 & _). apply znth_in, N2, HV in Ej. tauto.
  - intros j Hj. destruct (Hpd j Hj) as ([i x] & Ex & Rx & Px). simpl in *. subst i. exists x. split; assumption.
Qed.

(** ** the same on the shared arrays, any layout *)
Definition knn_row (dev : bool) (P : list (point N)) (index k : Z) (h : list (Z * F)) : Prop :=
  exists row, zlen h = k /\
    nearest (sqdist P index) (fun p => 0 <= p < zlen P /\ p <> index) row /\
    zlen row = Z.min k (zlen P - 1) /\
    (forall j p, znth row j = Some p -> exists x, znth h j = Some (p, x) /\ fin E x /\ val E x = sqdist P index p) /\
    (forall j, zlen row <= j < k -> exists x, znth h j = Some (0, x) /\ no_neighbour dev x).

Lemma knn_final dev ad wp refs gr P0 P ids offset k index m pad : 0 < gr -> gr * gr * gr <= int_max ->
  (forall p, In p P0 -> inside N E p) -> xyz_sort N gr P0 = Ok (P, ids, offset) ->
  0 < k -> 0 <= index < zlen P -> refs index = znth P index ->
  (forall c, 0 <= c < gr -> wp c = c) -> no_neighbour dev pad ->
  one_to_one ad k -> row_is N ad m (repeat (0, pad) (Z.to_nat k)) ->
  exists m' h, run_in (heap_slots ad k) (knn_compute N ad (znth P) dev wp refs k gr gr ids offset index) m = Ok (tt, m') /\
    row_is N ad m' h /\ knn_row dev P index k h.
Proof.
  intros Hg Hm Hin Hs Hk Hi Hrf Hwp Hpad HI HR.
  destruct (znth_in_range P index Hi) as [q Eq].
  destruct (knn_local (emem N) dev wp refs gr P0 P ids offset k index q pad) as (h & row & R & K); auto; [congruence|].
  assert (Lk : zlen (repeat (0, pad) (Z.to_nat k)) = k) by (rewrite zlen_repeat; lia).
  destruct (heap_transport N ad (knn_compute N (fun j => j) (znth P) dev wp refs k gr gr ids offset index)
    (knn_compute N ad (znth P) dev wp refs k gr gr ids offset index) (repeat (0, pad) (Z.to_nat k)) m) with (h' := h)
    as (m' & R' & HR'); auto; [now rewrite Lk|now apply knn_sim|].
  rewrite Lk in R'. exists m', h. split; [assumption|]. split; [assumption|]. exists row. exact K.
Qed.

(** ** uniqueness of the distances *)
Lemma nearest_le (D1 D2 : Z -> R) (V1 V2 row1 row2 : list Z) j p1 p2 :
  NoDup V1 -> NoDup V2 -> Permutation (map D1 V1) (map D2 V2) ->
  nearest D1 (fun p => In p V1) row1 -> nearest D2 (fun p => In p V2) row2 ->
  znth row1 j = Some p1 -> znth row2 j = Some p2 -> (D2 p2 <= D1 p1)%R.
Proof.
  intros ND1 ND2 PV (N1 & C1 & S1 & _) (N2 & C2 & S2 & O2) E1 E2.
  destruct (Rle_lt_dec (D2 p2) (D1 p1)) as [L|L]; [assumption|exfalso].
  set (t := D1 p1) in *. set (f := fun x : R => if Rle_dec x t then true else false).
  assert (Hf : forall x, f x = true <-> (x <= t)%R). { intros x. unfold f. destruct (Rle_dec x t); split; auto; discriminate. }
  assert (LF : forall (D : Z -> R) V, length (filter (fun p => f (D p)) V) = length (filter f (map D V))).
  { intros D V. induction V as [|v V IH]; simpl; [reflexivity|]. destruct (f (D v)); simpl; congruence. }
  assert (PF : length (filter f (map D1 V1)) = length (filter f (map D2 V2))).
  { clear -PV. apply Permutation_length. induction PV; simpl; auto.
    - destruct (f x); auto.
    - destruct (f x), (f y); auto using perm_swap.
    - eapply perm_trans; eauto. }
  pose proof (znth_some _ _ _ E1) as R1. pose proof (znth_some _ _ _ E2) as R2.
  assert (A : (S (Z.to_nat j) <= length (filter (fun p => f (D1 p)) V1))%nat).
  { assert (Lfn : length (firstn (S (Z.to_nat j)) row1) = S (Z.to_nat j)) by (rewrite firstn_length; unfold zlen in *; lia).
    rewrite <- Lfn. apply NoDup_incl_length.
    - apply (NoDup_app_l _ (skipn (S (Z.to_nat j)) row1)). now rewrite firstn_skipn.
    - intros p Hp. apply in_firstn_znth in Hp as (i & Hi & Ei). apply filter_In.
      split; [apply C1; eapply znth_in; eauto|]. apply Hf. unfold t. apply (S1 i j); auto. lia. }
  assert (B : (length (filter (fun p => f (D2 p)) V2) <= Z.to_nat j)%nat).
  { assert (Lfn : length (firstn (Z.to_nat j) row2) = Z.to_nat j) by (rewrite firstn_length; unfold zlen in *; lia).
    rewrite <- Lfn. apply NoDup_incl_length; [now apply NoDup_filter|].
    intros p Hp. apply filter_In in Hp as [Hp Hfp]. apply Hf in Hfp. apply in_firstn_znth.
    destruct (in_dec Z.eq_dec p row2) as [K|K].
    - apply in_znth in K as (i & Hi & Ei). exists i. split; [|assumption].
      destruct (Z_lt_ge_dec i j) as [Q|Q]; [lia|]. assert (D2 p2 <= D2 p)%R by (apply (S2 j i); auto; lia). lra.
    - assert (D2 p2 <= D2 p)%R; [|lra]. apply O2; auto. eapply znth_in; eauto. }
  rewrite !LF in *. lia.
Qed.

Lemma nearest_ext (D : Z -> R) (c c' : Z -> Prop) row : (forall p, c p <-> c' p) -> nearest D c row -> nearest D c' row.
Proof.
  intros H (A & B & C & G). split; [assumption|]. split; [intros p Hp; now apply H, B|]. split; [assumption|].
  intros p q Hp Hq. apply G; auto. now apply H.
Qed.

Notation same_value := (same_value N E).

Lemma others_list (n i : Z) : exists V, NoDup V /\ forall p, In p V <-> 0 <= p < n /\ p <> i.
Proof.
  exists (filter (fun p => negb (p =? i)) (zrange 0 n)). split; [apply NoDup_filter, NoDup_zrange|].
  intros p. rewrite filter_In, in_zrange, negb_true_iff, Z.eqb_neq. tauto.
Qed.

Lemma map_sqdist P i q : znth P i = Some q ->
  map (sqdist P i) (zrange 0 (zlen P)) = map (fun p => d2 (valp N E p) (valp N E q)) P.
Proof.
  intros Hq. apply znth_ext_range.
  - rewrite !zlen_map, zlen_zrange by apply zlen_nonneg. lia.
  - intros j Hj. rewrite zlen_map, zlen_zrange in Hj by apply zlen_nonneg. rewrite !znth_map.
    rewrite znth_zrange by lia. destruct (znth_in_range P j ltac:(lia)) as [p Hp].
    rewrite Hp. cbn [option_map]. rewrite Z.add_0_l. unfold sqdist. now rewrite Hp, Hq.
Qed.

Lemma knn_rows_agree d1 d2 P1 P2 i1 i2 k h1 h2 q : Permutation P1 P2 ->
  znth P1 i1 = Some q -> znth P2 i2 = Some q ->
  knn_row d1 P1 i1 k h1 -> knn_row d2 P2 i2 k h2 ->
  forall j x1 x2, pq_at N h1 j = Some x1 -> pq_at N h2 j = Some x2 -> same_value d1 d2 x1 x2.
Proof.
  intros PP Q1 Q2 (row1 & L1 & N1 & M1 & A1 & B1) (row2 & L2 & N2 & M2 & A2 & B2) j x1 x2 X1 X2.
  assert (LP : zlen P1 = zlen P2) by (unfold zlen; now rewrite (Permutation_length PP)).
  destruct (others_list (zlen P1) i1) as (V1 & ND1 & HV1). destruct (others_list (zlen P2) i2) as (V2 & ND2 & HV2).
  assert (PV : Permutation (map (sqdist P1 i1) V1) (map (sqdist P2 i2) V2)).
  { pose proof (NoDup_remove_perm _ _ _ (znth_some _ _ _ Q1) ND1 HV1) as T1.
    pose proof (NoDup_remove_perm _ _ _ (znth_some _ _ _ Q2) ND2 HV2) as T2.
    apply (Permutation_map (sqdist P1 i1)) in T1. apply (Permutation_map (sqdist P2 i2)) in T2.
    rewrite (map_sqdist _ _ _ Q1) in T1. rewrite (map_sqdist _ _ _ Q2) in T2. simpl in T1, T2.
    assert (S0 : sqdist P1 i1 i1 = sqdist P2 i2 i2) by (unfold sqdist; now rewrite Q1, Q2).
    rewrite S0 in T1. eapply Permutation_cons_inv. eapply perm_trans; [exact T1|].
    eapply perm_trans; [apply Permutation_map, PP|]. symmetry. exact T2. }
  assert (N1' := nearest_ext _ _ (fun p => In p V1) _ (fun p => iff_sym (HV1 p)) N1).
  assert (N2' := nearest_ext _ _ (fun p => In p V2) _ (fun p => iff_sym (HV2 p)) N2).
  assert (LR : zlen row1 = zlen row2) by lia.
  unfold pq_at in X1, X2. destruct (znth h1 j) as [y1|] eqn:Y1; [|discriminate]. destruct (znth h2 j) as [y2|] eqn:Y2; [|discriminate].
  injection X1 as <-. injection X2 as <-. pose proof (znth_some _ _ _ Y1) as Rj.
  destruct (Z_lt_ge_dec j (zlen row1)) as [Lt|Ge].
  - destruct (znth_in_range row1 j ltac:(lia)) as [p1 Ep1]. destruct (znth_in_range row2 j ltac:(lia)) as [p2 Ep2].
    destruct (A1 j p1 Ep1) as (z1 & Z1 & F1 & W1). destruct (A2 j p2 Ep2) as (z2 & Z2 & F2 & W2).
    rewrite Y1 in Z1. rewrite Y2 in Z2. injection Z1 as ->. injection Z2 as ->. left. simpl. split; [assumption|]. split; [assumption|].
    rewrite W1, W2. apply Rle_antisym.
    + eapply (nearest_le _ _ V2 V1 row2 row1 j); eauto. now apply Permutation_sym.
    + eapply (nearest_le _ _ V1 V2 row1 row2 j); eauto.
  - destruct (B1 j ltac:(lia)) as (z1 & Z1 & W1). destruct (B2 j ltac:(lia)) as (z2 & Z2 & W2).
    rewrite Y1 in Z1. rewrite Y2 in Z2. injection Z1 as ->. injection Z2 as ->. right. simpl. auto.
Qed.
End KF.

(** ** final forms *)
Section Forms.
Variable N : Arith.
Variable E : Exact N.

(** at least k other points *)
Lemma knn_full dev ad wp refs gr P0 P ids offset k index m pad : 0 < gr -> gr * gr * gr <= int_max ->
  (forall p, In p P0 -> inside N E p) -> xyz_sort N gr P0 = Ok (P, ids, offset) ->
  0 < k <= zlen P - 1 -> 0 <= index < zlen P -> refs index = znth P index ->
  (forall c, 0 <= c < gr -> wp c = c) -> no_neighbour N E dev pad ->
  one_to_one ad k -> row_is N ad m (repeat (0, pad) (Z.to_nat k)) ->
  exists m' row dist,
    run_in (heap_slots ad k) (knn_compute N ad (znth P) dev wp refs k gr gr ids offset index) m = Ok (tt, m') /\
    row_is N ad m' (combine row dist) /\ zlen row = k /\ zlen dist = k /\
    nearest (sqdist N E P index) (fun p => 0 <= p < zlen P /\ p <> index) row /\
    (forall j p x, znth row j = Some p -> znth dist j = Some x -> fin E x /\ val E x = sqdist N E P index p).
Proof.
  intros Hg Hm Hin Hs Hk Hi Hrf Hwp Hpad HI HR.
  destruct (knn_final N E dev ad wp refs gr P0 P ids offset k index m pad) as (m' & h & R & Hh & row & L & Nr & Lr & A & _); auto; [lia|].
  rewrite Z.min_l in Lr by lia.
  exists m', row, (map snd h). split; [assumption|].
  assert (row = map fst h) as Er.
  { apply znth_ext_range; [rewrite zlen_map; lia|]. intros j Hj. destruct (znth_in_range row j Hj) as [p Hp].
    destruct (A j p Hp) as (x & Hx & _). now rewrite Hp, znth_map, Hx. }
  split; [|split; [assumption|split; [now rewrite zlen_map|split; [assumption|]]]].
  - rewrite Er. replace (combine (map fst h) (map snd h)) with h; [assumption|].
    clear. induction h as [|[a b] h IH]; simpl; congruence.
  - intros j p x Hp Hx. destruct (A j p Hp) as (y & Hy & Fy & Vy). rewrite znth_map, Hy in Hx. injection Hx as <-. auto.
Qed.

(** fewer than k other points *)
Lemma knn_short dev ad wp refs gr P0 P ids offset k index m pad : 0 < gr -> gr * gr * gr <= int_max ->
  (forall p, In p P0 -> inside N E p) -> xyz_sort N gr P0 = Ok (P, ids, offset) ->
  0 < k -> zlen P - 1 < k -> 0 <= index < zlen P -> refs index = znth P index ->
  (forall c, 0 <= c < gr -> wp c = c) -> no_neighbour N E dev pad ->
  one_to_one ad k -> row_is N ad m (repeat (0, pad) (Z.to_nat k)) ->
  exists m' row dist,
    run_in (heap_slots ad k) (knn_compute N ad (znth P) dev wp refs k gr gr ids offset index) m = Ok (tt, m') /\
    row_is N ad m' (combine row dist) /\ zlen row = k /\ zlen dist = k /\
    NoDup (firstn (Z.to_nat (zlen P - 1)) row) /\
    (forall p, In p (firstn (Z.to_nat (zlen P - 1)) row) <-> 0 <= p < zlen P /\ p <> index) /\
    (forall j, zlen P - 1 <= j < k -> znth row j = Some 0 /\ exists x, znth dist j = Some x /\ no_neighbour N E dev x).
Proof.
  intros Hg Hm Hin Hs Hk Hk2 Hi Hrf Hwp Hpad HI HR.
  destruct (knn_final N E dev ad wp refs gr P0 P ids offset k index m pad) as (m' & h & R & Hh & row & L & Nr & Lr & A & B); auto.
  rewrite Z.min_r in Lr by lia.
  exists m', (map fst h), (map snd h). split; [assumption|].
  assert (Ef : firstn (Z.to_nat (zlen P - 1)) (map fst h) = row).
  { assert (Ln : length row = Z.to_nat (zlen P - 1)) by (unfold zlen in *; lia).
    apply znth_ext_range.
    - unfold zlen. rewrite firstn_length, map_length. unfold zlen in *. lia.
    - intros j Hj. assert (Hj' : 0 <= j < zlen row) by (unfold zlen in *; rewrite firstn_length, map_length in Hj; lia).
      destruct (znth_in_range row j Hj') as [p Hp]. destruct (A j p Hp) as (x & Hx & _).
      rewrite Hp. unfold znth in *. destruct (0 <=? j) eqn:Q; [|lia].
      transitivity (nth_error (map fst h) (Z.to_nat j)).
      + rewrite <- (firstn_skipn (Z.to_nat (zlen P - 1)) (map fst h)) at 2. rewrite nth_error_app1; [reflexivity|].
        rewrite firstn_length, map_length. unfold zlen in *. lia.
      + now rewrite nth_error_map, Hx. }
  rewrite Ef. split; [|split; [now rewrite zlen_map|split; [now rewrite zlen_map|split; [|split]]]].
  - replace (combine (map fst h) (map snd h)) with h; [assumption|].
    clear. induction h as [|[a b] h IH]; simpl; congruence.
  - apply Nr.
  - destruct Nr as (ND & C & _). destruct (others_list (zlen P) index) as (V & NDV & HV).
    intros p. split; [apply C|]. rewrite <- HV. intros Hp.
    assert (Hincl : incl row V) by (intros z Hz; apply HV; auto).
    assert (LV : (length V <= length row)%nat).
    { pose proof (NoDup_remove_perm (zlen P) index V Hi NDV HV) as Q. apply Permutation_length in Q.
      simpl in Q. rewrite zrange_length in Q. unfold zlen in *. lia. }
    exact (NoDup_length_incl ND LV Hincl p Hp).
  - intros j Hj. destruct (B j ltac:(lia)) as (x & Hx & Px).
    rewrite (znth_map fst), (znth_map snd), Hx. split; [reflexivity|]. exists x. split; [reflexivity|assumption].
Qed.

(** two runs on the same points: grids, layouts and kernels may differ *)
Lemma knn_grid_free P0 k gr1 P1 ids1 off1 dev1 ad1 wp1 i1 m1 pad1 gr2 P2 ids2 off2 dev2 ad2 wp2 i2 m2 pad2 :
  (forall p, In p P0 -> inside N E p) -> 0 < k ->
  0 < gr1 -> gr1 * gr1 * gr1 <= int_max -> xyz_sort N gr1 P0 = Ok (P1, ids1, off1) ->
  0 < gr2 -> gr2 * gr2 * gr2 <= int_max -> xyz_sort N gr2 P0 = Ok (P2, ids2, off2) ->
  0 <= i1 < zlen P1 -> 0 <= i2 < zlen P2 -> znth P1 i1 = znth P2 i2 ->
  (forall c, 0 <= c < gr1 -> wp1 c = c) -> (forall c, 0 <= c < gr2 -> wp2 c = c) ->
  no_neighbour N E dev1 pad1 -> no_neighbour N E dev2 pad2 ->
  one_to_one ad1 k -> row_is N ad1 m1 (repeat (0, pad1) (Z.to_nat k)) ->
  one_to_one ad2 k -> row_is N ad2 m2 (repeat (0, pad2) (Z.to_nat k)) ->
  exists m1' m2' h1 h2,
    run_in (heap_slots ad1 k) (knn_compute N ad1 (znth P1) dev1 wp1 (znth P1) k gr1 gr1 ids1 off1 i1) m1 = Ok (tt, m1') /\
    run_in (heap_slots ad2 k) (knn_compute N ad2 (znth P2) dev2 wp2 (znth P2) k gr2 gr2 ids2 off2 i2) m2 = Ok (tt, m2') /\
    row_is N ad1 m1' h1 /\ row_is N ad2 m2' h2 /\ zlen h1 = k /\ zlen h2 = k /\
    forall j x1 x2, pq_at N h1 j = Some x1 -> pq_at N h2 j = Some x2 -> same_value N E dev1 dev2 x1 x2.
Proof.
  intros Hin Hk G1 M1 S1 G2 M2 S2 I1 I2 Ei W1 W2 Pd1 Pd2 O1 R1 O2 R2.
  destruct (knn_final N E dev1 ad1 wp1 (znth P1) gr1 P0 P1 ids1 off1 k i1 m1 pad1) as (m1' & h1 & X1 & Y1 & K1); auto.
  destruct (knn_final N E dev2 ad2 wp2 (znth P2) gr2 P0 P2 ids2 off2 k i2 m2 pad2) as (m2' & h2 & X2 & Y2 & K2); auto.
  destruct (sort_grid N E gr1 P0 P1 ids1 off1 G1 M1 Hin S1) as (PP1 & _).
  destruct (sort_grid N E gr2 P0 P2 ids2 off2 G2 M2 Hin S2) as (PP2 & _).
  destruct (znth_in_range P1 i1 I1) as [q Eq].
  exists m1', m2', h1, h2. repeat (split; [assumption|]).
  split; [destruct K1 as (? & ? & _); assumption|]. split; [destruct K2 as (? & ? & _); assumption|].
  eapply (knn_rows_agree N E dev1 dev2 P1 P2 i1 i2 k h1 h2 q); eauto; [|congruence].
  eapply perm_trans; [exact PP1|]. now apply Permutation_sym.
Qed.
End Forms.
