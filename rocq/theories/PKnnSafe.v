(** The k-NN kernel for any arithmetic: it always finishes and its heap only
    ever holds indices of points. *)
From Verif Require Import Base Arith PBase Prog PProg MUtils MHeap MKnn PHeap PKnn PReloc PHeapFinal PCell.
From Coq Require Import Permutation.
Local Open Scope prog_scope.

Section S.
Variable N : Arith.
Notation F := (F N).
Notation ad := (fun j : Z => j).

(** a program that stays in the heap row does not see the rest *)
Lemma lift_heap {A} (p : prog F A) l h h' x : zlen h' = zlen h ->
  run p (hmem N (emem N) h) = Ok (x, hmem N (emem N) h') -> run p (hmem N l h) = Ok (x, hmem N l h').
Proof.
  intros L E.
  destruct (psim_run same p p (psim_same p) (hmem N (emem N) h) (hmem N l h) (hsz (zlen h))) with (x := x) (l' := hmem N (emem N) h')
    as (m' & R & V & Sz & Fr); auto.
  - intros a. unfold msz. destruct a; simpl; rewrite ?zlen_map; reflexivity.
  - intros a i Hi. destruct a; unfold mrd in *; simpl in *; rewrite ?zlen_map in Hi;
      try (change (zlen (@nil Z)) with 0 in Hi; lia); try (change (zlen (@nil F)) with 0 in Hi; lia); reflexivity.
  - intros a i j _ _ Q. exact Q.
  - apply run_in_run in R. rewrite R. do 2 f_equal. apply mem_ext. intros a i.
    assert (OUT : ~ 0 <= i < hsz (zlen h) a -> mrd m' a i = mrd (hmem N l h) a i).
    { intros Q. apply Fr. destruct (image same (hsz (zlen h)) a i) eqn:Ei; [|reflexivity]. apply image_true in Ei as (j & Hj & <-). contradiction. }
    assert (ML : forall B (f : Z * F -> B) g, zlen (map f g) = zlen g) by (intros; apply zlen_map).
    destruct a; try (rewrite OUT by (simpl; lia); reflexivity).
    + destruct (Z_le_dec 0 i) as [Q|Q]; [destruct (Z_lt_dec i (zlen h)) as [Q2|Q2]|].
      * etransitivity; [apply (V AHeapId i); simpl; rewrite zlen_map; lia|reflexivity].
      * rewrite OUT by (simpl; lia). unfold mrd. simpl. rewrite !(proj2 (znth_none _ _)) by (rewrite zlen_map; lia). reflexivity.
      * rewrite OUT by (simpl; lia). unfold mrd. simpl. rewrite !(proj2 (znth_none _ _)) by (rewrite zlen_map; lia). reflexivity.
    + destruct (Z_le_dec 0 i) as [Q|Q]; [destruct (Z_lt_dec i (zlen h)) as [Q2|Q2]|].
      * etransitivity; [apply (V AHeapPq i); simpl; rewrite zlen_map; lia|reflexivity].
      * rewrite OUT by (simpl; lia). unfold mrd. simpl. rewrite !(proj2 (znth_none _ _)) by (rewrite zlen_map; lia). reflexivity.
      * rewrite OUT by (simpl; lia). unfold mrd. simpl. rewrite !(proj2 (znth_none _ _)) by (rewrite zlen_map; lia). reflexivity.
Qed.

Variable dev : bool.
Variable pts : Z -> option (point N).
Variable n : Z.
Hypothesis Hpts : forall p, 0 <= p < n -> exists pp, pts p = Some pp.

Definition hok (k : Z) (h : list (Z * F)) : Prop := zlen h = k /\ Forall (fun x => 0 <= fst x < n) h.

Lemma hok_perm k h h' : Permutation h' h -> hok k h -> hok k h'.
Proof.
  intros P (L & H). split; [unfold zlen in *; rewrite (Permutation_length P); assumption|].
  rewrite Forall_forall in *. intros x Hx. apply H. eapply Permutation_in; eauto.
Qed.
Lemma hok_upd k h x : 0 <= fst x < n -> hok k h -> hok k (zupd h 0 x).
Proof.
  intros Hx (L & H). split; [rewrite zlen_zupd; assumption|]. destruct h as [|y h]; [constructor|]. inversion H; subst. constructor; assumption.
Qed.

Lemma visit_safe l k index q p h : 0 < k -> 0 <= p < n -> hok k h ->
  exists h', run (knn_visit N ad pts dev k index q p) (hmem N l h) = Ok (tt, hmem N l h') /\ hok k h'.
Proof.
  intros Hk Hp Ho. assert (L := proj1 Ho). unfold knn_visit. destruct (p =? index); [exists h; auto|].
  destruct (Hpts p Hp) as [pp ->]. cbn [pure_opt bind]. set (pq := get_distance N pp q).
  destruct (znth_in_range h 0 ltac:(lia)) as [x0 E0].
  assert (RI : mrd (hmem N l h) AHeapId 0 = Some (fst x0)) by now apply hmem_id.
  assert (RP : mrd (hmem N l h) AHeapPq 0 = Some (snd x0)) by now apply hmem_pq.
  assert (W : forall i v, mwr (mwr (hmem N l h) AHeapId 0 i) AHeapPq 0 v = hmem N l (zupd h 0 (i, v))).
  { intros i v. unfold mwr, hmem. simpl.
    replace (zupd (map fst h) 0 i) with (map fst (zupd h 0 (i, v))) by (destruct h; reflexivity).
    replace (zupd (map snd h) 0 v) with (map snd (zupd h 0 (i, v))) by (destruct h; reflexivity). reflexivity. }
  assert (X0 : 0 <= fst x0 < n).
  { destruct Ho as (_ & H). rewrite Forall_forall in H. apply H. eapply znth_in; eauto. }
  cbn [rd bind]. rewrite (run_Rd _ _ _ _ _ RP). cbn zeta. set (c := flt N pq (snd x0)).
  destruct dev.
  - cbn [rd wr bind]. rewrite (run_Rd _ _ _ _ _ RI), (run_Wr _ _ _ _ _ _ RI).
    assert (RP' : mrd (mwr (hmem N l h) AHeapId 0 (b2z (negb c) * fst x0 + b2z c * p)) AHeapPq 0 = Some (snd x0)).
    { rewrite mrd_mwr_other by (left; discriminate). assumption. }
    rewrite (run_Rd _ _ _ _ _ RP'), (run_Wr _ _ _ _ _ _ RP'), W.
    set (h1 := zupd h 0 _). assert (H1 : hok k h1).
    { apply hok_upd; [|assumption]. simpl. destruct c; unfold b2z; simpl; lia. }
    assert (S : b2z c * k <= k) by (destruct c; unfold b2z; lia).
    eexists. split; [apply (run_mh N l); destruct H1; lia|]. eapply hok_perm; [apply perm_mh|assumption].
  - destruct c; [|exists h; auto]. cbn [rd wr bind].
    rewrite (run_Wr _ _ _ _ _ _ RI).
    assert (RP' : mrd (mwr (hmem N l h) AHeapId 0 p) AHeapPq 0 = Some (snd x0)) by (rewrite mrd_mwr_other by (left; discriminate); assumption).
    rewrite (run_Wr _ _ _ _ _ _ RP'), W.
    set (h1 := zupd h 0 _). assert (H1 : hok k h1) by (apply hok_upd; assumption).
    eexists. split; [apply (run_mh N l); destruct H1; lia|]. eapply hok_perm; [apply perm_mh|assumption].
Qed.

Lemma forM_safe {X} (f : X -> prog F unit) l k : forall xs h,
  (forall x h, In x xs -> hok k h -> exists h', run (f x) (hmem N l h) = Ok (tt, hmem N l h') /\ hok k h') -> hok k h ->
  exists h', run (forM xs f) (hmem N l h) = Ok (tt, hmem N l h') /\ hok k h'.
Proof.
  induction xs as [|x xs IH]; intros h Hf Ho; [exists h; auto|].
  destruct (Hf x h (or_introl eq_refl) Ho) as (h1 & E1 & H1).
  destruct (IH h1) as (h2 & E2 & H2); auto.
  { intros y hh Hy. apply Hf. now right. }
  exists h2. cbn [forM]. rewrite (run_bind_ok _ _ _ _ _ E1). auto.
Qed.

(** what the kernel needs of the grid *)
Definition grid_ok (gr : Z) (ids offs : list Z) : Prop :=
  0 < gr /\
  (forall p, 0 <= p < n -> exists c, znth ids p = Some c /\ 0 <= c < gr * gr * gr) /\
  (forall c, 0 <= c < gr * gr * gr -> exists a b, znth offs c = Some a /\ znth offs (c + 1) = Some b /\ 0 <= a /\ b <= n).

Lemma id_decode gr c : 0 < gr -> 0 <= c < gr * gr * gr ->
  cell_ok gr (Z.rem c gr, Z.rem (Z.quot c gr) gr, Z.quot c (gr * gr)).
Proof.
  intros Hg Hc. assert (0 < gr * gr) by nia.
  rewrite (Z.quot_div_nonneg c gr) by lia. rewrite (Z.quot_div_nonneg c (gr * gr)) by lia.
  assert (0 <= c / gr) by (apply Z.div_pos; lia).
  rewrite !Z.rem_mod_nonneg by lia. simpl.
  pose proof (Z.mod_pos_bound c gr Hg). pose proof (Z.mod_pos_bound (c / gr) gr Hg).
  split; [assumption|]. split; [assumption|]. split; [apply Z.div_pos; lia|]. apply Z.div_lt_upper_bound; lia.
Qed.

Lemma knn_safe l wp refs k gr gr_arg ids offs index h : 0 < k -> grid_ok gr ids offs -> 0 <= index < n ->
  (exists q, refs index = Some q) -> (forall c, 0 <= c < gr -> wp c = c) -> hok k h ->
  exists h', run (knn_compute N ad pts dev wp refs k gr gr_arg ids offs index) (hmem N l h) = Ok (tt, hmem N l h') /\ hok k h'.
Proof.
  intros Hk (Hg & Hids & Hoffs) Hi [q Hq] Hwp Ho. unfold knn_compute. rewrite Hq. cbn [pure_opt bind].
  destruct (Hids index Hi) as (c & -> & Hc). cbn [pure_opt bind]. replace (gr =? 0) with false by lia. cbn [bind].
  pose proof (id_decode gr c Hg Hc) as OK. assert (OK0 := OK). destruct OK0 as (O1 & O2 & O3). rewrite !Hwp by assumption.
  set (px := Z.rem c gr) in *. set (py := Z.rem (Z.quot c gr) gr) in *. set (pz := Z.quot c (gr * gr)) in *.
  assert (SH : forall rs h, (forall r, In r rs -> 0 <= r) -> hok k h -> exists h',
    run (knn_shells N ad pts dev rs k gr (fdiv N (fofZ N 1) (fofZ N gr_arg)) (face_min N dev (fdiv N (fofZ N 1) (fofZ N gr_arg)) q) offs index q px py pz) (hmem N l h) = Ok (tt, hmem N l h') /\ hok k h').
  { induction rs as [|r rs IH]; intros h0 Hr H0; [exists h0; auto|]. cbn [knn_shells].
    destruct (forM_safe (knn_cell N ad pts dev k gr offs index q) l k (shell_cells gr px py pz r) h0) as (h1 & E1 & H1); auto.
    { intros cc hh Hin Hh. apply in_shell in Hin as (Ok & _); [|apply Hr; now left|assumption].
      pose proof (cidx_range gr cc Ok) as Rg. destruct cc as [[x y] z]. unfold knn_cell. change (gr * gr * z + gr * y + x) with (cidx gr (x, y, z)).
      destruct (Hoffs _ Rg) as (a & b & -> & -> & A & B). cbn [pure_opt bind].
      apply forM_safe; [|assumption]. intros p hp Hp Hhp. apply in_zrange in Hp. apply visit_safe; auto. lia. }
    rewrite (run_bind_ok _ _ _ _ _ E1). destruct (znth_in_range h1 0) as [x0 E0]; [destruct H1; lia|].
    erewrite run_bind_ok by (apply run_rd, hmem_pq; exact E0). destruct (flt N _ _); [exists h1; auto|].
    apply IH; [|assumption]. intros; apply Hr; now right. }
  destruct (SH (zrange 0 gr) h) as (h1 & E1 & H1); auto.
  { intros r Hr. apply in_zrange in Hr. lia. }
  rewrite (run_bind_ok _ _ _ _ _ E1). destruct (heap_sort_run N l h1) as (h2 & E2 & P2).
  destruct H1 as [L1 H1]. rewrite L1 in E2. exists h2. split; [exact E2|]. eapply hok_perm; [exact P2|]. split; assumption.
Qed.
End S.
