(** The k-NN kernel on the host for any arithmetic whose comparison is a weak order
    on the distances that occur: k different points, or all of them and then padding. *)
From Verif Require Import Base Arith PBase Prog PProg MUtils MHeap MXyz MKnn SpecSort SpecHeap PSort PXyz PHeap PReloc PHeapFinal PSortFinal PKnnSel PKnn PCell PKnnSafe PKnnFinal PSlotHost.
From Coq Require Import Permutation.
From Verif Require Export SpecAny.
Local Open Scope prog_scope.

Lemma in_somesA p ks : In p (somes ks) <-> In (Some p) ks.
Proof.
  unfold somes. rewrite in_flat_map. split.
  - intros ([v|] & H & Hin); simpl in Hin; [|tauto]. destruct Hin as [<-|[]]. assumption.
  - intros H. exists (Some p). simpl. auto.
Qed.

Section Sel.
Variable N : Arith.
Notation F := (F N).
Variable S : F -> Prop.
Hypothesis WO : weak_order N S.
Hypothesis Sinf : S (finf N).
Hypothesis Tinf : forall x, flt N (finf N) x = false.
Variable D : Z -> F.

Definition okd (p : Z) : Prop := S (D p) /\ flt N (D p) (finf N) = true.
Definition relA (o : option Z) (x : Z * F) : Prop :=
  match o with
  | Some p => x = (p, D p) /\ okd p
  | None => x = (0, finf N)
  end.
Definition rk (o : option Z) : F := match o with Some p => D p | None => finf N end.
Lemma rel_rk o x : relA o x -> snd x = rk o /\ S (rk o).
Proof. destruct o; simpl; [intros (-> & A & _); auto|intros ->; auto]. Qed.
Lemma relA_good ks h : Forall2 relA ks h -> PHeap.good N S h.
Proof. intros H. unfold PHeap.good. induction H as [|o x ks h Ho H IH]; constructor; auto. destruct (rel_rk _ _ Ho) as [-> Q]. exact Q. Qed.
Lemma rel_S ks h o : Forall2 relA ks h -> In o ks -> S (rk o).
Proof. induction 1 as [|u x ks h Hu H IH]; [intros []|]. intros [<-|I]; [now apply rel_rk in Hu|auto]. Qed.

(** o is not after o' *)
Definition nle (o o' : option Z) : Prop := flt N (rk o') (rk o) = false.
Definition hp (k : Z) (h : list (Z * F)) : Prop := forall j, 0 <= j -> ordered_at N k h j.
Definition sel (k : Z) (V : list Z) (ks : list (option Z)) : Prop :=
  exists rest, Permutation (ks ++ rest) (repeat None (Z.to_nat k) ++ map Some V) /\ forall o o', In o ks -> In o' rest -> nle o o'.
Definition InvA (k : Z) (V : list Z) (h : list (Z * F)) : Prop :=
  zlen h = k /\ hp k h /\ (forall p, In p V -> okd p) /\ exists ks, Forall2 relA ks h /\ sel k V ks.

Lemma root_rk k h ks o0 : zlen h = k -> hp k h -> Forall2 relA ks h -> znth ks 0 = Some o0 -> forall o, In o ks -> nle o o0.
Proof.
  intros L Hp H H0 o Ho. apply in_znth in Ho as (j & Hj & Ej).
  destruct (proj1 (Forall2_znth _ _ _ 0 H) _ H0) as (x0 & E0 & R0). destruct (proj1 (Forall2_znth _ _ _ j H) _ Ej) as (x & Ex & Rx).
  unfold nle. apply rel_rk in R0 as [<- _]. apply rel_rk in Rx as [<- _].
  apply (root_max N S WO k h (relA_good _ _ H) ltac:(lia) Hp j); [rewrite (Forall2_zlen _ _ _ H) in Hj; lia|unfold pq_at; now rewrite E0|unfold pq_at; now rewrite Ex].
Qed.

(** S of everything that was offered *)
Lemma all_S k V (l : list (option Z)) : (forall p, In p V -> okd p) -> Permutation l (repeat None (Z.to_nat k) ++ map Some V) -> forall o, In o l -> S (rk o).
Proof.
  intros HV P o Ho. apply (Permutation_in _ P) in Ho. apply in_app_or in Ho as [Ho|Ho]; [apply repeat_spec in Ho; now subst|].
  apply in_map_iff in Ho as (p & <- & Hp). simpl. now apply HV.
Qed.

Lemma keepA k V h ks o0 p : 0 < k -> zlen h = k -> hp k h -> (forall p, In p V -> okd p) -> Forall2 relA ks h -> sel k V ks -> okd p ->
  znth ks 0 = Some o0 -> flt N (D p) (rk o0) = false -> InvA k (V ++ [p]) h.
Proof.
  intros Hk L Hp HV H (rest & P & Dm) Op H0 Le. split; [assumption|]. split; [assumption|]. split.
  { intros q Hq. apply in_app_or in Hq as [Hq|[<-|[]]]; auto. }
  exists ks. split; [assumption|]. exists (Some p :: rest). split.
  - rewrite map_app. simpl. eapply perm_trans; [symmetry; apply Permutation_middle|].
    rewrite app_assoc. eapply perm_trans; [apply perm_skip, P|]. apply Permutation_cons_append.
  - intros o o' Ho [<-|Ho']; [|auto]. pose proof (root_rk k h ks o0 L Hp H H0 o Ho) as Q. unfold nle in *.
    apply (wo_trans N S WO _ (rk o0)); auto; [eapply rel_S; eauto|eapply rel_S; eauto; eapply znth_in; eauto|apply Op].
Qed.

Lemma replA k V h ks o0 p : 0 < k -> zlen h = k -> hp k h -> (forall p, In p V -> okd p) -> Forall2 relA ks h -> sel k V ks -> okd p ->
  znth ks 0 = Some o0 -> flt N (D p) (rk o0) = true -> InvA k (V ++ [p]) (mh N (Z.to_nat k) k 0 (zupd h 0 (p, D p))).
Proof.
  intros Hk L Hp HV H (rest & P & Dm) Op H0 Lt. pose proof (root_rk k h ks o0 L Hp H H0) as RM.
  assert (SK : forall o, In o ks -> S (rk o)) by (intros o; eapply rel_S; eauto).
  assert (H1 : Forall2 relA (zupd ks 0 (Some p)) (zupd h 0 (p, D p))) by (apply Forall2_zupd; [assumption|simpl; auto]).
  destruct ks as [|o1 kt]; [discriminate|]. rewrite znth_0 in H0. injection H0 as ->.
  change (zupd (o0 :: kt) 0 (Some p)) with (Some p :: kt) in H1.
  assert (L1 : zlen (zupd h 0 (p, D p)) = k) by now rewrite zlen_zupd.
  split; [now rewrite zlen_mh|]. split; [|split].
  - intros j Hj. refine (mh_down N S WO k 0 (zupd h 0 (p, D p)) (Z.to_nat k) _ _ _ _ _ j Hj); try lia.
    + eapply relA_good; eauto.
    + intros j' Hj'. assert (Hp' := Hp j' ltac:(lia)). unfold ordered_at, above, pq_at in *. rewrite !znth_zupd_other by lia. assumption.
  - intros q Hq. apply in_app_or in Hq as [Hq|[<-|[]]]; auto.
  - destruct (Permutation_Forall2 (Permutation_sym (perm_mh N (Z.to_nat k) k 0 (zupd h 0 (p, D p)))) (Forall2_swap _ _ _ H1)) as (ks' & Pk & Fk).
    exists ks'. split; [now apply Forall2_swap in Fk|]. exists (o0 :: rest). split.
    + eapply perm_trans; [apply Permutation_app_tail; symmetry; exact Pk|]. simpl. rewrite map_app. simpl. rewrite app_assoc.
      eapply perm_trans; [apply perm_skip; symmetry; apply Permutation_middle|]. eapply perm_trans; [apply perm_skip; exact P|]. apply Permutation_cons_append.
    + assert (S0 : S (rk o0)) by (apply SK; now left).
      assert (B : forall o, In o ks' -> nle o o0 /\ S (rk o)).
      { intros o Ho. apply (Permutation_in _ (Permutation_sym Pk)) in Ho as [<-|Ho].
        - split; [|apply Op]. unfold nle. simpl. apply (wo_asym N S WO); auto. apply Op.
        - split; [apply RM; now right|apply SK; now right]. }
      intros o o' Ho [<-|Ho']; [apply B; assumption|]. destruct (B o Ho) as [B1 B2].
      pose proof (Dm o0 o' (or_introl eq_refl) Ho') as B3. unfold nle in *. apply (wo_trans N S WO _ (rk o0)); auto.
      eapply (all_S k V); [exact HV|exact P|]. apply in_or_app. now right.
Qed.

(** ** candidates *)
Variable pts : Z -> option (point N).
Variable q : point N.
Variable index : Z.
Notation ad := (fun j : Z => j).
Definition candA (p : Z) : Prop := exists pp, pts p = Some pp /\ D p = get_distance N pp q /\ okd p.

Lemma visitA l k V h p : 0 < k -> candA p -> p <> index -> InvA k V h ->
  exists h', run (knn_visit N ad pts false k index q p) (hmem N l h) = Ok (tt, hmem N l h') /\ InvA k (V ++ [p]) h'.
Proof.
  intros Hk (pp & Ep & Dp & Op) Np (L & Hp & HV & ks & H & Sel).
  destruct (znth_in_range h 0 ltac:(lia)) as [x0 E0]. destruct (proj2 (Forall2_znth _ _ _ 0 H) _ E0) as (o0 & Eo & R0).
  unfold knn_visit. replace (p =? index) with false by lia. rewrite Ep. cbn [pure_opt bind]. rewrite <- Dp.
  assert (RI : mrd (hmem N l h) AHeapId 0 = Some (fst x0)) by now apply hmem_id.
  assert (RP : mrd (hmem N l h) AHeapPq 0 = Some (snd x0)) by now apply hmem_pq.
  assert (W : forall i v, mwr (mwr (hmem N l h) AHeapId 0 i) AHeapPq 0 v = hmem N l (zupd h 0 (i, v))).
  { intros i v. unfold mwr, hmem. simpl.
    replace (zupd (map fst h) 0 i) with (map fst (zupd h 0 (i, v))) by (destruct h; reflexivity).
    replace (zupd (map snd h) 0 v) with (map snd (zupd h 0 (i, v))) by (destruct h; reflexivity). reflexivity. }
  cbn [rd bind]. rewrite (run_Rd _ _ _ _ _ RP). cbn zeta. destruct (rel_rk _ _ R0) as [Ex _].
  destruct (flt N (D p) (snd x0)) eqn:C; rewrite Ex in C.
  - cbn [wr bind]. rewrite (run_Wr _ _ _ _ _ _ RI).
    assert (RP' : mrd (mwr (hmem N l h) AHeapId 0 p) AHeapPq 0 = Some (snd x0)) by (rewrite mrd_mwr_other by (left; discriminate); assumption).
    rewrite (run_Wr _ _ _ _ _ _ RP'), W. eexists. split; [apply run_mh; rewrite ?zlen_zupd; lia|]. eapply replA; eauto.
  - exists h. split; [reflexivity|]. eapply keepA; eauto.
Qed.

Lemma visitsA l k : 0 < k -> forall ps V h, (forall p, In p ps -> p <> index -> candA p) -> InvA k V h ->
  exists h', run (forM ps (knn_visit N ad pts false k index q)) (hmem N l h) = Ok (tt, hmem N l h') /\
    InvA k (V ++ filter (fun p => negb (p =? index)) ps) h'.
Proof.
  intros Hk. induction ps as [|p ps IH]; intros V h Hc HI.
  - exists h. rewrite app_nil_r. auto.
  - cbn [forM filter]. destruct (Z.eqb_spec p index) as [->|Np]; simpl negb; cbn iota.
    + unfold knn_visit at 1. rewrite Z.eqb_refl. cbn [bind]. apply IH; auto. intros; apply Hc; auto; now right.
    + destruct (visitA l k V h p Hk (Hc p (or_introl eq_refl) Np) Np HI) as (h1 & R1 & I1).
      destruct (IH (V ++ [p]) h1) as (h2 & R2 & I2); [intros; apply Hc; auto; now right|assumption|].
      exists h2. rewrite run_bind, R1. split; [exact R2|]. now rewrite <- app_assoc in I2.
Qed.

(** ** the grid *)
Variables (n gr : Z) (ids offset : list Z).
Hypothesis Hcand : forall p, 0 <= p < n -> p <> index -> candA p.
Hypothesis Hids : forall p, 0 <= p < n -> exists c, znth ids p = Some c /\ 0 <= c < gr * gr * gr.
Hypothesis Hg : 0 < gr.
Hypothesis Hoff : forall c, 0 <= c < gr * gr * gr -> exists a b,
  znth offset c = Some a /\ znth offset (c + 1) = Some b /\ 0 <= a <= b /\ b <= n /\
  forall p, 0 <= p < n -> (a <= p < b <-> znth ids p = Some c).

Definition decode (c : Z) : Z * Z * Z := (Z.rem c gr, Z.rem (Z.quot c gr) gr, Z.quot c (gr * gr)).
Definition pcA (p : Z) : Z * Z * Z := match znth ids p with Some c => decode c | None => (0, 0, 0) end.
Lemma decode_cidx c : 0 <= c < gr * gr * gr -> cidx gr (decode c) = c.
Proof.
  intros Hc. assert (0 < gr * gr) by nia. unfold decode, cidx.
  rewrite (Z.quot_div_nonneg c gr) by lia. rewrite (Z.quot_div_nonneg c (gr * gr)) by lia.
  assert (0 <= c / gr) by (apply Z.div_pos; lia). rewrite !Z.rem_mod_nonneg by lia.
  rewrite <- (Z.div_div c gr gr) by lia. pose proof (Z.div_mod c gr ltac:(lia)) as A. pose proof (Z.div_mod (c / gr) gr ltac:(lia)) as B.
  set (u := c / gr) in *. set (v := u / gr) in *. set (r1 := c mod gr) in *. set (r2 := u mod gr) in *. rewrite A, B. ring.
Qed.
Lemma pcA_ok p : 0 <= p < n -> cell_ok gr (pcA p).
Proof. intros Hp. unfold pcA. destruct (Hids p Hp) as (c & -> & Hc). apply id_decode; assumption. Qed.

Definition posA (c : Z * Z * Z) : list Z :=
  match znth offset (cidx gr c), znth offset (cidx gr c + 1) with Some a, Some b => zrange a b | _, _ => [] end.
Definition cellA (c : Z * Z * Z) : list Z := filter (fun p => negb (p =? index)) (posA c).

Lemma in_posA c p : cell_ok gr c -> In p (posA c) <-> 0 <= p < n /\ pcA p = c.
Proof.
  intros Hc. pose proof (cidx_range gr c Hc) as Rc. destruct (Hoff _ Rc) as (a & b & Ea & Eb & Hab & Hb & H).
  unfold posA. rewrite Ea, Eb, in_zrange. split.
  - intros Hp. assert (Hp' : 0 <= p < n) by lia. split; [assumption|]. apply (H p Hp') in Hp. unfold pcA. rewrite Hp.
    apply (cidx_inj gr); [apply id_decode; assumption|assumption|]. apply decode_cidx. assumption.
  - intros (Hp & Hpc). apply (H p Hp). unfold pcA in Hpc. destruct (Hids p Hp) as (c' & E & R). rewrite E in *. rewrite <- Hpc, decode_cidx by assumption. reflexivity.
Qed.
Lemma NoDup_posA c : NoDup (posA c).
Proof. unfold posA. destruct (znth offset _); [|constructor]. destruct (znth offset _); [|constructor]. apply NoDup_zrange. Qed.

Lemma cellsA l k : 0 < k -> forall cs V h, (forall c, In c cs -> cell_ok gr c) -> InvA k V h ->
  exists h', run (forM cs (knn_cell N ad pts false k gr offset index q)) (hmem N l h) = Ok (tt, hmem N l h') /\ InvA k (V ++ flat_map cellA cs) h'.
Proof.
  intros Hk. induction cs as [|c cs IH]; intros V h Hc HI.
  - exists h. simpl. rewrite app_nil_r. auto.
  - assert (Oc : cell_ok gr c) by (apply Hc; now left).
    destruct (visitsA l k Hk (posA c) V h) as (h1 & R1 & I1); auto.
    { intros p Hp. apply Hcand. now apply (in_posA c p Oc) in Hp. }
    destruct (IH (V ++ cellA c) h1) as (h2 & R2 & I2); auto. { intros; apply Hc; now right. }
    exists h2. cbn [forM flat_map]. rewrite app_assoc. split; [|exact I2]. rewrite run_bind.
    assert (R0 : run (knn_cell N ad pts false k gr offset index q c) (hmem N l h) = Ok (tt, hmem N l h1)).
    { pose proof (cidx_range gr c Oc) as Rc. destruct (Hoff _ Rc) as (a & b & Ea & Eb & _).
      unfold posA in R1. destruct c as [[x y] z]. unfold knn_cell. unfold cidx in *. rewrite Ea, Eb in *. cbn [pure_opt bind]. exact R1. }
    rewrite R0. exact R2.
Qed.

Variables px py pz : Z.
Hypothesis Hpx : cell_ok gr (px, py, pz).

Definition seenA (r : Z) (V : list Z) : Prop := NoDup V /\ forall p, In p V <-> 0 <= p < n /\ p <> index /\ cheb px py pz (pcA p) < r.
Lemma seenA_step r V : 0 <= r -> seenA r V -> seenA (r + 1) (V ++ flat_map cellA (shell_cells gr px py pz r)).
Proof.
  intros Hr (ND & HV).
  assert (HW : forall p, In p (flat_map cellA (shell_cells gr px py pz r)) <-> 0 <= p < n /\ p <> index /\ cheb px py pz (pcA p) = r).
  { intros p. rewrite in_flat_map. split.
    - intros (c & Hc & Hp). apply (in_shell gr _ _ _ r c Hr Hpx) in Hc as [Oc Hch].
      apply filter_In in Hp as [Hp Hn]. apply (in_posA c p Oc) in Hp as [Hp <-]. apply negb_true_iff, Z.eqb_neq in Hn. auto.
    - intros (Hp & Hn & Hch). exists (pcA p). split; [apply (in_shell gr _ _ _ r _ Hr Hpx); split; [now apply pcA_ok|assumption]|].
      apply filter_In. split; [apply in_posA; [now apply pcA_ok|auto]|]. now apply negb_true_iff, Z.eqb_neq. }
  split.
  - assert (NDW : NoDup (flat_map cellA (shell_cells gr px py pz r))).
    { apply NoDup_flat_map; [apply NoDup_shell| |].
      - intros c _. apply NoDup_filter, NoDup_posA.
      - intros c c' p Hc Hc' Hp Hp'. apply (in_shell gr _ _ _ r _ Hr Hpx) in Hc as [Oc _]. apply (in_shell gr _ _ _ r _ Hr Hpx) in Hc' as [Oc' _].
        apply filter_In in Hp as [Hp _]. apply filter_In in Hp' as [Hp' _].
        apply (in_posA c p Oc) in Hp as [_ <-]. apply (in_posA c' p Oc') in Hp' as [_ <-]. reflexivity. }
    revert ND HV NDW HW. generalize (flat_map cellA (shell_cells gr px py pz r)) as W. intros W ND HV NDW HW.
    assert (Dj : forall p, In p V -> ~ In p W) by (intros p Hp Hw; apply HV in Hp; apply HW in Hw; lia).
    clear HV HW. induction V as [|v V IH]; simpl; [assumption|]. inversion_clear ND. constructor.
    + intros K. apply in_app_or in K as [K|K]; [contradiction|]. apply (Dj v); [now left|assumption].
    + apply IH; auto. intros p Hp. apply Dj. now right.
  - intros p. rewrite in_app_iff, HV, HW. lia.
Qed.

(** why a point was not offered: its cell is beyond shell r, and everything kept
    compares below the bound of shell r *)
Definition beyond (thr : Z -> F) (kept : Z -> Prop) (p : Z) : Prop :=
  exists r x0, 0 <= r < gr /\ r < cheb px py pz (pcA p) /\ S x0 /\ flt N x0 (thr r) = true /\ forall p', kept p' -> flt N x0 (D p') = false.
(** the points offered: all of them unless the heap has no padding left *)
Definition foundA (thr : Z -> F) (k : Z) (h : list (Z * F)) : Prop :=
  zlen h = k /\ exists V ks, NoDup V /\ (forall p, In p V -> 0 <= p < n /\ p <> index) /\ (forall p, In p V -> okd p) /\
    Forall2 relA ks h /\ sel k V ks /\ (In None ks -> forall p, 0 <= p < n -> p <> index -> In p V) /\
    (forall p, 0 <= p < n -> p <> index -> In p V \/ beyond thr (fun p' => In (Some p') ks) p).

Lemma shellsA l k gl mn : 0 < k -> forall m r V h, Z.of_nat m = gr - r -> 0 <= r -> seenA r V -> InvA k V h ->
  exists h', run (knn_shells N ad pts false (zrange r gr) k gr gl mn offset index q px py pz) (hmem N l h) = Ok (tt, hmem N l h') /\ foundA (fun r => square N (fadd N (fmul N gl (fofZ N r)) mn)) k h'.
Proof.
  intros Hk. induction m as [|m IH]; intros r V h Hm Hr HS HI.
  - rewrite zrange_nil by lia. exists h. split; [reflexivity|]. destruct HI as (L & Hp & HV' & ks & H & Sel). split; [assumption|]. exists V, ks. destruct HS as (ND & HV).
    split; [assumption|]. split; [intros p Hp1; apply HV in Hp1; tauto|]. split; [assumption|]. split; [assumption|]. split; [assumption|].
    assert (A : forall p, 0 <= p < n -> p <> index -> In p V).
    { intros p Hp1 Hp2. apply HV. split; [assumption|]. split; [assumption|]. pose proof (pcA_ok p Hp1). pose proof Hpx. destruct (pcA p) as [[x y] z]. simpl in *. lia. }
    split; [intros _; exact A|]. intros p Hp1 Hp2. left. now apply A.
  - rewrite zrange_cons by lia. cbn [knn_shells].
    destruct (cellsA l k Hk (shell_cells gr px py pz r) V h) as (h1 & R1 & I1); auto.
    { intros c Hc. apply (in_shell gr _ _ _ r c Hr Hpx) in Hc. tauto. }
    rewrite run_bind, R1. pose proof (seenA_step r V Hr HS) as HS1. pose proof I1 as (L1 & Hp1 & HV1 & ks & H1 & Sel1).
    destruct (znth_in_range h1 0 ltac:(lia)) as [x0 E0]. cbn [rd bind]. rewrite (run_Rd _ _ _ _ _ (hmem_pq N l h1 0 x0 E0)).
    destruct (flt N (snd x0) _) eqn:C.
    + exists h1. split; [reflexivity|]. split; [assumption|]. exists (V ++ flat_map cellA (shell_cells gr px py pz r)), ks. destruct HS1 as (ND & HV).
      split; [assumption|]. split; [intros p Hp2; apply HV in Hp2; tauto|]. split; [assumption|]. split; [assumption|]. split; [assumption|].
      destruct (proj2 (Forall2_znth _ _ _ 0 H1) _ E0) as (o0 & Eo & R0).
      split.
      2:{ intros p Hp2 Hp3. destruct (Z_lt_le_dec (cheb px py pz (pcA p)) (r + 1)) as [Q|Q]; [left; apply HV; auto|]. right.
          exists r, (snd x0). split; [lia|]. split; [lia|]. destruct (rel_rk _ _ R0) as [Ex Sx]. split; [rewrite Ex; exact Sx|]. split; [exact C|].
          intros p' Hp'. rewrite Ex. exact (root_rk k h1 ks o0 L1 Hp1 H1 Eo (Some p') Hp'). }
      intros HN. exfalso.
      pose proof (root_rk k h1 ks o0 L1 Hp1 H1 Eo None HN) as Q. unfold nle in Q. destruct (rel_rk _ _ R0) as [Ex _].
      destruct o0 as [p0|]; [simpl in R0, Q; destruct R0 as (_ & _ & R0); congruence|]. rewrite Ex in C. simpl in C. rewrite Tinf in C. discriminate.
    + apply (IH (r + 1) (V ++ flat_map cellA (shell_cells gr px py pz r)) h1); auto; lia.
Qed.

Lemma split_padsA ks : (forall p, In (Some p) ks -> okd p) ->
  (forall i j a b, 0 <= i < j -> znth ks i = Some a -> znth ks j = Some b -> nle a b) ->
  exists m, ks = map Some (somes ks) ++ repeat None m.
Proof.
  induction ks as [|o ks IH]; intros HB HS.
  - exists 0%nat. reflexivity.
  - assert (HS' : forall i j a b, 0 <= i < j -> znth ks i = Some a -> znth ks j = Some b -> nle a b).
    { intros i j a b Hij Ha Hb. apply (HS (i + 1) (j + 1)); [lia| |]; rewrite znth_cons by lia;
        [now replace (i + 1 - 1) with i by lia|now replace (j + 1 - 1) with j by lia]. }
    destruct IH as [m Em]; auto. { intros; apply HB; now right. }
    destruct o as [p|].
    + exists m. simpl. now rewrite Em at 1.
    + assert (somes ks = []) as E0.
      { destruct (somes ks) as [|p s] eqn:Es; [reflexivity|]. exfalso.
        assert (H : In (Some p) ks) by (apply in_somesA; rewrite Es; now left).
        pose proof (HB p (or_intror H)) as (_ & B). apply in_znth in H as (j & Hj & Ej).
        assert (nle None (Some p)); [|unfold nle in *; simpl in *; congruence].
        apply (HS 0 (j + 1)); [lia|reflexivity|]. rewrite znth_cons by lia. now replace (j + 1 - 1) with j by lia. }
      rewrite E0 in Em. simpl in *. exists (Datatypes.S m). rewrite E0. simpl. now rewrite Em at 1.
Qed.

Lemma initA k : 0 <= k -> InvA k [] (repeat (0, finf N) (Z.to_nat k)).
Proof.
  intros Hk. assert (FR : Forall2 relA (repeat None (Z.to_nat k)) (repeat (0, finf N) (Z.to_nat k))).
  { generalize (Z.to_nat k). induction n0; simpl; constructor; auto. reflexivity. }
  split; [rewrite zlen_repeat; lia|]. split; [|split].
  - intros j Hj. assert (forall c, above N k (repeat (0, finf N) (Z.to_nat k)) j c); [|split; auto].
    intros c x y _ Hx Hy. unfold pq_at in *. destruct (znth _ j) as [u|] eqn:Eu in Hx; [|discriminate]. destruct (znth _ c) as [v|] eqn:Ev in Hy; [|discriminate].
    apply znth_in, repeat_spec in Eu. apply znth_in, repeat_spec in Ev. subst u v. injection Hx as <-. apply Tinf.
  - intros p [].
  - exists (repeat None (Z.to_nat k)). split; [assumption|]. exists []. rewrite !app_nil_r. split; [apply Permutation_refl|]. intros o o' _ [].
Qed.

(** the sorted row *)
Lemma rowA k V h ks : 0 <= k -> NoDup V -> (forall p, In p V -> okd p) -> Forall2 relA ks h -> sel k V ks -> zlen h = k -> ascending N h ->
  exists row m, map fst h = row ++ repeat 0 m /\ NoDup row /\ (forall p, In p row -> In p V) /\
    (forall i j p p', 0 <= i <= j -> znth row i = Some p -> znth row j = Some p' -> flt N (D p') (D p) = false) /\
    (m <> 0%nat -> In None ks /\ forall p, In p V -> In p row) /\
    (forall p, In p row -> In (Some p) ks) /\ (forall p p', In p row -> In p' V -> ~ In p' row -> flt N (D p') (D p) = false).
Proof.
  intros Hk ND HV H (rest & P & Dm) L A.
  assert (HB : forall p, In (Some p) ks -> okd p).
  { intros p Ho. apply in_znth in Ho as (j & Hj & Ej). destruct (proj1 (Forall2_znth _ _ _ j H) _ Ej) as (x & Ex & Rx). apply Rx. }
  assert (HS : forall i j a b, 0 <= i < j -> znth ks i = Some a -> znth ks j = Some b -> nle a b).
  { intros i j a b Hij Ha Hb. destruct (proj1 (Forall2_znth _ _ _ i H) _ Ha) as (x & Ex & Rx). destruct (proj1 (Forall2_znth _ _ _ j H) _ Hb) as (y & Ey & Ry).
    unfold nle. apply rel_rk in Rx as [<- _]. apply rel_rk in Ry as [<- _]. apply (A i j); auto; unfold pq_at; [now rewrite Ex|now rewrite Ey]. }
  destruct (split_padsA ks HB HS) as [m Em]. set (row := somes ks) in *. exists row, m.
  assert (P2 : Permutation (row ++ somes rest) V).
  { apply somes_perm in P. rewrite !somes_app, somes_repeat, somes_map in P. exact P. }
  assert (NDa : NoDup (row ++ somes rest)) by (eapply Permutation_NoDup; [symmetry; exact P2|assumption]).
  split.
  { assert (MF : map fst h = map (fun o => match o with Some p => p | None => 0 end) ks).
    { clear - H. induction H as [|o x ks h Ho H IH]; [reflexivity|]. simpl. f_equal; [|assumption]. destruct o; simpl in Ho; [destruct Ho as (-> & _)|subst x]; reflexivity. }
    rewrite MF, Em, map_app, map_map, map_id. f_equal. clear. induction m; simpl; congruence. }
  split; [now apply NoDup_app_l in NDa|]. split.
  { intros p Hp. eapply Permutation_in; [exact P2|]. apply in_or_app. now left. }
  split.
  { intros i j p p' Hij Ei Ej. destruct (Z.eq_dec i j) as [->|Nij].
    - rewrite Ei in Ej. injection Ej as <-. apply (wo_irr N S WO). apply HB. apply in_somesA. eapply znth_in; eauto.
    - apply (HS i j (Some p) (Some p')); [lia| |]; rewrite Em; pose proof (znth_some _ _ _ Ei); pose proof (znth_some _ _ _ Ej);
        rewrite znth_app1, znth_map by (rewrite zlen_map; lia); [now rewrite Ei|now rewrite Ej]. }
  split.
  2:{ split; [intros p Hp; now apply in_somesA|]. intros p p' Hp Hp' Hn. apply (Permutation_in _ (Permutation_sym P2)) in Hp'. apply in_app_or in Hp' as [Hp'|Hp']; [contradiction|].
      exact (Dm (Some p) (Some p') (proj1 (in_somesA _ _) Hp) (proj1 (in_somesA _ _) Hp')). }
  intros Hm. assert (HN : In None ks) by (rewrite Em; apply in_or_app; right; destruct m; [lia|now left]). split; [assumption|].
  intros p Hp. apply (Permutation_in _ (Permutation_sym P2)) in Hp. apply in_app_or in Hp as [Hp|Hp]; [assumption|]. exfalso.
  assert (Hr : In (Some p) rest) by (now apply in_somesA).
  pose proof (Dm None (Some p) HN Hr) as Q. unfold nle in Q. simpl in Q. assert (okd p) as [_ B]; [|congruence].
  apply HV. eapply Permutation_in; [exact P2|]. apply in_or_app. now right.
Qed.
End Sel.

(** computed squared distance between points of a list *)
Definition fdist (N : Arith) (P : list (point N)) (index p : Z) : F N :=
  match znth P p, znth P index with Some a, Some b => get_distance N a b | _, _ => finf N end.

(** the bound of shell r around point q *)
Definition shell_bound (N : Arith) (gr : Z) (q : point N) (r : Z) : F N :=
  square N (fadd N (fmul N (grid_len N gr) (fofZ N r)) (face_min N false (grid_len N gr) q)).
(** the cells of points p and index are more than r apart *)
Definition apart (gr : Z) (ids : list Z) (index p r : Z) : Prop :=
  exists c c', znth ids index = Some c /\ znth ids p = Some c' /\ let '(px, py, pz) := decode gr c in r < cheb px py pz (decode gr c').

Lemma knn_exit N S l gr P0 P ids offset k index : 0 < gr -> in_range_ids N gr P0 -> xyz_sort N gr P0 = Ok (P, ids, offset) -> ordered_dists N S P ->
  0 < k -> 0 <= index < zlen P ->
  exists h row, run (knn_compute N (fun j => j) (znth P) false (fun x => x) (znth P) k gr gr ids offset index) (hmem N l (repeat (0, finf N) (Z.to_nat k))) = Ok (tt, hmem N l h) /\
    zlen h = k /\ zlen row = Z.min k (zlen P - 1) /\ map fst h = row ++ repeat 0 (Z.to_nat (k - zlen row)) /\
    NoDup row /\ (forall p, In p row -> 0 <= p < zlen P /\ p <> index) /\
    (forall i j p p', 0 <= i <= j -> znth row i = Some p -> znth row j = Some p' -> flt N (fdist N P index p') (fdist N P index p) = false) /\
    (forall p p' q, znth P index = Some q -> In p row -> 0 <= p' < zlen P -> p' <> index -> ~ In p' row -> flt N (fdist N P index p') (fdist N P index p) = false \/
      exists r x, 0 <= r < gr /\ apart gr ids index p' r /\ S x /\ flt N x (fdist N P index p) = false /\ flt N x (shell_bound N gr q r) = true).
Proof.
  intros Hg Hr HS (WO & Si & Ti & Hd) Hk Hi. destruct (sort_grid_ok N gr P0 P ids offset Hg Hr HS) as (PP & _ & Hids & _).
  assert (LP : zlen P = zlen P0) by (unfold zlen; now rewrite (Permutation_length PP)).
  destruct (znth_in_range P index Hi) as [q Hq].
  assert (Hoff : forall c, 0 <= c < gr * gr * gr -> exists a b, znth offset c = Some a /\ znth offset (c + 1) = Some b /\ 0 <= a <= b /\ b <= zlen P /\
    forall p, 0 <= p < zlen P -> (a <= p < b <-> znth ids p = Some c)).
  { intros c Hc. destruct (sort_offsets N gr P0 P ids offset ltac:(lia) Hr HS) as (Lo & O0 & On & Mo & Ho).
    destruct (znth_in_range offset c ltac:(lia)) as [a Ea]. destruct (znth_in_range offset (c + 1) ltac:(lia)) as [b Eb].
    assert (MM : forall j i u v, 0 <= i -> znth offset i = Some u -> znth offset (i + Z.of_nat j) = Some v -> u <= v).
    { induction j as [|j IH]; intros i u v Hi' Hu Hv.
      - replace (i + Z.of_nat 0) with i in Hv by lia. assert (u = v) by congruence. lia.
      - pose proof (znth_some _ _ _ Hv). destruct (znth_in_range offset (i + 1) ltac:(lia)) as [w Hw].
        pose proof (Mo _ _ _ Hu Hw). assert (w <= v); [|lia].
        apply (IH (i + 1)); auto; [lia|]. now replace (i + 1 + Z.of_nat j) with (i + Z.of_nat (Datatypes.S j)) by lia. }
    exists a, b. split; [assumption|]. split; [assumption|]. split.
    + split; [|eapply Mo; eauto]. apply (MM (Z.to_nat c) 0 0 a); [lia|assumption|]. now replace (0 + Z.of_nat (Z.to_nat c)) with c by lia.
    + rewrite LP. split; [|intros p Hp; now apply Ho].
      apply (MM (Z.to_nat (gr * gr * gr - (c + 1))) (c + 1)); [lia|assumption|].
      now replace (c + 1 + Z.of_nat (Z.to_nat (gr * gr * gr - (c + 1)))) with (gr * gr * gr) by lia. }
  set (D := fdist N P index).
  assert (HC : forall p, 0 <= p < zlen P -> p <> index -> candA N S D (znth P) q p).
  { intros p Hp _. destruct (znth_in_range P p Hp) as [pp Ep]. exists pp. split; [assumption|]. unfold okd, D, fdist. rewrite Ep, Hq. split; [reflexivity|].
    apply Hd; eapply znth_in; eauto. }
  unfold knn_compute. rewrite Hq. cbn [pure_opt bind]. destruct (Hids index Hi) as (c & Ec & Hc). rewrite Ec. cbn [pure_opt bind]. replace (gr =? 0) with false by lia. cbn [bind].
  pose proof (id_decode gr c Hg Hc) as OK.
  set (px := Z.rem c gr) in *. set (py := Z.rem (Z.quot c gr) gr) in *. set (pz := Z.quot c (gr * gr)) in *.
  destruct (shellsA N S WO Si Ti D (znth P) q index (zlen P) gr ids offset HC Hids Hg Hoff px py pz OK l k (fdiv N (fofZ N 1) (fofZ N gr)) (face_min N false (fdiv N (fofZ N 1) (fofZ N gr)) q) Hk
     (Z.to_nat gr) 0 [] (repeat (0, finf N) (Z.to_nat k))) as (h1 & R1 & L1 & V & ks & ND & HV & HVo & H1 & Sel & All & Bey); [lia|lia| |apply (initA N S Ti); lia|].
  { split; [constructor|]. intros p. simpl. split; [tauto|]. intros (Hp & _ & Hch). destruct (pcA gr ids p) as [[x y] z]. simpl in Hch. lia. }
  rewrite (run_bind_ok _ _ _ _ _ R1).
  destruct (heap_sort_row N S WO l h1) as (h & R2 & P2 & A2). { eapply relA_good; eauto. }
  rewrite L1 in R2. assert (Lh : zlen h = k) by (rewrite <- L1; unfold zlen; now rewrite (Permutation_length P2)).
  destruct (Permutation_Forall2 (Permutation_sym P2) (Forall2_swap _ _ _ H1)) as (ks' & Pk & Fk). apply Forall2_swap in Fk.
  assert (Sel' : sel N D k V ks').
  { destruct Sel as (rest & Pr & Dm). exists rest. split.
    - eapply perm_trans; [apply Permutation_app_tail; symmetry; exact Pk|exact Pr].
    - intros o o' Ho Ho'. apply Dm; [|assumption]. eapply Permutation_in; [symmetry; exact Pk|assumption]. }
  destruct (rowA N S WO Si D k V h ks' ltac:(lia) ND HVo Fk Sel' Lh A2) as (row & m & Em & NR & RV & As & Pad & InK & Rest).
  assert (LL : zlen row + Z.of_nat m = k). { rewrite <- Lh, <- (zlen_map fst h), Em, zlen_app, zlen_repeat. reflexivity. }
  assert (PermV : forall W, NoDup W -> (forall p, In p W -> 0 <= p < zlen P /\ p <> index) -> zlen W <= zlen P - 1 /\ ((forall p, 0 <= p < zlen P -> p <> index -> In p W) -> zlen W = zlen P - 1)).
  { intros W NW HW. assert (ZR : zlen (zrange 0 (zlen P)) = zlen P) by (rewrite zlen_zrange; lia). split.
    - assert (length (index :: W) <= length (zrange 0 (zlen P)))%nat as Q; [|unfold zlen in *; simpl in Q; lia].
      apply NoDup_incl_length; [constructor; [intros I; apply HW in I; tauto|assumption]|]. intros p [<-|Hp]; [apply in_zrange; lia|apply HW in Hp; apply in_zrange; lia].
    - intros Al. pose proof (NoDup_remove_perm (zlen P) index W Hi NW ltac:(intros p; split; [apply HW|intros (A & B); apply Al; assumption])) as Q.
      apply Permutation_length in Q. unfold zlen in *. simpl in Q. lia. }
  assert (RB : forall p, In p row -> 0 <= p < zlen P /\ p <> index) by (intros p Hp; apply HV, RV, Hp).
  destruct (PermV row NR RB) as [U1 U2].
  assert (LR : zlen row = Z.min k (zlen P - 1)).
  { destruct m as [|m]; [lia|]. destruct (Pad ltac:(discriminate)) as [HN HP].
    assert (HN0 : In None ks) by (eapply Permutation_in; [symmetry; exact Pk|exact HN]). assert (zlen row = zlen P - 1); [|lia]. apply U2. intros p Hp1 Hp2. apply HP, (All HN0); assumption. }
  exists h, row. split; [exact R2|]. split; [assumption|]. split; [assumption|]. split; [replace (Z.to_nat (k - zlen row)) with m by lia; exact Em|].
  split; [assumption|]. split; [assumption|]. split; [assumption|].
  intros p p' q' Eq Hp Hp'1 Hp'2 Hn. injection Eq as <-. destruct (Bey p' Hp'1 Hp'2) as [Q|(r & x & Q1 & Q2 & Q3 & Q4 & Q5)].
  - left. now apply Rest.
  - right. exists r, x. split; [assumption|]. split.
    + destruct (Hids p' Hp'1) as (c' & Ec' & _). exists c, c'. split; [assumption|]. split; [assumption|]. unfold pcA in Q2. rewrite Ec' in Q2. exact Q2.
    + split; [assumption|]. split; [|exact Q4]. apply Q5. eapply Permutation_in; [symmetry; exact Pk|]. now apply InK.
Qed.
Lemma knn_any N S l gr P0 P ids offset k index : 0 < gr -> in_range_ids N gr P0 -> xyz_sort N gr P0 = Ok (P, ids, offset) -> ordered_dists N S P ->
  0 < k -> 0 <= index < zlen P ->
  exists h row, run (knn_compute N (fun j => j) (znth P) false (fun x => x) (znth P) k gr gr ids offset index) (hmem N l (repeat (0, finf N) (Z.to_nat k))) = Ok (tt, hmem N l h) /\
    zlen h = k /\ zlen row = Z.min k (zlen P - 1) /\ map fst h = row ++ repeat 0 (Z.to_nat (k - zlen row)) /\
    NoDup row /\ (forall p, In p row -> 0 <= p < zlen P /\ p <> index) /\
    (forall i j p p', 0 <= i <= j -> znth row i = Some p -> znth row j = Some p' -> flt N (fdist N P index p') (fdist N P index p) = false).
Proof.
  intros A1 A2 A3 A4 A5 A6. destruct (knn_exit N S l gr P0 P ids offset k index A1 A2 A3 A4 A5 A6) as (h & row & B1 & B2 & B3 & B4 & B5 & B6 & B7 & _). exists h, row. auto 10.
Qed.
