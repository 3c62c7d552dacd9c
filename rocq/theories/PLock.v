(** Host and device k-NN kernels in lockstep: where the blends are exact they make the
    same comparisons, so their heaps always hold the same indices. *)
From Verif Require Import Base Arith PBase Exact Prog PProg MUtils MHeap MXyz MKnn SpecHeap SpecGeom SpecKnn PExact PHeap PGrid PKnnSel PKnn PHeapFinal PKnnSafe.
Local Open Scope prog_scope.

Lemma Forall2_zswap {A B} (R : A -> B -> Prop) l l' a b : Forall2 R l l' -> Forall2 R (zswap l a b) (zswap l' a b).
Proof.
  intros H. unfold zswap.
  destruct (znth l a) as [x|] eqn:Ea.
  - destruct (proj1 (Forall2_znth _ _ _ a H) _ Ea) as (x' & Ea' & Rx). rewrite Ea'.
    destruct (znth l b) as [y|] eqn:Eb.
    + destruct (proj1 (Forall2_znth _ _ _ b H) _ Eb) as (y' & Eb' & Ry). rewrite Eb'. now repeat apply Forall2_zupd.
    + destruct (znth l' b) as [y'|] eqn:Eb'; [|assumption]. destruct (proj2 (Forall2_znth _ _ _ b H) _ Eb') as (y & Q & _). congruence.
  - destruct (znth l' a) as [y'|] eqn:Ea'; [|assumption]. destruct (proj2 (Forall2_znth _ _ _ a H) _ Ea') as (y & Q & _). congruence.
Qed.

(** the numbers of a search and their values: comparison is that of the values, the
    multiplications by 0 and 1 select *)
Record View (N : Arith) := mkView {
  vfin : F N -> Prop;
  vval : F N -> R;
  v_lt : forall x y, vfin x -> vfin y -> (flt N x y = true <-> (vval x < vval y)%R);
  v_lt_inf : forall x, vfin x -> flt N x (finf N) = true;
  v_inf_lt : forall x, vfin x -> flt N (finf N) x = false;
  v_inf_inf : flt N (finf N) (finf N) = false;
  v_128 : vfin (fofZ N 128) /\ vval (fofZ N 128) = 128%R;
  v_sel : forall b x y, vfin x -> vfin y ->
    vfin (fadd N (fmul N (fbool N (negb b)) x) (fmul N (fbool N b) y)) /\
    vval (fadd N (fmul N (fbool N (negb b)) x) (fmul N (fbool N b) y)) = if b then vval y else vval x }.

Section Lock.
Variable N : Arith.
Variable V : View N.
Notation F := (F N).
Notation fin := (vfin N V).
Notation val := (vval N V).
Notation ad := (fun j : Z => j).
Notation heap := (list (Z * F)).

(** the same entry on the host (first) and on the device (second) *)
Definition samepq (x y : F) : Prop :=
  (fin x /\ fin y /\ val x = val y /\ (val x < 128)%R) \/ (x = finf N /\ fin y /\ val y = 128%R).
Definition same1 (x y : Z * F) : Prop := fst x = fst y /\ samepq (snd x) (snd y).
Definition samerow : heap -> heap -> Prop := Forall2 same1.

Lemma samepq_lt x y x' y' : samepq x y -> samepq x' y' -> flt N x x' = flt N y y'.
Proof.
  intros [(F1 & F2 & W & B)|(-> & F2 & W)] [(F1' & F2' & W' & B')|(-> & F2' & W')].
  - apply Bool.eq_true_iff_eq. rewrite !(v_lt N V) by assumption. rewrite W, W'. tauto.
  - rewrite (v_lt_inf N V) by assumption. symmetry. apply (v_lt N V); auto. lra.
  - rewrite (v_inf_lt N V) by assumption. symmetry. destruct (flt N y y') eqn:L; [|reflexivity]. apply (v_lt N V) in L; auto. lra.
  - rewrite (v_inf_inf N V). symmetry. destruct (flt N y y') eqn:L; [|reflexivity]. apply (v_lt N V) in L; auto. lra.
Qed.

Lemma same_ids h h' : samerow h h' -> map fst h = map fst h'.
Proof. induction 1 as [|x y h h' [Q _] _ IH]; simpl; congruence. Qed.

Lemma pickp_same h h' s c g : samerow h h' -> pickp N h s c g = pickp N h' s c g.
Proof.
  intros H. unfold pickp. destruct (c <? s); [|reflexivity].
  destruct (znth h c) as [x|] eqn:Ec.
  - destruct (proj1 (Forall2_znth _ _ _ c H) _ Ec) as (x' & -> & [_ Rx]).
    destruct (znth h g) as [y|] eqn:Eg.
    + destruct (proj1 (Forall2_znth _ _ _ g H) _ Eg) as (y' & -> & [_ Ry]). now rewrite (samepq_lt _ _ _ _ Ry Rx).
    + destruct (znth h' g) as [y'|] eqn:Eg'; [|reflexivity]. destruct (proj2 (Forall2_znth _ _ _ g H) _ Eg') as (y & Q & _). congruence.
  - destruct (znth h' c) as [y'|] eqn:Ec'; [|reflexivity]. destruct (proj2 (Forall2_znth _ _ _ c H) _ Ec') as (y & Q & _). congruence.
Qed.
Lemma mh_same fuel : forall s i h h', samerow h h' -> samerow (mh N fuel s i h) (mh N fuel s i h').
Proof.
  induction fuel as [|f IH]; intros s i h h' H; cbn [mh];
    rewrite !(pickp_same h h') by assumption; destruct (i =? _); auto.
  apply IH. now apply Forall2_zswap.
Qed.

(** two programs on related heap rows *)
Definition lock (k : Z) (p p' : prog F unit) : Prop := forall l l' h h', samerow h h' -> zlen h = k ->
  exists g g', run p (hmem N l h) = Ok (tt, hmem N l g) /\ run p' (hmem N l' h') = Ok (tt, hmem N l' g') /\ samerow g g' /\ zlen g = k.

Lemma same_len h h' : samerow h h' -> zlen h' = zlen h.
Proof. intros H. symmetry. eapply Forall2_zlen; eauto. Qed.

Lemma lock_ret k : lock k (Ret tt) (Ret tt).
Proof. intros l l' h h' H L. exists h, h'. auto. Qed.
Lemma lock_seq k p p' q q' : lock k p p' -> lock k q q' -> lock k (bind p (fun _ => q)) (bind p' (fun _ => q')).
Proof.
  intros H1 H2 l l' h h' H L. destruct (H1 l l' h h' H L) as (g & g' & R & R' & S & Lg). destruct (H2 l l' g g' S Lg) as (f & f' & Q & Q' & S' & Lf).
  exists f, f'. rewrite !run_bind, R, R'. auto.
Qed.
Lemma lock_forM {X} k (l : list X) f f' : (forall x, In x l -> lock k (f x) (f' x)) -> lock k (forM l f) (forM l f').
Proof.
  induction l as [|x l IH]; intros H; cbn [forM]; [apply lock_ret|]. apply lock_seq; [apply H; now left|]. apply IH. intros; apply H; now right.
Qed.
Lemma lock_mh k s i : s <= k -> 0 <= i < k -> lock k (maxheapify N ad s i) (maxheapify N ad s i).
Proof.
  intros Hs Hi l l' h h' H L. pose proof (same_len _ _ H). unfold maxheapify. rewrite !run_mh by lia.
  do 2 eexists. split; [reflexivity|]. split; [reflexivity|]. split; [now apply mh_same|now rewrite zlen_mh].
Qed.
Lemma lock_swap k a b : 0 <= a < k -> 0 <= b < k -> lock k (heap_swap N ad a b) (heap_swap N ad a b).
Proof.
  intros Ha Hb l l' h h' H L. pose proof (same_len _ _ H). rewrite !run_swap by lia.
  do 2 eexists. split; [reflexivity|]. split; [reflexivity|]. split; [now apply Forall2_zswap|now rewrite zlen_zswap].
Qed.
Lemma lock_sort k : 0 <= k -> lock k (heap_sort N ad k) (heap_sort N ad k).
Proof.
  intros Hk. unfold heap_sort. apply lock_seq; apply lock_forM; intros i Hi.
  - apply in_zrange_down in Hi. apply lock_mh; [lia|]. Z.div_mod_to_equations. lia.
  - apply in_zrange_down in Hi. apply lock_seq; [apply lock_swap; lia|apply lock_mh; lia].
Qed.

(** one candidate: the host branches, the device multiplies by 0 or 1 *)
Lemma set_root (l : mem F) h i v : mwr (mwr (hmem N l h) AHeapId 0 i) AHeapPq 0 v = hmem N l (zupd h 0 (i, v)).
Proof.
  unfold mwr, hmem. simpl.
  replace (zupd (map fst h) 0 i) with (map fst (zupd h 0 (i, v))); [|destruct h; reflexivity].
  replace (zupd (map snd h) 0 v) with (map snd (zupd h 0 (i, v))); [reflexivity|destruct h; reflexivity].
Qed.

Variable pts : Z -> option (point N).
Variable q : point N.
Variable index : Z.
Definition near (p : Z) : Prop := exists pp, pts p = Some pp /\ fin (get_distance N pp q) /\ (val (get_distance N pp q) < 128)%R.

Lemma lock_visit k p : 0 < k -> near p -> lock k (knn_visit N ad pts false k index q p) (knn_visit N ad pts true k index q p).
Proof.
  intros Hk (pp & Ep & Fd & Bd) l l' h h' H L. pose proof (same_len _ _ H) as L'.
  unfold knn_visit. destruct (p =? index); [apply lock_ret; assumption|]. rewrite Ep. cbn [pure_opt bind].
  set (pq := get_distance N pp q) in *.
  destruct (znth_in_range h 0 ltac:(lia)) as [x E0]. destruct (proj1 (Forall2_znth _ _ _ 0 H) _ E0) as (y & E0' & [Ri Rq]).
  assert (RI : mrd (hmem N l h) AHeapId 0 = Some (fst x)) by now apply hmem_id.
  assert (RP : mrd (hmem N l h) AHeapPq 0 = Some (snd x)) by now apply hmem_pq.
  assert (RI' : mrd (hmem N l' h') AHeapId 0 = Some (fst y)) by now apply hmem_id.
  assert (RP' : mrd (hmem N l' h') AHeapPq 0 = Some (snd y)) by now apply hmem_pq.
  assert (Rpq : samepq pq pq) by (left; auto).
  assert (EC : flt N pq (snd x) = flt N pq (snd y)) by (now apply samepq_lt).
  cbn [rd bind]. rewrite (run_Rd _ _ _ _ _ RP), (run_Rd _ _ _ _ _ RP'). cbn zeta. rewrite EC.
  cbn [rd wr bind]. rewrite (run_Rd _ _ _ _ _ RI'), (run_Wr _ _ _ _ _ _ RI').
  assert (Fy : fin (snd y)) by (destruct Rq as [Q|Q]; tauto).
  match goal with |- context [mwr (hmem N l' h') AHeapId 0 ?i] => assert (RP2 : mrd (mwr (hmem N l' h') AHeapId 0 i) AHeapPq 0 = Some (snd y)) by (rewrite mrd_mwr_other by (left; discriminate); assumption) end.
  rewrite (run_Rd _ _ _ _ _ RP2), (run_Wr _ _ _ _ _ _ RP2), set_root.
  destruct (flt N pq (snd y)); simpl b2z; simpl negb.
  - rewrite (run_Wr _ _ _ _ _ _ RI).
    assert (RP3 : mrd (mwr (hmem N l h) AHeapId 0 p) AHeapPq 0 = Some (snd x)) by (rewrite mrd_mwr_other by (left; discriminate); assumption).
    rewrite (run_Wr _ _ _ _ _ _ RP3), set_root. rewrite Z.mul_1_l.
    apply lock_mh; [lia|lia| |rewrite zlen_zupd; assumption].
    apply Forall2_zupd; [assumption|]. split; simpl; [lia|]. left.
    destruct (v_sel N V true (snd y) pq Fy Fd) as [S1 S2]. cbn [negb] in S1, S2. rewrite S2. auto.
  - rewrite Z.mul_0_l. unfold maxheapify. rewrite run_mh by (rewrite ?zlen_zupd; lia).
    eexists h, _. split; [reflexivity|]. split; [reflexivity|]. split; [|assumption].
    cbn [mh Z.to_nat].
    assert (PK : forall c g hh, 0 <= c -> pickp N hh 0 c g = g) by (intros c g hh Hc; unfold pickp; destruct (Z.ltb_spec c 0); [lia|reflexivity]).
    rewrite !PK by lia. rewrite Z.eqb_refl.
    rewrite <- (zupd_same h 0 x E0). apply Forall2_zupd; [assumption|]. split; [simpl; lia|]. simpl snd.
    destruct (v_sel N V false (snd y) pq Fy Fd) as [S1 S2]. cbn [negb] in S1, S2.
    destruct Rq as [(A & B & C & D)|(A & B & C)]; [left|right]; rewrite ?S2; auto.
Qed.
End Lock.

Section Search.
Variable N : Arith.
Variable V : View N.
Notation ad := (fun j : Z => j).
Variable gr : Z.
Variable pts : Z -> option (point N).
Variable n : Z.
Variable ids offset : list Z.
Variable index : Z.
Variable q : point N.
Hypothesis Hpts : forall p, 0 <= p < n -> near N V pts q p.
Hypothesis Hg : grid_ok n gr ids offset.

Lemma lock_cell k c : 0 < k -> cell_ok gr c -> lock N V k (knn_cell N ad pts false k gr offset index q c) (knn_cell N ad pts true k gr offset index q c).
Proof.
  intros Hk Hc. pose proof (cidx_range gr c Hc) as Rc. destruct Hg as (_ & _ & Hoff). destruct (Hoff _ Rc) as (a & b & Ea & Eb & Ha & Hb).
  destruct c as [[x y] z]. unfold knn_cell. unfold cidx in *. rewrite Ea, Eb. cbn [pure_opt bind].
  apply lock_forM. intros p Hp. apply in_zrange in Hp. apply lock_visit; [assumption|]. apply Hpts. lia.
Qed.

Variables px py pz : Z.
Hypothesis Hpc : cell_ok gr (px, py, pz).

Lemma lock_shells k gl mn mn' rs : 0 < k -> (forall r, In r rs -> 0 <= r < gr) ->
  (forall r, In r rs -> samepq N V (square N (fadd N (fmul N gl (fofZ N r)) mn)) (square N (fadd N (fmul N gl (fofZ N r)) mn'))) ->
  lock N V k (knn_shells N ad pts false rs k gr gl mn offset index q px py pz)
             (knn_shells N ad pts true rs k gr gl mn' offset index q px py pz).
Proof.
  intros Hk. induction rs as [|r rs IH]; intros Hr HS; cbn [knn_shells]; [apply lock_ret|].
  specialize (IH ltac:(intros; apply Hr; now right) ltac:(intros; apply HS; now right)).
  assert (Rr : 0 <= r < gr) by (apply Hr; now left).
  apply lock_seq.
  { apply lock_forM. intros c Hc. apply in_shell in Hc; [|lia|assumption]. apply lock_cell; tauto. }
  intros l l' h h' H L. pose proof (same_len _ _ _ _ H) as L'.
  destruct (znth_in_range h 0 ltac:(lia)) as [x E0]. destruct (proj1 (Forall2_znth _ _ _ 0 H) _ E0) as (y & E0' & [Ri Rq]).
  cbn [rd bind]. rewrite (run_Rd _ _ _ _ _ (hmem_pq N l h 0 x E0)), (run_Rd _ _ _ _ _ (hmem_pq N l' h' 0 y E0')).
  rewrite (samepq_lt N V _ _ _ _ Rq (HS r ltac:(now left))). destruct (flt N (snd y) _); [now apply lock_ret|now apply IH].
Qed.
End Search.

Lemma lock_knn N V gr pts n ids offset refs index q wp k : grid_ok n gr ids offset -> refs index = Some q -> 0 <= index < n -> 0 < k ->
  (forall p, 0 <= p < n -> near N V pts q p) ->
  (forall r, 0 <= r < gr -> samepq N V (square N (fadd N (fmul N (grid_len N gr) (fofZ N r)) (face_min N false (grid_len N gr) q)))
     (square N (fadd N (fmul N (grid_len N gr) (fofZ N r)) (face_min N true (grid_len N gr) q)))) ->
  (forall c, 0 <= c < gr -> wp c = c) ->
  lock N V k (knn_compute N (fun j => j) pts false (fun x => x) refs k gr gr ids offset index) (knn_compute N (fun j => j) pts true wp refs k gr gr ids offset index).
Proof.
  intros Hg Er Hi Hk Hpts Hsq Hwp. unfold knn_compute. rewrite Er. cbn [pure_opt bind].
  assert (Hg' := Hg). destruct Hg' as (Hgr & Hids & _). destruct (Hids index Hi) as (c & -> & Hc). cbn [pure_opt bind].
  destruct (Z.eqb_spec gr 0); [lia|]. cbn [bind].
  pose proof (id_decode gr c Hgr Hc) as PC. assert (PC' := PC). destruct PC' as (P1 & P2 & P3). rewrite !Hwp by assumption.
  change (fdiv N (fofZ N 1) (fofZ N gr)) with (grid_len N gr).
  apply lock_seq; [|apply lock_sort; lia].
  apply (lock_shells N V gr pts n ids offset index q); auto; intros r Hr; apply in_zrange in Hr; auto.
Qed.

(** the search on the host and on the device, from empty heaps: the same indices *)
Definition knn_agree (N : Arith) (gr k : Z) (P : list (point N)) (ids offs : list Z) : Prop := forall index, 0 <= index < zlen P -> exists h hD,
  run (knn_compute N (fun j => j) (znth P) false (fun x => x) (znth P) k gr gr ids offs index) (hmem N (emem N) (repeat (0, finf N) (Z.to_nat k))) = Ok (tt, hmem N (emem N) h) /\
  run (knn_compute N (fun j => j) (znth P) true w16 (znth P) k gr gr ids offs index) (hmem N (emem N) (repeat (0, fofZ N 128) (Z.to_nat k))) = Ok (tt, hmem N (emem N) hD) /\
  zlen h = k /\ zlen hD = k /\ map fst h = map fst hD.

Lemma view_agree N V gr k P ids offs : grid_ok (zlen P) gr ids offs -> gr <= 65536 -> 0 < k ->
  (forall p q, In p P -> In q P -> vfin N V (get_distance N p q) /\ (vval N V (get_distance N p q) < 128)%R) ->
  (forall q r, In q P -> 0 <= r < gr -> samepq N V (square N (fadd N (fmul N (grid_len N gr) (fofZ N r)) (face_min N false (grid_len N gr) q)))
     (square N (fadd N (fmul N (grid_len N gr) (fofZ N r)) (face_min N true (grid_len N gr) q)))) ->
  knn_agree N gr k P ids offs.
Proof.
  intros Hg Hg16 Hk Hd Hs index Hi. destruct (znth_in_range P index Hi) as [q Eq]. pose proof (znth_in _ _ _ Eq) as Iq.
  assert (S0 : samerow N V (repeat (0, finf N) (Z.to_nat k)) (repeat (0, fofZ N 128) (Z.to_nat k))).
  { unfold samerow. generalize (Z.to_nat k). intros j. induction j as [|j IH]; simpl; constructor; auto.
    split; [reflexivity|]. right. simpl. split; [reflexivity|]. apply (v_128 N V). }
  assert (LK : lock N V k (knn_compute N (fun j => j) (znth P) false (fun x => x) (znth P) k gr gr ids offs index) (knn_compute N (fun j => j) (znth P) true w16 (znth P) k gr gr ids offs index)).
  { apply (lock_knn N V gr (znth P) (zlen P) ids offs (znth P) index q); auto.
    - intros p Hp. destruct (znth_in_range P p Hp) as [pp Ep]. exists pp. split; [assumption|]. apply Hd; [eapply znth_in; eauto|assumption].
    - intros c Hc. apply w16_id. lia. }
  destruct (LK (emem N) (emem N) _ _ S0) as (h & hD & RH & RD & S & Lh); [rewrite zlen_repeat; lia|].
  exists h, hD. split; [exact RH|]. split; [exact RD|]. split; [assumption|]. split; [rewrite (same_len _ _ _ _ S); assumption|now apply (same_ids N V)].
Qed.

(** ** exact arithmetic *)
Section Ex.
Variable N : Arith.
Variable E : Exact N.
Definition exact_view : View N.
Proof.
  refine (mkView N (fin E) (val E) (ex_lt N E) (ex_lt_inf N E) (ex_inf_lt N E) (ex_inf_inf N E) (ex_ofZ N E 128) _).
  intros b x y Fx Fy. split; [destruct b; unfold fbool, b2z; simpl; auto 10 with fin|]. destruct b; unfold fbool, b2z; simpl; vpush; ring.
Defined.

Lemma exact_agree gr k P0 P ids offs : 0 < gr <= 65536 -> gr * gr * gr <= int_max -> (forall q, In q P0 -> inside N E q) -> xyz_sort N gr P0 = Ok (P, ids, offs) ->
  grid_ok (zlen P) gr ids offs -> (forall q, In q P -> In q P0) -> 0 < k -> knn_agree N gr k P ids offs.
Proof.
  intros [Hg Hg16] Hg3 Hin HS Hgo Hsub Hk. apply (view_agree N exact_view); auto; simpl vfin; simpl vval.
  - intros p q Hp Hq. destruct (Hin p (Hsub p Hp)) as [F1 C1]. destruct (Hin q (Hsub q Hq)) as [Fq Cq].
    destruct (get_distance_exact N E p q F1 Fq) as [Fd Vd]. split; [assumption|]. rewrite Vd. pose proof (in_cube_d2 _ _ C1 Cq). lra.
  - intros q r Hq Hr. destruct (Hin q (Hsub q Hq)) as [Fq Cq].
    destruct (face_min_exact N E false gr q Hg Fq Cq) as [Fm Vm]. destruct (face_min_exact N E true gr q Hg Fq Cq) as [Fm' Vm'].
    set (mn := face_min N false _ q) in *. set (mn' := face_min N true _ q) in *. destruct (grid_len_exact N E gr Hg) as [Fg Vg].
    left. simpl vfin. simpl vval. assert (V : forall u, fin E u -> val E u = facer3 gr (valp N E q) -> val E (square N (fadd N (fmul N (grid_len N gr) (fofZ N r)) u)) = ((/ IZR gr * IZR r + facer3 gr (valp N E q)) ^ 2)%R).
    { intros u Fu Vu. rewrite val_square by auto 10 with fin. vpush. now rewrite Vg, Vu. }
    rewrite !V by auto. split; [unfold square; auto 10 with fin|]. split; [unfold square; auto 10 with fin|]. split; [reflexivity|].
    assert (Gp : (0 < IZR gr)%R) by (apply IZR_lt; lia). pose proof (facer3_range gr (valp N E q) Hg).
    assert (/ IZR gr <= 1)%R. { apply (Rmult_le_reg_r (IZR gr)); [lra|]. rewrite Rinv_l by lra. rewrite Rmult_1_l. apply (IZR_le 1). lia. }
    assert (/ IZR gr * IZR r <= 1)%R.
    { apply (Rmult_le_reg_r (IZR gr)); [lra|]. rewrite Rmult_1_l. replace (/ IZR gr * IZR r * IZR gr)%R with (IZR r)%R by (field; lra). apply IZR_le. lia. }
    assert (0 <= / IZR gr * IZR r)%R. { apply Rmult_le_pos; [apply Rlt_le, Rinv_0_lt_compat; lra|apply IZR_le; lia]. }
    nra.
Qed.
End Ex.
