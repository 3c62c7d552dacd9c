(** The thread pool of the CPU driver. *)
From Verif Require Import Base Arith PBase Prog PProg MUtils MHeap MXyz MKnn MBoundary MCell MDnn MArgs MTess PFlags PSort PFill PHeap PReloc PHeapFinal
  SpecSort PXyz PSortFinal SpecBnd PBnd PCellSim PCellRun PCell PCellRow PKnnSafe PSlot PWalk SpecSlot PSlotHost PSlotFinal PPool PRanges.
From Coq Require Import Permutation.
Local Open Scope prog_scope.

Lemma map_repeat {A B} (f : A -> B) x j : map f (repeat x j) = repeat (f x) j.
Proof. induction j; simpl; congruence. Qed.
Lemma Forall2_impl {A B} (R R' : A -> B -> Prop) l l' : (forall x y, R x y -> R' x y) -> Forall2 R l l' -> Forall2 R' l l'.
Proof. intros H. induction 1; constructor; auto. Qed.
Lemma Forall2_ex {A B} (R : A -> B -> Prop) l : (forall x, In x l -> exists y, R x y) -> exists ys, Forall2 R l ys.
Proof.
  induction l as [|x l IH]; intros H; [exists []; constructor|].
  destruct (H x (or_introl eq_refl)) as [y Hy]. destruct IH as [ys Hys]. { intros z Hz. apply H. now right. }
  exists (y :: ys). now constructor.
Qed.
Lemma Forall2_concat {A B} (R : A -> B -> Prop) ls : forall ts, Forall2 R (concat ls) ts -> exists tss, concat tss = ts /\ Forall2 (Forall2 R) ls tss.
Proof.
  induction ls as [|l ls IH]; simpl; intros ts H.
  - inversion H. exists []. split; [reflexivity|constructor].
  - apply Forall2_app_inv_l in H as (t1 & t2 & H1 & H2 & ->). destruct (IH _ H2) as (tss & <- & H3). exists (t1 :: tss). split; [reflexivity|now constructor].
Qed.
Lemma Forall2_nth {A B} (R : A -> B -> Prop) l l' : Forall2 R l l' -> forall i x, nth_error l i = Some x -> exists y, nth_error l' i = Some y /\ R x y.
Proof.
  induction 1 as [|x y l l' HR _ IH]; intros [|i] z E; simpl in *; try discriminate; [injection E as <-; eauto|eauto].
Qed.
Lemma Forall2_nth' {A B} (R : A -> B -> Prop) l l' : Forall2 R l l' -> forall i y, nth_error l' i = Some y -> exists x, nth_error l i = Some x /\ R x y.
Proof.
  induction 1 as [|x y l l' HR _ IH]; intros [|i] z E; simpl in *; try discriminate; [injection E as <-; eauto|eauto].
Qed.
Lemma Forall2_in {A B} (R : A -> B -> Prop) l l' x : Forall2 R l l' -> In x l -> exists y, In y l' /\ R x y.
Proof. intros H Hx. apply In_nth_error in Hx as [i Hi]. destruct (Forall2_nth R l l' H i x Hi) as (y & E & HR). exists y. split; [eapply nth_error_In; eauto|assumption]. Qed.
Lemma Forall2_in' {A B} (R : A -> B -> Prop) l l' y : Forall2 R l l' -> In y l' -> exists x, In x l /\ R x y.
Proof. intros H Hx. apply In_nth_error in Hx as [i Hi]. destruct (Forall2_nth' R l l' H i y Hi) as (x & E & HR). exists x. split; [eapply nth_error_In; eauto|assumption]. Qed.

Lemma forM_tasks {F} {X} (f : X -> prog F unit) l (ts : list (@task F)) : Forall2 (fun x t => t_p t = f x) l ts -> forM l f = thread_of ts.
Proof. unfold thread_of. induction 1 as [|x t l ts E _ IH]; simpl; [reflexivity|]. now rewrite E, IH. Qed.

Lemma apart_from {F} {X} (R : X -> @task F -> Prop) (l : list X) (ts : list (@task F)) : Forall2 R l ts -> NoDup l ->
  (forall x y t u, In x l -> In y l -> x <> y -> R x t -> R y u -> disjoint (t_W t) (t_W u)) -> apart ts.
Proof.
  intros H. induction H as [|x t l ts HR HF IH]; intros Hn Hd; [constructor|]. inversion Hn; subst. constructor.
  - apply Forall_forall. intros u Hu. destruct (Forall2_in' _ _ _ u HF Hu) as (y & Hy & HRy). apply (Hd x y); simpl; auto. intros ->. contradiction.
  - apply IH; [assumption|]. intros y z t' u Hy Hz. apply Hd; simpl; auto.
Qed.

Lemma rows_disjoint k pm tm i j x y : 0 < k -> 0 < pm -> 0 < tm -> i <> j -> x <> y -> disjoint (own_rows k pm tm i x) (own_rows k pm tm j y).
Proof.
  intros Hk Hp Ht Hij Hxy a z H1 H2. unfold own_rows, between in *.
  destruct a; rewrite ?andb_true_iff, ?Z.leb_le, ?Z.ltb_lt, ?Z.eqb_eq in *; try nia.
Qed.

Section T.
Variable N : Arith.
Notation F := (F N).
Variable c : cfg.
Variable g : grid N.
Hypothesis Hc : cfg_ok c.
Hypothesis Hg : sorted_grid N c g.
Notation n := (zlen (g_pts N g)).
Notation k := (c_k c).
Notation pm := (c_pmax c).
Notation tm := (c_tmax c).

(** an empty heap row and an unlabelled row *)
Definition heap0 : list (Z * F) := repeat (0, finf N) (Z.to_nat k).
Definition lab0 : list Z := repeat k_undefined (Z.to_nat k).

Definition results (rs : Z -> sres N) : Prop := forall index, 0 <= index < n ->
  res_at N c g index heap0 lab0 (rs index) /\
  forall i m b, before N c i index m heap0 lab0 b -> 0 <= b < 256 ->
    exists m', run_in (own_rows k pm tm i index) (slot_prog N c g i index) m = Ok (tt, m') /\ after N c i index m' (rs index) b.

Lemma results_ex : exists rs, results rs.
Proof.
  destruct (Forall2_ex (fun index r => res_at N c g index heap0 lab0 r /\
    forall i m b, before N c i index m heap0 lab0 b -> 0 <= b < 256 ->
    exists m', run_in (own_rows k pm tm i index) (slot_prog N c g i index) m = Ok (tt, m') /\ after N c i index m' r b) (zrange 0 n)) as [l Hl].
  { intros index Hi. apply in_zrange in Hi. destruct Hc as (H1 & _). apply (host_slot N c g Hc Hg index heap0 lab0 Hi).
    - unfold heap0. split; [rewrite zlen_repeat; lia|]. apply Forall_forall. intros x Hx. apply repeat_spec in Hx. subst x. simpl. lia.
    - unfold lab0. rewrite zlen_repeat. lia. }
  exists (fun i => nth (Z.to_nat i) l (mkS N [] Cont (mkC N [] [] []) false)). intros index Hi.
  destruct (Forall2_nth _ _ _ Hl (Z.to_nat index) index) as (r & E & H).
  { rewrite nth_error_zrange by lia. f_equal. lia. }
  rewrite (nth_error_nth _ _ _ E). exact H.
Qed.

Definition has_room (M : Z) (m : mem F) : Prop :=
  k * M <= zlen (m_hid m) /\ k * M <= zlen (m_hpq m) /\ k * M <= zlen (m_dknn m) /\
  4 * pm * M <= zlen (m_P m) /\ 3 * tm * M <= zlen (m_T m) /\ pm * M <= zlen (m_dR m) /\ zlen (m_st m) = n.
Definition fresh (M : Z) (m : mem F) : Prop := forall x, 0 <= x < k * M ->
  znth (m_hid m) x = Some 0 /\ znth (m_hpq m) x = Some (finf N) /\ znth (m_dknn m) x = Some k_undefined.

Lemma fresh_before M m j x b : has_room M m -> fresh M m -> 0 <= j < M -> 0 <= x < n -> znth (m_st m) x = Some b ->
  before N c j x m heap0 lab0 b.
Proof.
  intros (R1 & R2 & R3 & R4 & R5 & R6 & R7) Fr Hj Hx Hb. destruct Hc as (H1 & H2 & H3).
  assert (Q : forall d, 0 <= d < k -> 0 <= k * j + d < k * M) by (intros; nia).
  unfold before, slot_before. split; [|split; [|split; [|split]]].
  - intros a i Hi. unfold mrd. destruct a; simpl in Hi |- *; try (apply znth_in_range; nia).
  - intros d Hd. unfold heap0. rewrite map_repeat, znth_repeat by lia. apply (Fr (k * j + d) (Q d Hd)).
  - intros d Hd. unfold heap0. rewrite map_repeat, znth_repeat by lia. apply (Fr (k * j + d) (Q d Hd)).
  - intros d Hd. unfold lab0. rewrite znth_repeat by lia. apply (Fr (k * j + d) (Q d Hd)).
  - unfold mrd. simpl. rewrite Z.add_0_r. exact Hb.
Qed.

Lemma slot_after_row rs x m' j b : results rs -> 0 <= x < n -> 0 <= j -> after N c j x m' (rs x) b ->
  trow (m_hid m') k j = r_row N k (rs x) /\ znth (m_st m') x = Some (r_byte N (rs x) b) /\
  (forall d, 0 <= d < k -> znth (m_hid m') (k * j + d) = znth (r_row N k (rs x)) d) /\ zlen (r_row N k (rs x)) = k.
Proof.
  intros Rs Hx Hj (l' & V & (Pl & Tr & C & D & -> & LP & LT & LC & LD & _)). destruct (Rs x Hx) as [(p & Hp & Hh & _ & _ & G) _].
  destruct Hc as (H1 & _).
  assert (Lrow : zlen (r_row N k (rs x)) = k) by (apply row_after_len; [unfold r_K; rewrite zlen_map; apply Hh|apply G]).
  assert (Q : forall d, 0 <= d < k -> znth (m_hid m') (k * j + d) = znth (r_row N k (rs x)) d) by (intros d Hd; apply (V AHeapId d); simpl; lia).
  split; [|split; [|split]]; auto.
  - apply trow_eq; auto. nia.
  - specialize (V ASt 0). simpl in V. rewrite Z.add_0_r in V. apply V. change (zlen [r_byte N (rs x) b]) with 1. lia.
Qed.

Lemma pool_spec rs indices M m ls : results rs -> 0 <= M -> has_room M m -> fresh M m ->
  (forall j, 0 <= j < M -> exists x b, znth indices j = Some x /\ 0 <= x < n /\ znth (m_st m) x = Some b /\ 0 <= b < 256) ->
  (forall i j x, 0 <= i < M -> 0 <= j < M -> znth indices i = Some x -> znth indices j = Some x -> i = j) ->
  concat (map (fun r => zrange (fst r) (snd r)) ls) = zrange 0 M ->
  exists m', (forall sched, pool_run sched (map (thread_prog N c g indices) ls) m = Ok m') /\
    run (thread_prog N c g indices (0, M)) m = Ok (tt, m') /\
    (forall a, zlen (mget m' a) = zlen (mget m a)) /\
    (forall j x, 0 <= j < M -> znth indices j = Some x -> trow (m_hid m') k j = r_row N k (rs x) /\
       forall b, znth (m_st m) x = Some b -> znth (m_st m') x = Some (r_byte N (rs x) b)) /\
    (forall x, (forall j, 0 <= j < M -> znth indices j <> Some x) -> znth (m_st m') x = znth (m_st m) x).
Proof.
  intros Rs HM Rm Fr Hi Hd Hls. assert (Hc' := Hc). destruct Hc' as (H1 & H2 & H3).
  set (body := fun idx => bind (pure_opt (znth indices idx)) (slot_prog N c g idx)).
  set (R := fun (j : Z) (t : @task F) => exists x b, znth indices j = Some x /\ 0 <= x < n /\ znth (m_st m) x = Some b /\
    t_p t = body j /\ t_W t = own_rows k pm tm j x /\ confined m t /\ after N c j x (t_f t) (rs x) b).
  destruct (Forall2_ex R (zrange 0 M)) as [ts Hts].
  { intros j Hj. apply in_zrange in Hj. destruct (Hi j Hj) as (x & b & E & Hx & Eb & Hb).
    destruct (Rs x Hx) as [_ Run]. destruct (Run j m b (fresh_before M m j x b Rm Fr Hj Hx Eb) Hb) as (f & Rf & Af).
    exists (mkTask (body j) (own_rows k pm tm j x) f). exists x, b. simpl.
    assert (EB : body j = slot_prog N c g j x) by (unfold body; rewrite E; reflexivity).
    do 5 (split; [auto|]). split; [|assumption]. exists f. split; [simpl; rewrite EB; exact Rf|]. intros a i _. reflexivity. }
  assert (Ap : apart ts).
  { apply (apart_from R (zrange 0 M)); [assumption|apply NoDup_zrange|].
    intros i j t u Hi' Hj' Nij (x & bx & Ex & _ & _ & _ & -> & _) (y & by_ & Ey & _ & _ & _ & -> & _).
    apply in_zrange in Hi', Hj'. apply rows_disjoint; auto; try lia. intros ->. apply Nij. eapply Hd; eauto. }
  assert (Cf : forall t, In t ts -> confined m t).
  { intros t Ht. destruct (Forall2_in' _ _ _ _ Hts Ht) as (j & _ & (x & b & _ & _ & _ & _ & _ & Q & _)). exact Q. }
  assert (Hts2 := Hts). rewrite <- Hls in Hts2. apply Forall2_concat in Hts2 as (tss & Et & Htss).
  assert (EP : map (thread_prog N c g indices) ls = map thread_of tss).
  { clear -Htss. revert tss Htss. induction ls as [|r ls IH]; intros tss H; inversion H as [|l0 t0 ls0 tss0 HA HB]; subst; [reflexivity|].
    simpl. f_equal; [|now apply IH]. unfold thread_prog. apply forM_tasks.
    eapply Forall2_impl; [|exact HA]. intros j t (x & b & _ & _ & _ & E & _). exact E. }
  assert (ES : thread_prog N c g indices (0, M) = thread_of ts).
  { unfold thread_prog. simpl. apply forM_tasks. eapply Forall2_impl; [|exact Hts]. intros j t (x & b & _ & _ & _ & E & _). exact E. }
  rewrite EP, ES. rewrite <- Et in Ap, Cf |- *.
  destruct (threads_det tss m Ap Cf) as (m' & RP & RS & MG1 & MG2). exists m'. split; [assumption|]. split; [assumption|]. rewrite Et in *.
  split; [apply (run_in_len _ _ _ _ _ RS)|]. split.
  - intros j x Hj Ex. destruct (Forall2_in _ _ _ j Hts) as (t & Ht & (x' & b & Ex' & Hx & Eb & _ & EW & _ & Af)); [now apply in_zrange|].
    assert (x' = x) by congruence. subst x'. destruct (slot_after_row rs x _ j b Rs Hx ltac:(lia) Af) as (_ & Q2 & Q3 & Q4).
    pose proof (MG1 t Ht) as Ag. rewrite EW in Ag. split.
    + apply trow_eq; [nia|assumption|]. intros d Hd'. rewrite <- Q3 by assumption. apply (Ag AHeapId). unfold own_rows, between. rewrite andb_true_iff, Z.leb_le, Z.ltb_lt. nia.
    + intros b' Eb'. assert (b' = b) by congruence. subst b'. rewrite <- Q2. apply (Ag ASt). simpl. apply Z.eqb_refl.
  - intros x Hx. apply (MG2 ASt). intros t Ht. destruct (Forall2_in' _ _ _ t Hts Ht) as (j & Hj & (y & b & Ey & _ & _ & _ & -> & _)).
    apply in_zrange in Hj. simpl. apply Z.eqb_neq. intros ->. apply (Hx j Hj Ey).
Qed.
End T.
