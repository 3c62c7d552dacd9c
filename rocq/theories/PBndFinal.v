(** C16, C17, C18 on the shared arrays. *)
From Verif Require Import Base PBase Prog PProg MUtils MBoundary SpecBnd PHeap PBnd PBndRun PBndLoop PBndCap.
From Verif Require Export SpecBnd.
Local Open Scope prog_scope.

Section Sim.
Context {F : Type}.
Variable wc : Z -> Z.
Variable phi : reloc.
Variables dro dro' ro ro' drsize rsize : Z.
Hypothesis HC : forall e, dro' + e = phi AdR (dro + e).
Hypothesis HT : forall x, ro' + x = phi AT (ro + x).
Notation psim := (@psim F _ phi).

Lemma rdR_sim j c : psim (rdR ro j c) (rdR ro' j c).
Proof. apply (psim_rd phi AT). rewrite <- !Z.add_assoc. apply HT. Qed.
Lemma rdC_sim e : psim (rdC dro e) (rdC dro' e).
Proof. apply (psim_rd phi AdR). apply HC. Qed.
Lemma wrC_sim e v : psim (wrC dro e v) (wrC dro' e v).
Proof. apply (psim_wr phi AdR). apply HC. Qed.

Lemma init_sim : psim (bnd_init dro ro) (bnd_init dro' ro').
Proof.
  unfold bnd_init. apply psim_foldM. intros s x _. apply psim_bind; [apply rdR_sim|]; intros e0.
  apply psim_bind; [apply rdR_sim|]; intros e1. apply psim_bind; [apply wrC_sim|]; intros _. constructor.
Qed.
Lemma walk_sim fuel : forall first e0 e1 edge counter found,
  psim (bnd_walk wc dro rsize fuel first e0 e1 edge counter found) (bnd_walk wc dro' rsize fuel first e0 e1 edge counter found).
Proof.
  induction fuel as [|fuel IH]; intros; cbn [bnd_walk]; (apply psim_bind; [apply rdC_sim|]); intros ce1;
    (destruct (edge =? first); [constructor|]); (apply psim_bind; [apply rdC_sim|]); intros nx; (destruct (rsize <? counter); [constructor|]).
  - constructor.
  - apply IH.
Qed.
Lemma stat_sim first j : psim (bnd_stat wc dro ro rsize first j) (bnd_stat wc dro' ro' rsize first j).
Proof.
  unfold bnd_stat. apply psim_foldM. intros [byte|] x _; [|constructor].
  apply psim_bind; [apply rdR_sim|]; intros e0. apply psim_bind; [apply rdR_sim|]; intros e1.
  apply psim_bind; [apply rdC_sim|]; intros ed. apply psim_bind; [apply walk_sim|]; intros [[|]|]; constructor.
Qed.
Lemma bswap_sim j sj : psim (bnd_swap ro j sj) (bnd_swap ro' j sj).
Proof.
  unfold bnd_swap. apply psim_forM. intros c _. apply psim_bind; [apply rdR_sim|]; intros a.
  apply psim_bind; [apply rdR_sim|]; intros b. apply psim_bind; [apply (psim_wr phi AT); rewrite <- !Z.add_assoc; apply HT|]; intros _.
  apply (psim_wr phi AT); rewrite <- !Z.add_assoc; apply HT.
Qed.
Lemma dupj_sim fuel : forall ei ej, psim (bnd_dup_j dro drsize fuel ei ej) (bnd_dup_j dro' drsize fuel ei ej).
Proof.
  induction fuel as [|fuel IH]; intros; cbn [bnd_dup_j]; (destruct (ej <? drsize); [|constructor]); [constructor|].
  apply psim_bind; [apply rdC_sim|]; intros cj. destruct (cj =? bundef); [apply IH|].
  apply psim_bind; [apply rdC_sim|]; intros ci. apply psim_bind; [apply rdC_sim|]; intros cj'. destruct (ci =? cj'); [constructor|apply IH].
Qed.
Lemma dupi_sim fuel : forall ei, psim (bnd_dup_i dro drsize fuel ei) (bnd_dup_i dro' drsize fuel ei).
Proof.
  induction fuel as [|fuel IH]; intros; cbn [bnd_dup_i]; (destruct (ei <? drsize); [|constructor]); [constructor|].
  apply psim_bind; [apply rdC_sim|]; intros ci. destruct (ci =? bundef); [apply IH|].
  apply psim_bind; [apply dupj_sim|]; intros [|]; [constructor|apply IH].
Qed.
Lemma loop_sim fuel : forall j sj head, psim (bnd_loop wc dro drsize ro rsize fuel j sj head) (bnd_loop wc dro' drsize ro' rsize fuel j sj head).
Proof.
  induction fuel as [|fuel IH]; intros; cbn [bnd_loop]; (destruct (j <? rsize); [|constructor]); [constructor|].
  apply psim_bind; [apply stat_sim|]; intros [byte|]; [|constructor].
  destruct (j =? sj); [constructor|]. destruct (vs_nshared byte =? 0).
  { apply psim_bind; [apply bswap_sim|]; intros _. apply IH. }
  do 4 (apply psim_bind; [apply rdR_sim|]; intros ?). do 4 (apply psim_bind; [apply rdC_sim|]; intros ?).
  apply psim_bind.
  { destruct (vs_nshared byte =? 1); [|destruct (vs_nshared byte =? 2)].
    - do 2 (apply psim_bind; [apply wrC_sim|]; intros _). constructor.
    - apply psim_bind; [apply rdC_sim|]; intros h. do 2 (apply psim_bind; [apply wrC_sim|]; intros _). constructor.
    - constructor. }
  intros h. apply psim_bind; [apply dupi_sim|]; intros [|]; [|apply IH].
  do 4 (apply psim_bind; [apply wrC_sim|]; intros _). apply psim_bind; [apply bswap_sim|]; intros _. apply IH.
Qed.
Lemma bnd_sim : psim (bnd_compute wc dro drsize ro rsize) (bnd_compute wc dro' drsize ro' rsize).
Proof. unfold bnd_compute. apply psim_bind; [apply init_sim|]; intros h. apply loop_sim. Qed.
End Sim.

Section Final.
Context {F : Type}.
Notation mem := (mem F).

Notation cycle_row := (@cycle_row F).
Notation tri_region := (@tri_region F).

Lemma counter_wc wc rsize : counter_ok wc rsize -> forall x, 0 <= x <= Z.max 255 rsize -> wc x = x.
Proof. intros [H|[H L]] x Hx; rewrite H; [reflexivity|]. apply w8_id. lia. Qed.

Definition bemem : mem := mkMem [] [] [] [] [] [] [].
Definition bphi (dro ro : Z) : reloc := fun a i => match a with AdR => dro + i | AT => ro + i | _ => i end.
Definition bsz (pmax rsize : Z) (a : arr) : Z := match a with AdR => pmax | AT => 3 * rsize | _ => 0 end.

Lemma bnd_view dro ro C R m : cycle_row dro m C -> tri_region ro m R -> view (bphi dro ro) (bm bemem [] [] C R) m.
Proof.
  intros HC HT.
  intros a i Hi. destruct a; simpl in Hi; try (change (zlen (@nil Z)) with 0 in Hi; lia); try (change (zlen (@nil F)) with 0 in Hi; lia).
    + rewrite app_nil_r, zlen_flat in Hi. unfold bphi, mrd at 2. simpl. rewrite app_nil_r.
      set (j := i / 3). set (c := i mod 3).
      assert (Ei : i = 3 * j + c) by (unfold j, c; apply Z.div_mod; lia).
      assert (Hc : 0 <= c < 3) by (apply Z.mod_pos_bound; lia). clearbody j c. subst i.
      destruct (znth_in_range R j ltac:(lia)) as [[[x y] z] Hj]. rewrite (znth_flat R j c _ Hj Hc).
      destruct (HT j x y z Hj) as (T0 & T1 & T2).
      assert (c = 0 \/ c = 1 \/ c = 2) as [-> |[-> | ->]] by lia; rewrite ?Z.add_0_r, ?Z.add_assoc; assumption.
    + unfold bphi, mrd at 2. simpl. destruct (znth_in_range C i Hi) as [v Hv]. rewrite Hv. apply HC. assumption.
Qed.

Lemma bnd_transport wc dro pmax ro C R m x C' R' : zlen C = pmax -> zlen C' = pmax -> zlen R' = zlen R ->
  run (bnd_compute wc 0 pmax 0 (zlen R)) (bm bemem [] [] C R) = Ok (x, bm bemem [] [] C' R') ->
  cycle_row dro m C -> tri_region ro m R ->
  exists m', run_in (bnd_cells dro pmax ro (zlen R)) (bnd_compute wc dro pmax ro (zlen R)) m = Ok (x, m') /\
    cycle_row dro m' C' /\ tri_region ro m' R'.
Proof.
  intros LC L' LR E HC HT.
  destruct (psim_run (bphi dro ro) _ _ (bnd_sim wc (bphi dro ro) 0 dro 0 ro pmax (zlen R) (fun e => eq_refl) (fun e => eq_refl))
     (bm bemem [] [] C R) m (bsz pmax (zlen R))) with (x := x) (l' := bm bemem [] [] C' R') as (m' & Rn & V & Sz & Fr); auto.
  - intros a. unfold msz. destruct a; simpl; try reflexivity; [|assumption]. rewrite app_nil_r. apply zlen_flat.
  - apply (bnd_view dro ro _ R m HC HT).
  - intros a i j _ _ Q. destruct a; simpl in Q; lia.
  - exists m'. split.
    { eapply run_in_mono; [|exact Rn]. intros a i Hi. apply image_true in Hi as (q & Hq & <-). destruct a; simpl in *; lia. }
    split.
    + intros e v Hv. pose proof (V AdR e) as Q. unfold bphi in Q. rewrite Q; [exact Hv|]. simpl. apply znth_some in Hv. exact Hv.
    + intros j a b c Hj. pose proof (znth_some _ _ _ Hj) as Rj.
      assert (Q : forall q, 0 <= q < 3 -> mrd m' AT (ro + 3 * j + q) = Some (comp (a, b, c) q)).
      { intros q Hq. pose proof (V AT (3 * j + q)) as Q. unfold bphi in Q. rewrite <- Z.add_assoc. rewrite Q; unfold mrd; simpl; rewrite app_nil_r.
        - exact (znth_flat R' j q (a, b, c) Hj Hq).
        - rewrite zlen_flat. lia. }
      split; [rewrite <- (Z.add_0_r (ro + 3 * j)); apply (Q 0); lia|]. split; [apply (Q 1); lia|apply (Q 2); lia].
Qed.

Lemma bnd_final wc dro pmax ro R m :
  pmax <= 255 -> 1 <= zlen R -> counter_ok wc (zlen R) -> Forall (tri_ok pmax) R ->
  cycle_row dro m (repeat 255 (Z.to_nat pmax)) -> tri_region ro m R ->
  exists st head m' C' R',
    run_in (bnd_cells dro pmax ro (zlen R)) (bnd_compute wc dro pmax ro (zlen R)) m = Ok ((st, head), m') /\
    (st = Bsuccess \/ st = Bunreachable) /\
    zlen C' = pmax /\ cycle_row dro m' C' /\ tri_region ro m' R' /\ Permutation R' R /\
    (st = Bsuccess -> exists rest, one_cycle C' head rest /\ 2 <= zlen rest <= zlen R + 1 /\
       (NoDup (edges R) -> (exists u v, boundary_edge R u v) ->
        forall u v, znth C' u = Some v /\ v <> 255 <-> boundary_edge R u v)).
Proof.
  intros Hp Hr Hwc Hok HC HT.
  destruct (znth_in_range R 0 ltac:(lia)) as [[[ta tb] tc] Ht].
  assert (P0 : 0 < pmax).
  { rewrite Forall_forall in Hok. specialize (Hok _ (znth_in _ _ _ Ht)). destruct Hok. lia. }
  set (C := repeat 255 (Z.to_nat pmax)) in *.
  assert (LC : zlen C = pmax) by (unfold C; rewrite zlen_repeat; lia).
  destruct (bnd_run wc bemem [] [] pmax (zlen R) Hp Hr (counter_wc _ _ Hwc) C R LC) as (st & head & C' & R' & E & P & L' & D).
  { intros e He. unfold C. apply znth_repeat. lia. }
  { reflexivity. }
  { assumption. }
  change (3 * zlen (@nil tri)) with 0 in E.
  assert (LR : zlen R' = zlen R) by (unfold zlen; now rewrite (Permutation_length P)).
  destruct (bnd_transport wc dro pmax ro C R m _ _ _ LC L' LR E HC HT) as (m' & Rn & HC' & HT').
  exists st, head, m', C', R'. split; [exact Rn|].
  split; [destruct D as [[D _]|[D _]]; auto|]. split; [assumption|]. split; [assumption|]. split; [assumption|]. split; [assumption|].
  intros ->. destruct D as [[_ (rest & H1 & H2 & H3)]|[D _]]; [|discriminate]. exists rest. split; [assumption|]. split; [assumption|].
  intros ND (u0 & v0 & B0).
      assert (BE : forall u v, boundary_edge R u v <-> boundary_edge R' u v).
      { intros u v. unfold boundary_edge. pose proof (perm_edges _ _ P) as PE.
        split; intros [A B]; (split; [eapply Permutation_in; [|exact A]; (exact PE || apply Permutation_sym; exact PE)|]); intros K; apply B;
          (eapply Permutation_in; [|exact K]; (exact PE || apply Permutation_sym; exact PE)). }
      destruct (H3 ND) as [Q|[Cl _]].
      * intros u v. rewrite BE. apply Q.
      * exfalso. apply BE in B0. destruct B0 as [A B]. apply B. apply Cl. assumption.
Qed.
(** within 8 bits the capacity does not matter *)
Lemma cap_final wc dro1 ro1 dro2 ro2 pmax1 pmax2 R m1 m2 :
  pmax1 <= pmax2 <= 255 -> 1 <= zlen R -> counter_ok wc (zlen R) -> Forall (tri_ok pmax1) R ->
  cycle_row dro1 m1 (repeat 255 (Z.to_nat pmax1)) -> tri_region ro1 m1 R ->
  cycle_row dro2 m2 (repeat 255 (Z.to_nat pmax2)) -> tri_region ro2 m2 R ->
  exists st head C' R' m1' m2',
    run_in (bnd_cells dro1 pmax1 ro1 (zlen R)) (bnd_compute wc dro1 pmax1 ro1 (zlen R)) m1 = Ok ((st, head), m1') /\
    run_in (bnd_cells dro2 pmax2 ro2 (zlen R)) (bnd_compute wc dro2 pmax2 ro2 (zlen R)) m2 = Ok ((st, head), m2') /\
    zlen C' = pmax1 /\ cycle_row dro1 m1' C' /\ cycle_row dro2 m2' (C' ++ repeat 255 (Z.to_nat (pmax2 - pmax1))) /\
    tri_region ro1 m1' R' /\ tri_region ro2 m2' R'.
Proof.
  intros Hp Hr Hwc Hok HC1 HT1 HC2 HT2.
  destruct (znth_in_range R 0 ltac:(lia)) as [[[ta tb] tc] Ht].
  assert (P0 : 0 < pmax1) by (rewrite Forall_forall in Hok; specialize (Hok _ (znth_in _ _ _ Ht)); destruct Hok; lia).
  assert (LC : zlen (repeat 255 (Z.to_nat pmax1)) = pmax1) by (rewrite zlen_repeat; lia).
  destruct (bnd_run wc bemem [] [] pmax1 (zlen R) ltac:(lia) Hr (counter_wc _ _ Hwc) _ R LC) as (st & head & C' & R' & E & P & L' & D).
  { intros e He. apply znth_repeat. lia. }
  { reflexivity. }
  { assumption. }
  assert (LR : zlen R' = zlen R) by (unfold zlen; now rewrite (Permutation_length P)).
  destruct (pad_compute bemem [] [] pmax1 (pmax2 - pmax1) ltac:(lia) wc (zlen R) ltac:(lia) (counter_wc _ _ Hwc) _ R _ _ Hr eq_refl LC E)
    as (C2 & R2 & EQ & L2 & LR2 & E2).
  assert (Q1 : C' = C2) by exact (f_equal (fun m => mget m AdR) EQ). subst C2.
  assert (Q2 : bm bemem [] [] (C' ++ repeat 255 (Z.to_nat (pmax2 - pmax1))) R2 = bm bemem [] [] (C' ++ repeat 255 (Z.to_nat (pmax2 - pmax1))) R').
  { pose proof (f_equal (fun m => mget m AT) EQ) as Q. simpl in Q. unfold bm. simpl. rewrite Q. reflexivity. }
  rewrite Q2 in E2.
  change (3 * zlen (@nil tri)) with 0 in *. rewrite <- repeat_app in E2.
  replace (Z.to_nat pmax1 + Z.to_nat (pmax2 - pmax1))%nat with (Z.to_nat pmax2) in E2 by lia.
  replace (pmax1 + (pmax2 - pmax1)) with pmax2 in E2 by lia.
  destruct (bnd_transport wc dro1 pmax1 ro1 _ R m1 _ _ _ LC L' LR E HC1 HT1) as (m1' & N1 & A1 & B1).
  destruct (bnd_transport wc dro2 pmax2 ro2 (repeat 255 (Z.to_nat pmax2)) R m2 _ (C' ++ repeat 255 (Z.to_nat (pmax2 - pmax1))) _ ltac:(rewrite zlen_repeat; lia) ltac:(rewrite zlen_app, zlen_repeat; lia) LR E2 HC2 HT2) as (m2' & N2 & A2 & B2).
  exists st, head, C', R', m1', m2'. auto 10.
Qed.

(** beyond 8 bits every cut of two or more triangles fails (host) *)
Lemma wrap_final dro ro pmax R m :
  256 <= pmax -> 2 <= zlen R -> Forall (tri_ok 255) R ->
  cycle_row dro m (repeat 255 (Z.to_nat pmax)) -> tri_region ro m R ->
  exists head m', run (bnd_compute (fun x => x) dro pmax ro (zlen R)) m = Ok ((Bunreachable, head), m').
Proof.
  intros Hp Hr Hok HC HT.
  destruct (wrap_compute bemem [] [] (pmax - 255) (zlen R) ltac:(lia) R Hr eq_refl Hok) as (head & m' & E).
  change (3 * zlen (@nil tri)) with 0 in E. replace (255 + (pmax - 255)) with pmax in E by lia.
  destruct (psim_run (bphi dro ro) _ _ (bnd_sim (fun x => x) (bphi dro ro) 0 dro 0 ro pmax (zlen R) (fun e => eq_refl) (fun e => eq_refl))
     (bm bemem [] [] (repeat 255 (Z.to_nat pmax)) R) m (bsz pmax (zlen R))) with (x := (Bunreachable, head)) (l' := m') as (m2 & Rn & _); auto.
  - intros a. unfold msz. destruct a; simpl; try reflexivity; [|rewrite zlen_repeat; lia]. rewrite app_nil_r. apply zlen_flat.
  - apply (bnd_view dro ro _ R m HC HT).
  - intros a i j _ _ Q. destruct a; simpl in Q; lia.
  - exists head, m2. eapply run_in_run. exact Rn.
Qed.
End Final.

Section Split.
Context {F : Type}.
Notation mem := (mem F).

Lemma bnd_terminates wc dro pmax ro R (m : mem) :
  pmax <= 255 -> 1 <= zlen R -> counter_ok wc (zlen R) -> Forall (tri_ok pmax) R ->
  cycle_row dro m (repeat 255 (Z.to_nat pmax)) -> tri_region ro m R ->
  exists st head m' R',
    run_in (bnd_cells dro pmax ro (zlen R)) (bnd_compute wc dro pmax ro (zlen R)) m = Ok ((st, head), m') /\
    (st = Bsuccess \/ st = Bunreachable) /\ tri_region ro m' R' /\ Permutation R' R.
Proof.
  intros Hp Hr Hwc Hok HC HT. destruct (bnd_final wc dro pmax ro R m Hp Hr Hwc Hok HC HT) as (st & head & m' & C' & R' & E & St & _ & _ & T & P & _).
  exists st, head, m', R'. auto.
Qed.

Lemma bnd_correct wc dro pmax ro R (m : mem) head m' :
  pmax <= 255 -> 1 <= zlen R -> counter_ok wc (zlen R) -> Forall (tri_ok pmax) R ->
  NoDup (edges R) -> (exists u v, boundary_edge R u v) ->
  cycle_row dro m (repeat 255 (Z.to_nat pmax)) -> tri_region ro m R ->
  run (bnd_compute wc dro pmax ro (zlen R)) m = Ok ((Bsuccess, head), m') ->
  exists C rest R',
    zlen C = pmax /\ cycle_row dro m' C /\ one_cycle C head rest /\
    (forall u v, znth C u = Some v /\ v <> 255 <-> boundary_edge R u v) /\
    tri_region ro m' R' /\ Permutation R' R.
Proof.
  intros Hp Hr Hwc Hok ND NE HC HT E0.
  destruct (bnd_final wc dro pmax ro R m Hp Hr Hwc Hok HC HT) as (st & hd & m2 & C' & R' & E & St & L & CR & T & P & D).
  apply run_in_run in E. rewrite E in E0. injection E0 as -> -> ->. destruct (D eq_refl) as (rest & OC & _ & B).
  exists C', rest, R'. split; [assumption|]. split; [assumption|]. split; [assumption|]. split; [|auto]. apply B; assumption.
Qed.
End Split.
