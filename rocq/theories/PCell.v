(** cci::compute on a memory holding one slot's rows: what it leaves. *)
From Verif Require Import Base Arith PBase Prog PProg MUtils MBoundary MCell PFlags
  SpecBnd PHeap PBnd PBndRun PBndLoop PBndCap PBndFinal PCellSim PCellRun.
From Verif Require Export SpecCell.
Local Open Scope prog_scope.

Lemma edgeinv_perm C R R' : Permutation R R' -> edgeinv C R -> edgeinv C R'.
Proof.
  intros P. pose proof (perm_edges _ _ P) as PE.
  assert (Q : forall e, In e (edges R) <-> In e (edges R')).
  { intros e. split; apply Permutation_in; [assumption|now apply Permutation_sym]. }
  intros [H|[H1 H2]]; [left|right].
  - intros u v. rewrite H. unfold boundary_edge. now rewrite !Q.
  - split; intros u v; [rewrite <- !Q; apply H1|intros A B; rewrite <- Q; eauto].
Qed.

Lemma wc_ok_mono wc rs rs' : rs' <= rs -> wc_ok wc rs -> wc_ok wc rs'.
Proof. intros H [W|[W L]]; [now left|right; split; [assumption|lia]]. Qed.
Lemma wc_ok_id wc rs x : wc_ok wc rs -> 0 <= x <= rs + 1 -> wc x = x.
Proof. intros [W|[W L]] H; apply W. lia. Qed.

Lemma psim_trans {F A} phi psi (p q : prog F A) : psim phi p q -> forall r, psim psi q r -> psim (fun a i => psi a (phi a i)) p r.
Proof.
  induction 1 as [x|e|a i i' k k' Hi Hk IH|a i i' v k k' Hi Hk IH]; intros r Hr; inversion Hr; subst.
  - constructor.
  - constructor.
  - match goal with H : existT _ _ _ = existT _ _ _ |- _ => apply Eqdep_dec.inj_pair2_eq_dec in H; [|apply arr_eq_dec]; subst end.
    constructor; auto.
  - repeat match goal with H : existT _ _ _ = existT _ _ _ |- _ => apply Eqdep_dec.inj_pair2_eq_dec in H; [|apply arr_eq_dec]; subst end.
    constructor; auto.
Qed.
Lemma psim_ext {F A} phi psi (p q : prog F A) : (forall a i, phi a i = psi a i) -> psim phi p q -> psim psi p q.
Proof. intros E. induction 1; constructor; auto; rewrite <- E; assumption. Qed.
Definition same : reloc := fun _ i => i.
Lemma psim_same {F A} (p : prog F A) : psim same p p.
Proof. induction p; constructor; auto. Qed.

Section Wc.
Context {F : Type}.
Variable wc : Z -> Z.
Variables dro drsize ro rsize : Z.
Hypothesis Hwc : wc_ok wc rsize.
Notation psim := (@psim F _ same).
Notation idz := (fun x : Z => x).

Lemma walk_wc fuel : forall first e0 e1 edge counter found, 0 <= counter ->
  psim (bnd_walk idz dro rsize fuel first e0 e1 edge counter found) (bnd_walk wc dro rsize fuel first e0 e1 edge counter found).
Proof.
  induction fuel as [|fuel IH]; intros; cbn [bnd_walk]; (apply psim_bind; [apply psim_same|]); intros ce1;
    (destruct (edge =? first); [constructor|]); (apply psim_bind; [apply psim_same|]); intros nx; (destruct (Z.ltb_spec rsize counter); [constructor|]).
  - constructor.
  - rewrite (wc_ok_id wc rsize (counter + 1)) by (assumption || lia). apply IH. lia.
Qed.
Lemma stat_wc first j : psim (bnd_stat idz dro ro rsize first j) (bnd_stat wc dro ro rsize first j).
Proof.
  unfold bnd_stat. apply psim_foldM. intros [byte|] x _; [|constructor].
  do 3 (apply psim_bind; [apply psim_same|]; intros ?). apply psim_bind; [apply walk_wc; lia|]. intros; apply psim_same.
Qed.
Lemma loop_wc fuel : forall j sj head, 0 <= j <= sj -> sj <= rsize ->
  psim (bnd_loop idz dro drsize ro rsize fuel j sj head) (bnd_loop wc dro drsize ro rsize fuel j sj head).
Proof.
  induction fuel as [|fuel IH]; intros j sj head Hj Hs; cbn [bnd_loop]; (destruct (Z.ltb_spec j rsize); [|constructor]); [constructor|].
  apply psim_bind; [apply stat_wc|]; intros [byte|]; [|constructor].
  destruct (Z.eqb_spec j sj); [constructor|].
  rewrite (wc_ok_id wc rsize (sj - 1)), (wc_ok_id wc rsize rsize) by (assumption || lia).
  destruct (vs_nshared byte =? 0).
  { apply psim_bind; [apply psim_same|]; intros _. apply IH; lia. }
  do 8 (apply psim_bind; [apply psim_same|]; intros ?).
  apply psim_bind; [apply psim_same|]. intros h. apply psim_bind; [apply psim_same|]; intros [|]; [|apply IH; lia].
  do 5 (apply psim_bind; [apply psim_same|]; intros _). apply IH; lia.
Qed.
Lemma bnd_wc : 1 <= rsize -> psim (bnd_compute idz dro drsize ro rsize) (bnd_compute wc dro drsize ro rsize).
Proof.
  intros H. unfold bnd_compute. apply psim_bind; [apply psim_same|]; intros h.
  rewrite (wc_ok_id wc rsize rsize) by (assumption || lia). apply loop_wc; lia.
Qed.
End Wc.

Lemma flat_app a b : flat (a ++ b) = flat a ++ flat b.
Proof. unfold flat. apply flat_map_app. Qed.
Lemma reloc_bm {F A} (p p' : prog F A) (l : mem F) pre post C R x C' R' : zlen C' = zlen C -> zlen R' = zlen R ->
  psim (bphi 0 (3 * zlen pre)) p p' ->
  run p (bm bemem [] [] C R) = Ok (x, bm bemem [] [] C' R') -> run p' (bm l pre post C R) = Ok (x, bm l pre post C' R').
Proof.
  intros LC LR HS E. pose proof (zlen_nonneg pre) as Zp. pose proof (zlen_nonneg R) as Zr.
  assert (AT' : forall R0 i, zlen R0 = zlen R -> 0 <= i < 3 * zlen R0 -> mrd (bm l pre post C R0) AT (3 * zlen pre + i) = mrd (bm bemem [] [] C R0) AT i).
  { intros R0 i L Hi. unfold mrd, bm. simpl. rewrite app_nil_r, !flat_app.
    rewrite znth_app2 by (rewrite zlen_flat; lia). rewrite zlen_flat, znth_app1 by (rewrite zlen_flat; lia). f_equal. lia. }
  destruct (psim_run (bphi 0 (3 * zlen pre)) p p' HS (bm (@bemem F) [] [] C R) (bm l pre post C R) (bsz (zlen C) (zlen R))) with (x := x) (l' := bm (@bemem F) [] [] C' R')
    as (m' & Rn & V & Sz & Fr); auto.
  - intros a. unfold msz. destruct a; simpl; try reflexivity. rewrite app_nil_r. apply zlen_flat.
  - intros a i Hi. destruct a; simpl in Hi; try (change (zlen (@nil Z)) with 0 in Hi; lia); try (change (zlen (@nil F)) with 0 in Hi; lia).
    + rewrite app_nil_r, zlen_flat in Hi. simpl bphi. apply AT'; [reflexivity|assumption].
    + reflexivity.
  - intros a i j _ _ Q. destruct a; simpl in Q; lia.
  - apply run_in_run in Rn. rewrite Rn. do 2 f_equal. apply mem_ext. intros a i.
    assert (OUT : forall (Hout : image (bphi 0 (3 * zlen pre)) (bsz (zlen C) (zlen R)) a i = false), mrd m' a i = mrd (bm l pre post C R) a i) by (intros; apply Fr; assumption).
    assert (OUTI : (forall j, 0 <= j < bsz (zlen C) (zlen R) a -> bphi 0 (3 * zlen pre) a j <> i) -> mrd m' a i = mrd (bm l pre post C R) a i).
    { intros Q. apply OUT. destruct (image _ _ a i) eqn:Ei; [|reflexivity]. apply image_true in Ei as (j & Hj & Ej). destruct (Q j Hj Ej). }
    destruct a; try (rewrite OUTI by (simpl; intros; lia); reflexivity).
    + destruct (Z_lt_dec i (3 * zlen pre)) as [Q|Q]; [|destruct (Z_lt_dec i (3 * zlen pre + 3 * zlen R)) as [Q2|Q2]].
      * rewrite OUTI by (simpl; intros; lia). unfold mrd, bm. simpl. rewrite !flat_app. destruct (Z_lt_dec i 0); [rewrite !(proj2 (znth_none _ _)) by lia; reflexivity|].
        rewrite !znth_app1 by (rewrite zlen_flat; lia). reflexivity.
      * replace i with (3 * zlen pre + (i - 3 * zlen pre)) by lia. pose proof (V AT (i - 3 * zlen pre)) as V'.
        etransitivity; [apply V'; simpl; rewrite app_nil_r, zlen_flat; lia|]. 
        unfold mrd, bm. simpl. rewrite app_nil_r, !flat_app. rewrite znth_app2 by (rewrite zlen_flat; lia). rewrite zlen_flat, znth_app1 by (rewrite zlen_flat; lia). f_equal. lia.
      * rewrite OUTI by (simpl; intros; lia). unfold mrd, bm. simpl. rewrite !flat_app.
        rewrite !znth_app2 by (rewrite ?zlen_flat; lia). rewrite !zlen_flat, LR. reflexivity.
    + destruct (Z_lt_dec i 0) as [Q|Q]; [|destruct (Z_lt_dec i (zlen C)) as [Q2|Q2]].
      * unfold mrd. rewrite !(proj2 (znth_none _ _)) by lia. reflexivity.
      * pose proof (V AdR i) as V'. etransitivity; [apply V'; simpl; lia|]. reflexivity.
      * rewrite OUTI by (simpl; intros; lia). unfold mrd. simpl. rewrite !(proj2 (znth_none _ _)) by lia. reflexivity.
Qed.

(** boundary::compute with room for pmax labels when only n are in use; what it
    does is decided by the triangles alone *)
Lemma run_bnd {F} n pmax R : 0 <= n <= pmax -> pmax <= 255 -> 1 <= zlen R -> Forall (tri_ok n) R ->
  exists st head C' R',
    Permutation R' R /\ zlen C' = n /\
    (st = Bsuccess /\ bnd_done (zlen R) R C' head R' \/ st = Bunreachable /\ bnd_stuck R C') /\
    forall wc (l : mem F) pre post, wc_ok wc (zlen R) ->
    run (bnd_compute wc 0 pmax (3 * zlen pre) (zlen R)) (bm l pre post (repeat 255 (Z.to_nat pmax)) R)
    = Ok ((st, head), bm l pre post (C' ++ repeat 255 (Z.to_nat (pmax - n))) R').
Proof.
  intros Hn Hp Hr Hok.
  assert (LC : zlen (repeat 255 (Z.to_nat n)) = n) by (rewrite zlen_repeat; lia).
  destruct (bnd_run (fun x => x) (@bemem F) [] [] n (zlen R) ltac:(lia) Hr ltac:(reflexivity) _ R LC) as (st & head & C' & R' & E & P & L' & D).
  { intros e He. apply znth_repeat. lia. }
  { reflexivity. }
  { assumption. }
  destruct (pad_compute bemem [] [] n (pmax - n) ltac:(lia) (fun x => x) (zlen R) ltac:(lia) ltac:(reflexivity) _ R _ _ Hr eq_refl LC E)
    as (C2 & R2 & EQ & L2 & LR2 & E2).
  assert (Q1 : C' = C2) by exact (f_equal (fun m => mget m AdR) EQ). subst C2.
  assert (Q2 : bm bemem [] [] (C' ++ repeat 255 (Z.to_nat (pmax - n))) R2 = bm (@bemem F) [] [] (C' ++ repeat 255 (Z.to_nat (pmax - n))) R').
  { pose proof (f_equal (fun m => mget m AT) EQ) as Q. simpl in Q. unfold bm. simpl. rewrite Q. reflexivity. }
  rewrite Q2 in E2. rewrite <- repeat_app in E2.
  replace (Z.to_nat n + Z.to_nat (pmax - n))%nat with (Z.to_nat pmax) in E2 by lia.
  replace (n + (pmax - n)) with pmax in E2 by lia.
  exists st, head, C', R'. split; [assumption|]. split; [assumption|]. split; [assumption|].
  intros wc l pre post Hwc. eapply reloc_bm; [| | |exact E2].
  - rewrite zlen_app, !zlen_repeat. lia.
  - unfold zlen. now rewrite (Permutation_length P).
  - change (3 * zlen (@nil tri)) with 0.
    eapply (psim_ext (fun a i => bphi 0 (3 * zlen pre) a (same a i))); [reflexivity|].
    eapply psim_trans; [apply bnd_wc; eassumption|]. apply bnd_sim; intros; simpl; lia.
Qed.
Lemma tri_ok_mono n n' t : n <= n' -> tri_ok n t -> tri_ok n' t.
Proof. destruct t as [[a b] c]. simpl. lia. Qed.

(** both transient error flags cleared *)
Definition clean (b : Z) : Z :=
  let b := if st_get b error_occurred then st_set_false b error_occurred else b in
  if st_get b error_nonvalid_neighbor then st_set_false b error_nonvalid_neighbor else b.

Lemma clean_byte b : 0 <= b < 256 -> 0 <= clean b < 256.
Proof.
  intros H. unfold clean. destruct (st_get b error_occurred); [pose proof (set_false_byte b error_occurred)|];
    match goal with |- context [st_get ?x error_nonvalid_neighbor] => destruct (st_get x error_nonvalid_neighbor) end;
    auto using set_false_byte.
Qed.
Lemma clean_get b s : 0 <= s < 8 -> st_get (clean b) s = st_get b s && negb (s =? error_occurred) && negb (s =? error_nonvalid_neighbor).
Proof.
  intros Hs. unfold clean.
  assert (A : 0 <= error_occurred < 8) by (unfold error_occurred; lia). assert (B : 0 <= error_nonvalid_neighbor < 8) by (unfold error_nonvalid_neighbor; lia).
  set (b1 := if st_get b error_occurred then _ else b).
  assert (H1 : forall t, 0 <= t < 8 -> st_get b1 t = st_get b t && negb (t =? error_occurred)).
  { intros t Ht. unfold b1. destruct (st_get b error_occurred) eqn:E.
    - rewrite get_set_false by assumption. apply andb_comm.
    - destruct (Z.eqb_spec t error_occurred) as [->|]; [rewrite E; reflexivity|]. rewrite andb_true_r. reflexivity. }
  destruct (st_get b1 error_nonvalid_neighbor) eqn:E.
  - rewrite get_set_false, H1 by assumption. apply andb_comm.
  - rewrite <- H1 by assumption. destruct (Z.eqb_spec s error_nonvalid_neighbor) as [->|]; [rewrite E; reflexivity|]. rewrite andb_true_r. reflexivity.
Qed.
Lemma clean_set b : 0 <= b < 256 -> clean (st_set_true b error_nonvalid_neighbor) = clean b.
Proof.
  intros H. apply byte_ext; try apply clean_byte; auto using set_true_byte.
  intros t Ht. rewrite !clean_get by assumption. rewrite get_set_true by (unfold error_nonvalid_neighbor; lia).
  destruct (t =? error_nonvalid_neighbor); simpl; [rewrite !andb_false_r|]; reflexivity.
Qed.
Lemma clean_clean b : 0 <= b < 256 -> clean (clean b) = clean b.
Proof.
  intros H. apply byte_ext; try apply clean_byte; auto using clean_byte.
  intros t Ht. rewrite !clean_get by assumption. destruct (st_get b t), (t =? error_occurred), (t =? error_nonvalid_neighbor); reflexivity.
Qed.

Section Cell.
Variable N : Arith.
Notation F := (F N).
Notation point := (point N).
Notation plane := (plane N).
Variables k pmax tmax : Z.
Variable pts : Z -> option point.
Variable K : list Z.
Hypothesis Hpm : 6 <= pmax <= 255.
Hypothesis Htm : 8 <= tmax.
Hypothesis Hk : zlen K = k.

(** planes and triangles in use, labels *)
Record cst := mkC { cP : list plane; cT : list tri; cD : list Z }.

Definition good (s : cst) : Prop :=
  6 <= zlen (cP s) <= pmax /\ Forall (tri_ok (zlen (cP s))) (cT s) /\ zlen (cT s) <= 2 * zlen (cP s) - 4 /\
  zlen (cD s) = k /\ zlen (cT s) <= tmax.
Definition rep (pq : list F) (s : cst) (b : Z) (m : mem F) : Prop :=
  exists Pj Tj C, m = cm N pq (cP s ++ Pj) (cT s ++ Tj) C K (cD s) b /\
    zlen (cP s ++ Pj) = pmax /\ zlen (cT s ++ Tj) = tmax /\ zlen C = pmax.
(** what is left of the rows after an error *)
Definition rowsof (pq : list F) (b : Z) (m : mem F) : Prop :=
  exists Pl Tr C D, m = cm N pq Pl Tr C K D b /\ zlen Pl = pmax /\ zlen Tr = tmax /\ zlen C = pmax /\ zlen D = k.

Inductive nbout := Cont | Reach | FailP | FailT | FailB.

Definition split (Pl : list plane) (bis : plane) (ts Kp R : list tri) : Prop :=
  Permutation (Kp ++ R) ts /\
  Forall (fun t => removed N Pl bis t = false) Kp /\ Forall (fun t => removed N Pl bis t = true) R.
Definition verdict (p qp : point) (r : F) : nbout := if sr_is_reached N p qp r then Reach else Cont.

(** one candidate *)
Inductive nb_rel (p qp : point) (nb : Z) (s : cst) : nbout -> cst -> Prop :=
| nr_none Kp V : split (cP s) (bisect N qp p) (cT s) Kp [] -> Permutation V (cT s) ->
    nb_rel p qp nb s (verdict p qp (radius N (cP s) p V (fofZ N 0))) (mkC (cP s) Kp (cD s))
| nr_cut Kp R V C h rest : split (cP s) (bisect N qp p) (cT s) Kp R -> Permutation V (cT s) -> R <> [] ->
    zlen (cP s) < pmax -> zlen C = zlen (cP s) -> one_cycle C h rest -> 2 <= zlen rest <= zlen R + 1 ->
    (NoDup (edges R) -> edgeinv C R) ->
    zlen Kp + zlen rest + 1 <= tmax ->
    nb_rel p qp nb s (verdict p qp (radius N (cP s) p V (fofZ N 0)))
      (mkC (cP s ++ [bisect N qp p]) (Kp ++ fan h rest h (zlen (cP s))) (zupd (cD s) nb (zlen (cP s))))
| nr_p Kp R : split (cP s) (bisect N qp p) (cT s) Kp R -> R <> [] -> zlen (cP s) = pmax ->
    nb_rel p qp nb s FailP s
| nr_b Kp R C : split (cP s) (bisect N qp p) (cT s) Kp R -> R <> [] -> zlen (cP s) < pmax ->
    zlen C = zlen (cP s) -> bnd_stuck R C ->
    nb_rel p qp nb s FailB s
| nr_t Kp R C h rest : split (cP s) (bisect N qp p) (cT s) Kp R -> R <> [] -> zlen (cP s) < pmax ->
    zlen C = zlen (cP s) -> one_cycle C h rest -> 2 <= zlen rest <= zlen R + 1 ->
    (NoDup (edges R) -> edgeinv C R) -> tmax < zlen Kp + zlen rest + 1 ->
    nb_rel p qp nb s FailT s.

Definition byte_after (o : nbout) (b : Z) : Z :=
  match o with
  | Cont => clean b
  | Reach => st_set_true (clean b) security_radius_reached
  | FailP => st_set_true b error_p_overflow
  | FailT => st_set_true b error_t_overflow
  | FailB => st_set_true (st_set_true b error_infinite_boundary) error_occurred
  end.
Definition res_of (o : nbout) (s : cst) : nbres :=
  match o with
  | Cont => NbNext (zlen (cP s)) (zlen (cT s))
  | Reach => NbBreak (zlen (cP s)) (zlen (cT s))
  | _ => NbReturn
  end.
Definition ends (pq : list F) (o : nbout) (s : cst) (b : Z) (m : mem F) : Prop :=
  match o with
  | Cont | Reach => rep pq s (byte_after o b) m
  | _ => rowsof pq (byte_after o b) m
  end.

Lemma split_len Pl bis ts Kp R : split Pl bis ts Kp R -> zlen ts = zlen Kp + zlen R.
Proof. intros (P & _). unfold zlen. rewrite <- (Permutation_length P), app_length. lia. Qed.
Lemma split_ok Pl bis ts Kp R n : split Pl bis ts Kp R -> Forall (tri_ok n) ts -> Forall (tri_ok n) Kp /\ Forall (tri_ok n) R.
Proof. intros (P & _) H. apply (perm_ok n (Kp ++ R)) in H; [|assumption]. now apply Forall_app. Qed.

Lemma fan_ok n : forall l u first ps, (forall e, In e (u :: l) -> 0 <= e < ps) -> 0 <= first < ps -> ps < n -> NoDup (u :: l) -> ~ In first (u :: l) ->
  Forall (tri_ok n) (fan u l first ps).
Proof.
  induction l as [|v l IH]; intros u first ps He Hf Hn Nd Ni; cbn [fan].
  - constructor; [|constructor]. specialize (He u (or_introl eq_refl)). simpl in Ni. unfold tri_ok. lia.
  - inversion Nd as [|? ? N1 N2]; subst. constructor.
    + pose proof (He u (or_introl eq_refl)). pose proof (He v (or_intror (or_introl eq_refl))).
      assert (u <> v) by (intros ->; apply N1; now left). unfold tri_ok. lia.
    + apply IH; auto; [intros e Ie; apply He; now right|]. intros X. apply Ni. now right.
Qed.
Lemma fan_cycle_ok n C h rest ps : one_cycle C h rest -> 2 <= zlen rest -> (forall e, In e (h :: rest) -> e < ps) -> ps < n ->
  Forall (tri_ok n) (fan h rest h ps).
Proof.
  intros (Nd & Ch & Rg & _) L Lt Hn. destruct rest as [|v l]; [change (zlen (@nil Z)) with 0 in L; lia|].
  inversion Nd as [|? ? N1 N2]; subst. cbn [fan].
  assert (B : forall e, In e (h :: v :: l) -> 0 <= e < ps) by (intros e He; pose proof (Rg e He); pose proof (Lt e He); lia).
  constructor.
  - pose proof (B h (or_introl eq_refl)). pose proof (B v (or_intror (or_introl eq_refl))).
    assert (h <> v) by (intros ->; apply N1; now left). unfold tri_ok. lia.
  - apply fan_ok; auto.
    + intros e He. apply B. now right.
    + apply B. now left.
Qed.

Lemma run_after {A} pq (f : prog F A) (b : Z) Pl Tr C D : 0 <= b < 256 ->
  run (e <- stm_get N 0 error_occurred ;;
       (if e : bool then stm_clr N 0 error_occurred else Ret tt) ;;;
       e <- stm_get N 0 error_nonvalid_neighbor ;;
       (if e : bool then stm_clr N 0 error_nonvalid_neighbor else Ret tt) ;;; f) (cm N pq Pl Tr C K D b) =
  run f (cm N pq Pl Tr C K D (clean b)).
Proof.
  intros Hb. unfold clean. erewrite run_bind_ok by apply run_get. destruct (st_get b error_occurred).
  - erewrite run_bind_ok by apply run_clr. erewrite run_bind_ok by apply run_get.
    destruct (st_get (st_set_false b error_occurred) error_nonvalid_neighbor); [erewrite run_bind_ok by apply run_clr|]; reflexivity.
  - erewrite (run_bind_ok (Ret tt)) by reflexivity. erewrite run_bind_ok by apply run_get.
    destruct (st_get b error_nonvalid_neighbor); [erewrite run_bind_ok by apply run_clr|]; reflexivity.
Qed.

Lemma verdict_run pq p qp (r : F) s b m : rep pq s (clean b) m ->
  exists m', run (if sr_is_reached N p qp r then stm_set N 0 security_radius_reached ;;; Ret (NbBreak (zlen (cP s)) (zlen (cT s)))
             else Ret (NbNext (zlen (cP s)) (zlen (cT s)))) m = Ok (res_of (verdict p qp r) s, m') /\ ends pq (verdict p qp r) s b m'.
Proof.
  intros (Pj & Tj & C & -> & L1 & L2 & L3). unfold verdict. destruct (sr_is_reached N p qp r).
  - erewrite run_bind_ok by apply run_set. eexists. split; [reflexivity|]. exists Pj, Tj, C. auto.
  - eexists. split; [reflexivity|]. exists Pj, Tj, C. auto.
Qed.

(** one candidate: what happens is decided by the planes and triangles in use *)
Lemma run_neighbor p nb q qp s : good s -> 0 <= nb < k -> znth K nb = Some q -> pts q = Some qp ->
  exists o s', nb_rel p qp nb s o s' /\ good s' /\
    forall wc pq b m, wc_ok wc (Z.min tmax (2 * pmax - 6)) -> rep pq s b m -> 0 <= b < 256 ->
    exists m', run (cell_neighbor N wc lay0 pmax tmax 0 pts p nb (zlen (cP s)) (zlen (cT s))) m = Ok (res_of o s', m') /\
      ends pq o s' b m'.
Proof.
  intros G Hnb Hq Hqp. assert (G0 := G). destruct G as (G1 & G2 & G3 & G4 & G5).
  set (bis := bisect N qp p).
  destruct (run_tri N (cP s) p bis (length (cT s)) (cT s) eq_refl G2) as (Kp & R & V & P1 & P2 & F1 & F2 & ET).
  assert (OKK : Forall (tri_ok (zlen (cP s))) Kp /\ Forall (tri_ok (zlen (cP s))) R).
  { apply Forall_app. apply (perm_ok _ _ _ P1). assumption. }
  destruct OKK as [OK OR].
  assert (SP : split (cP s) bis (cT s) Kp R) by (split; auto).
  set (rad := radius N (cP s) p V (fofZ N 0)).
  pose proof (split_len _ _ _ _ _ SP) as SL. pose proof (zlen_nonneg Kp). pose proof (zlen_nonneg R).
  assert (PRE : forall wc pq Pj Tj C b,
    run (cell_neighbor N wc lay0 pmax tmax 0 pts p nb (zlen (cP s)) (zlen (cT s))) (cm N pq (cP s ++ Pj) (cT s ++ Tj) C K (cD s) b) =
    run (r <- cell_cut N wc lay0 pmax tmax 0 nb (zlen (cP s)) (zlen Kp) (zlen R) bis ;;
         match r with
         | None => Ret NbReturn
         | Some (psize, tsize) =>
             e <- stm_get N 0 error_occurred ;;
             (if e : bool then stm_clr N 0 error_occurred else Ret tt) ;;;
             e <- stm_get N 0 error_nonvalid_neighbor ;;
             (if e : bool then stm_clr N 0 error_nonvalid_neighbor else Ret tt) ;;;
             if sr_is_reached N p qp rad then stm_set N 0 security_radius_reached ;;; Ret (NbBreak psize tsize)
             else Ret (NbNext psize tsize)
         end) (cm N pq (cP s ++ Pj) (Kp ++ R ++ Tj) C K (cD s) b)).
  { intros wc pq Pj Tj C b. unfold cell_neighbor. erewrite run_bind_ok by (apply (run_rd AHeapId); exact Hq). rewrite Hqp.
    erewrite (run_bind_ok (pure_opt (Some qp))) by reflexivity. fold bis.
    pose proof (ET pq Pj C K (cD s) b [] Tj 0 (fofZ N 0)) as E. rewrite zlen_nil, !Z.add_0_l in E. specialize (E ltac:(lia)).
    replace (Z.to_nat (zlen (cT s))) with (length (cT s)) by (unfold zlen; lia).
    rewrite (run_bind_ok _ _ _ _ _ E). reflexivity. }
  unfold cell_cut in PRE. destruct (Z.ltb_spec 0 (zlen R)) as [LR|LR].
  2:{ (* nothing removed *)
      assert (R = []) by (destruct R; [reflexivity|rewrite zlen_cons in LR; pose proof (zlen_nonneg R); lia]). subst R.
      set (s' := mkC (cP s) Kp (cD s)). rewrite zlen_nil in SL.
      exists (verdict p qp rad), s'. split; [apply (nr_none p qp nb s Kp V); assumption|].
      split. { split; [assumption|]. split; [exact OK|]. split; [|split; [assumption|]]; change (cT s') with Kp; simpl cP; lia. }
      intros wc pq b m Hwc (Pj & Tj & C & -> & L1 & L2 & L3) Hb. rewrite PRE.
      rewrite run_bind. erewrite run_bind_ok by apply run_set. rewrite run_Ret. cbv beta iota.
      rewrite run_after by apply set_true_byte. rewrite clean_set by assumption.
      apply (verdict_run pq p qp rad s' b). exists Pj, Tj, C. split; [reflexivity|]. split; [assumption|]. split; [|assumption].
      change (cT s') with Kp. rewrite zlen_app in *. lia. }
  assert (NR : R <> []) by (intros ->; change (zlen (@nil tri)) with 0 in LR; lia).
  destruct (Z.leb_spec pmax (zlen (cP s))) as [LP|LP].
  { exists FailP, s. split; [apply (nr_p p qp nb s Kp R); auto; lia|]. split; [assumption|].
    intros wc pq b m Hwc (Pj & Tj & C & -> & L1 & L2 & L3) Hb. rewrite PRE.
    rewrite run_bind. erewrite run_bind_ok by apply run_set. rewrite run_Ret. cbv beta iota.
    eexists. split; [reflexivity|]. exists (cP s ++ Pj), (Kp ++ R ++ Tj), C, (cD s).
    split; [reflexivity|]. split; [assumption|]. split; [rewrite !zlen_app in *; lia|]. auto. }
  destruct (run_bnd (F := F) (zlen (cP s)) pmax R ltac:(lia) ltac:(lia) ltac:(lia) OR)
    as (st & head & C1 & R' & PB & LC1 & DB & EB).
  set (C' := C1 ++ repeat 255 (Z.to_nat (pmax - zlen (cP s)))) in *.
  assert (LC' : zlen C' = pmax) by (unfold C'; rewrite zlen_app, zlen_repeat; lia).
  set (D' := zupd (cD s) nb (zlen (cP s))).
  assert (LD : zlen D' = k) by (unfold D'; rewrite zlen_zupd; assumption).
  assert (LR' : zlen R' = zlen R) by (unfold zlen; now rewrite (Permutation_length PB)).
  assert (PRE2 : forall wc pq pj Pj Tj C b, wc_ok wc (Z.min tmax (2 * pmax - 6)) -> zlen (cP s ++ pj :: Pj) = pmax -> zlen C = pmax ->
    run (cell_neighbor N wc lay0 pmax tmax 0 pts p nb (zlen (cP s)) (zlen (cT s))) (cm N pq (cP s ++ pj :: Pj) (cT s ++ Tj) C K (cD s) b) =
    run (r <- match st with
              | Bunreachable => stm_set N 0 error_infinite_boundary ;;; stm_set N 0 error_occurred ;;; Ret None
              | Bsuccess =>
                  r <- fan_loop N lay0 tmax 0 (Z.to_nat tmax) head head (zlen Kp) (zlen (cP s) + 1) ;;
                  match r with None => Ret None | Some tsize => Ret (Some (zlen (cP s) + 1, tsize)) end
              end ;;
         match r with
         | None => Ret NbReturn
         | Some (psize, tsize) =>
             e <- stm_get N 0 error_occurred ;;
             (if e : bool then stm_clr N 0 error_occurred else Ret tt) ;;;
             e <- stm_get N 0 error_nonvalid_neighbor ;;
             (if e : bool then stm_clr N 0 error_nonvalid_neighbor else Ret tt) ;;;
             if sr_is_reached N p qp rad then stm_set N 0 security_radius_reached ;;; Ret (NbBreak psize tsize)
             else Ret (NbNext psize tsize)
         end) (cm N pq (cP s ++ bis :: Pj) (Kp ++ R' ++ Tj) C' K D' b)).
  { intros wc pq pj Pj Tj C b Hwc L1 L3. rewrite PRE.
    rewrite run_bind. erewrite run_bind_ok by (apply run_wrp; rewrite zlen_app, zlen_cons; pose proof (zlen_nonneg Pj); lia).
    rewrite zupd_mid.
    erewrite (run_bind_ok (wr ADknn (aD lay0 nb) (zlen (cP s)))).
    2:{ destruct (znth_in_range (cD s) nb ltac:(lia)) as [w Hw]. apply (run_wr ADknn nb (zlen (cP s)) _ w). exact Hw. }
    change (mwr (cm N pq (cP s ++ bis :: Pj) (Kp ++ R ++ Tj) C K (cD s) b) ADknn nb (zlen (cP s)))
      with (cm N pq (cP s ++ bis :: Pj) (Kp ++ R ++ Tj) C K D' b).
    cbv zeta.
    pose proof (run_reset N pq (cP s ++ bis :: Pj) (Kp ++ R ++ Tj) K D' b C []) as ER. rewrite zlen_nil, Z.add_0_l, L3 in ER. simpl app in ER.
    rewrite (run_bind_ok _ _ _ _ _ ER). clear ER.
    replace (length C) with (Z.to_nat pmax) by (unfold zlen in L3; lia).
    set (C0 := repeat 255 (Z.to_nat pmax)) in *.
    pose proof (EB wc (cm N pq (cP s ++ bis :: Pj) (Kp ++ R ++ Tj) C0 K D' b) Kp Tj) as EB'.
    specialize (EB' ltac:(eapply wc_ok_mono; [|eassumption]; lia)).
    change (bm (cm N pq (cP s ++ bis :: Pj) (Kp ++ R ++ Tj) C0 K D' b) Kp Tj C0 R) with (cm N pq (cP s ++ bis :: Pj) (Kp ++ R ++ Tj) C0 K D' b) in EB'.
    change (bm (cm N pq (cP s ++ bis :: Pj) (Kp ++ R ++ Tj) C0 K D' b) Kp Tj C' R') with (cm N pq (cP s ++ bis :: Pj) (Kp ++ R' ++ Tj) C' K D' b) in EB'.
    change (rbase lay0) with 0. change (tbase lay0) with 0. rewrite Z.add_0_l, (Z.mul_comm (zlen Kp) 3).
    rewrite (run_bind_ok _ _ _ _ _ EB'). cbv beta iota. symmetry. apply run_bind. }
  assert (REP : forall pq b m, rep pq s b m -> exists pj Pj Tj C, m = cm N pq (cP s ++ pj :: Pj) (cT s ++ Tj) C K (cD s) b /\
     zlen (cP s ++ pj :: Pj) = pmax /\ zlen C = pmax /\ zlen (cP s ++ bis :: Pj) = pmax /\ zlen (Kp ++ R' ++ Tj) = tmax).
  { intros pq b m (Pj & Tj & C & -> & L1 & L2 & L3). destruct Pj as [|pj Pj]; [rewrite app_nil_r in L1; lia|].
    exists pj, Pj, Tj, C. split; [reflexivity|]. split; [assumption|]. split; [assumption|]. rewrite !zlen_app in *. rewrite zlen_cons in *. lia. }
  destruct DB as [[-> (rest & OC & Lr & EI)]|[-> STK]].
  2:{ exists FailB, s. split; [apply (nr_b p qp nb s Kp R C1); auto|]. split; [assumption|].
      intros wc pq b m Hwc Rp Hb. destruct (REP _ _ _ Rp) as (pj & Pj & Tj & C & -> & L1 & L3 & LP' & LT').
      rewrite PRE2 by assumption. rewrite run_bind.
      erewrite run_bind_ok by apply run_set. erewrite run_bind_ok by apply run_set. rewrite run_Ret. cbv beta iota.
      eexists. split; [reflexivity|]. exists (cP s ++ bis :: Pj), (Kp ++ R' ++ Tj), C', D'. auto 10. }
  assert (OC0 := OC). destruct OC0 as (Nd & Ch & Rg & Ou).
  assert (Ch' : chain C' head rest head).
  { apply (chain_ext C1); [|assumption]. intros u Hu. unfold C'. apply znth_app1. specialize (Rg u Hu). lia. }
  assert (Rg' : forall e, In e (head :: rest) -> 0 <= e < zlen C') by (intros e He; specialize (Rg e He); lia).
  assert (FAN : forall pq Pj Tj b, zlen (Kp ++ R' ++ Tj) = tmax -> _) by
    (intros pq Pj Tj b LT'; refine (run_fan N pq tmax (cP s ++ bis :: Pj) C' K D' b head (zlen (cP s) + 1) ltac:(lia) ltac:(lia)
       ltac:(intros e [<-|[]]; apply Rg'; now left) rest head Kp (R' ++ Tj) (Z.to_nat tmax) Ch' ltac:(now inversion Nd) Rg' LT' _);
     rewrite zlen_app in LT'; lia).
  destruct (Z_le_gt_dec (zlen Kp + zlen rest + 1) tmax) as [Le|Gt].
  - (* success *)
    set (s' := mkC (cP s ++ [bis]) (Kp ++ fan head rest head (zlen (cP s))) D').
    assert (LPs : zlen (cP s') = zlen (cP s) + 1) by (simpl; rewrite zlen_app, zlen_one; reflexivity).
    assert (LTs : zlen (cT s') = zlen Kp + zlen rest + 1) by (simpl; rewrite zlen_app, fan_length; lia).
    exists (verdict p qp rad), s'. split; [apply (nr_cut p qp nb s Kp R V C1 head rest); auto|].
    { intros ND. apply (edgeinv_perm _ R'); auto. }
    split.
    { split; [lia|]. split; [|split; [lia|split; [assumption|lia]]].
      rewrite LPs. simpl cT. apply Forall_app. split.
      + eapply Forall_impl; [|exact OK]. intros t. apply tri_ok_mono. lia.
      + apply (fan_cycle_ok _ C1); auto; try lia. intros e He. specialize (Rg e He). lia. }
    intros wc pq b m Hwc Rp Hb. destruct (REP _ _ _ Rp) as (pj & Pj & Tj & C & -> & L1 & L3 & LP' & LT').
    rewrite PRE2 by assumption.
    destruct (FAN pq Pj Tj b LT') as [(_ & Z1 & EF & LF)|(Q & _)]; [|lia].
    rewrite run_bind. rewrite (run_bind_ok _ _ _ _ _ EF). cbv beta iota. rewrite run_Ret. cbv beta iota.
    rewrite run_after by assumption. replace (zlen (cP s) + 1 - 1) with (zlen (cP s)) in * by lia.
    rewrite <- LPs, <- LTs.
    apply (verdict_run pq p qp rad s' b). exists Pj, Z1, C'. simpl. rewrite <- (app_assoc (cP s)). auto.
  - exists FailT, s. split; [apply (nr_t p qp nb s Kp R C1 head rest); auto; [intros ND; apply (edgeinv_perm _ R'); auto|lia]|]. split; [assumption|].
    intros wc pq b m Hwc Rp Hb. destruct (REP _ _ _ Rp) as (pj & Pj & Tj & C & -> & L1 & L3 & LP' & LT').
    rewrite PRE2 by assumption.
    destruct (FAN pq Pj Tj b LT') as [(Q & _)|(_ & Tr' & EF & LF)]; [lia|].
    rewrite run_bind. rewrite (run_bind_ok _ _ _ _ _ EF). cbv beta iota. rewrite run_Ret. cbv beta iota.
    eexists. split; [reflexivity|]. exists (cP s ++ bis :: Pj), Tr', C', D'. auto 10.
Qed.
End Cell.
