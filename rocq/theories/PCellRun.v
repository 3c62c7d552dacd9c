(** The pieces of cci::compute on a memory holding one slot's rows. *)
From Verif Require Import Base Arith PBase Prog PProg MUtils MBoundary MCell PFlags
  SpecBnd PHeap PBnd PBndRun PBndLoop PCellSim.
From Verif Require Export SpecCell.
Local Open Scope prog_scope.

Lemma zlen_one {A} (x : A) : zlen [x] = 1.
Proof. reflexivity. Qed.
Lemma list_snoc {A} (l : list A) : l = [] \/ exists l' x, l = l' ++ [x].
Proof. destruct l as [|x l] using rev_ind; [now left|right; eauto]. Qed.
Lemma zupd_mid {A} (a b : list A) x y : zupd (a ++ x :: b) (zlen a) y = a ++ y :: b.
Proof.
  apply znth_ext. intros i. pose proof (zlen_nonneg a). pose proof (zlen_nonneg b).
  destruct (Z.eq_dec (zlen a) i) as [<-|Ni].
  - rewrite znth_zupd_same by (rewrite zlen_app, zlen_cons; lia). rewrite znth_app2 by lia. rewrite Z.sub_diag. now rewrite znth_0.
  - rewrite znth_zupd_other by assumption. destruct (Z_lt_dec i (zlen a)).
    + now rewrite !znth_app1 by lia.
    + rewrite !znth_app2 by lia. rewrite !znth_cons by lia. reflexivity.
Qed.
Lemma zupd_app2 {A} (a b : list A) i y : 0 <= i -> zupd (a ++ b) (zlen a + i) y = a ++ zupd b i y.
Proof.
  intros Hi. apply znth_ext. intros q. pose proof (zlen_nonneg a). destruct (Z_lt_dec q (zlen a)).
  - rewrite znth_zupd_other, !znth_app1 by lia. reflexivity.
  - rewrite (znth_app2 a (zupd b i y)) by lia. destruct (Z.eq_dec (zlen a + i) q) as [<-|Nq].
    + replace (zlen a + i - zlen a) with i by lia. destruct (Z_lt_dec i (zlen b)).
      * rewrite !znth_zupd_same by (rewrite ?zlen_app; lia). reflexivity.
      * transitivity (@None A); [|symmetry]; apply znth_none; rewrite zlen_zupd, ?zlen_app; lia.
    + rewrite !znth_zupd_other by lia. rewrite znth_app2 by lia. reflexivity.
Qed.
Lemma zupd_appl {A} (a b : list A) i y : i < zlen a -> zupd (a ++ b) i y = zupd a i y ++ b.
Proof.
  intros Hi. apply znth_ext. intros q. destruct (Z.eq_dec i q) as [<-|Nq].
  - destruct (Z_lt_dec i 0).
    + transitivity (@None A); [|symmetry]; apply znth_none; lia.
    + pose proof (zlen_nonneg b). rewrite znth_zupd_same by (rewrite zlen_app; lia). rewrite znth_app1 by (rewrite zlen_zupd; lia).
      now rewrite znth_zupd_same by lia.
  - rewrite znth_zupd_other by assumption. destruct (Z_lt_dec q (zlen a)).
    + rewrite !znth_app1 by (rewrite ?zlen_zupd; lia). now rewrite znth_zupd_other.
    + rewrite !znth_app2 by (rewrite ?zlen_zupd; lia). now rewrite zlen_zupd.
Qed.
Lemma znth_mid {A} (a b : list A) x : znth (a ++ x :: b) (zlen a) = Some x.
Proof. rewrite znth_app2 by lia. rewrite Z.sub_diag. apply znth_0. Qed.
Lemma zswap_ends {A} (t u : A) B : zswap (t :: B ++ [u]) 0 (zlen B + 1) = u :: B ++ [t].
Proof.
  pose proof (zlen_nonneg B).
  assert (L : forall x y : A, zlen (x :: B ++ [y]) = zlen B + 2) by (intros; rewrite zlen_cons, zlen_app, ?zlen_cons, ?zlen_nil; lia).
  apply znth_ext. intros i. rewrite znth_zswap by (rewrite L; lia).
  assert (E : forall x y : A, znth (x :: B ++ [y]) (zlen B + 1) = Some y).
  { intros x y. rewrite znth_cons by lia. rewrite znth_app2 by lia. replace (zlen B + 1 - 1 - zlen B) with 0 by lia. apply znth_0. }
  destruct (Z.eqb_spec i 0) as [->|N0]; [rewrite E, znth_0; reflexivity|].
  destruct (Z.eqb_spec i (zlen B + 1)) as [->|N1]; [rewrite E, znth_0; reflexivity|].
  destruct (Z_lt_dec i 0).
  { transitivity (@None A); [|symmetry]; apply znth_none; lia. }
  rewrite !znth_cons by lia. destruct (Z_lt_dec (i - 1) (zlen B)).
  - now rewrite !znth_app1 by lia.
  - transitivity (@None A); [|symmetry]; apply znth_none; rewrite zlen_app, zlen_one; lia.
Qed.

Section Cell.
Variable N : Arith.
Notation F := (F N).
Notation point := (point N).
Notation plane := (plane N).

Notation flat4 := (flat4 N).
Definition pcomp (p : plane) (c : Z) : F :=
  let '(x, y, z, w) := p in if c =? 0 then x else if c =? 1 then y else if c =? 2 then z else w.

Lemma zlen_flat4 l : zlen (flat4 l) = 4 * zlen l.
Proof.
  induction l as [|[[[a b] c] d] l IH]; [reflexivity|].
  change (flat4 (((a, b, c), d) :: l)) with ([a; b; c; d] ++ flat4 l). rewrite zlen_app, IH.
  change (zlen [a; b; c; d]) with 4. rewrite zlen_cons. lia.
Qed.
Lemma flat4_app a b : flat4 (a ++ b) = flat4 a ++ flat4 b.
Proof. apply flat_map_app. Qed.
Lemma znth_flat4 A p B c : 0 <= c < 4 -> znth (flat4 (A ++ p :: B)) (4 * zlen A + c) = Some (pcomp p c).
Proof.
  intros Hc. rewrite flat4_app. rewrite znth_app2 by (rewrite zlen_flat4; lia). rewrite zlen_flat4.
  replace (4 * zlen A + c - 4 * zlen A) with c by lia. destruct p as [[[x y] z] w].
  assert (c = 0 \/ c = 1 \/ c = 2 \/ c = 3) as [->|[->|[-> | ->]]] by lia; reflexivity.
Qed.
Lemma split_at {A} (l : list A) j x : znth l j = Some x -> exists a b, l = a ++ x :: b /\ zlen a = j.
Proof.
  intros H. pose proof (znth_some _ _ _ H) as R. unfold znth in H. replace (0 <=? j) with true in H by lia.
  destruct (nth_error_split _ _ H) as (a & b & E & La). exists a, b. split; [assumption|]. unfold zlen. lia.
Qed.

Notation cm := (cm N).

Section One.
Variable pq : list F.

Lemma run_rdp Pl Tr C K D b j p : znth Pl j = Some p ->
  run (rd_plane N lay0 j) (cm pq Pl Tr C K D b) = Ok (p, cm pq Pl Tr C K D b).
Proof.
  intros H. destruct (split_at _ _ _ H) as (A & B & -> & <-). unfold rd_plane. simpl aP.
  assert (Q : forall c, 0 <= c < 4 -> run (rd AP (4 * zlen A + c)) (cm pq (A ++ p :: B) Tr C K D b) = Ok (pcomp p c, cm pq (A ++ p :: B) Tr C K D b)).
  { intros c Hc. apply (run_rd AP). apply znth_flat4. assumption. }
  do 4 (erewrite run_bind_ok by (apply Q; lia)). rewrite run_Ret. destruct p as [[[x y] z] w]. reflexivity.
Qed.

Lemma run_wrp Pl Tr C K D b j p : 0 <= j < zlen Pl ->
  run (wr_plane N lay0 j p) (cm pq Pl Tr C K D b) = Ok (tt, cm pq (zupd Pl j p) Tr C K D b).
Proof.
  intros Hj. destruct (znth_in_range _ _ Hj) as [o Ho]. destruct (split_at _ _ _ Ho) as (A & B & -> & <-). rewrite zupd_mid.
  destruct p as [[[x y] z] w], o as [[[x0 y0] z0] w0]. unfold wr_plane. simpl aP.
  assert (Q : forall (p q : plane) c v, 0 <= c < 4 -> zupd (flat4 (A ++ p :: B)) (4 * zlen A + c) v = flat4 (A ++ q :: B) ->
     run (wr AP (4 * zlen A + c) v) (cm pq (A ++ p :: B) Tr C K D b) = Ok (tt, cm pq (A ++ q :: B) Tr C K D b)).
  { intros p q c v Hc E. rewrite (run_wr AP _ _ _ (pcomp p c)) by (apply znth_flat4; assumption). unfold mwr. simpl. unfold cm. rewrite E. reflexivity. }
  assert (U : forall (p : plane) c v, 0 <= c < 4 -> zupd (flat4 (A ++ p :: B)) (4 * zlen A + c) v = flat4 A ++ zupd (flat4 [p]) c v ++ flat4 B).
  { intros p c v Hc. pose proof (zlen_flat4 A) as LA. pose proof (zlen_nonneg (flat4 B)).
    change (p :: B) with ([p] ++ B). rewrite !flat4_app.
    assert (L1 : zlen (flat4 [p]) = 4) by (rewrite zlen_flat4; reflexivity).
    rewrite <- LA, zupd_app2, zupd_appl by lia. reflexivity. }
  pose proof (fun p q c v Hc E => Q p q c v Hc (eq_trans (U p c v Hc) E)) as Q'. clear Q. simpl aP.
  erewrite run_bind_ok by (apply (Q' _ (((x, y0), z0), w0)); [lia|change (((x, y0), z0, w0) :: B) with ([((x, y0), z0, w0)] ++ B); rewrite !flat4_app; reflexivity]).
  erewrite run_bind_ok by (apply (Q' _ (((x, y), z0), w0)); [lia|change (((x, y), z0, w0) :: B) with ([((x, y), z0, w0)] ++ B); rewrite !flat4_app; reflexivity]).
  erewrite run_bind_ok by (apply (Q' _ (((x, y), z), w0)); [lia|change (((x, y), z, w0) :: B) with ([((x, y), z, w0)] ++ B); rewrite !flat4_app; reflexivity]).
  apply Q'; [lia|]. change (((x, y), z, w) :: B) with ([((x, y), z, w)] ++ B). rewrite !flat4_app. reflexivity.
Qed.

Lemma run_rdT Pl Tr C K D b t c x : znth Tr t = Some x -> 0 <= c < 3 ->
  run (rd AT (aT lay0 t c)) (cm pq Pl Tr C K D b) = Ok (comp x c, cm pq Pl Tr C K D b).
Proof.
  intros H Hc. apply (run_rd AT). unfold mrd. simpl. unfold aT. simpl tbase. rewrite Z.add_0_l. apply znth_flat; assumption.
Qed.
Lemma run_wrT Pl Tr C K D b t c x v : znth Tr t = Some x -> 0 <= c < 3 ->
  run (wr AT (aT lay0 t c) v) (cm pq Pl Tr C K D b) = Ok (tt, cm pq Pl (zupd Tr t (setc x c v)) C K D b).
Proof.
  intros H Hc. rewrite (run_wr AT _ _ _ (comp x c)).
  - unfold mwr, cm. simpl. unfold aT. simpl tbase. rewrite Z.add_0_l. rewrite (zupd_flat Tr t c x v H Hc). reflexivity.
  - unfold mrd. simpl. unfold aT. simpl tbase. rewrite Z.add_0_l. apply znth_flat; assumption.
Qed.
Lemma run_wrt Pl Tr C K D b t x y z : 0 <= t < zlen Tr -> 0 <= x < 256 -> 0 <= y < 256 -> 0 <= z < 256 ->
  run (wr_tri N lay0 t x y z) (cm pq Pl Tr C K D b) = Ok (tt, cm pq Pl (zupd Tr t (x, y, z)) C K D b).
Proof.
  intros Ht Hx Hy Hz. destruct (znth_in_range _ _ Ht) as [[[u v] w] Ho]. unfold wr_tri. rewrite !w8_id by assumption.
  erewrite run_bind_ok by (eapply run_wrT; [eassumption|lia]).
  erewrite run_bind_ok by (eapply run_wrT; [apply znth_zupd_same; assumption|lia]).
  erewrite run_wrT by (try apply znth_zupd_same; rewrite ?zlen_zupd; try assumption; lia). rewrite !zupd_twice. reflexivity.
Qed.

Lemma run_swap3 {A} Pl Tr C K D b t t' (f : prog F A) : 0 <= t < zlen Tr -> 0 <= t' < zlen Tr ->
  run (swapT N (aT lay0 t 0) (aT lay0 t' 0) ;;; swapT N (aT lay0 t 1) (aT lay0 t' 1) ;;; swapT N (aT lay0 t 2) (aT lay0 t' 2) ;;; f)
    (cm pq Pl Tr C K D b) = run f (cm pq Pl (zswap Tr t t') C K D b).
Proof.
  intros Ht Ht'.
  assert (E : run (bnd_swap 0 t t') (cm pq Pl Tr C K D b) = Ok (tt, cm pq Pl (zswap Tr t t') C K D b)).
  { pose proof (run_bswap (cm pq Pl Tr C K D b) [] [] C Tr t t' Ht Ht') as Q. unfold bm in Q. simpl in Q. rewrite !app_nil_r in Q. exact Q. }
  transitivity (run (bnd_swap 0 t t' ;;; f) (cm pq Pl Tr C K D b)).
  - assert (AA : forall t c, aT lay0 t c = 0 + t * 3 + c) by (intros; unfold aT; simpl tbase; lia). rewrite !AA. reflexivity.
  - erewrite run_bind_ok by exact E. reflexivity.
Qed.

(** ** state byte *)
Lemma run_set Pl Tr C K D b s : run (stm_set N 0 s) (cm pq Pl Tr C K D b) = Ok (tt, cm pq Pl Tr C K D (st_set_true b s)).
Proof. reflexivity. Qed.
Lemma run_clr Pl Tr C K D b s : run (stm_clr N 0 s) (cm pq Pl Tr C K D b) = Ok (tt, cm pq Pl Tr C K D (st_set_false b s)).
Proof. reflexivity. Qed.
Lemma run_get Pl Tr C K D b s : run (stm_get N 0 s) (cm pq Pl Tr C K D b) = Ok (st_get b s, cm pq Pl Tr C K D b).
Proof. reflexivity. Qed.

(** ** initialisation *)
Lemma run_init_P (g : Z * (Z * Z * Z * Z) -> Z * plane) Tr C K D b : forall l A B,
  (length l <= length B)%nat ->
  run (forM (zenum_from (zlen A) l) (fun '(j, p) => wr_plane N lay0 j p)) (cm pq (A ++ B) Tr C K D b)
  = Ok (tt, cm pq (A ++ l ++ skipn (length l) B) Tr C K D b).
Proof.
  induction l as [|p l IH]; intros A B HB; [reflexivity|].
  destruct B as [|q B]; [simpl in HB; lia|]. cbn [zenum_from forM].
  erewrite run_bind_ok by (apply run_wrp; rewrite zlen_app, zlen_cons; pose proof (zlen_nonneg A); pose proof (zlen_nonneg B); lia).
  rewrite zupd_mid. replace (zlen A + 1) with (zlen (A ++ [p])) by (rewrite zlen_app; reflexivity).
  replace (A ++ p :: B) with ((A ++ [p]) ++ B) by (rewrite <- app_assoc; reflexivity).
  rewrite IH by (simpl in HB; lia). rewrite <- app_assoc. reflexivity.
Qed.
Lemma run_init_T Pl C K D b : forall l A B,
  (length l <= length B)%nat -> Forall (tri_ok 256) l ->
  run (forM (zenum_from (zlen A) l) (fun '(j, (x, y, z)) => wr_tri N lay0 j x y z)) (cm pq Pl (A ++ B) C K D b)
  = Ok (tt, cm pq Pl (A ++ l ++ skipn (length l) B) C K D b).
Proof.
  induction l as [|[[x y] z] l IH]; intros A B HB Hok; [reflexivity|].
  destruct B as [|q B]; [simpl in HB; lia|]. cbn [zenum_from forM]. inversion Hok as [|? ? Ho Hok']; subst. destruct Ho as (Hx & Hy & Hz & _).
  erewrite run_bind_ok by (apply run_wrt; rewrite ?zlen_app, ?zlen_cons; pose proof (zlen_nonneg A); pose proof (zlen_nonneg B); lia).
  rewrite zupd_mid. pose proof (IH (A ++ [(x, y, z)]) B ltac:(simpl in HB; lia) Hok') as Q.
  rewrite zlen_app in Q. rewrite <- !app_assoc in Q. exact Q.
Qed.

(** the planes and triangles of the unit cube *)
Definition cubeP : list plane := map (fun '(a, b, c, d) => (fofZ N a, fofZ N b, fofZ N c, fofZ N d)) p_init.

Lemma run_cinit Pl Tr C K D b : 6 <= zlen Pl -> 8 <= zlen Tr ->
  run (cell_init N lay0) (cm pq Pl Tr C K D b) = Ok (tt, cm pq (cubeP ++ skipn 6 Pl) (t_init ++ skipn 8 Tr) C K D b).
Proof.
  intros HP HT. unfold cell_init.
  assert (E : run (forM (zenum_from 0 p_init) (fun '(j, (a, b, c, d)) => wr_plane N lay0 j (fofZ N a, fofZ N b, fofZ N c, fofZ N d))) (cm pq Pl Tr C K D b)
     = Ok (tt, cm pq (cubeP ++ skipn 6 Pl) Tr C K D b)).
  { apply (run_init_P (fun x => (0, (fofZ N 0, fofZ N 0, fofZ N 0, fofZ N 0))) Tr C K D b cubeP [] Pl). simpl. unfold zlen in HP. lia. }
  erewrite run_bind_ok by exact E.
  apply (run_init_T (cubeP ++ skipn 6 Pl) C K D b t_init [] Tr).
  - simpl. unfold zlen in HT. lia.
  - unfold t_init. repeat constructor; simpl; lia.
Qed.

(** ** the classification loop *)
Definition pl_at (Pl : list plane) (j : Z) : plane :=
  match znth Pl j with Some p => p | None => (fofZ N 0, fofZ N 0, fofZ N 0, fofZ N 0) end.
(** the vertex a triangle of planes denotes *)
Definition vtx (Pl : list plane) (t : tri) : plane := let '(a, b, c) := t in intersect N (pl_at Pl a) (pl_at Pl b) (pl_at Pl c).
Definition vpt (v : plane) : point := let '(x, y, z, _) := v in (x, y, z).
(** the bisector removes the vertex *)
Definition removed (Pl : list plane) (bis : plane) (t : tri) : bool := flt N (fofZ N 0) (dot N (vtx Pl t) bis).
Definition radius (Pl : list plane) (p : point) (V : list tri) (r : F) : F :=
  fold_left (fun r t => sr_update N p (vpt (vtx Pl t)) r) V r.

(** ** the fan of new triangles *)
Fixpoint fan (u : Z) (l : list Z) (first ps : Z) : list tri :=
  match l with
  | [] => [(u, first, ps)]
  | v :: l => (u, v, ps) :: fan v l first ps
  end.
Lemma fan_length l : forall u first ps, zlen (fan u l first ps) = zlen l + 1.
Proof. induction l as [|v l IH]; intros; simpl; [reflexivity|]. rewrite !zlen_cons, IH. reflexivity. Qed.

Lemma run_fan tmax Pl C K D b first ps : zlen C <= 255 -> 1 <= ps <= 255 ->
  (forall e, In e [first] -> 0 <= e < zlen C) -> forall l head A Z0 fuel,
  chain C head l first -> ~ In first l -> (forall e, In e (head :: l) -> 0 <= e < zlen C) ->
  zlen (A ++ Z0) = tmax -> zlen Z0 <= Z.of_nat fuel ->
  (zlen A + zlen l + 1 <= tmax /\ exists Z1,
     run (fan_loop N lay0 tmax 0 fuel first head (zlen A) ps) (cm pq Pl (A ++ Z0) C K D b)
     = Ok (Some (zlen A + zlen l + 1), cm pq Pl ((A ++ fan head l first (ps - 1)) ++ Z1) C K D b) /\
     zlen ((A ++ fan head l first (ps - 1)) ++ Z1) = tmax) \/
  (tmax < zlen A + zlen l + 1 /\ exists Tr',
     run (fan_loop N lay0 tmax 0 fuel first head (zlen A) ps) (cm pq Pl (A ++ Z0) C K D b)
     = Ok (None, cm pq Pl Tr' C K D (st_set_true b error_t_overflow)) /\ zlen Tr' = tmax).
Proof.
  intros HC Hps Hf. induction l as [|v l IH]; intros head A Z0 fuel Hch Hnf Hrg Ht Hfuel.
  - pose proof (zlen_nonneg A). pose proof (zlen_nonneg Z0). rewrite zlen_app in Ht.
    assert (Hh : 0 <= head < zlen C) by (apply Hrg; now left). assert (Hff : 0 <= first < zlen C) by (apply Hf; now left).
    destruct fuel as [|fuel]; cbn [fan_loop].
    + right. rewrite zlen_nil. split; [lia|]. replace (tmax <=? zlen A) with true by lia. exists (A ++ Z0). split; [reflexivity|]. rewrite zlen_app. lia.
    + destruct (Z.leb_spec tmax (zlen A)) as [L|L].
      * right. rewrite zlen_nil. split; [lia|]. exists (A ++ Z0). split; [reflexivity|]. rewrite zlen_app. lia.
      * left. rewrite zlen_nil. split; [lia|]. destruct Z0 as [|z Z1]; [change (zlen (@nil tri)) with 0 in *; lia|].
        exists Z1. simpl in Hch.
        erewrite run_bind_ok by (apply (run_rd AdR); exact Hch).
        erewrite run_bind_ok by (apply run_wrt; rewrite ?zlen_app, ?zlen_cons in *; lia). rewrite zupd_mid.
        cbv zeta. rewrite Z.eqb_refl. split.
        -- rewrite run_Ret. rewrite <- app_assoc. rewrite Z.add_0_r. reflexivity.
        -- cbn [fan]. rewrite !zlen_app, zlen_one. rewrite zlen_cons in Ht. lia.
  - destruct Hch as [Hv Hch]. pose proof (zlen_nonneg A). pose proof (zlen_nonneg Z0). pose proof (zlen_nonneg l). rewrite zlen_app in Ht.
    assert (Hh : 0 <= head < zlen C) by (apply Hrg; now left).
    assert (Hvv : 0 <= v < zlen C) by (apply Hrg; right; now left).
    rewrite zlen_cons.
    destruct fuel as [|fuel]; cbn [fan_loop].
    + right. split; [lia|]. replace (tmax <=? zlen A) with true by lia. exists (A ++ Z0). split; [reflexivity|]. rewrite zlen_app. lia.
    + destruct (Z.leb_spec tmax (zlen A)) as [L|L].
      * right. split; [lia|]. exists (A ++ Z0). split; [reflexivity|]. rewrite zlen_app. lia.
      * destruct Z0 as [|z Z1]; [change (zlen (@nil tri)) with 0 in *; lia|].
        erewrite run_bind_ok by (apply (run_rd AdR); exact Hv).
        erewrite run_bind_ok by (apply run_wrt; rewrite ?zlen_app, ?zlen_cons in *; lia). rewrite zupd_mid.
        cbv zeta. destruct (Z.eqb_spec v first) as [->|Nv]; [exfalso; apply Hnf; now left|].
        replace (A ++ (head, v, ps - 1) :: Z1) with ((A ++ [(head, v, ps - 1)]) ++ Z1) by (rewrite <- app_assoc; reflexivity).
        assert (LA : zlen (A ++ [(head, v, ps - 1)]) = zlen A + 1) by (rewrite zlen_app, ?zlen_cons, ?zlen_nil; lia).
        rewrite <- LA.
        destruct (IH v (A ++ [(head, v, ps - 1)]) Z1 fuel Hch) as [(Le & Z2 & E & L2)|(Le & Tr' & E & L2)].
        -- intros K1. apply Hnf. now right.
        -- intros e He. apply Hrg. now right.
        -- rewrite zlen_app, LA. rewrite zlen_cons in Ht. lia.
        -- rewrite zlen_cons in Hfuel. lia.
        -- left. split; [lia|]. exists Z2. rewrite E. cbn [fan]. rewrite LA. replace (zlen A + (zlen l + 1) + 1) with (zlen A + 1 + zlen l + 1) by lia.
           rewrite <- !app_assoc in *. split; [reflexivity|exact L2].
        -- right. split; [lia|]. exists Tr'. auto.
Qed.

(** ** reset of the cycle row *)
Lemma run_reset Pl Tr K D b : forall l A,
  run (forM (zrange (zlen A) (zlen A + zlen l)) (fun j => wr AdR (rbase lay0 + j) bundef)) (cm pq Pl Tr (A ++ l) K D b)
  = Ok (tt, cm pq Pl Tr (A ++ repeat 255 (length l)) K D b).
Proof.
  induction l as [|x l IH]; intros A.
  - rewrite zlen_nil, zrange_nil by lia. reflexivity.
  - rewrite zlen_cons. pose proof (zlen_nonneg l). rewrite zrange_cons by lia. cbn [forM]. change (rbase lay0 + zlen A) with (0 + zlen A). rewrite Z.add_0_l.
    rewrite (run_bind_ok _ _ _ tt (cm pq Pl Tr (A ++ 255 :: l) K D b)).
    + replace (zlen A + (zlen l + 1)) with (zlen (A ++ [255]) + zlen l) by (rewrite zlen_app, ?zlen_cons, ?zlen_nil; lia).
      replace (zlen A + 1) with (zlen (A ++ [255])) by (rewrite zlen_app, ?zlen_cons, ?zlen_nil; lia).
      replace (A ++ 255 :: l) with ((A ++ [255]) ++ l) by (rewrite <- app_assoc; reflexivity).
      rewrite IH. rewrite <- app_assoc. reflexivity.
    + rewrite (run_wr AdR _ _ _ x).
      * unfold mwr. simpl. unfold cm. rewrite zupd_mid. reflexivity.
      * unfold mrd. simpl. apply znth_mid.
Qed.

End One.

(** ** the classification loop; what it finds does not depend on the rest of the
    memory *)
Lemma pl_at_app Pl Pj j : 0 <= j < zlen Pl -> pl_at (Pl ++ Pj) j = pl_at Pl j.
Proof. intros H. unfold pl_at. now rewrite znth_app1 by lia. Qed.
Lemma vtx_app Pl Pj t : tri_ok (zlen Pl) t -> vtx (Pl ++ Pj) t = vtx Pl t.
Proof. destruct t as [[a b] c]. intros (A & B & C & _). unfold vtx. now rewrite !pl_at_app by assumption. Qed.

Lemma run_tri Pl p bis : forall n B, length B = n -> Forall (tri_ok (zlen Pl)) B ->
  exists Kp R V, Permutation (Kp ++ R) B /\ Permutation V B /\
    Forall (fun t => removed Pl bis t = false) Kp /\ Forall (fun t => removed Pl bis t = true) R /\
    forall pq Pj C K D b A Z0 rs sr, zlen A + zlen B <= 32768 ->
    run (tri_loop N lay0 n p bis (zlen A) (zlen A + zlen B) rs sr) (cm pq (Pl ++ Pj) (A ++ B ++ Z0) C K D b)
    = Ok ((zlen A + zlen Kp, rs + zlen R, radius Pl p V sr), cm pq (Pl ++ Pj) (A ++ Kp ++ R ++ Z0) C K D b).
Proof.
  induction n as [|n IH]; intros B Hn Hok.
  - destruct B; [|discriminate]. exists [], [], []. do 4 (split; [now auto|]). intros. simpl. rewrite zlen_nil, !Z.add_0_r. rewrite Z.ltb_irrefl.
    reflexivity.
  - destruct B as [|t B]; [discriminate|]. injection Hn as Hn. pose proof (zlen_nonneg B).
    rewrite zlen_cons. inversion Hok as [|x0 l0 Ot Hok']; subst x0 l0.
    assert (STEP : forall pq Pj C K D b A Z0 rs sr, zlen A + (zlen B + 1) <= 32768 ->
      run (tri_loop N lay0 (S n) p bis (zlen A) (zlen A + (zlen B + 1)) rs sr) (cm pq (Pl ++ Pj) (A ++ (t :: B) ++ Z0) C K D b) =
      if removed Pl bis t then
        run (tri_loop N lay0 n p bis (zlen A) (zlen A + zlen B) (rs + 1) (radius Pl p [t] sr))
          (cm pq (Pl ++ Pj) (zswap (A ++ (t :: B) ++ Z0) (zlen A) (zlen A + zlen B)) C K D b)
      else run (tri_loop N lay0 n p bis (zlen A + 1) (zlen A + (zlen B + 1)) rs (radius Pl p [t] sr)) (cm pq (Pl ++ Pj) (A ++ (t :: B) ++ Z0) C K D b)).
    { intros pq Pj C K D b A Z0 rs sr Hs. pose proof (zlen_nonneg A). pose proof (zlen_nonneg Z0). pose proof (zlen_nonneg Pj).
      cbn [tri_loop]. replace (zlen A <? zlen A + (zlen B + 1)) with true by lia. replace (32767 <? zlen A) with false by lia.
      assert (Ht : znth (A ++ (t :: B) ++ Z0) (zlen A) = Some t) by (apply znth_mid).
      do 3 (erewrite run_bind_ok by (apply (run_rdT _ _ _ _ _ _ _ _ _ t); [exact Ht|lia])).
      assert (EV0 : vtx (Pl ++ Pj) t = vtx Pl t) by (apply vtx_app; assumption).
      destruct t as [[i j] l]. destruct Ot as (Oi & Oj & Ol & _).
      assert (LL : zlen Pl <= zlen (Pl ++ Pj)) by (rewrite zlen_app; lia).
      destruct (znth_in_range (Pl ++ Pj) i ltac:(lia)) as [pi Hi]. destruct (znth_in_range (Pl ++ Pj) j ltac:(lia)) as [pj Hj].
      destruct (znth_in_range (Pl ++ Pj) l ltac:(lia)) as [pl Hl].
      change (comp (i, j, l) 0) with i. change (comp (i, j, l) 1) with j. change (comp (i, j, l) 2) with l.
      erewrite run_bind_ok by (apply run_rdp; exact Hi). erewrite run_bind_ok by (apply run_rdp; exact Hj). erewrite run_bind_ok by (apply run_rdp; exact Hl).
      assert (EV : vtx Pl (i, j, l) = intersect N pi pj pl) by (rewrite <- EV0; unfold vtx, pl_at; rewrite Hi, Hj, Hl; reflexivity).
      destruct (intersect N pi pj pl) as [[[v0 v1] v2] v3] eqn:EI.
      assert (ER : removed Pl bis (i, j, l) = flt N (fofZ N 0) (dot N (((v0, v1), v2), v3) bis)) by (unfold removed; rewrite EV; reflexivity).
      rewrite <- ER.
      assert (EP : sr_update N p (v0, v1, v2) sr = radius Pl p [(i, j, l)] sr) by (unfold radius; cbn [fold_left]; rewrite EV; reflexivity).
      rewrite EP. destruct (removed Pl bis (i, j, l)) eqn:Erm; [|reflexivity].
      cbv zeta. replace (zlen A + (zlen B + 1) - 1) with (zlen A + zlen B) by lia.
      rewrite run_swap3 by (rewrite !zlen_app, zlen_cons; lia). reflexivity. }
    destruct (removed Pl bis t) eqn:Erm.
    + destruct (list_snoc B) as [->|(B' & u & ->)].
      * destruct (IH [] Hn ltac:(constructor)) as (Kp & R & V & P1 & P2 & F1 & F2 & E).
        apply Permutation_sym, Permutation_nil in P1, P2. subst V. apply app_eq_nil in P1 as [-> ->].
        exists [], [t], [t]. do 4 (split; [now auto|]). intros pq Pj C K D b A Z0 rs sr Hs. rewrite STEP by assumption.
        pose proof (zlen_nonneg Z0). rewrite zlen_nil, Z.add_0_r.
        assert (ES : zswap (A ++ [t] ++ Z0) (zlen A) (zlen A) = A ++ [] ++ t :: Z0).
        { apply znth_ext. intros q. pose proof (zlen_nonneg A). rewrite znth_zswap by (rewrite !zlen_app, ?zlen_cons, ?zlen_nil; lia).
          destruct (Z.eqb_spec q (zlen A)) as [->|]; reflexivity. }
        rewrite ES. pose proof (E pq Pj C K D b A (t :: Z0) (rs + 1) (radius Pl p [t] sr)) as Q. rewrite zlen_nil, Z.add_0_r in Q.
        rewrite Q by (rewrite zlen_nil in Hs; lia). simpl. rewrite ?zlen_nil, ?zlen_cons, ?zlen_nil, !Z.add_0_r. reflexivity.
      * rewrite zlen_app, zlen_one in *. pose proof (zlen_nonneg B').
        destruct (IH (u :: B')) as (Kp & R & V & P1 & P2 & F1 & F2 & E).
        { rewrite app_length in Hn. simpl in *. lia. }
        { apply Forall_app in Hok' as [Hk1 Hk2]. inversion Hk2; subst. constructor; assumption. }
        exists Kp, (R ++ [t]), (t :: V).
        assert (PB : Permutation (t :: u :: B') (t :: B' ++ [u])) by (constructor; apply Permutation_cons_append).
        split; [|split; [|split; [|split]]].
        -- eapply perm_trans; [|exact PB]. rewrite app_assoc. eapply perm_trans; [apply Permutation_sym, Permutation_cons_append|]. constructor. assumption.
        -- eapply perm_trans; [|exact PB]. constructor. assumption.
        -- assumption.
        -- apply Forall_app. split; [assumption|]. constructor; auto.
        -- intros pq Pj C K D b A Z0 rs sr Hs. rewrite STEP by assumption.
           assert (ES : zswap (A ++ (t :: B' ++ [u]) ++ Z0) (zlen A) (zlen A + (zlen B' + 1)) = A ++ (u :: B') ++ t :: Z0).
           { assert (LB : zlen (t :: B' ++ [u]) = zlen B' + 2) by (rewrite zlen_cons, zlen_app, zlen_one; lia).
             pose proof (zswap_app A (t :: B' ++ [u]) Z0 0 (zlen B' + 1) ltac:(lia) ltac:(lia)) as Q.
             rewrite Z.add_0_r in Q. rewrite Q. rewrite zswap_ends. simpl. rewrite <- app_assoc. reflexivity. }
           rewrite ES. pose proof (E pq Pj C K D b A (t :: Z0) (rs + 1) (radius Pl p [t] sr)) as Q. rewrite zlen_cons in Q.
           rewrite Q by lia.
           replace (rs + zlen (R ++ [t])) with (rs + 1 + zlen R) by (rewrite zlen_app, zlen_one; lia). rewrite <- !app_assoc. reflexivity.
    + destruct (IH B Hn Hok') as (Kp & R & V & P1 & P2 & F1 & F2 & E).
      exists (t :: Kp), R, (t :: V).
      split; [simpl; constructor; assumption|]. split; [constructor; assumption|]. split; [constructor; assumption|]. split; [assumption|].
      intros pq Pj C K D b A Z0 rs sr Hs. rewrite STEP by assumption.
      replace (zlen A + (zlen B + 1)) with (zlen (A ++ [t]) + zlen B) by (rewrite zlen_app, ?zlen_cons, ?zlen_nil; lia).
      replace (zlen A + 1) with (zlen (A ++ [t])) by (rewrite zlen_app, ?zlen_cons, ?zlen_nil; lia).
      change (A ++ (t :: B) ++ Z0) with (A ++ t :: B ++ Z0).
      replace (A ++ t :: B ++ Z0) with ((A ++ [t]) ++ B ++ Z0) by (rewrite <- app_assoc; reflexivity).
      rewrite E by (rewrite zlen_app, zlen_one; lia).
      replace (zlen A + zlen (t :: Kp)) with (zlen (A ++ [t]) + zlen Kp) by (rewrite zlen_app, zlen_one, zlen_cons; lia).
      rewrite <- !app_assoc. reflexivity.
Qed.

End Cell.
