(** The grid search of the k-NN kernel: which points have been offered after
    shell r, and why the search may stop early. *)
From Verif Require Import Base Arith PBase Exact Prog PProg MUtils MHeap MXyz MKnn SpecHeap SpecGeom SpecKnn PExact PHeap PGrid PKnnSel.
Local Open Scope prog_scope.

Lemma NoDup_flat_map {A B} (f : A -> list B) l : NoDup l -> (forall x, In x l -> NoDup (f x)) ->
  (forall x y b, In x l -> In y l -> In b (f x) -> In b (f y) -> x = y) -> NoDup (flat_map f l).
Proof.
  induction l as [|x l IH]; intros ND Hf Hd; simpl; [constructor|].
  inversion_clear ND as [|? ? Hx ND'].
  assert (G : forall b, In b (f x) -> ~ In b (flat_map f l)).
  { intros b Hb K. apply in_flat_map in K as (y & Hy & Hby).
    assert (x = y) by (eapply Hd; eauto; [now left|now right]). now subst. }
  assert (NDx : NoDup (f x)) by (apply Hf; now left).
  assert (NDl : NoDup (flat_map f l)).
  { apply IH; auto. - intros; apply Hf; now right. - intros a b c Ha Hb; apply Hd; now right. }
  revert G NDx. generalize (f x) as u. intros u. induction u as [|b u IHu]; intros G NDx; simpl; [assumption|].
  inversion_clear NDx. constructor.
  - intros K. apply in_app_or in K as [K|K]; [contradiction|]. apply (G b); [now left|assumption].
  - apply IHu; auto. intros c Hc. apply G. now right.
Qed.

(** ** cells of a shell *)
Definition cheb (px py pz : Z) (c : Z * Z * Z) : Z :=
  let '(x, y, z) := c in Z.max (Z.max (Z.abs (x - px)) (Z.abs (y - py))) (Z.abs (z - pz)).
Definition cell_ok (gr : Z) (c : Z * Z * Z) : Prop :=
  let '(x, y, z) := c in 0 <= x < gr /\ 0 <= y < gr /\ 0 <= z < gr.

Lemma in_shell gr px py pz r c : 0 <= r -> cell_ok gr (px, py, pz) ->
  In c (shell_cells gr px py pz r) <-> cell_ok gr c /\ cheb px py pz c = r.
Proof.
  intros Hr (Hx & Hy & Hz). destruct c as [[x y] z]. unfold shell_cells. simpl cell_ok. simpl cheb.
  rewrite in_flat_map. setoid_rewrite in_flat_map. setoid_rewrite in_flat_map. setoid_rewrite in_zrange.
  split.
  - intros (z' & Rz & y' & Ry & x' & Rx & Hin).
    destruct (is_inshell x' y' z' px py pz r) eqn:S; [destruct Hin|].
    destruct Hin as [Q|[]]. injection Q as -> -> ->.
    assert (Az : Z.abs (z - pz) <= r /\ 0 <= z < gr) by lia. clear Rz.
    assert (Ay : Z.abs (y - py) <= r /\ 0 <= y < gr) by lia. clear Ry.
    assert (Ax : Z.abs (x - px) <= r /\ 0 <= x < gr) by lia. clear Rx.
    split; [tauto|]. unfold is_inshell in S. rewrite !andb_false_iff, !Z.ltb_ge in S.
    assert (Z.abs (x - px) = r \/ Z.abs (y - py) = r \/ Z.abs (z - pz) = r) by (destruct S as [[[S|S]|[S|S]]|[S|S]]; lia).
    clear S. lia.
  - intros (Hc & Hch). exists z. split; [lia|]. exists y. split; [lia|]. exists x. split; [lia|].
    assert (is_inshell x y z px py pz r = false) as ->.
    { unfold is_inshell. rewrite !andb_false_iff, !Z.ltb_ge.
      assert (Z.abs (x - px) = r \/ Z.abs (y - py) = r \/ Z.abs (z - pz) = r) as [K|[K|K]] by lia; clear Hch; lia. }
    now left.
Qed.

Lemma NoDup_shell gr px py pz r : NoDup (shell_cells gr px py pz r).
Proof.
  unfold shell_cells. apply NoDup_flat_map; [apply NoDup_zrange| |].
  - intros z _. apply NoDup_flat_map; [apply NoDup_zrange| |].
    + intros y _. apply NoDup_flat_map; [apply NoDup_zrange| |].
      * intros x _. destruct (is_inshell x y z px py pz r); repeat constructor; simpl; tauto.
      * intros x x' b _ _ H H'. destruct (is_inshell x y z px py pz r); [destruct H|].
        destruct (is_inshell x' y z px py pz r); [destruct H'|].
        destruct H as [<-|[]]. destruct H' as [Q|[]]. congruence.
    + intros y y' b _ _ H H'. apply in_flat_map in H as (x & _ & H). apply in_flat_map in H' as (x' & _ & H').
      destruct (is_inshell x y z px py pz r); [destruct H|].
      destruct (is_inshell x' y' z px py pz r); [destruct H'|].
      destruct H as [<-|[]]. destruct H' as [Q|[]]. congruence.
  - intros z z' b _ _ H H'. apply in_flat_map in H as (y & _ & H). apply in_flat_map in H' as (y' & _ & H').
    apply in_flat_map in H as (x & _ & H). apply in_flat_map in H' as (x' & _ & H').
    destruct (is_inshell x y z px py pz r); [destruct H|].
    destruct (is_inshell x' y' z' px py pz r); [destruct H'|].
    destruct H as [<-|[]]. destruct H' as [Q|[]]. congruence.
Qed.

Definition cidx (gr : Z) (c : Z * Z * Z) : Z := let '(x, y, z) := c in gr * gr * z + gr * y + x.

Lemma cidx_range gr c : cell_ok gr c -> 0 <= cidx gr c < gr * gr * gr.
Proof.
  destruct c as [[x y] z]. intros (Hx & Hy & Hz). unfold cidx.
  assert (0 <= gr * y <= gr * gr - gr) by nia. assert (0 <= gr * gr * z <= gr * gr * gr - gr * gr) by nia. lia.
Qed.
Lemma cidx_decode gr x y z : cell_ok gr (x, y, z) ->
  Z.rem (cidx gr (x, y, z)) gr = x /\ Z.rem (Z.quot (cidx gr (x, y, z)) gr) gr = y /\
  Z.quot (cidx gr (x, y, z)) (gr * gr) = z.
Proof.
  intros H. pose proof (cidx_range gr _ H) as B. destruct H as (Hx & Hy & Hz).
  assert (0 < gr) by lia.
  assert (Q : Z.quot (cidx gr (x, y, z)) gr = gr * z + y).
  { rewrite Z.quot_div_nonneg by lia. symmetry. apply (Z.div_unique _ _ _ x); [lia|]. unfold cidx. ring. }
  split; [|split].
  - rewrite Z.rem_mod_nonneg by lia. symmetry. apply (Z.mod_unique _ _ (gr * z + y)); [lia|]. unfold cidx. ring.
  - rewrite Q. rewrite Z.rem_mod_nonneg by nia. symmetry. apply (Z.mod_unique _ _ z); [lia|]. ring.
  - rewrite Z.quot_div_nonneg by nia. symmetry. apply (Z.div_unique _ _ _ (gr * y + x)); [nia|]. unfold cidx. ring.
Qed.
Lemma cidx_inj gr c c' : cell_ok gr c -> cell_ok gr c' -> cidx gr c = cidx gr c' -> c = c'.
Proof.
  destruct c as [[x y] z], c' as [[x' y'] z']. intros H H' Q.
  destruct (cidx_decode gr x y z H) as (A & B & C). destruct (cidx_decode gr x' y' z' H') as (A' & B' & C').
  rewrite Q in *. congruence.
Qed.

(** ** the cell of a point and distances *)
Definition pcell (gr : Z) (x : pt) : Z * Z * Z :=
  let '(a, b, c) := x in (Int_part (a * IZR gr), Int_part (b * IZR gr), Int_part (c * IZR gr)).
Lemma grid_cell_pcell gr x : grid_cell gr x = cidx gr (pcell gr x).
Proof. destruct x as [[a b] c]. simpl. ring. Qed.
Lemma pcell_ok gr x : 0 < gr -> in_open_cube x -> cell_ok gr (pcell gr x).
Proof.
  intros Hg. destruct x as [[a b] c]. simpl. intros (Ha & Hb & Hc).
  assert (0 < IZR gr)%R by (apply IZR_lt; lia).
  split; [|split]; apply int_part_range; nra.
Qed.

(** distance to the nearer of the two grid planes around a coordinate *)
Definition facer (gr : Z) (a : R) : R :=
  let g := (/ IZR gr)%R in let dx := (a - IZR (Int_part (a * IZR gr)) * g)%R in Rmin dx (g - dx).

Lemma scale_bounds (g G a u : R) : (0 < g)%R -> (g * G = 1)%R -> (u <= a * G < u + 1)%R ->
  (u * g <= a < (u + 1) * g)%R.
Proof.
  intros H G1 [A B]. assert (Q : a = (a * G * g)%R) by (rewrite Rmult_assoc, (Rmult_comm G), G1; ring).
  split; rewrite Q; [apply Rmult_le_compat_r; lra|apply Rmult_lt_compat_r; lra].
Qed.

Lemma cell_gap gr a b r : 0 < gr -> 0 <= r ->
  Z.abs (Int_part (b * IZR gr) - Int_part (a * IZR gr)) >= r + 1 ->
  (Rabs (b - a) >= / IZR gr * IZR r + facer gr a)%R.
Proof.
  intros Hg Hr H. unfold facer. set (g := (/ IZR gr)%R).
  assert (Gp : (0 < IZR gr)%R) by (apply IZR_lt; lia).
  assert (Hgg : (0 < g)%R) by (apply Rinv_0_lt_compat; assumption).
  assert (G1 : (g * IZR gr = 1)%R) by (unfold g; field; lra).
  pose proof (int_part_bounds (a * IZR gr)) as Ba. pose proof (int_part_bounds (b * IZR gr)) as Bb.
  set (ia := Int_part (a * IZR gr)) in *. set (ib := Int_part (b * IZR gr)) in *.
  assert (La : (IZR ia * g <= a < (IZR ia + 1) * g)%R) by now apply (scale_bounds g (IZR gr)).
  assert (Lb : (IZR ib * g <= b < (IZR ib + 1) * g)%R) by now apply (scale_bounds g (IZR gr)).
  set (dx := (a - IZR ia * g)%R).
  pose proof (Rmin_l dx (g - dx)) as M1. pose proof (Rmin_r dx (g - dx)) as M2. unfold dx in *.
  assert (ib >= ia + r + 1 \/ ib <= ia - r - 1) as [K|K] by lia.
  - assert (IZR ib >= IZR ia + IZR r + 1)%R by (rewrite <- !plus_IZR; apply IZR_ge; lia).
    pose proof (Rle_abs (b - a)). nra.
  - assert (IZR ib <= IZR ia - IZR r - 1)%R by (rewrite <- !minus_IZR; apply IZR_le; lia).
    pose proof (Rle_abs (- (b - a))) as Q. rewrite Rabs_Ropp in Q. nra.
Qed.

Definition facer3 (gr : Z) (x : pt) : R :=
  let '(a, b, c) := x in Rmin (Rmin (facer gr a) (facer gr b)) (facer gr c).

Lemma facer_range gr a : 0 < gr -> (0 <= facer gr a <= / IZR gr)%R.
Proof.
  intros Hg. unfold facer. assert (Gp : (0 < IZR gr)%R) by (apply IZR_lt; lia).
  set (g := (/ IZR gr)%R).
  assert (Hgg : (0 < g)%R) by (apply Rinv_0_lt_compat; assumption).
  assert (G1 : (g * IZR gr = 1)%R) by (unfold g; field; lra).
  pose proof (int_part_bounds (a * IZR gr)) as Ba. set (ia := Int_part (a * IZR gr)) in *.
  assert (La : (IZR ia * g <= a < (IZR ia + 1) * g)%R) by now apply (scale_bounds g (IZR gr)).
  split; [apply Rmin_glb; nra|]. eapply Rle_trans; [apply Rmin_r|]. nra.
Qed.
Lemma facer3_range gr x : 0 < gr -> (0 <= facer3 gr x <= / IZR gr)%R.
Proof.
  intros Hg. destruct x as [[a b] c]. simpl.
  pose proof (facer_range gr a Hg). pose proof (facer_range gr b Hg). pose proof (facer_range gr c Hg).
  unfold Rmin. repeat destruct Rle_dec; lra.
Qed.

Lemma shell_distance gr q x r : 0 < gr -> 0 <= r ->
  (let '(px, py, pz) := pcell gr q in cheb px py pz (pcell gr x) > r) ->
  ((/ IZR gr * IZR r + facer3 gr q) ^ 2 <= d2 x q)%R.
Proof.
  intros Hg Hr H. pose proof (facer3_range gr q Hg) as B.
  assert (Gp : (0 < / IZR gr)%R) by (apply Rinv_0_lt_compat, IZR_lt; lia).
  assert (Rp : (0 <= IZR r)%R) by (apply IZR_le; lia).
  set (m := (/ IZR gr * IZR r + facer3 gr q)%R).
  assert (Hm : (0 <= m)%R) by (unfold m; nra).
  destruct q as [[q0 q1] q2], x as [[x0 x1] x2]. simpl in H. simpl d2.
  assert (C : (Rabs (x0 - q0) >= m \/ Rabs (x1 - q1) >= m \/ Rabs (x2 - q2) >= m)%R).
  { simpl facer3 in *.
    pose proof (Rmin_l (Rmin (facer gr q0) (facer gr q1)) (facer gr q2)).
    pose proof (Rmin_r (Rmin (facer gr q0) (facer gr q1)) (facer gr q2)).
    pose proof (Rmin_l (facer gr q0) (facer gr q1)). pose proof (Rmin_r (facer gr q0) (facer gr q1)).
    assert (Z.abs (Int_part (x0 * IZR gr) - Int_part (q0 * IZR gr)) >= r + 1 \/
            Z.abs (Int_part (x1 * IZR gr) - Int_part (q1 * IZR gr)) >= r + 1 \/
            Z.abs (Int_part (x2 * IZR gr) - Int_part (q2 * IZR gr)) >= r + 1) as [K|[K|K]] by lia;
    apply (cell_gap gr _ _ r Hg Hr) in K; unfold m; simpl; [left|right; left|right; right]; lra. }
  assert (SQ : forall u, (Rabs u >= m -> m ^ 2 <= u ^ 2)%R).
  { intros u Hu. rewrite <- (pow2_abs u). apply pow_incr. lra. }
  pose proof (pow2_ge_0 (x0 - q0)). pose proof (pow2_ge_0 (x1 - q1)). pose proof (pow2_ge_0 (x2 - q2)).
  destruct C as [C|[C|C]]; apply SQ in C; lra.
Qed.

Section Knn.
Variable N : Arith.
Variable E : Exact N.
Notation fin := (fin E).
Notation val := (val E).

Lemma face_dist_exact gr x : 0 < gr -> fin x -> (0 < val x < 1)%R ->
  fin (face_dist N (grid_len N gr) x) /\ val (face_dist N (grid_len N gr) x) = facer gr (val x).
Proof.
  intros Hg Fx Hx. destruct (grid_len_exact N E gr Hg) as [Fg Vg].
  assert (Gp : (0 < IZR gr)%R) by (apply IZR_lt; lia).
  unfold face_dist, facer. set (gl := grid_len N gr) in *. rewrite <- Vg.
  pose proof (int_part_bounds (val x * IZR gr)) as Ba. set (ia := Int_part (val x * IZR gr)) in *.
  assert (Hgg : (0 < val gl)%R) by (rewrite Vg; apply Rinv_0_lt_compat; assumption).
  assert (G1 : (val gl * IZR gr = 1)%R) by (rewrite Vg; field; lra).
  destruct (ex_fmod _ E x gl ia Fx Fg Hgg ltac:(lra)) as [Fm Vm]; [now apply (scale_bounds (val gl) (IZR gr))|].
  set (dx := ffmod N x gl) in *.
  assert (F2 : fin (fdiv N gl (fofZ N 2))) by (apply fin_div; auto with fin; rewrite val_ofZ; lra).
  assert (V2 : val (fdiv N gl (fofZ N 2)) = (val gl / 2)%R) by (rewrite val_div; rewrite ?val_ofZ; auto with fin; lra).
  unfold fbool. split; [auto 10 with fin|]. rewrite <- Vm. vpush.
  destruct (fle N dx (fdiv N gl (fofZ N 2))) eqn:A; destruct (flt N (fdiv N gl (fofZ N 2)) dx) eqn:B; simpl b2z.
  - apply (ex_le _ E) in A; auto. apply (flt_true N E) in B; auto. lra.
  - apply (ex_le _ E) in A; auto. rewrite V2 in A. rewrite Rmin_left by lra. ring.
  - apply (fle_false N E) in A; auto. rewrite V2 in A. rewrite Rmin_right by lra. ring.
  - apply (fle_false N E) in A; auto. apply (flt_false N E) in B; auto. lra.
Qed.

Lemma face_min_exact dev gr q : 0 < gr -> finp N E q -> in_open_cube (valp N E q) ->
  fin (face_min N dev (grid_len N gr) q) /\ val (face_min N dev (grid_len N gr) q) = facer3 gr (valp N E q).
Proof.
  intros Hg Fq Cq. destruct q as [[a b] c]. destruct Fq as (Fa & Fb & Fc). destruct Cq as (Ca & Cb & Cc).
  destruct (face_dist_exact gr a Hg Fa Ca) as [F1 V1]. destruct (face_dist_exact gr b Hg Fb Cb) as [F2 V2].
  destruct (face_dist_exact gr c Hg Fc Cc) as [F3 V3].
  unfold face_min. simpl facer3. rewrite <- V1, <- V2, <- V3. destruct dev.
  - now apply fbmin3_exact.
  - now apply stdmin3_exact.
Qed.

Variable dev : bool.
Variable gr : Z.
Hypothesis Hg : 0 < gr.
Variable pts : Z -> option (point N).
Variable n : Z.
Variable ids offset : list Z.
Variable index : Z.
Variable q : point N.
Hypothesis Hq : inside N E q.
Hypothesis Hpts : forall p, 0 <= p < n -> exists pp, pts p = Some pp /\ inside N E pp /\
  znth ids p = Some (grid_cell gr (valp N E pp)).
Hypothesis Hoff : forall c, 0 <= c < gr * gr * gr -> exists a b,
  znth offset c = Some a /\ znth offset (c + 1) = Some b /\ 0 <= a <= b /\ b <= n /\
  forall p, 0 <= p < n -> (a <= p < b <-> znth ids p = Some c).

Definition dist (p : Z) : R := match pts p with Some pp => d2 (valp N E pp) (valp N E q) | None => 0%R end.
Definition pc (p : Z) : Z * Z * Z := match pts p with Some pp => pcell gr (valp N E pp) | None => (0, 0, 0) end.

Lemma in_cube_d2 a b : in_open_cube a -> in_open_cube b -> (d2 a b < 3)%R.
Proof. destruct a as [[? ?] ?], b as [[? ?] ?]. simpl. intros (?&?&?) (?&?&?). nra. Qed.

Lemma cand_all p : 0 <= p < n -> candidate N E dist pts q p.
Proof.
  intros Hp. destruct (Hpts p Hp) as (pp & E1 & [F1 C1] & _). exists pp.
  unfold dist. rewrite E1. repeat split; auto. destruct Hq.
  pose proof (in_cube_d2 _ _ C1 H0). lra.
Qed.

Definition posn (c : Z * Z * Z) : list Z :=
  match znth offset (cidx gr c), znth offset (cidx gr c + 1) with
  | Some a, Some b => zrange a b
  | _, _ => []
  end.
Definition cellpts (c : Z * Z * Z) : list Z := filter (fun p => negb (p =? index)) (posn c).

Lemma in_posn c p : cell_ok gr c -> In p (posn c) <-> 0 <= p < n /\ pc p = c.
Proof.
  intros Hc. pose proof (cidx_range gr c Hc) as Rc.
  destruct (Hoff _ Rc) as (a & b & Ea & Eb & Hab & Hb & H). unfold posn. rewrite Ea, Eb, in_zrange. split.
  - intros Hp. assert (Hp' : 0 <= p < n) by lia. split; [assumption|].
    apply (H p Hp') in Hp. destruct (Hpts p Hp') as (pp & E1 & [F1 C1] & Ei). unfold pc. rewrite E1.
    rewrite Ei, grid_cell_pcell in Hp. injection Hp as Hp. apply (cidx_inj gr); auto. now apply pcell_ok.
  - intros (Hp & Hpc). apply (H p Hp). destruct (Hpts p Hp) as (pp & E1 & _ & Ei). unfold pc in Hpc.
    rewrite E1 in Hpc. now rewrite Ei, grid_cell_pcell, Hpc.
Qed.
Lemma NoDup_posn c : NoDup (posn c).
Proof. unfold posn. destruct (znth offset _); [|constructor]. destruct (znth offset _); [|constructor]. apply NoDup_zrange. Qed.

Variables px py pz : Z.
Hypothesis Hpc : pcell gr (valp N E q) = (px, py, pz).

Lemma px_ok : cell_ok gr (px, py, pz).
Proof. rewrite <- Hpc. apply pcell_ok; auto. apply Hq. Qed.

Notation ad := (fun j : Z => j).
Notation I := (Inv N E dev dist).

Lemma cells_run l k : 0 < k -> forall cs V h, (forall c, In c cs -> cell_ok gr c) -> I k V h ->
  exists h', run (forM cs (knn_cell N ad pts dev k gr offset index q)) (hmem N l h) = Ok (tt, hmem N l h') /\
    I k (V ++ flat_map cellpts cs) h'.
Proof.
  intros Hk. induction cs as [|c cs IH]; intros V h Hc HI.
  - exists h. simpl. rewrite app_nil_r. auto.
  - assert (Oc : cell_ok gr c) by (apply Hc; now left).
    destruct (visits_run N E dev dist pts q ltac:(apply Hq) index l k Hk (posn c) V h) as (h1 & R1 & I1); auto.
    { intros p Hp _. apply cand_all. now apply (in_posn c p Oc) in Hp. }
    destruct (IH (V ++ cellpts c) h1) as (h2 & R2 & I2); auto. { intros; apply Hc; now right. }
    exists h2. cbn [forM flat_map]. rewrite app_assoc. split; [|exact I2].
    rewrite run_bind.
    assert (R0 : run (knn_cell N ad pts dev k gr offset index q c) (hmem N l h) = Ok (tt, hmem N l h1)).
    { pose proof (cidx_range gr c Oc) as Rc. destruct (Hoff _ Rc) as (a & b & Ea & Eb & _).
      unfold posn in R1. destruct c as [[x y] z]. unfold knn_cell. unfold cidx in *. rewrite Ea, Eb in *.
      cbn [pure_opt bind]. exact R1. }
    rewrite R0. exact R2.
Qed.

(** what has been offered before shell r *)
Definition seen (r : Z) (V : list Z) : Prop :=
  NoDup V /\ forall p, In p V <-> 0 <= p < n /\ p <> index /\ cheb px py pz (pc p) < r.

Lemma pc_ok p : 0 <= p < n -> cell_ok gr (pc p).
Proof.
  intros Hp. destruct (Hpts p Hp) as (pp & E1 & [_ C1] & _). unfold pc. rewrite E1. now apply pcell_ok.
Qed.

Lemma seen_step r V : 0 <= r -> seen r V -> seen (r + 1) (V ++ flat_map cellpts (shell_cells gr px py pz r)).
Proof.
  intros Hr (ND & HV).
  assert (HW : forall p, In p (flat_map cellpts (shell_cells gr px py pz r)) <->
     0 <= p < n /\ p <> index /\ cheb px py pz (pc p) = r).
  { intros p. rewrite in_flat_map. split.
    - intros (c & Hc & Hp). apply (in_shell gr _ _ _ r c Hr px_ok) in Hc as [Oc Hch].
      apply filter_In in Hp as [Hp Hn]. apply (in_posn c p Oc) in Hp as [Hp <-].
      apply negb_true_iff, Z.eqb_neq in Hn. auto.
    - intros (Hp & Hn & Hch). exists (pc p). split; [apply (in_shell gr _ _ _ r _ Hr px_ok); split; [now apply pc_ok|assumption]|].
      apply filter_In. split; [apply in_posn; [now apply pc_ok|auto]|]. now apply negb_true_iff, Z.eqb_neq. }
  split.
  - assert (NDW : NoDup (flat_map cellpts (shell_cells gr px py pz r))).
    { apply NoDup_flat_map; [apply NoDup_shell| |].
      - intros c _. apply NoDup_filter, NoDup_posn.
      - intros c c' p Hc Hc' Hp Hp'. apply (in_shell gr _ _ _ r _ Hr px_ok) in Hc as [Oc _]. apply (in_shell gr _ _ _ r _ Hr px_ok) in Hc' as [Oc' _].
        apply filter_In in Hp as [Hp _]. apply filter_In in Hp' as [Hp' _].
        apply (in_posn c p Oc) in Hp as [_ <-]. apply (in_posn c' p Oc') in Hp' as [_ <-]. reflexivity. }
    revert ND HV NDW HW. generalize (flat_map cellpts (shell_cells gr px py pz r)) as W. intros W ND HV NDW HW.
    assert (Dj : forall p, In p V -> ~ In p W). { intros p Hp Hw. apply HV in Hp. apply HW in Hw. lia. }
    clear HV HW. induction V as [|v V IH]; simpl; [assumption|]. inversion_clear ND. constructor.
    + intros K. apply in_app_or in K as [K|K]; [contradiction|]. apply (Dj v); [now left|assumption].
    + apply IH; auto. intros p Hp. apply Dj. now right.
  - intros p. rewrite in_app_iff, HV, HW. lia.
Qed.

(** the outcome of the whole search *)
Definition searched (k : Z) (h : list (Z * F N)) : Prop :=
  zlen h = k /\ exists V ks, NoDup V /\ (forall p, In p V <-> 0 <= p < n /\ p <> index) /\
    Forall2 (relO N E dev dist) ks h /\ selected dist k V ks.

Lemma shells_run l k mn : 0 < k -> fin mn -> val mn = facer3 gr (valp N E q) ->
  forall m r V h, Z.of_nat m = gr - r -> 0 <= r -> seen r V -> I k V h ->
  exists h', run (knn_shells N ad pts dev (zrange r gr) k gr (grid_len N gr) mn offset index q px py pz) (hmem N l h)
    = Ok (tt, hmem N l h') /\ searched k h'.
Proof.
  intros Hk Fmn Vmn. induction m as [|m IH]; intros r V h Hm Hr HS HI.
  - rewrite zrange_nil by lia. exists h. split; [reflexivity|].
    destruct HI as (L & Hp & ks & H & Sel). split; [assumption|]. exists V, ks. destruct HS as (ND & HV).
    split; [assumption|]. split; [|auto]. intros p. rewrite HV. split; [tauto|]. intros (Hp1 & Hp2).
    split; [assumption|]. split; [assumption|]. pose proof (pc_ok p Hp1). pose proof px_ok.
    destruct (pc p) as [[x y] z]. simpl in *. lia.
  - rewrite zrange_cons by lia. cbn [knn_shells].
    destruct (cells_run l k Hk (shell_cells gr px py pz r) V h) as (h1 & R1 & I1); auto.
    { intros c Hc. apply (in_shell gr _ _ _ r c Hr px_ok) in Hc. tauto. }
    rewrite run_bind, R1. pose proof (seen_step r V Hr HS) as HS1.
    pose proof I1 as (L1 & Hp1 & ks & H1 & Sel1).
    destruct (znth_in_range h1 0 ltac:(lia)) as [x0 E0].
    cbn [rd bind]. rewrite (run_Rd _ _ _ _ _ (hmem_pq N l h1 0 x0 E0)).
    destruct (flt N (snd x0) _) eqn:C.
    + (* early exit *)
      exists h1. split; [reflexivity|]. split; [assumption|].
      destruct (proj2 (Forall2_znth _ _ _ 0 H1) _ E0) as (o0 & Eo & R0).
      pose proof (root_rank N E dev dist k h1 ks o0 L1 Hp1 H1 Eo) as RM.
      destruct (grid_len_exact N E gr Hg) as [Fg Vg].
      set (b := square N (fadd N (fmul N (grid_len N gr) (fofZ N r)) mn)) in *.
      assert (Fb : fin b) by (unfold b, square; auto 10 with fin).
      assert (Vb : val b = ((/ IZR gr * IZR r + facer3 gr (valp N E q)) ^ 2)%R).
      { unfold b. rewrite val_square by auto 10 with fin. vpush. now rewrite Vg, Vmn. }
      assert (Gp : (0 < IZR gr)%R) by (apply IZR_lt; lia).
      assert (Bb : (val b <= 4)%R).
      { rewrite Vb. pose proof (facer3_range gr (valp N E q) Hg).
        assert (/ IZR gr <= 1)%R. { apply (Rmult_le_reg_r (IZR gr)); [lra|]. rewrite Rinv_l by lra. rewrite Rmult_1_l. apply (IZR_le 1). lia. }
        assert (/ IZR gr * IZR r <= 1)%R.
        { apply (Rmult_le_reg_r (IZR gr)); [lra|]. rewrite Rmult_1_l.
          replace (/ IZR gr * IZR r * IZR gr)%R with (IZR r)%R by (field; lra). apply IZR_le. lia. }
        assert (0 <= / IZR gr * IZR r)%R.
        { apply Rmult_le_pos; [apply Rlt_le, Rinv_0_lt_compat; lra|apply IZR_le; lia]. }
        nra. }
      assert (Rk : (rank dist o0 < val b)%R).
      { unfold relO, ispad in R0. destruct o0 as [p0|].
        - destruct R0 as (_ & Fx & Vx & _). apply (flt_true N E) in C; auto. simpl. lra.
        - destruct R0 as (_ & R0). destruct dev.
          + destruct R0 as [Fx Vx]. apply (flt_true N E) in C; auto. lra.
          + rewrite R0, (ex_inf_lt _ E) in C by assumption. discriminate. }
      set (V1 := V ++ flat_map cellpts (shell_cells gr px py pz r)) in *.
      set (U := filter (fun p => negb (p =? index) && (r <? cheb px py pz (pc p))) (zrange 0 n)).
      destruct HS1 as (ND1 & HV1). destruct Sel1 as (rest & P & Dm).
      assert (HU : forall p, In p U <-> 0 <= p < n /\ p <> index /\ cheb px py pz (pc p) > r).
      { intros p. unfold U. rewrite filter_In, in_zrange, andb_true_iff, negb_true_iff, Z.eqb_neq, Z.ltb_lt. lia. }
      exists (V1 ++ U), ks. split; [|split; [|split]].
      * assert (NDU : NoDup U) by (apply NoDup_filter, NoDup_zrange).
        assert (Dj : forall p, In p V1 -> ~ In p U) by (intros p A B; apply HV1 in A; apply HU in B; lia).
        clearbody V1 U. clear -ND1 NDU Dj. induction V1 as [|v V1 IH]; simpl; [assumption|].
        inversion_clear ND1. constructor.
        -- intros K. apply in_app_or in K as [K|K]; [contradiction|]. apply (Dj v); [now left|assumption].
        -- apply IH; auto. intros p Hp. apply Dj. now right.
      * intros p. rewrite in_app_iff, HV1, HU. lia.
      * assumption.
      * exists (rest ++ map Some U). split.
        -- rewrite map_app, !app_assoc. now apply Permutation_app_tail.
        -- intros o o' Ho Ho'. apply in_app_or in Ho' as [Ho'|Ho']; [auto|].
           apply in_map_iff in Ho' as (p & <- & Hp). apply HU in Hp as (Hp & _ & Hch).
           specialize (RM o Ho).
           assert (val b <= dist p)%R; [|simpl; lra]. rewrite Vb.
           destruct (Hpts p Hp) as (pp & E1 & _). unfold dist, pc in *. rewrite E1 in *.
           apply shell_distance; [assumption|assumption|]. rewrite Hpc. assumption.
    + apply (IH (r + 1) (V ++ flat_map cellpts (shell_cells gr px py pz r)) h1); auto; lia.
Qed.

End Knn.
