(** Binary32: host and device search in lockstep, and the device driver. *)
From Verif Require Import Base PBase Arith Prog MUtils MXyz MKnn MDnn MArgs MTess SpecHeap SpecAny SpecSort SpecVor PXyz PSortFinal PSlotHost PLock PGpuRun PGpuExact
  Arith32 PFloat POrder PKnn PKnnSafe PKnnAny PDist32 PNear32 PRowsAny PRowsNear PFloatRows PNearRows.
From Flocq Require Import Core IEEE754.BinarySingleNaN.
From Coq Require Import Reals Lra Lia Permutation Sorting.Sorted.
From Verif Require Export SpecSingle SpecNear SpecFlags SpecParam.
Import SpecGeom.
Local Open Scope Z_scope.

Definition small32 (x : f32) : Prop := is_finite x = true /\ (Rabs (B2R x) <= 1000)%R.

Lemma one_mul32 x : small32 x -> is_finite (fmul arith32 (fofZ arith32 1) x) = true /\ B2R (fmul arith32 (fofZ arith32 1) x) = B2R x.
Proof.
  intros [Fx Bx]. destruct (ofZ32 1 ltac:(lia)) as [V1 F1]. destruct (mult32 (fofZ arith32 1) x F1 Fx) as [F2 V2].
  - rewrite V1, Rmult_1_l. now apply big100.
  - split; [assumption|]. rewrite V2, V1, Rmult_1_l. apply rnd_id.
Qed.
Lemma zero_mul32 x : small32 x -> is_finite (fmul arith32 (fofZ arith32 0) x) = true /\ B2R (fmul arith32 (fofZ arith32 0) x) = 0%R.
Proof.
  intros [Fx Bx]. destruct (ofZ32 0 ltac:(lia)) as [V1 F1]. destruct (mult32 (fofZ arith32 0) x F1 Fx) as [F2 V2].
  - rewrite V1, Rmult_0_l. apply big100. rewrite Rabs_R0. lra.
  - split; [assumption|]. rewrite V2, V1, Rmult_0_l. apply round_0. apply valid_rnd_round_mode.
Qed.
Lemma sel32 b x y : small32 x -> small32 y ->
  small32 (fadd arith32 (fmul arith32 (fbool arith32 (negb b)) x) (fmul arith32 (fbool arith32 b) y)) /\
  B2R (fadd arith32 (fmul arith32 (fbool arith32 (negb b)) x) (fmul arith32 (fbool arith32 b) y)) = if b then B2R y else B2R x.
Proof.
  intros Hx Hy. destruct b; unfold fbool, b2z; cbn [negb].
  - destruct (zero_mul32 x Hx) as [F1 V1]. destruct (one_mul32 y Hy) as [F2 V2]. destruct Hy as [Fy By].
    destruct (plus32 _ _ F1 F2) as [F3 V3]; [rewrite V1, V2, Rplus_0_l; now apply big100|]. rewrite V1, V2, Rplus_0_l, rnd_id in V3. split; [|assumption]. split; [assumption|]. now rewrite V3.
  - destruct (one_mul32 x Hx) as [F1 V1]. destruct (zero_mul32 y Hy) as [F2 V2]. destruct Hx as [Fx Bx].
    destruct (plus32 _ _ F1 F2) as [F3 V3]; [rewrite V1, V2, Rplus_0_r; now apply big100|]. rewrite V1, V2, Rplus_0_r, rnd_id in V3. split; [|assumption]. split; [assumption|]. now rewrite V3.
Qed.
Lemma lt_val32 x y : small32 x -> small32 y -> (flt arith32 x y = true <-> (B2R x < B2R y)%R).
Proof. intros [Fx _] [Fy _]. rewrite lt32 by assumption. destruct (Rlt_bool_spec (B2R x) (B2R y)); split; intros; auto; try discriminate; lra. Qed.

Definition float_view : View arith32.
Proof.
  refine (mkView arith32 small32 B2R lt_val32 _ _ _ _ sel32).
  - intros x [Fx _]. destruct x as [[]|[]| |[]]; try discriminate; reflexivity.
  - intros x [Fx _]. destruct x as [[]|[]| |[]]; try discriminate; reflexivity.
  - reflexivity.
  - destruct (ofZ32 128 ltac:(lia)) as [V1 F1]. split; [|exact V1]. split; [exact F1|]. rewrite V1, Rabs_pos_eq; lra.
Defined.

Lemma dist_small p q : open01p p -> open01p q -> small32 (get_distance arith32 p q) /\ (B2R (get_distance arith32 p q) < 128)%R.
Proof.
  intros Hp Hq. destruct (dist_err p q Hp Hq) as [Fd Ed]. pose proof (d2_bound p q Hp Hq). pose proof tiny_pos. pose proof tiny_small. apply Rabs_le_inv in Ed.
  split; [split; [exact Fd|apply Rabs_le; lra]|lra].
Qed.

Lemma bmin32 a a' b b' : small32 a -> small32 a' -> small32 b -> small32 b' -> B2R a = B2R a' -> B2R b = B2R b' ->
  small32 (stdmin2 arith32 a b) /\ small32 (fbmin arith32 a' b') /\ B2R (stdmin2 arith32 a b) = B2R (fbmin arith32 a' b').
Proof.
  intros Ha Ha' Hb Hb' Ea Eb. unfold stdmin2, fbmin. cbv zeta. destruct (sel32 (flt arith32 b' a') a' b' Ha' Hb') as [S V]. rewrite V.
  assert (EL : flt arith32 b a = flt arith32 b' a'). { apply Bool.eq_true_iff_eq. rewrite !lt_val32 by assumption. rewrite Ea, Eb. tauto. }
  rewrite EL. destruct (flt arith32 b' a'); auto.
Qed.

Lemma face_same gr q : 0 < gr -> gr * gr * gr <= int_max -> safe_res gr = true -> open01p q -> let gl := grid_len arith32 gr in
  small32 (face_min arith32 false gl q) /\ small32 (face_min arith32 true gl q) /\ B2R (face_min arith32 false gl q) = B2R (face_min arith32 true gl q) /\
  (0 <= B2R (face_min arith32 false gl q) <= 3)%R.
Proof.
  intros Hg H3 Hs Hq gl. destruct (grid32 gr Hg H3 Hs) as [Fg Pg]. fold gl in Fg, Pg. destruct q as [[a b] c]. destruct Hq as (Ha & Hb & Hc).
  destruct (face32 gl a Fg Pg Ha) as (ja & _ & _ & Fa & Ra & _). destruct (face32 gl b Fg Pg Hb) as (jb & _ & _ & Fb & Rb & _). destruct (face32 gl c Fg Pg Hc) as (jc & _ & _ & Fc & Rc & _).
  cbv beta iota delta [face_min]. set (x := face_dist arith32 gl a) in *. set (y := face_dist arith32 gl b) in *. set (z := face_dist arith32 gl c) in *.
  assert (SM : forall t, is_finite t = true -> (0 <= B2R t <= 3)%R -> small32 t) by (intros t F1 B1; split; [exact F1|apply Rabs_le; lra]).
  pose proof (SM x Fa Ra) as Sx. pose proof (SM y Fb Rb) as Sy. pose proof (SM z Fc Rc) as Sz.
  unfold stdmin3, fbmin3. destruct (bmin32 x x y y Sx Sx Sy Sy eq_refl eq_refl) as (S1 & S2 & V1).
  destruct (bmin32 _ _ z z S1 S2 Sz Sz V1 eq_refl) as (S3 & S4 & V2). repeat (split; [assumption|]).
  destruct (min32 x y Fa Fb Ra Rb) as (F1 & R1 & _). destruct (min32 _ z F1 Fc R1 Rc) as (_ & R2 & _). exact R2.
Qed.

Lemma shell_same gr q r : 0 < gr -> gr * gr * gr <= int_max -> safe_res gr = true -> open01p q -> 0 <= r < gr ->
  samepq arith32 float_view (square arith32 (fadd arith32 (fmul arith32 (grid_len arith32 gr) (fofZ arith32 r)) (face_min arith32 false (grid_len arith32 gr) q)))
     (square arith32 (fadd arith32 (fmul arith32 (grid_len arith32 gr) (fofZ arith32 r)) (face_min arith32 true (grid_len arith32 gr) q))).
Proof.
  intros Hg H3 Hs Hq Hr. pose proof tiny_pos as TP. pose proof tiny_small as TS. pose proof (small_res gr Hg H3) as Sm.
  destruct (grid32 gr Hg H3 Hs) as [Fg Pg]. destruct (face_same gr q Hg H3 Hs Hq) as (S1 & S2 & EV & Rm). cbv zeta in *.
  set (gl := grid_len arith32 gr) in *. set (mn := face_min arith32 false gl q) in *. set (mn' := face_min arith32 true gl q) in *.
  destruct (ofZ32 r ltac:(lia)) as [Vr Fr].
  assert (B0 : (0 <= B2R gl * IZR r <= 3)%R).
  { destruct (ofZ32 gr ltac:(lia)) as [Vg Fgr]. destruct (ofZ32 1 ltac:(lia)) as [V1 F1]. assert (Gp : (1 <= IZR gr)%R) by (apply (IZR_le 1); lia).
    assert (Gi : (0 < / IZR gr)%R) by (apply Rinv_0_lt_compat; lra).
    assert (Gu : (/ IZR gr <= 1)%R). { apply (Rmult_le_reg_r (IZR gr)); [lra|]. rewrite Rinv_l by lra. lra. }
    destruct (div32_ok (fofZ arith32 1) (fofZ arith32 gr) F1) as [_ VD]; [rewrite Vg; lra|rewrite V1, Vg; apply big100; unfold Rdiv; rewrite Rmult_1_l, Rabs_pos_eq; lra|].
    change (fdiv arith32 (fofZ arith32 1) (fofZ arith32 gr)) with gl in VD. rewrite V1, Vg in VD. unfold Rdiv in VD. rewrite Rmult_1_l in VD.
    pose proof (rnd_rel (/ IZR gr)) as RR. rewrite (Rabs_pos_eq (/ IZR gr)) in RR by lra. rewrite <- VD in RR. apply Rabs_le_inv in RR.
    assert (R0 : (0 <= IZR r)%R) by (apply IZR_le; lia). assert (R1 : (IZR r <= IZR gr)%R) by (apply IZR_le; lia). assert (R2 : (IZR r <= 2000)%R) by (apply IZR_le; lia).
    assert (R3 : (/ IZR gr * IZR r <= 1)%R). { apply (Rmult_le_reg_l (IZR gr)); [lra|]. rewrite <- Rmult_assoc, Rinv_r by lra. lra. }
    assert (R4 : (0 <= / IZR gr * IZR r)%R) by (apply Rmult_le_pos; lra). split; [apply Rmult_le_pos; lra|].
    assert (M : (B2R gl * IZR r <= (/ IZR gr + u * / IZR gr + tiny) * IZR r)%R) by (apply Rmult_le_compat_r; lra).
    assert (TT : (tiny * IZR r <= tiny * 2000)%R) by (apply Rmult_le_compat_l; lra). 
    replace ((/ IZR gr + u * / IZR gr + tiny) * IZR r)%R with (/ IZR gr * IZR r + u * (/ IZR gr * IZR r) + tiny * IZR r)%R in M by ring. lra. }
  destruct (mult32 gl (fofZ arith32 r) Fg Fr) as [F3 V3]; [rewrite Vr; apply big100; apply Rabs_le; lra|]. rewrite Vr in V3.
  set (t := fmul arith32 gl (fofZ arith32 r)) in *.
  assert (B3 : (0 <= B2R t <= 4)%R).
  { split; [rewrite V3, <- rnd_0; apply rnd_mono; lra|]. pose proof (rnd_err (B2R gl * IZR r) 3) as RE. rewrite <- V3 in RE. specialize (RE ltac:(apply Rabs_le; lra)). apply Rabs_le_inv in RE. lra. }
  assert (G : forall m, small32 m -> B2R m = B2R mn -> small32 (square arith32 (fadd arith32 t m)) /\ B2R (square arith32 (fadd arith32 t m)) = rnd (rnd (B2R t + B2R mn) * rnd (B2R t + B2R mn))).
  { intros m [Fm Bm] Em. destruct (plus32 t m F3 Fm) as [F4 V4]; [rewrite Em; apply big100; apply Rabs_le; lra|]. rewrite Em in V4. unfold square.
    set (s := fadd arith32 t m) in *.
    assert (B4 : (-8 <= B2R s <= 8)%R). { pose proof (rnd_err (B2R t + B2R mn) 7 ltac:(apply Rabs_le; lra)) as RE. rewrite <- V4 in RE. apply Rabs_le_inv in RE. lra. }
    assert (B5 : (Rabs (B2R s * B2R s) <= 64)%R). { rewrite Rabs_pos_eq by nra. nra. }
    destruct (mult32 s s F4 F4) as [F5 V5]; [apply big100; lra|]. rewrite <- V4. split; [|exact V5]. split; [exact F5|].
    pose proof (rnd_err _ _ B5) as RE. rewrite <- V5 in RE. apply Rabs_le_inv in RE. apply Rabs_le_inv in B5. apply Rabs_le. lra. }
  destruct (G mn S1 eq_refl) as [A1 A2]. destruct (G mn' S2 (eq_sym EV)) as [A3 A4]. left. simpl vfin. simpl vval. split; [assumption|]. split; [assumption|]. split; [exact (eq_trans A2 (eq_sym A4))|].
  clear G. destruct S1 as [Fm Bm]. destruct (plus32 t mn F3 Fm) as [F4 V4]; [apply big100; apply Rabs_le; lra|].
  assert (B4 : (-8 <= rnd (B2R t + B2R mn) <= 8)%R). { pose proof (rnd_err (B2R t + B2R mn) 7 ltac:(apply Rabs_le; lra)) as RE. apply Rabs_le_inv in RE. lra. }
  eapply Rle_lt_trans; [apply Req_le; exact A2|]. set (s := rnd (B2R t + B2R mn)) in *. assert (B5 : (Rabs (s * s) <= 64)%R). { rewrite Rabs_pos_eq by nra. nra. }
  pose proof (rnd_err _ _ B5) as RE. apply Rabs_le_inv in RE. apply Rabs_le_inv in B5. lra.
Qed.

Lemma agree32 gr k P0 P ids offs : 0 < gr <= 65536 -> gr * gr * gr <= int_max -> safe_res gr = true -> Forall open01p P0 -> xyz_sort arith32 gr P0 = Ok (P, ids, offs) -> 0 < k ->
  knn_agree arith32 gr k P ids offs.
Proof.
  intros [Hg Hg16] H3 Hs HO HS Hk. assert (IR : in_range_ids arith32 gr P0) by (apply in_range32; assumption).
  pose proof (perm_points arith32 _ _ _ _ _ HS) as PP.
  assert (OP : forall q, In q P -> open01p q). { intros q Hq. rewrite Forall_forall in HO. apply HO. eapply Permutation_in; [apply Permutation_sym; exact PP|]. assumption. }
  apply (view_agree arith32 float_view); auto.
  - now apply (sort_grid_ok arith32 _ P0).
  - intros p q Hp Hq. apply dist_small; auto.
  - intros q r Hq Hr. apply shell_same; auto.
Qed.

(** what a device run adds: same points, rows and neighbour object as on the CPU *)
Lemma gpu_single w c P0 : float_ok c P0 -> dev_ok c (zlen P0) -> c_recompute c = false -> w_gpu arith32 w = true ->
  exists o o', tess_core arith32 w c cpu P0 = Ok o /\ tess_core arith32 w c gpu P0 = Ok o' /\ o_pts arith32 o' = o_pts arith32 o /\ o_rows arith32 o' = o_rows arith32 o /\ o_dnn arith32 o' = o_dnn arith32 o /\
    (forall x s s', znth (o_states arith32 o) x = Some s -> znth (o_states arith32 o') x = Some s' ->
         forall f, In f flags -> (st_get s f = true -> st_get s' f = true) /\
           (st_get s' f = true -> st_get s f = true \/ st_get (w8 (jZ arith32 (w_junk arith32 w) x)) f = true)) /\
    ((forall x, jZ arith32 (w_junk arith32 w) x = st_init) -> o' = o).
Proof.
  intros (Hc & Hgr & H3 & Hs & HO & Hnt & Fit & HkN) (D1 & D2 & D3 & D4 & D5) Rc Hw.
  assert (IR : in_range_ids arith32 (c_gr c) P0) by (apply in_range32; assumption).
  destruct (xyz_sort_total arith32 (c_gr c) P0 ltac:(lia) H3 IR) as (P & ids & offs & HS).
  pose proof (perm_points arith32 _ _ _ _ _ HS) as PP. assert (LP : zlen P = zlen P0) by (unfold zlen; rewrite (Permutation_length PP); reflexivity).
  rewrite <- LP in Fit, D3, D4, D5.
  assert (HA : knn_agree arith32 (c_gr c) (c_k c) P ids offs). { apply (agree32 (c_gr c) (c_k c) P0); auto; [lia|]. destruct Hc as (K1 & _). lia. }
  destruct (gpu_final_gen arith32 c P0 P ids offs) as (o & Ro & Po & G); auto; [split; auto|].
  destruct (G w Hw) as (o' & Ro' & X1 & X2 & X3 & X4 & X5 & X6 & X7). exists o, o'. rewrite Po. auto 10.
Qed.

Lemma gpu_single_len w c P0 o : float_ok c P0 -> dev_ok c (zlen P0) -> c_recompute c = false -> w_gpu arith32 w = true -> tess_core arith32 w c gpu P0 = Ok o -> zlen (o_states arith32 o) = zlen P0.
Proof.
  intros (Hc & Hgr & H3 & Hs & HO & Hnt & Fit & HkN) (D1 & D2 & D3 & D4 & D5) Rc Hw R.
  assert (IR : in_range_ids arith32 (c_gr c) P0) by (apply in_range32; assumption).
  destruct (xyz_sort_total arith32 (c_gr c) P0 ltac:(lia) H3 IR) as (P & ids & offs & HS).
  pose proof (perm_points arith32 _ _ _ _ _ HS) as PP. assert (LP : zlen P = zlen P0) by (unfold zlen; rewrite (Permutation_length PP); reflexivity).
  rewrite <- LP in Fit, D3, D4, D5.
  assert (HA : knn_agree arith32 (c_gr c) (c_k c) P ids offs). { apply (agree32 (c_gr c) (c_k c) P0); auto; [lia|]. destruct Hc as (K1 & _). lia. }
  destruct (gpu_final_gen arith32 c P0 P ids offs) as (o0 & Ro & Po & G); auto; [split; auto|].
  destruct (G w Hw) as (o' & Ro' & X1 & X2 & X3 & X4 & _). rewrite R in Ro'. injection Ro' as <-. lia.
Qed.

(** a zeroed state array: nothing distinguishes the two, recompute or not *)
Lemma gpu_single_zero w c P0 : float_ok c P0 -> dev_ok c (zlen P0) -> (forall x, jZ arith32 (w_junk arith32 w) x = st_init) ->
  tess_core arith32 w c gpu P0 = tess_core arith32 w c cpu P0.
Proof.
  intros (Hc & Hgr & H3 & Hs & HO & Hnt & Fit & HkN) (D1 & D2 & D3 & D4 & D5) Hj.
  assert (IR : in_range_ids arith32 (c_gr c) P0) by (apply in_range32; assumption).
  destruct (xyz_sort_total arith32 (c_gr c) P0 ltac:(lia) H3 IR) as (P & ids & offs & HS).
  pose proof (perm_points arith32 _ _ _ _ _ HS) as PP. assert (LP : zlen P = zlen P0) by (unfold zlen; rewrite (Permutation_length PP); reflexivity).
  rewrite <- LP in Fit, D3, D4, D5.
  assert (HA : knn_agree arith32 (c_gr c) (c_k c) P ids offs). { apply (agree32 (c_gr c) (c_k c) P0); auto; [lia|]. destruct Hc as (K1 & _). lia. }
  apply (gpu_zero_gen arith32 c P0 P ids offs); auto. split; auto.
Qed.

(** the candidates behind the rows of a device run *)
Lemma gpu_near w c P0 : float_ok c P0 -> dev_ok c (zlen P0) -> c_recompute c = false -> c_k c < zlen P0 -> w_gpu arith32 w = true ->
  exists o, tess_core arith32 w c gpu P0 = Ok o /\ Permutation P0 (o_pts arith32 o) /\ zlen (o_rows arith32 o) = zlen P0 /\
  forall i row, znth (o_rows arith32 o) i = Some row -> exists near, zlen near = c_k c /\
    nearest_within eps20 (real_dist (o_pts arith32 o) i) (others (zlen P0) i) near /\ incl row near /\ ordered_within eps20 (real_dist (o_pts arith32 o) i) row.
Proof.
  intros H D Rc Kn Hw. destruct (gpu_single w c P0 H D Rc Hw) as (o & o' & R & R' & E1 & E2 & _).
  destruct (near_plain w c P0 H Rc Kn) as (o2 & R2 & PP & L & LS & Q). rewrite R in R2. injection R2 as <-.
  exists o'. split; [assumption|]. rewrite E1, E2. split; [assumption|]. split; [assumption|].
  intros i row Hrow. pose proof (znth_some _ _ _ Hrow) as Hi. destruct (znth_in_range (o_states arith32 o) i ltac:(lia)) as [b Hb].
  destruct (Q i row b Hrow Hb) as (near & N1 & N2 & N3 & N4 & _). eauto 10.
Qed.
