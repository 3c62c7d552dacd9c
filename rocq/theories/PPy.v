(** The Python module. *)
From Verif Require Import Base Arith PBase Prog MUtils MHeap MXyz MKnn MBoundary MCell MDnn MArgs MTess MPy Exact PExact SpecGeom SpecVor SpecSort SpecDnn SpecRows PSort PXyz PSortFinal PGrid PDnn
  SpecMain PArgs PMain SpecApi SpecPy PGeomFinal PRecGeom PNoFailApi PExactApi PCanon PApi.
From Coq Require Import String Permutation Sorted.
Local Open Scope string_scope.
Local Open Scope Z_scope.

(** ** parameters *)
Lemma set_text a key v v' : to_str v = to_str v' -> args_set a key v = args_set a key v'.
Proof. intros H. induction a as [|[k o] a IH]; simpl; [reflexivity|]. rewrite H, IH. reflexivity. Qed.

Lemma setitem_cpp a key pv v : as_cpp pv = Some v -> (forall z, v = VInt z -> int_min <= z <= int_max) -> py_setitem a key pv = args_set a key v.
Proof.
  destruct pv as [z|b|z|s|]; simpl; intros [= <-] R; auto.
  - specialize (R z eq_refl). replace (Base.in_int z) with true by (symmetry; unfold Base.in_int; lia). reflexivity.
  - apply set_text. now destruct b.
Qed.

Lemma assign_cpp pops ops : Forall2 translates pops ops -> well_typed ops -> forall a, py_assign a pops = run_assign a ops.
Proof.
  unfold py_assign, run_assign. induction 1 as [|[pk pv] [k v] pops ops [Hk Hv] HF IH]; intros HT a; [reflexivity|]. simpl in Hk, Hv. subst pk.
  inversion_clear HT as [|? ? H1 H2]. cbn [rfold]. rewrite (setitem_cpp a k pv v Hv).
  - destruct (args_set a k v) as [a'|e]; [|reflexivity]. cbn [rbind]. now apply IH.
  - intros z ->. simpl in H1. destruct H1 as [[_ (z' & [= ->] & R)]|[_ (b & C)]]; [assumption|discriminate].
Qed.

Lemma setitem_rejects a key : (forall z, ~ (int_min <= z <= int_max) -> py_setitem a key (PyInt z) = Err EThrow) /\ py_setitem a key PyOther = Err EThrow.
Proof.
  split; [|reflexivity]. intros z H. simpl. replace (Base.in_int z) with false by (symmetry; unfold Base.in_int; lia). reflexivity.
Qed.

Lemma rhe_cases n p : 0 < p -> let r := round_half_even n p in
  n / p <= r <= n / p + 1 /\ 2 * Z.abs (n - r * p) <= p /\ (2 * Z.abs (n - r * p) = p -> Z.even r = true).
Proof.
  intros Hp r. unfold r, round_half_even. pose proof (Z.div_mod n p ltac:(lia)) as D. pose proof (Z.mod_pos_bound n p Hp) as M.
  remember (n / p) as q. remember (n mod p) as t. clear Heqq Heqt.
  destruct (Z.ltb_spec (2 * t) p); [split; [lia|]; split; [lia|]; intros; exfalso; lia|].
  destruct (Z.ltb_spec p (2 * t)); [split; [lia|]; split; [lia|]; intros; exfalso; lia|].
  destruct (Z.even q) eqn:Ev; (split; [lia|]; split; [lia|]; intros _); [assumption|]. rewrite Z.add_1_r, Z.even_succ, <- Z.negb_even, Ev. reflexivity.
Qed.

(** floats from [2^(e+23)] on are multiples of [2^e] *)
Lemma float_multiple y e : 0 <= e -> float_int y -> 2 ^ (e + 23) <= Z.abs y -> exists m, y = m * 2 ^ e.
Proof.
  intros He (m & e' & He' & Hm & ->) Hy. destruct (Z_le_gt_dec e e') as [L|L].
  - exists (m * 2 ^ (e' - e)). rewrite <- Z.mul_assoc, <- Z.pow_add_r by lia. do 2 f_equal. lia.
  - exfalso. rewrite Z.abs_mul, (Z.abs_eq (2 ^ e')) in Hy by (apply Z.pow_nonneg; lia).
    assert (2 ^ (e + 23) = 2 ^ e' * 2 ^ (e - e' - 1) * 2 ^ 24) as E by (rewrite <- !Z.pow_add_r by lia; f_equal; lia).
    pose proof (Z.pow_pos_nonneg 2 e' ltac:(lia) He'). pose proof (Z.pow_pos_nonneg 2 (e - e' - 1) ltac:(lia) ltac:(lia)). nia.
Qed.
Lemma nearest_nonneg z : 0 <= z -> nearest_float z (f32_int z).
Proof.
  intros Hz. unfold f32_int. rewrite (Z.abs_eq z Hz). set (e := Z.log2 z - 23). destruct (Z.leb_spec e 0) as [He|He].
  - split.
    + exists z, 0. split; [lia|]. rewrite Z.abs_eq, Z.mul_1_r by lia. split; [|reflexivity]. destruct (Z.eq_dec z 0) as [->|]; [reflexivity|]. apply Z.log2_lt_pow2; lia.
    + intros y' _ Hy. left. lia.
  - assert (Hz' : 0 < z) by (destruct (Z.eq_dec z 0) as [->|]; [exfalso; revert He; vm_compute; discriminate|lia]).
    rewrite (Z.sgn_pos z Hz'), Z.mul_1_l.
    pose proof (rhe_cases z (2 ^ e) (Z.pow_pos_nonneg 2 e ltac:(lia) ltac:(lia))) as (R1 & R2 & R3). set (r := round_half_even z (2 ^ e)) in *.
    pose proof (Z.pow_pos_nonneg 2 e ltac:(lia) ltac:(lia)) as Pe. pose proof (Z.log2_spec z Hz') as [L1 L2].
    assert (E1 : 2 ^ Z.log2 z = 2 ^ 23 * 2 ^ e) by (rewrite <- Z.pow_add_r by lia; f_equal; lia).
    assert (E2 : 2 ^ Z.succ (Z.log2 z) = 2 ^ 24 * 2 ^ e) by (rewrite <- Z.pow_add_r by lia; f_equal; lia).
    pose proof (Z.div_le_lower_bound z (2 ^ e) (2 ^ 23) Pe ltac:(lia)) as B1. pose proof (Z.div_lt_upper_bound z (2 ^ e) (2 ^ 24) Pe ltac:(lia)) as B2.
    split.
    + destruct (Z.eq_dec r (2 ^ 24)) as [Q|Q].
      * exists 1, (e + 24). rewrite Q, Z.pow_add_r by lia. split; [lia|]. split; [reflexivity|lia].
      * exists r, e. split; [lia|]. split; [lia|reflexivity].
    + intros y' Fy Ny.
      assert (M : (exists m, y' = m * 2 ^ e) \/ y' < 2 ^ 23 * 2 ^ e).
      { destruct (Z_lt_le_dec y' (2 ^ 23 * 2 ^ e)) as [L|L]; [now right|]. left. apply (float_multiple y' e); [lia|assumption|]. rewrite Z.pow_add_r by lia. nia. }
      destruct M as [(m & ->)|M].
      * assert (m <> r) by congruence. destruct (Z.eq_dec (2 * Z.abs (z - r * 2 ^ e)) (2 ^ e)) as [T|T].
        -- destruct (Z.eq_dec (Z.abs (m - r)) 1) as [T1|T1].
           ++ destruct (Z.eq_dec (Z.abs (z - r * 2 ^ e)) (Z.abs (z - m * 2 ^ e))) as [T2|T2].
              ** right. split; [assumption|]. exists r, e. split; [lia|]. split; [now apply R3|]. split; [reflexivity|]. rewrite <- Z.mul_sub_distr_r, Z.abs_mul, T1. lia.
              ** left. nia.
           ++ left. nia.
        -- left. nia.
      * left. assert (r * 2 ^ e >= 2 ^ 23 * 2 ^ e) by nia.
        destruct (Z_le_gt_dec z (r * 2 ^ e)) as [Q|Q]; [|lia].
        destruct (Z.eq_dec r (2 ^ 23)) as [Qr|Qr]; [lia|]. assert (r - 1 >= 2 ^ 23) by lia. assert ((r - 1) * 2 ^ e >= 2 ^ 23 * 2 ^ e) by nia. lia.
Qed.
Lemma f32_int_opp z : f32_int (- z) = - f32_int z.
Proof. unfold f32_int. rewrite Z.abs_opp, Z.sgn_opp. destruct (_ <=? 0); [reflexivity|ring]. Qed.
Lemma float_int_opp y : float_int y -> float_int (- y).
Proof. intros (m & e & A & B & ->). exists (- m), e. rewrite Z.abs_opp. split; [assumption|]. split; [assumption|ring]. Qed.
Lemma nearest_f32 z : nearest_float z (f32_int z).
Proof.
  destruct (Z_le_gt_dec 0 z) as [H|H]; [now apply nearest_nonneg|]. destruct (nearest_nonneg (- z) ltac:(lia)) as [A B]. rewrite f32_int_opp in A, B.
  split; [rewrite <- (Z.opp_involutive (f32_int z)); now apply float_int_opp|].
  intros y' Fy Ny. destruct (B (- y') (float_int_opp _ Fy) ltac:(lia)) as [C|(C & m & e & He & Em & E1 & E2)]; [left; lia|]. right. split; [lia|].
  exists (- m), e. split; [assumption|]. split; [now rewrite Z.even_opp|]. split; [rewrite Z.mul_opp_l; lia|lia].
Qed.
Lemma setitem_float a key z : exists y, nearest_float z y /\ py_setitem a key (PyFloatInt z) = args_set a key (VFloatInt y).
Proof. exists (f32_int z). split; [apply nearest_f32|reflexivity]. Qed.
Lemma setitem_float_int a a' key z : Z.abs z < 1000000 -> py_setitem a key (PyFloatInt z) = Ok a' -> get_int a' key = Ok z.
Proof.
  intros H S. apply (float_roundtrip a key z a' H). rewrite <- S. simpl. f_equal. f_equal. unfold f32_int.
  destruct (Z.leb_spec (Z.log2 (Z.abs z) - 23) 0) as [L|L]; [reflexivity|]. exfalso.
  assert (Z.log2 (Z.abs z) <= Z.log2 1000000) by (apply Z.log2_le_mono; lia). change (Z.log2 1000000) with 19 in *. lia.
Qed.

(** ** points *)
Lemma given_map (N : Arith) (D : Type) (conv : D -> F N) xyz P : as_given conv xyz P -> P = map (conv3 N D conv) xyz.
Proof.
  induction 1 as [|[[x y] z] [[x' y'] z'] xyz P (A & B & C) H IH]; [reflexivity|]. simpl in *. now rewrite A, B, C, <- IH.
Qed.
Lemma core_inv (N : Arith) (w : world N) c dev P0 o : tess_core N w c dev P0 = Ok o ->
  (exists ids offs, xyz_sort N (c_gr c) P0 = Ok (o_pts N o, ids, offs)) /\ getdnn (o_rows N o) = Ok (o_dnn N o).
Proof.
  unfold tess_core. intros H. apply rbind_ok in H as ([[P ids] offs] & H1 & H). apply rbind_ok in H as ([t s] & H2 & H). apply rbind_ok in H as ([t' s'] & H3 & H).
  apply rbind_ok in H as (d & H4 & H). injection H as <-. simpl. eauto.
Qed.

Lemma core_nogpu (N : Arith) (w : world N) c P0 : w_gpu N w = false -> tess_core N w c gpu P0 = tess_core N w c cpu P0.
Proof. intros H. unfold tess_core, run_device. now rewrite H. Qed.

Section Ex.
Variable N : Arith.
Variable E : Exact N.
Notation valp := (valp N E).

Lemma sort_geometric gr P0 P ids offs : 0 < gr -> gr * gr * gr <= int_max -> (forall q, In q P0 -> inside N E q) ->
  xyz_sort N gr P0 = Ok (P, ids, offs) -> stable_sort_of (fun p => grid_cell gr (valp p)) P0 P.
Proof.
  intros Hg Hm Hi H. pose proof (in_range_exact N E gr P0 Hg Hm Hi) as Hr.
  assert (C : forall p, inside N E p -> cell_id N gr (grid_len N gr) p = Ok (grid_cell gr (valp p))).
  { intros p [Fp Cp]. apply cell_id_exact; auto. destruct (valp p) as [[x y] z]. unfold in_open_cube in Cp. intuition lra. }
  pose proof H as H'. apply xyz_sort_spec in H' as (l & t & El & Et & Ep & (PP & S & F) & Ht & Hl & _); [|eapply nonneg_of_range; eauto].
  assert (K : forall r, In r t -> grid_cell gr (valp (snd r)) = fst r).
  { intros r Hin. assert (In (snd r) P0) by (rewrite <- El; apply in_map, (Permutation_in _ (Permutation_sym PP)), Hin).
    specialize (C _ (Hi _ H0)). rewrite Ht in C by assumption. congruence. }
  assert (PM : Permutation P0 P) by (rewrite <- El, <- Ep; now apply Permutation_map).
  split; [exact PM|]. split.
  - rewrite <- Ep. clear -S K. unfold sorted_by in *. induction S as [|r t S IH Fo]; simpl; constructor.
    + apply IH. intros; apply K; now right.
    + rewrite Forall_forall in *. intros p Hp. apply in_map_iff in Hp as (r' & <- & Hr). rewrite !K by (simpl; auto). now apply Fo.
  - intros c. pose proof (sort_stable N gr P0 P ids offs Hr H c) as Q.
    assert (G : forall l, (forall p, In p l -> inside N E p) -> filter (cellb N gr c) l = filter (fun x => grid_cell gr (valp x) =? c) l).
    { clear -C. induction l as [|p l IH]; intros Hl; [reflexivity|]. simpl. unfold cellb at 1. rewrite C by (apply Hl; now left). rewrite IH by (intros; apply Hl; now right). reflexivity. }
    rewrite !G in Q; auto. intros p Hp. apply Hi. eapply Permutation_in; [apply Permutation_sym; exact PM|exact Hp].
Qed.

Lemma enough_inside c P0 : enough N E c P0 -> 0 < c_gr c /\ c_gr c * c_gr c * c_gr c <= int_max /\ forall q, In q P0 -> inside N E q.
Proof. intros [[(_ & A & B & C & _) _]|(_ & _ & _ & _ & _ & A & B & C & _)]; auto. Qed.

Lemma py_rows (D : Type) (conv : D -> F N) w pops ops dev xyz : Forall2 translates pops ops -> well_typed ops -> (dev = Some cpu \/ w_gpu N w = false) ->
  let c := api_cfg (w_hwc N w) ops in let P0 := map (conv3 N D conv) xyz in enough N E c P0 ->
  exists a d rows P, py_assign args_init pops = Ok a /\ py_tesellate N D conv w a dev xyz = Ok (xyz, d) /\
    stable_sort_of (fun p => grid_cell (c_gr c) (valp p)) P0 P /\ zlen rows = zlen xyz /\ shows d rows /\
    forall i row, znth rows i = Some row -> exact_row (map valp P) i row.
Proof.
  intros HT HW HD c P0 HE. destruct (api_reads ops HW) as (a & HA & T). destruct (enough_complete N E w c P0 HE) as (o & R & C).
  exists a, (o_dnn N o), (o_rows N o), (o_pts N o). split; [now rewrite (assign_cpp _ _ HT HW)|]. split.
  { unfold py_tesellate. fold P0. rewrite T. fold c. replace (tess_core N w c match dev with Some d => d | None => gpu end P0) with (Ok o); [reflexivity|].
    rewrite <- R. destruct HD as [->|G]; [reflexivity|]. destruct dev as [[|]|]; auto; symmetry; now apply core_nogpu. }
  destruct (core_inv N w c cpu P0 o R) as [(ids & offs & X) _]. destruct (enough_inside c P0 HE) as (G1 & G2 & G3). split; [eapply sort_geometric; eauto|].
  destruct C as (_ & L & _ & SH & _ & EX). split; [|split; assumption]. rewrite L. unfold P0. apply zlen_map.
Qed.

Lemma py_sorted_rows (D : Type) (conv : D -> F N) w pops ops dev xyz : Forall2 translates pops ops -> well_typed ops -> (dev = Some cpu \/ w_gpu N w = false) ->
  let c := api_cfg (w_hwc N w) ops in let P0 := map (conv3 N D conv) xyz in enough N E c P0 -> sorted_by (fun p => grid_cell (c_gr c) (valp p)) P0 ->
  exists a d rows, py_assign args_init pops = Ok a /\ py_tesellate N D conv w a dev xyz = Ok (xyz, d) /\ zlen rows = zlen xyz /\ shows d rows /\
    forall i row, znth rows i = Some row -> exact_row (map valp P0) i row.
Proof.
  intros HT HW HD c P0 HE HS. destruct (py_rows D conv w pops ops dev xyz HT HW HD HE) as (a & d & rows & P & HA & R & SS & L & SH & EX).
  exists a, d, rows. split; [assumption|]. split; [assumption|]. split; [assumption|]. split; [assumption|]. fold c P0 in SS.
  assert (P = P0) as -> by (eapply stable_sort_unique; [exact SS|now apply stable_sort_sorted]). exact EX.
Qed.

Lemma py_rows_given (D : Type) (conv : D -> F N) w pops ops dev xyz P0 : Forall2 translates pops ops -> well_typed ops -> (dev = Some cpu \/ w_gpu N w = false) ->
  as_given conv xyz P0 -> let c := api_cfg (w_hwc N w) ops in enough N E c P0 ->
  exists a d rows P, py_assign args_init pops = Ok a /\ py_tesellate N D conv w a dev xyz = Ok (xyz, d) /\
    stable_sort_of (fun p => grid_cell (c_gr c) (valp p)) P0 P /\ zlen rows = zlen xyz /\ shows d rows /\
    forall i row, znth rows i = Some row -> exact_row (map valp P) i row.
Proof. intros HT HW HD G. rewrite (given_map N D conv xyz P0 G). now apply py_rows. Qed.
Lemma py_sorted_given (D : Type) (conv : D -> F N) w pops ops dev xyz P0 : Forall2 translates pops ops -> well_typed ops -> (dev = Some cpu \/ w_gpu N w = false) ->
  as_given conv xyz P0 -> let c := api_cfg (w_hwc N w) ops in enough N E c P0 -> sorted_by (fun p => grid_cell (c_gr c) (valp p)) P0 ->
  exists a d rows, py_assign args_init pops = Ok a /\ py_tesellate N D conv w a dev xyz = Ok (xyz, d) /\ zlen rows = zlen xyz /\ shows d rows /\
    forall i row, znth rows i = Some row -> exact_row (map valp P0) i row.
Proof. intros HT HW HD G. rewrite (given_map N D conv xyz P0 G). now apply py_sorted_rows. Qed.
End Ex.

(** ** iteration *)
Lemma py_for_skip d i o : rget (d_offs d) i = Ok o -> forall fuel m, zlen (d_list d) < Z.of_nat fuel + (o + m) -> 0 <= o + m <= zlen (d_list d) ->
  py_for fuel d i m = (skipn (Z.to_nat (o + m)) (d_list d), EUB).
Proof.
  intros Ho. induction fuel as [|fuel IH]; intros m Hf Hm; [exfalso; lia|]. cbn [py_for]. unfold py_get, row_get. rewrite Ho. cbn [rbind].
  destruct (Z.eq_dec (o + m) (zlen (d_list d))) as [Q|Q].
  - unfold rget. rewrite (proj2 (znth_none _ _)) by lia. rewrite skipn_all2 by (unfold zlen in Q; lia). reflexivity.
  - destruct (znth_in_range (d_list d) (o + m) ltac:(lia)) as [x Hx]. rewrite (rget_some _ _ _ Hx). rewrite IH by lia.
    rewrite (skipn_znth _ _ _ Hx). replace (o + (m + 1)) with (o + m + 1) by lia. reflexivity.
Qed.

Lemma skipn_concat rows i : skipn (Z.to_nat (osum rows i)) (List.concat rows) = List.concat (skipn (Z.to_nat i) rows).
Proof.
  unfold osum, zlen. rewrite Nat2Z.id. rewrite <- (firstn_skipn (Z.to_nat i) rows) at 2. rewrite concat_app, skipn_app, skipn_all, Nat.sub_diag. reflexivity.
Qed.

Lemma for_row_final tmpnn d : getdnn tmpnn = Ok d -> let rows := map visible tmpnn in
  (zlen tmpnn <= int_max -> shows d rows) /\ forall i, 0 <= i <= zlen rows -> py_for_row d i = (List.concat (skipn (Z.to_nat i) rows), EUB).
Proof.
  intros H rows. assert (T : total rows <= int_max).
  { destruct (Z_le_gt_dec (total rows) int_max) as [L|L]; [assumption|]. destruct (getdnn_overflow tmpnn) as [e X]; [exact L|]. congruence. }
  split.
  - intros Hn. destruct (dnn_view tmpnn d Hn T H) as (S1 & S2 & _). split; [rewrite S1; symmetry; apply zlen_map|exact S2].
  - intros i Hi. rewrite getdnn_ok in H by exact T. injection H as <-. fold rows. unfold py_for_row. rewrite <- skipn_concat.
    pose proof (osum_nonneg rows i). pose proof (osum_le rows i).
    rewrite (py_for_skip _ i (osum rows i)); simpl.
    + rewrite Z.add_0_r. reflexivity.
    + apply rget_some. now apply znth_shape.
    + unfold zlen. lia.
    + lia.
Qed.

Lemma py_for_api (N : Arith) (D : Type) (conv : D -> F N) w a dev xyz r : py_tesellate N D conv w a dev xyz = Ok r ->
  exists rows, (zlen rows <= int_max -> shows (snd r) rows) /\ fst r = xyz /\
    forall i, 0 <= i <= zlen rows -> py_for_row (snd r) i = (List.concat (skipn (Z.to_nat i) rows), EUB).
Proof.
  intros H. unfold py_tesellate in H. apply rbind_ok in H as (o & T & H). injection H as <-. unfold tesellate in T. apply rbind_ok in T as (b & _ & T). apply rbind_ok in T as (c & _ & T).
  apply core_inv in T as [_ G]. destruct (for_row_final _ _ G) as [S1 S2]. exists (map visible (o_rows N o)). split; [|split; [reflexivity|exact S2]].
  rewrite zlen_map. exact S1.
Qed.
