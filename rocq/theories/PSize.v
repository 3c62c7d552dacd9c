(** Sizes that do not fit. *)
From Verif Require Import Base Arith PBase Prog MUtils MHeap MXyz MKnn MCell MDnn MArgs MTess PRanges PTessRun.
Local Open Scope res_scope.

Lemma chk_big x : int_max < x -> chk x = Err EUB.
Proof. intros H. unfold chk, Base.in_int. destruct (Z.leb_spec int_min x), (Z.leb_spec x int_max); simpl; try reflexivity; lia. Qed.

Section S.
Variable N : Arith.

Lemma buffers_big c sub (states : list Z) : 0 <= sub -> 0 <= c_k c -> 0 <= c_pmax c -> 0 <= c_tmax c ->
  int_max < sub * c_k c \/ int_max < sub * c_pmax c * 4 \/ int_max < sub * c_tmax c * 3 -> buffers N c sub states = Err EUB.
Proof.
  intros Hs Hk Hp Ht H. unfold buffers.
  assert (A3 : forall a d, 0 <= sub * a -> 1 <= d -> alloc (mul3 sub a d) = if int_max <? sub * a * d then Err EUB else Ok (Z.to_nat (sub * a * d))).
  { intros a d Ha Hd. destruct (Z.ltb_spec int_max (sub * a * d)).
    - unfold mul3. destruct (Z_le_gt_dec (sub * a) int_max); [rewrite chk_ok by (unfold int_min; lia)|rewrite chk_big by lia; reflexivity]. cbn [rbind]. rewrite chk_big by lia. reflexivity.
    - apply alloc_mul3; lia. }
  destruct (Z_le_gt_dec (sub * c_k c) int_max); [rewrite alloc_chk by nia|rewrite chk_big by lia; reflexivity]. cbn [rbind].
  rewrite (A3 (c_pmax c) 4) by nia. destruct (Z.ltb_spec int_max (sub * c_pmax c * 4)); [reflexivity|]. cbn [rbind].
  rewrite (A3 (c_tmax c) 3) by nia. destruct (Z.ltb_spec int_max (sub * c_tmax c * 3)); [reflexivity|]. lia.
Qed.

Lemma too_big w c P0 P ids offs : xyz_sort N (c_gr c) P0 = Ok (P, ids, offs) -> 0 <= c_k c -> 0 <= c_pmax c -> 0 <= c_tmax c ->
  zlen P + 1 <= int_max -> ~ fits c (zlen P) -> tess_core N w c cpu P0 = Err EUB.
Proof.
  intros HS Hk Hp Ht Hn Hf. unfold tess_core. rewrite HS. cbn [rbind run_device]. unfold cpu_tesellate. cbn [g_pts].
  assert (EC : eff_chunksize c (zlen P) = Ok (chunk_of c (zlen P))). { pose proof (zlen_nonneg P). unfold eff_chunksize, chunk_of. destruct (c_use_chunking c); [reflexivity|]. apply chk_ok. unfold int_min. lia. }
  rewrite EC. cbn [rbind]. rewrite buffers_big; [reflexivity| |assumption|assumption|assumption|].
  - pose proof (zlen_nonneg P) as Hn0. pose proof (num_runs_pos (chunk_of c (zlen P)) (zlen P) Hn0).
    destruct (chunk_bounds (chunk_of c (zlen P)) (zlen P) 0 Hn0 ltac:(lia)) as (_ & ? & Q & _). lia.
  - unfold fits in Hf. cbv zeta in Hf. lia.
Qed.

(** one more point than an int can count *)
Lemma too_many w c P0 P ids offs : xyz_sort N (c_gr c) P0 = Ok (P, ids, offs) -> c_use_chunking c = false -> int_max < zlen P + 1 -> tess_core N w c cpu P0 = Err EUB.
Proof.
  intros HS Hu Hn. unfold tess_core. rewrite HS. cbn [rbind run_device]. unfold cpu_tesellate. cbn [g_pts]. unfold eff_chunksize. rewrite Hu, chk_big by lia. reflexivity.
Qed.
End S.

From Verif Require Import PXyz PSlotHost PTessFinal.
Lemma fits_returns (N : Arith) w c P0 P ids offs :
  cfg_ok c -> 0 < c_gr c -> in_range_ids N (c_gr c) P0 -> xyz_sort N (c_gr c) P0 = Ok (P, ids, offs) ->
  c_k c * zlen P <= int_max -> c_recompute c = false -> 1 <= c_nthreads c -> fits c (zlen P) ->
  exists o, tess_core N w c cpu P0 = Ok o /\ zlen (o_rows N o) = zlen P.
Proof.
  intros Hc Hg Hr HS Hk Rc Hn Hf. destruct (settings_final N c P0 P ids offs Hc Hg Hr HS Hk) as (o & _ & L & _ & E).
  exists o. split; [apply E; auto; repeat split; reflexivity|assumption].
Qed.
