(** C84: from assignments, from a file, from Python to the true Voronoi neighbours. *)
From Verif Require Import Base Arith PBase Prog MUtils MXyz MTess MDnn MArgs MPy MMain MConsole MGetopt MRead SpecDnn SpecGeom SpecVor SpecRows SpecNear SpecHeap SpecAny SpecMain SpecCli SpecRead
  PDnn PText PApi PPy PMain PGetopt PConsole PRead PReadLine PReadRun PExactApi PSlotHost PTessRun Arith32 PFloat PFloatRows PRobust PRobustRun PRobustFace PRobustCanon PSort32.
From Flocq Require Import Core IEEE754.BinarySingleNaN.
From Coq Require Import String Reals Lra Permutation.
From Verif Require Export SpecArgs SpecSort SpecApi SpecSingle SpecRobust SpecParam SpecText SpecPy SpecFace.
Import SpecGeom.
Local Open Scope Z_scope.

Lemma float_cfg_ok c P0 : float_cfg c (zlen P0) -> Forall open01p P0 -> float_ok c P0.
Proof. intros (Q1 & Q2 & Q3 & Q4 & Q5 & Q6 & Q7) O. repeat (split; [assumption|]). assumption. Qed.
Lemma open_cube p : open01p p -> in_open_cube (real_pt p).
Proof. destruct p as [[x y] z]. intros (A & B & C). repeat split; first [apply A|apply B|apply C]. Qed.
(** a cell of two or more has a neighbour *)
Lemma exact_nonempty S i j p q row : exact_cell S i row -> znth S i = Some p -> znth S j = Some q -> p <> q -> in_cube q -> row <> [].
Proof.
  intros (_ & _ & _ & _ & B) Ei Ej N C ->. destruct (B p q Ei C) as [_ H]; [intros ? ? []|]. specialize (H q (znth_in _ _ _ Ej)). apply N.
  destruct p as [[a b] c], q as [[a' b'] c']. unfold d2 in H. pose proof (pow2_ge_0 (a' - a)). pose proof (pow2_ge_0 (b' - b)). pose proof (pow2_ge_0 (c' - c)).
  assert (Z0 : forall x, (x ^ 2 <= 0 -> x = 0)%R) by (intros x Hx; pose proof (pow2_ge_0 x); apply Rsqr_0_uniq; unfold Rsqr; lra).
  replace ((a' - a') ^ 2 + (b' - b') ^ 2 + (c' - c') ^ 2)%R with 0%R in H by ring.
  assert (E1 := Z0 (a' - a)%R ltac:(lra)). assert (E2 := Z0 (b' - b)%R ltac:(lra)). assert (E3 := Z0 (c' - c)%R ltac:(lra)). f_equal; [f_equal|]; lra.
Qed.
Lemma visible_id row : (forall x, In x row -> 0 <= x) -> visible row = row.
Proof.
  induction row as [|x row IH]; intros H; [reflexivity|]. simpl. pose proof (H x (or_introl eq_refl)). replace (x =? -32) with false by lia. f_equal. apply IH. intros; apply H; now right.
Qed.

(** what the caller sees of rows that are exact *)
Lemma robust_shown c P0 (w : world arith32) o : float_cfg c (zlen P0) -> c_k c < zlen P0 -> Forall open01p P0 -> all_robust (map real_pt P0) ->
  tess_core arith32 w c cpu P0 = Ok o -> Permutation P0 (o_pts arith32 o) -> zlen (o_rows arith32 o) = zlen P0 -> zlen (o_states arith32 o) = zlen P0 ->
  (forall i row b, znth (o_rows arith32 o) i = Some row -> znth (o_states arith32 o) i = Some b -> errorless b /\ exact_cell (map real_pt (o_pts arith32 o)) i row) ->
  stable_sort_of (fun p => cell32 (c_gr c) (real_pt p)) P0 (o_pts arith32 o) /\ face_rows (map real_pt (o_pts arith32 o)) (o_rows arith32 o) /\
    Forall errorless (o_states arith32 o) /\ shows (o_dnn arith32 o) (o_rows arith32 o) /\
    dnn_savetxt (o_dnn arith32 o) = Ok (lines_text show_int (o_rows arith32 o)) /\ dnn_print (o_dnn arith32 o) = Ok (braces_text show_int (o_rows arith32 o)).
Proof.
  intros HC Kn HO HR R PP L1 L2 H.
  assert (RW : forall i row b, znth (o_rows arith32 o) i = Some row -> znth (o_states arith32 o) i = Some b -> errorless b /\ NoDup row /\ forall j, In j row <-> j <> i /\ face (map real_pt (o_pts arith32 o)) i j).
  { intros i row b Er Eb. destruct (H i row b Er Eb) as [EB EC]. pose proof (znth_some _ _ _ Er) as Hi. assert (LS : zlen (map real_pt (o_pts arith32 o)) = zlen P0) by (rewrite zlen_map; unfold zlen; now rewrite (Permutation_length PP)).
    destruct (robust_perm (map real_pt P0) (map real_pt (o_pts arith32 o)) (Permutation_map real_pt PP) HR i ltac:(lia)) as [rho Hrob]. split; [exact EB|]. split; [apply EC|]. apply (robust_row _ i rho row Hrob ltac:(lia) EC). }
  destruct (core_inv arith32 w c cpu P0 o R) as [(ids & offs & XS) G].
  split; [apply (sort32 _ _ _ ids offs); solve [apply HC|exact HO|exact XS]|]. set (S := map real_pt (o_pts arith32 o)) in *.
  assert (LS : zlen S = zlen P0) by (unfold S; rewrite zlen_map; unfold zlen; now rewrite (Permutation_length PP)).
  assert (ST : forall i row, znth (o_rows arith32 o) i = Some row -> exists b, znth (o_states arith32 o) i = Some b).
  { intros i row Er. apply znth_in_range. pose proof (znth_some _ _ _ Er). lia. }
  assert (FR : face_rows S (o_rows arith32 o)).
  { split; [lia|]. intros i row Er. destruct (ST i row Er) as [b Eb]. apply (RW i row b Er Eb). }
  split; [exact FR|]. split.
  { rewrite Forall_forall. intros b Hb. apply in_znth in Hb as (i & Hi & Eb). destruct (znth_in_range (o_rows arith32 o) i) as [row Er]; [lia|]. apply (RW i row b Er Eb). }
  assert (VIS : map visible (o_rows arith32 o) = o_rows arith32 o).
  { rewrite <- map_id. apply map_ext_in. intros row Hr. apply in_znth in Hr as (i & Hi & Er). apply visible_id. intros x Hx. apply (proj2 FR i row Er) in Hx as [_ (p & q & y & _ & Eq & _)]. apply znth_some in Eq. lia. }
  assert (TOT : total (o_rows arith32 o) <= int_max).
  { destruct (Z_le_gt_dec (total (o_rows arith32 o)) int_max) as [L|L]; [exact L|]. rewrite <- VIS in L. apply getdnn_ub in L. congruence. }
  assert (NN : zlen P0 <= int_max) by (destruct HC as (_ & _ & _ & _ & _ & (Q & _) & _); lia).
  split; [apply shows_rows; try assumption; lia|].
  assert (KP : 1 <= c_k c) by (destruct HC as ((Q & _) & _); lia).
  assert (NE : Forall (fun r => r <> []) (o_rows arith32 o)).
  { rewrite Forall_forall. intros row Hr. apply in_znth in Hr as (i & Hi & Er). destruct (ST i row Er) as [b Eb]. destruct (H i row b Er Eb) as [_ EC].
    set (j := if i =? 0 then 1 else 0). assert (Nj : j <> i) by (unfold j; destruct (Z.eqb_spec i 0); lia). assert (Hj : 0 <= j < zlen S) by (unfold j; destruct (Z.eqb_spec i 0); lia).
    destruct (znth_in_range S j Hj) as [q Eq]. destruct (znth_in_range S i ltac:(lia)) as [p Ep]. apply (exact_nonempty S i j p q row EC Ep Eq).
    - intros ->. apply Nj. assert (GS : generic S).
      { apply robust_generic. apply (robust_perm (map real_pt P0) S); [now apply Permutation_map|]. exact HR. }
      destruct GS as [ND _]. exact (PCanon.nodup_znth S j i q ND Eq Ep).
    - assert (IQ : In q (map real_pt P0)) by (apply (Permutation_in q (Permutation_sym (Permutation_map real_pt PP))); exact (znth_in _ _ _ Eq)).
      apply in_map_iff in IQ as (qf & <- & IQ). rewrite Forall_forall in HO. pose proof (open_cube qf (HO qf IQ)) as C. destruct (real_pt qf) as [[x y] z]. unfold in_open_cube, in_cube in *. lra. }
  assert (N0 : o_rows arith32 o <> []) by (intros E; rewrite E in L1; change (zlen (@nil (list Z))) with 0 in L1; lia).
  split.
  - rewrite <- VIS at 1. apply savetxt_final; rewrite ?VIS; try assumption. destruct (o_rows arith32 o); [constructor|]. now inversion NE.
  - rewrite <- VIS at 1. apply print_final; rewrite ?VIS; assumption.
Qed.
Lemma robust_core c P0 (w : world arith32) : full_cfg c (zlen P0) -> Forall open01p P0 -> all_robust (map real_pt P0) ->
  exists o, tess_core arith32 w c cpu P0 = Ok o /\ stable_sort_of (fun p => cell32 (c_gr c) (real_pt p)) P0 (o_pts arith32 o) /\ face_rows (map real_pt (o_pts arith32 o)) (o_rows arith32 o) /\
    Forall errorless (o_states arith32 o) /\ shows (o_dnn arith32 o) (o_rows arith32 o) /\
    dnn_savetxt (o_dnn arith32 o) = Ok (lines_text show_int (o_rows arith32 o)) /\ dnn_print (o_dnn arith32 o) = Ok (braces_text show_int (o_rows arith32 o)).
Proof.
  intros (HC & Kn & Ro & Hk) HO HR. pose proof (float_cfg_ok c P0 HC HO) as HF.
  destruct (robust_all c P0 HF Kn w Ro Hk) as (o & R & PP & L1 & L2 & H); [intros i Hi; apply HR; now rewrite zlen_map|]. exists o. split; [exact R|]. now apply (robust_shown c P0 w).
Qed.

Lemma robust_api (w : world arith32) ops P0 : well_typed ops -> full_cfg (api_cfg (w_hwc arith32 w) ops) (zlen P0) -> Forall open01p P0 -> all_robust (map real_pt P0) ->
  let c := api_cfg (w_hwc arith32 w) ops in
  exists a o, run_assign args_init ops = Ok a /\ tesellate arith32 w a cpu P0 = Ok o /\ stable_sort_of (fun p => cell32 (c_gr c) (real_pt p)) P0 (o_pts arith32 o) /\ face_rows (map real_pt (o_pts arith32 o)) (o_rows arith32 o) /\
    Forall errorless (o_states arith32 o) /\ shows (o_dnn arith32 o) (o_rows arith32 o) /\ dnn_savetxt (o_dnn arith32 o) = Ok (lines_text show_int (o_rows arith32 o)).
Proof.
  intros HT HC HO HR c. destruct (api_reads ops HT) as (a & HA & T). destruct (robust_core _ P0 w HC HO HR) as (o & R & X1 & X2 & X3 & X4 & X5 & _). exists a, o. split; [exact HA|]. split; [now rewrite T|]. auto.
Qed.

Lemma robust_python (D : Type) (conv : D -> F arith32) w pops ops dev xyz P0 : Forall2 translates pops ops -> well_typed ops -> (dev = Some cpu \/ w_gpu arith32 w = false) ->
  as_given conv xyz P0 -> full_cfg (api_cfg (w_hwc arith32 w) ops) (zlen P0) -> Forall open01p P0 -> all_robust (map real_pt P0) ->
  exists a d rows P, py_assign args_init pops = Ok a /\ py_tesellate arith32 D conv w a dev xyz = Ok (xyz, d) /\ stable_sort_of (cell32 (c_gr (api_cfg (w_hwc arith32 w) ops))) (map real_pt P0) P /\ shows d rows /\ face_rows P rows.
Proof.
  intros HT HW HD G HC HO HR. destruct (api_reads ops HW) as (a & HA & T). destruct (robust_core _ P0 w HC HO HR) as (o & R & X1 & X2 & _ & X4 & _).
  exists a, (o_dnn arith32 o), (o_rows arith32 o), (map real_pt (o_pts arith32 o)). split; [now rewrite (assign_cpp _ _ HT HW)|].
  split; [|split; [now apply stable_sort_map|split; assumption]]. apply given_map in G. rewrite G in R.
  unfold py_tesellate. rewrite T. set (c := api_cfg _ _) in *. replace (tess_core arith32 w c match dev with Some d => d | None => gpu end (map (conv3 arith32 D conv) xyz)) with (Ok o); [reflexivity|].
  rewrite <- R. destruct HD as [->|NG]; [reflexivity|]. destruct dev as [[|]|]; auto; symmetry; now apply core_nogpu.
Qed.

Lemma rounded_real nums pts : Forall2 rounded nums pts -> map real_pt pts = map nearest3 nums.
Proof. induction 1 as [|[[a b] c] [[x y] z] nums pts (A & B & C) H IH]; [reflexivity|]. simpl. now rewrite A, B, C, IH. Qed.

Local Open Scope string_scope.
Lemma robust_text w info prog files os ws nums lines : command_line os ws -> numbers_ok os -> (forall x, In x os -> tame x) ->
  infile_of os <> "" -> files (infile_of os) = Some (file_text lines) -> Forall one_line lines -> Forall2 three nums lines -> Forall reach3 nums ->
  full_cfg (cli_cfg (w_hwc arith32 w) (zlen nums) os) (zlen nums) -> all_robust (map nearest3 nums) ->
  exists P rows, stable_sort_of (cell32 (num_of NGrid 16 os)) (map nearest3 nums) P /\ face_rows P rows /\
    main_io arith32 read_float w info prog (fun f => option_map getlines (files f)) (getopt_long ws) = Ok (0, mkCon (braces_text show_int rows) "").
Proof.
  intros CL Hn Ht Hi Hf HL HT HV HC HR. rewrite (reported _ _ CL).
  destruct (lines_usable (fun f => option_map getlines (files f)) os nums lines Hi) as (pts & U & O & RD); [rewrite Hf; cbn [option_map]; now rewrite getlines_text|assumption|assumption|].
  assert (LN : zlen pts = zlen nums). { unfold zlen. f_equal. symmetry. clear - RD. induction RD; simpl; congruence. }
  rewrite <- LN in HC. rewrite <- (rounded_real _ _ RD) in *.
  destruct (robust_core _ pts w HC O HR) as (o & ET & PP & FR & _ & _ & _ & PR).
  destruct (cli_silent32 read_float w info prog _ os pts o Hn U Ht) as (txt & M & PR'); [apply HC|apply HC|assumption|exact ET|].
  exists (map real_pt (o_pts arith32 o)), (o_rows arith32 o). split; [now apply (stable_sort_map real_pt)|]. split; [exact FR|]. rewrite M. congruence.
Qed.

Local Open Scope Z_scope.
(** the value of a float as a fraction with denominator 2^26 *)
Definition is26 (x : f32) (z : Z) : bool := match B2SF x with SpecFloat.S754_finite false m e => (0 <=? e + 60) && (Zpos m * 2 ^ (e + 60) =? z * 2 ^ 34) | _ => false end.
Lemma is26_val x z : is26 x z = true -> B2R x = (IZR z / 67108864)%R.
Proof.
  unfold is26. destruct (B2SF x) as [| | |[|] m e] eqn:E; try discriminate. rewrite andb_true_iff, Z.leb_le, Z.eqb_eq. intros [H1 H2].
  rewrite (PFloat.sf_b2r x _ E). unfold SF2R, F2R. cbn [Fnum Fexp cond_Zopp].
  apply (f_equal IZR) in H2. rewrite !mult_IZR in H2. assert (P : (bpow radix2 (e + 60) = IZR (2 ^ (e + 60)))%R) by (rewrite <- (IZR_Zpower radix2) by assumption; reflexivity).
  rewrite <- P in H2. rewrite bpow_plus in H2. replace (bpow radix2 60) with (17179869184 * 67108864)%R in H2 by (simpl; lra). replace (IZR (2 ^ 34)) with 17179869184%R in H2 by (vm_compute; reflexivity). nra.
Qed.
Lemma real26 (p : point arith32) a b c : (let '(x, y, z) := p in is26 x a && is26 y b && is26 z c) = true -> real_pt p = (IZR a / 67108864, IZR b / 67108864, IZR c / 67108864)%R.
Proof. destruct p as [[x y] z]. rewrite !andb_true_iff. intros [[A B] C]. unfold real_pt. now rewrite (is26_val _ _ A), (is26_val _ _ B), (is26_val _ _ C). Qed.
(** multiples of 2^-24 are floats *)
Lemma nearest_exact a : 0 <= a <= 16777216 -> nearest (IZR a / 16777216) = (IZR a / 16777216)%R.
Proof.
  intros H. unfold nearest. apply round_generic; [apply valid_rnd_N|]. 
  replace (IZR a / 16777216)%R with (F2R (Float radix2 a (-24))) by (unfold F2R; simpl; lra).
  destruct (Z.eq_dec a 16777216) as [->|N].
  - replace (F2R (Float radix2 16777216 (-24))) with (F2R (Float radix2 1 0)) by (unfold F2R; simpl; lra). apply generic_format_F2R. intros _. unfold cexp. rewrite mag_F2R_Zdigits by lia. vm_compute. discriminate.
  - apply generic_format_F2R. intros N0. unfold cexp. rewrite mag_F2R_Zdigits by assumption. cbn [Fnum Fexp]. assert (Zdigits radix2 a <= 24) by (apply Zdigits_le_Zpower; simpl; lia).
    unfold SpecFloat.fexp, cexp, SpecFloat.emin. lia.
Qed.
