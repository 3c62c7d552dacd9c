(** C92: the buffers needed in single precision. *)
From Verif Require Import Base Arith PBase MUtils MXyz MKnn MCell MDnn MArgs MTess Arith32 SpecDnn SpecGeom SpecSort SpecVor SpecRows SpecNear SpecDev SpecWhen SpecSpread SpecParam SpecArgs SpecApi SpecSingle SpecRobust SpecText SpecFace SpecFew
  PDist32 PFloatRows PRobustRun PFewRun PropsFloat PropsNear PropsGpu32 PropsRobust.
From Coq Require Import String Reals Lra Lia Permutation.
Import SpecGeom.
Local Open Scope Z_scope.

(** ** C92.  C82 to C86 ask for buffers with room for a cut by every other point.  Room for
    the cuts that do occur is enough: when no cell is cut more than M times by points that
    come the nearest first, up to an error of 2^-20 in the distance, then 6 + M planes and
    8 + 2 M triangles do for any number of points in robust position. *)
Theorem C92_few_cuts : forall c P0 (w : world arith32) M, few_cfg c (zlen P0) M -> Forall open01p P0 -> all_robust (map real_pt P0) -> few_near eps20 (map real_pt P0) M ->
  exists o, tess_core arith32 w c cpu P0 = Ok o /\ stable_sort_of (fun p => cell32 (c_gr c) (real_pt p)) P0 (o_pts arith32 o) /\ face_rows (map real_pt (o_pts arith32 o)) (o_rows arith32 o) /\
    Forall errorless (o_states arith32 o) /\ shows (o_dnn arith32 o) (o_rows arith32 o) /\
    dnn_savetxt (o_dnn arith32 o) = Ok (lines_text show_int (o_rows arith32 o)) /\ dnn_print (o_dnn arith32 o) = Ok (braces_text show_int (o_rows arith32 o)).
Proof. exact few_core. Qed.
Print Assumptions C92_few_cuts.
(** from the assignments to vtargs *)
Theorem C92_call : forall (w : world arith32) ops P0 M, well_typed ops -> few_cfg (api_cfg (w_hwc arith32 w) ops) (zlen P0) M -> Forall open01p P0 -> all_robust (map real_pt P0) -> few_near eps20 (map real_pt P0) M ->
  let c := api_cfg (w_hwc arith32 w) ops in
  exists a o, run_assign args_init ops = Ok a /\ tesellate arith32 w a cpu P0 = Ok o /\ stable_sort_of (fun p => cell32 (c_gr c) (real_pt p)) P0 (o_pts arith32 o) /\ face_rows (map real_pt (o_pts arith32 o)) (o_rows arith32 o) /\
    Forall errorless (o_states arith32 o) /\ shows (o_dnn arith32 o) (o_rows arith32 o) /\ dnn_savetxt (o_dnn arith32 o) = Ok (lines_text show_int (o_rows arith32 o)).
Proof. exact few_api. Qed.
Print Assumptions C92_call.
(** Without recompute k must cover the points that can matter: every place in the cube has
    a point nearer than r, and no point has more than M' others nearer than 2 r + 2^-20. *)
Theorem C92_spread : forall c P0 (w : world arith32) r M M', float_cfg c (zlen P0) -> c_k c < zlen P0 -> c_recompute c = false -> Forall open01p P0 -> all_robust (map real_pt P0) ->
  covered (map real_pt P0) r -> crowd (map real_pt P0) (r + eps20 / 2) M' -> M' <= c_k c -> few_near eps20 (map real_pt P0) M -> roomy c M ->
  exists o, tess_core arith32 w c cpu P0 = Ok o /\ stable_sort_of (fun p => cell32 (c_gr c) (real_pt p)) P0 (o_pts arith32 o) /\ face_rows (map real_pt (o_pts arith32 o)) (o_rows arith32 o) /\
    Forall errorless (o_states arith32 o) /\ shows (o_dnn arith32 o) (o_rows arith32 o) /\
    dnn_savetxt (o_dnn arith32 o) = Ok (lines_text show_int (o_rows arith32 o)) /\ dnn_print (o_dnn arith32 o) = Ok (braces_text show_int (o_rows arith32 o)).
Proof. exact spread_core. Qed.
Print Assumptions C92_spread.
(** such points cut a cell M' times at most *)
Theorem C92_spread_cuts : forall P0 r M, Forall open01p P0 -> covered (map real_pt P0) r -> crowd (map real_pt P0) (r + eps20 / 2) M -> few_near eps20 (map real_pt P0) M.
Proof. exact spread_near20. Qed.
Print Assumptions C92_spread_cuts.
(** the rows of the device *)
Theorem C92_device : forall c P0 (w : world arith32) r M M', float_cfg c (zlen P0) -> c_k c < zlen P0 -> c_recompute c = false -> Forall open01p P0 -> all_robust (map real_pt P0) ->
  covered (map real_pt P0) r -> crowd (map real_pt P0) (r + eps20 / 2) M' -> M' <= c_k c -> few_near eps20 (map real_pt P0) M -> roomy c M -> dev_ok c (zlen P0) -> w_gpu arith32 w = true ->
  exists o, tess_core arith32 w c gpu P0 = Ok o /\ stable_sort_of (fun p => cell32 (c_gr c) (real_pt p)) P0 (o_pts arith32 o) /\ face_rows (map real_pt (o_pts arith32 o)) (o_rows arith32 o) /\
    shows (o_dnn arith32 o) (o_rows arith32 o) /\ dnn_savetxt (o_dnn arith32 o) = Ok (lines_text show_int (o_rows arith32 o)).
Proof. exact spread_gpu. Qed.
Print Assumptions C92_device.
(** Points on a line cut a cell twice at most, so 8 planes and 12 triangles do. *)
Theorem C92_line : forall c P0 (w : world arith32) d, few_cfg c (zlen P0) 2 -> Forall open01p P0 -> on_line d (map real_pt P0) ->
  exists o, tess_core arith32 w c cpu P0 = Ok o /\ stable_sort_of (fun p => cell32 (c_gr c) (real_pt p)) P0 (o_pts arith32 o) /\ face_rows (map real_pt (o_pts arith32 o)) (o_rows arith32 o) /\
    Forall errorless (o_states arith32 o) /\ shows (o_dnn arith32 o) (o_rows arith32 o) /\
    dnn_savetxt (o_dnn arith32 o) = Ok (lines_text show_int (o_rows arith32 o)) /\ dnn_print (o_dnn arith32 o) = Ok (braces_text show_int (o_rows arith32 o)).
Proof. exact line_core. Qed.
Print Assumptions C92_line.
Theorem C92_line_cuts : forall d S, on_line d S -> few_near eps20 S 2.
Proof. exact on_line_few. Qed.
Print Assumptions C92_line_cuts.
(** the default options and use_recompute *)
Theorem C92_default : forall (w : world arith32) P0 d, 1 <= w_hwc arith32 w -> 65 <= zlen P0 <= 46340 -> Forall open01p P0 -> on_line d (map real_pt P0) ->
  exists a o, args_set args_init "use_recompute" (VBool true) = Ok a /\ tesellate arith32 w a cpu P0 = Ok o /\ stable_sort_of (fun p => cell32 16 (real_pt p)) P0 (o_pts arith32 o) /\
    face_rows (map real_pt (o_pts arith32 o)) (o_rows arith32 o) /\ Forall errorless (o_states arith32 o) /\ shows (o_dnn arith32 o) (o_rows arith32 o) /\
    dnn_savetxt (o_dnn arith32 o) = Ok (lines_text show_int (o_rows arith32 o)).
Proof. exact line_default. Qed.
Print Assumptions C92_default.

(** points (i + 1) / 128, i < m, on the line y = z = 1/4 *)
Definition row24 (m : Z) : list (point arith32) := map (fun i => pt24 ((i + 1) * 131072) 4194304 4194304) (zrange 0 m).
Lemma row24_at m i q : m <= 126 -> znth (map real_pt (row24 m)) i = Some q -> 0 <= i < m /\ q = (IZR (i + 1) / 128, 1 / 4, 1 / 4)%R.
Proof.
  intros Hm H. unfold row24 in H. rewrite map_map, znth_map in H. destruct (znth (zrange 0 m) i) as [a|] eqn:E; [|discriminate]. pose proof (znth_in _ _ _ E) as I. apply in_zrange in I. cbn [option_map] in H. assert (Q : q = real_pt (pt24 ((a + 1) * 131072) 4194304 4194304)) by congruence. clear H.
  pose proof (znth_some _ _ _ E) as Hi. rewrite zlen_zrange in Hi by lia. rewrite znth_zrange in E by lia. injection E as <-. split; [lia|].
  rewrite Q, real_pt24 by lia. rewrite mult_IZR, !plus_IZR. apply f_equal2; [apply f_equal2|]; lra.
Qed.
Lemma row24_line m : m <= 126 -> on_line (1 / 128) (map real_pt (row24 m)).
Proof.
  intros Hm. split; [lra|]. split; [lra|]. exists (1 / 4)%R, (1 / 4)%R. split.
  - intros j q H. destruct (row24_at m j q Hm H) as [Hj ->]. eexists. split; [reflexivity|]. assert (1 <= IZR (j + 1) <= 126)%R by (split; apply IZR_le; lia). lra.
  - intros i j t t' Nij Hi Hj. apply (row24_at m _ _ Hm) in Hi as [Ri E]. injection E as ->. apply (row24_at m _ _ Hm) in Hj as [Rj E]. injection E as ->.
    replace (IZR (i + 1) / 128 - IZR (j + 1) / 128)%R with (IZR (i - j) / 128)%R by (rewrite minus_IZR, !plus_IZR; lra).
    destruct (Z_lt_dec i j).
    + assert (IZR (i - j) <= -1)%R by (apply IZR_le; lia). split_Rabs; lra.
    + assert (1 <= IZR (i - j))%R by (apply IZR_le; lia). split_Rabs; lra.
Qed.
Lemma row24_open m : m <= 126 -> Forall open01p (row24 m).
Proof. intros Hm. apply Forall_forall. intros q Hq. apply in_map_iff in Hq as (a & <- & I). apply in_zrange in I. apply pt24_open; lia. Qed.

(** 120 such points and the default options *)
Example C92_ex_default : Forall open01p (row24 120) /\ on_line (1 / 128) (map real_pt (row24 120)) /\ zlen (row24 120) = 120.
Proof. split; [now apply row24_open|]. split; [now apply row24_line|]. reflexivity. Qed.
(** four of them, k = 1, buffers for two cuts and recompute *)
Example C92_ex_run : few_cfg (mkCfg 1 2 8 12 1 1 false 0 true) 4 2 /\ rows32 (tess_core arith32 (w32 []) (mkCfg 1 2 8 12 1 1 false 0 true) cpu (row24 4)) = Some ([[1]; [0; 2]; [3; 1]; [2]], [0; 0; 0; 0]).
Proof.
  split; [|vm_compute; reflexivity]. split; [|split; [reflexivity|split; [split; discriminate|left; repeat split; discriminate]]].
  split; [repeat split; discriminate|]. split; [reflexivity|]. split; [discriminate|]. split; [vm_compute; reflexivity|]. split; [discriminate|]. split; [vm_compute; repeat split; discriminate|discriminate].
Qed.
(** three points without recompute, on both paths *)
Example C92_ex_spread : let c := mkCfg 2 2 8 12 1 1 false 0 false in let S := map real_pt ex_fline in
  float_cfg c 3 /\ covered S 2 /\ crowd S (2 + eps20 / 2) 2 /\ few_near eps20 S 2 /\ all_robust S /\ roomy c 2 /\ dev_ok c 3 /\
  rows32 (tess_core arith32 (w32 []) c cpu ex_fline) = Some ([[1]; [0; 2]; [1]], [0; 0; 0]).
Proof.
  cbv zeta. destruct C82_case as ((_ & _ & _ & _ & HO & _) & _ & _ & L & _).
  split. { split; [repeat split; discriminate|]. split; [reflexivity|]. split; [discriminate|]. split; [vm_compute; reflexivity|]. split; [discriminate|]. split; [vm_compute; repeat split; discriminate|discriminate]. }
  split; [apply covered_two; [reflexivity|now apply open_in_cube]|]. split; [exact (crowd_all (map real_pt ex_fline) _ eq_refl)|]. split; [exact (on_line_few _ _ L)|]. split; [intros i _; exists (1 / 8)%R; now apply PRobustLine.on_line_robust|].
  split; [split; discriminate|]. split; [vm_compute; repeat split; try discriminate; now left|]. vm_compute. reflexivity.
Qed.
