(** C90: how large the buffers must be for points that are spread over the cube. *)
From Verif Require Import Base Arith MUtils MXyz MCell MDnn MArgs MTess Exact SpecDnn SpecGeom SpecSort SpecKnn SpecVor SpecRows SpecParam SpecArgs SpecApi SpecResult SpecDev SpecWhen SpecSpread
  ArithQ PExact PGeomFinal PSpread PropsTess PropsGeom.
From Coq Require Import Reals Lra Lia Permutation QArith.
Import SpecGeom.
Local Open Scope Z_scope.

(** ** C90.  Every place in the cube has a point nearer than r, and no point has more than
    M others nearer than 2 r.  Then k = M candidates and room for M faces give all rows,
    however many points there are. *)
Theorem C90_spread : forall (N : Arith) (E : Exact N) (w : world N) c P0 r M, api_ok N E c P0 -> spread (map (valp N E) P0) r M -> roomy c M -> M <= c_k c ->
  exists o, tess_core N w c cpu P0 = Ok o /\ complete N E P0 o.
Proof. exact crowd_exact. Qed.
Print Assumptions C90_spread.
(** Room is needed for the cuts only, of which there may be fewer. *)
Theorem C90_cuts : forall (N : Arith) (E : Exact N) (w : world N) c P0 r M M', api_ok N E c P0 -> spread (map (valp N E) P0) r M -> few_cuts (map (valp N E) P0) M' -> roomy c M' -> M <= c_k c ->
  exists o, tess_core N w c cpu P0 = Ok o /\ complete N E P0 o.
Proof. exact api_spread. Qed.
Print Assumptions C90_cuts.
(** With recompute nothing else is needed, whatever k is. *)
Theorem C90_recompute : forall (N : Arith) (E : Exact N) (w : world N) c P0 M, api_more N E c P0 -> few_cuts (map (valp N E) P0) M -> roomy c M ->
  exists o, tess_core N w c cpu P0 = Ok o /\ complete N E P0 o.
Proof. exact rec_spread. Qed.
Print Assumptions C90_recompute.
(** The rows of the device. *)
Theorem C90_device : forall (N : Arith) (E : Exact N) (w : world N) c P0 r M M', api_ok N E c P0 -> spread (map (valp N E) P0) r M -> few_cuts (map (valp N E) P0) M' -> roomy c M' -> M <= c_k c ->
  dev_ok c (zlen P0) -> w_gpu N w = true ->
  exists o, tess_core N w c gpu P0 = Ok o /\ Permutation P0 (o_pts N o) /\ zlen (o_rows N o) = zlen P0 /\ shows (o_dnn N o) (o_rows N o) /\
  forall i row, znth (o_rows N o) i = Some row -> exact_row (map (valp N E) (o_pts N o)) i row.
Proof. exact gpu_spread. Qed.
Print Assumptions C90_device.
(** The default options solve a lattice of up to 255 points per axis, in any order. *)
Theorem C90_lattice : forall (N : Arith) (E : Exact N) (w : world N) P0 m, 1 <= w_hwc N w -> (forall q, In q P0 -> inside N E q) -> 1 <= m <= 255 -> Permutation (map (valp N E) P0) (lattice m) ->
  exists o, tesellate N w args_init cpu P0 = Ok o /\ complete N E P0 o.
Proof. exact lattice_default. Qed.
Print Assumptions C90_lattice.
(** Lattices meet the conditions, the smaller one too. *)
Theorem C90_lattice_cuts : forall m, 1 <= m -> spread (lattice m) (/ IZR m) 26 /\ few_cuts (lattice m) 6.
Proof. exact lattice_both. Qed.
Print Assumptions C90_lattice_cuts.

(** A lattice in rational numbers: 1000 points with the default options, and 64 points
    with recompute, k = 1 and buffers for six cuts.  The eight points of the smallest one
    have three neighbours each. *)
Definition latq (m : positive) : list (point arithQ) :=
  map (fun a => let at_ t := Fin (Qmake (2 * t + 1) (2 * m)) in (at_ (fst a), at_ (fst (snd a)), at_ (snd (snd a)))) (list_prod (zrange 0 (Zpos m)) (list_prod (zrange 0 (Zpos m)) (zrange 0 (Zpos m)))).
Lemma latq_val m : map (valp arithQ arithQ_exact) (latq m) = lattice (Zpos m).
Proof. unfold latq, lattice. rewrite map_map. reflexivity. Qed.
Lemma latq_inside m : forall q, In q (latq m) -> inside arithQ arithQ_exact q.
Proof.
  intros q Hq. apply in_map_iff in Hq as ((a & b & c) & <- & H). rewrite !in_prod_iff, !PBase.in_zrange in H. cbn [fst snd].
  assert (X : forall t, 0 <= t < Zpos m -> (0 < Q2R (Qmake (2 * t + 1) (2 * m)) < 1)%R).
  { intros t Ht. unfold Q2R. cbn [Qnum Qden]. assert (P2 : (0 < IZR (Zpos (2 * m)))%R) by (apply IZR_lt; reflexivity). assert (L0 : (0 < IZR (2 * t + 1))%R) by (apply IZR_lt; lia).
    assert (L1 : (IZR (2 * t + 1) < IZR (Zpos (2 * m)))%R) by (apply IZR_lt; lia). split; [apply Rmult_lt_0_compat; [assumption|now apply Rinv_0_lt_compat]|].
    apply (Rmult_lt_reg_r (IZR (Zpos (2 * m)))); [assumption|]. rewrite Rmult_assoc, Rinv_l by lra. lra. }
  split; [repeat split; discriminate|]. unfold valp, val, arithQ_exact, xq_val. split; [apply X; tauto|split; apply X; tauto].
Qed.
Example C90_ex_lattice : (forall q, In q (latq 10) -> inside arithQ arithQ_exact q) /\ Permutation (map (valp arithQ arithQ_exact) (latq 10)) (lattice 10) /\ zlen (latq 10) = 1000.
Proof. split; [apply latq_inside|]. split; [rewrite latq_val; reflexivity|]. unfold latq. rewrite PBase.zlen_map. reflexivity. Qed.
Example C90_ex_recompute : api_more arithQ arithQ_exact (mkCfg 1 2 12 20 1 1 false 0 true) (latq 4) /\ few_cuts (map (valp arithQ arithQ_exact) (latq 4)) 6 /\ roomy (mkCfg 1 2 12 20 1 1 false 0 true) 6.
Proof.
  split; [|split; [rewrite latq_val; now apply C90_lattice_cuts|split; discriminate]].
  assert (L : zlen (latq 4) = 64) by reflexivity. unfold api_more. rewrite L. split; [repeat split; discriminate|]. split; [discriminate|]. split; [discriminate|]. split; [discriminate|]. split; [discriminate|]. split; [discriminate|].
  split; [reflexivity|]. split; [discriminate|]. split; [apply latq_inside|]. split; [reflexivity|]. split; [discriminate|]. vm_compute. repeat split; discriminate.
Qed.
Example C90_ex_rows : exists o, tess_core arithQ (ex_world [] 4 false) (mkCfg 3 1 12 20 1 1 false 0 false) cpu (latq 2) = Ok o /\ o_rows arithQ o = [[1; 2; 4]; [0; 3; 5]; [0; 3; 6]; [2; 1; 7]; [0; 5; 6]; [4; 1; 7]; [4; 2; 7]; [3; 5; 6]].
Proof. eexists. split; [vm_compute; reflexivity|]. reflexivity. Qed.
