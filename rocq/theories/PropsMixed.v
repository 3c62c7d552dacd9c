(** C99: related sets of points on either device, and in exact arithmetic. *)
From Verif Require Import Base Arith ArithQ PBase MUtils MXyz MDnn MArgs MTess Exact Arith32 SpecPoints SpecGeom SpecVor SpecRows SpecNear SpecDev SpecSpread SpecParam SpecSingle SpecRobust SpecText SpecFace SpecFew SpecUpdate SpecMixed
  PCanon PFloatRows PRobustCanon PRobustRun PRobustLine PRobustText PFewRun PMixed PropsCell PropsTess PropsGeom PropsRec PropsFloat PropsNear PropsGpu32 PropsRobust PropsFew PropsUpdate.
From Coq Require Import Reals QArith Qreals Lra Lia Permutation.
Import SpecGeom.
Local Open Scope Z_scope.

(** ** C99 for any pair of devices ([run_ok]); with the identity for g: the device finds the
    neighbours that the CPU finds, for other parameters and another order too. *)
Theorem C99_devices_symmetry : forall d d' c c' P0 P0' (w w' : world arith32) g g', run_ok d w c P0 -> run_ok d' w' c' P0' -> cube_symmetry g g' -> Permutation (map g (map real_pt P0)) (map real_pt P0') ->
  exists o o', tess_core arith32 w c d P0 = Ok o /\ tess_core arith32 w' c' d' P0' = Ok o' /\
  forall p q, neighbour (map real_pt (o_pts arith32 o)) (o_rows arith32 o) p q <-> neighbour (map real_pt (o_pts arith32 o')) (o_rows arith32 o') (g p) (g q).
Proof. exact image_runs. Qed.
Print Assumptions C99_devices_symmetry.
Theorem C99_devices_removal : forall d d' c c' P0 P0' (w w' : world arith32) r, run_ok d w c P0 -> run_ok d' w' c' P0' -> Permutation P0 (r :: P0') ->
  exists o o', tess_core arith32 w c d P0 = Ok o /\ tess_core arith32 w' c' d' P0' = Ok o' /\
  let nb := neighbour (map real_pt (o_pts arith32 o)) (o_rows arith32 o) in let nb' := neighbour (map real_pt (o_pts arith32 o')) (o_rows arith32 o') in
  (forall p q, nb p q -> p <> real_pt r -> q <> real_pt r -> nb' p q) /\
  (forall p q, nb' p q -> ~ nb p q -> nb p (real_pt r) /\ nb q (real_pt r)) /\
  (forall p q, p <> real_pt r -> q <> real_pt r -> ~ nb p (real_pt r) -> (nb p q <-> nb' p q)).
Proof. exact removal_runs. Qed.
Print Assumptions C99_devices_removal.
(** exact arithmetic *)
Theorem C99_exact_removal : forall (N : Arith) (E : Exact N) c c' P0 P0' (w w' : world N) r, enough N E c P0 -> enough N E c' P0' -> generic (map (valp N E) P0) -> generic (map (valp N E) P0') -> Permutation P0 (r :: P0') ->
  exists o o', tess_core N w c cpu P0 = Ok o /\ tess_core N w' c' cpu P0' = Ok o' /\
  let nb := neighbour (map (valp N E) (o_pts N o)) (o_rows N o) in let nb' := neighbour (map (valp N E) (o_pts N o')) (o_rows N o') in
  (forall p q, nb p q -> p <> valp N E r -> q <> valp N E r -> nb' p q) /\
  (forall p q, nb' p q -> ~ nb p q -> nb p (valp N E r) /\ nb q (valp N E r)) /\
  (forall p q, p <> valp N E r -> q <> valp N E r -> ~ nb p (valp N E r) -> (nb p q <-> nb' p q)).
Proof. exact removal_exact. Qed.
Print Assumptions C99_exact_removal.

(** three points on the device, two of them on the CPU *)
Definition dev_cfg : cfg := mkCfg 2 2 8 12 1 1 false 0 false.
Example C99_ex_devices : run_ok gpu (g32 [] 0) dev_cfg (row24 3) /\ run_ok cpu (w32 []) ex_cfg1 two24 /\ Permutation (row24 3) (pt24 262144 4194304 4194304 :: two24) /\
  rows32 (tess_core arith32 (g32 [] 0) dev_cfg gpu (row24 3)) = Some ([[1]; [0; 2]; [1]], [0; 0; 0]).
Proof.
  destruct C99_ex_removal as (S1 & S2 & PP & _). split; [|split; [exists 2; exact S2|split; [exact PP|vm_compute; reflexivity]]].
  destruct S1 as (_ & HO & HR & Few). exists 2%R, 2, 2.
  split. { split; [repeat split; discriminate|]. split; [reflexivity|]. split; [discriminate|]. split; [vm_compute; reflexivity|]. split; [discriminate|]. split; [vm_compute; repeat split; discriminate|discriminate]. }
  split; [reflexivity|]. split; [reflexivity|]. split; [assumption|]. split; [assumption|]. split; [apply covered_two; [reflexivity|now apply open_in_cube]|]. split; [exact (crowd_all (map real_pt (row24 3)) _ eq_refl)|].
  split; [discriminate|]. split; [assumption|]. split; [split; discriminate|]. split; [|reflexivity]. vm_compute; repeat split; try discriminate; now left.
Qed.
(** the same in exact arithmetic *)
Definition three_q : list (point arithQ) := [ptq 2 4 4; ptq 8 4 4; ptq 14 4 4].
Definition two_q : list (point arithQ) := [ptq 2 4 4; ptq 14 4 4].
Lemma line_generic ts : (forall i j t t', i <> j -> znth ts i = Some t -> znth ts j = Some t' -> / 128 <= Rabs (t - t'))%R -> (forall t, In t ts -> / 128 <= t <= 1 - / 128)%R -> generic (map (fun t => (t, 1 / 4, 1 / 4)%R) ts).
Proof. intros H1 H2. apply robust_generic. intros i _. eexists. apply on_line_robust. exact (on_line_of ts H1 H2). Qed.
Lemma enough_q k l : 1 <= k < zlen l -> zlen l = k + 1 -> k <= 2 -> (forall q, In q l -> inside arithQ arithQ_exact q) -> enough arithQ arithQ_exact (mkCfg k 1 8 12 1 1 false 0 false) l.
Proof.
  intros Hk Hl K2 HI. assert (C : k = 1 /\ zlen l = 2 \/ k = 2 /\ zlen l = 3) by lia.
  left. split; [|split; [unfold roomy; simpl; lia|simpl; lia]]. unfold api_ok. split; [unfold cfg_ok; simpl; lia|]. split; [reflexivity|]. split; [discriminate|]. split; [assumption|].
  destruct C as [[-> ->]|[-> ->]]; (split; [reflexivity|]; split; [discriminate|]; split; [vm_compute; repeat split; discriminate|discriminate]).
Qed.
Example C99_ex_exact : enough arithQ arithQ_exact (mkCfg 2 1 8 12 1 1 false 0 false) three_q /\ enough arithQ arithQ_exact (mkCfg 1 1 8 12 1 1 false 0 false) two_q /\
  generic (map (valp arithQ arithQ_exact) three_q) /\ generic (map (valp arithQ arithQ_exact) two_q) /\ Permutation three_q (ptq 8 4 4 :: two_q).
Proof.
  split; [apply enough_q; try (vm_compute; repeat split; discriminate); try reflexivity; intros q Hq; simpl in Hq; repeat (destruct Hq as [<-|Hq]; [inq|]); contradiction|].
  split; [apply enough_q; try (vm_compute; repeat split; discriminate); try reflexivity; intros q Hq; simpl in Hq; repeat (destruct Hq as [<-|Hq]; [inq|]); contradiction|].
  split.
  { replace (map (valp arithQ arithQ_exact) three_q) with (map (fun t => (t, 1 / 4, 1 / 4)%R) [1 / 8; 1 / 2; 7 / 8]%R).
    2: { unfold three_q, ptq, valp, val. simpl. unfold Q2R. simpl. repeat (apply f_equal2; [apply f_equal2; [apply f_equal2|]; lra|]). reflexivity. }
    apply line_generic; [|intros t [<-|[<-|[<-|[]]]]; lra].
    intros i j t t' N Hi Hj. pose proof (znth_some _ _ _ Hi) as Ri. pose proof (znth_some _ _ _ Hj) as Rj. unfold zlen in Ri, Rj. simpl in Ri, Rj.
    assert (C : i = 0 \/ i = 1 \/ i = 2) by lia. assert (C' : j = 0 \/ j = 1 \/ j = 2) by lia. destruct C as [->|[->| ->]]; destruct C' as [->|[->| ->]]; try contradiction; injection Hi as <-; injection Hj as <-; split_Rabs; lra. }
  split; [|exact (perm_swap _ _ _)].
  replace (map (valp arithQ arithQ_exact) two_q) with (map (fun t => (t, 1 / 4, 1 / 4)%R) [1 / 8; 7 / 8]%R).
  2: { unfold two_q, ptq, valp, val. simpl. unfold Q2R. simpl. repeat (apply f_equal2; [apply f_equal2; [apply f_equal2|]; lra|]). reflexivity. }
  apply line_generic; [|intros t [<-|[<-|[]]]; lra].
  intros i j t t' N Hi Hj. pose proof (znth_some _ _ _ Hi) as Ri. pose proof (znth_some _ _ _ Hj) as Rj. unfold zlen in Ri, Rj. simpl in Ri, Rj.
  assert (C : i = 0 /\ j = 1 \/ i = 1 /\ j = 0) by lia. destruct C as [[-> ->]|[-> ->]]; injection Hi as <-; injection Hj as <-; split_Rabs; lra.
Qed.
