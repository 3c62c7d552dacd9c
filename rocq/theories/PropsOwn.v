(** C91: what use_recompute leaves unfinished. *)
From Verif Require Import Base Arith MUtils MXyz MCell MDnn MArgs MTess Exact SpecDnn SpecGeom SpecSort SpecKnn SpecVor SpecRows SpecParam SpecArgs SpecApi SpecResult SpecCap SpecWhen SpecSpread SpecOwn
  ArithQ PExact POwn PropsTess PropsGeom.
From Coq Require Import Reals Lra Lia Permutation QArith.
Import SpecGeom.
Local Open Scope Z_scope.

(** ** C91.  A call with recompute: row i is exact, or it carries an overflow flag and its
    own cell, built from all other points, needs more planes or triangles than were asked
    for. *)
Theorem C91_flags : forall (N : Arith) (E : Exact N) r (w : world N) c P0, api_rec N E r c P0 ->
  exists o, tess_core N w c cpu P0 = Ok o /\ Permutation P0 (o_pts N o) /\ zlen (o_rows N o) = zlen P0 /\ zlen (o_states N o) = zlen P0 /\
  forall i row b, znth (o_rows N o) i = Some row -> znth (o_states N o) i = Some b ->
  (errorless b -> exact_row (map (valp N E) (o_pts N o)) i row) /\
  (~ errorless b -> exists p near, znth (map (valp N E) (o_pts N o)) i = Some p /\ nearest (sqdist N E (o_pts N o) i) (fun q => 0 <= q < zlen P0 /\ q <> i) near /\ zlen near = zlen P0 - 1 /\
   let B := map (spot (map (valp N E) (o_pts N o))) near in
   (Z.testbit b 4 = true /\ exists C, cutters p B C /\ c_pmax c < zlen C + 6) \/
   (Z.testbit b 5 = true /\ (exists C, cutters p B C /\ c_tmax c < 2 * zlen C + 8) /\
    exists m J W, 1 <= m <= zlen near /\ contacts (p :: firstn (Z.to_nat m) B) 0 J W /\ c_tmax c < 2 * (zlen J + zlen W) - 4)).
Proof. exact own_flags. Qed.
Print Assumptions C91_flags.
(** A cell that is cut at most M times is complete if there is room for M cuts, whatever
    happens to the other cells. *)
Theorem C91_own : forall (N : Arith) (E : Exact N) r (w : world N) c P0, api_rec N E r c P0 ->
  exists o, tess_core N w c cpu P0 = Ok o /\ Permutation P0 (o_pts N o) /\ zlen (o_rows N o) = zlen P0 /\
  forall i row p M, znth (o_rows N o) i = Some row -> znth (map (valp N E) (o_pts N o)) i = Some p -> few_at (map (valp N E) (o_pts N o)) p M -> roomy c M ->
  (exists b, znth (o_states N o) i = Some b /\ errorless b) /\ exact_row (map (valp N E) (o_pts N o)) i row.
Proof. exact rec_own. Qed.
Print Assumptions C91_own.

(** Three points in a row, k = 1 and 7 planes.  The second round is the last one and cuts
    the cell in the middle twice: p_overflow stays.  The cells at the ends are cut once and
    are complete. *)
Example C91_ex : let P := [ptq 2 8 8; ptq 8 8 8; ptq 14 8 8] in let c := mkCfg 1 1 7 10 1 1 false 0 true in let l := (1 / 8, 1 / 2, 1 / 2)%R in
  api_rec arithQ arithQ_exact 1 c P /\ roomy c 1 /\ znth (map (valp arithQ arithQ_exact) P) 0 = Some l /\ few_at (map (valp arithQ arithQ_exact) P) l 1 /\
  ex_view (tess_core arithQ (ex_world [] 4 false) c cpu P) = Some (P, [1; 0; 2; 1], [0; 1; 3; 4], [0; 16; 0]) /\ errorless 0 /\ ~ errorless 16.
Proof.
  cbv zeta. set (p := (1 / 2, 1 / 2, 1 / 2)%R). set (l := (1 / 8, 1 / 2, 1 / 2)%R). set (r := (7 / 8, 1 / 2, 1 / 2)%R).
  assert (E : map (valp arithQ arithQ_exact) [ptq 2 8 8; ptq 8 8 8; ptq 14 8 8] = [l; p; r]).
  { cbn [map]. assert (T : forall x y z x' y' z' : R, x = x' -> y = y' -> z = z' -> (x, y, z) = (x', y', z')) by congruence.
    f_equal; [|f_equal; [|f_equal]]; unfold valp, val, arithQ_exact, ptq, xq_val, Q2R; cbn [Qnum Qden]; apply T; lra. }
  split.
  { unfold api_rec. split; [vm_compute; repeat split; discriminate|]. split; [reflexivity|]. split; [discriminate|]. split.
    - intros q Hq. simpl in Hq. repeat (destruct Hq as [<-|Hq]; [inq|]). contradiction.
    - split; [reflexivity|]. split; [discriminate|]. vm_compute. repeat split; discriminate. }
  split; [vm_compute; split; discriminate|]. rewrite E. split; [reflexivity|]. split; [|split; [vm_compute; reflexivity|split; [repeat split|intros (_ & H & _); discriminate]]].
  intros B rest C PR [BD1 BD2] [ND HC]. apply Permutation_cons_inv in PR.
  assert (ONE : forall d, In d C -> d = 0).
  { intros d Hd. destruct (HC d Hd) as (q & Eq & x & [Cx Ix] & Cut). pose proof (PBase.znth_some _ _ _ Eq) as Rd.
    assert (LB : zlen B + zlen rest = 2). { rewrite <- PBase.zlen_app. unfold zlen. rewrite <- (Permutation_length PR). reflexivity. }
    pose proof (PBase.zlen_nonneg rest) as LR. destruct (Z.eq_dec d 0) as [|Nd]; [assumption|exfalso]. assert (d = 1) by lia. subst d.
    destruct rest as [|z rest]; [|rewrite PBase.zlen_cons in LB; pose proof (PBase.zlen_nonneg rest); lia]. rewrite app_nil_r in PR.
    destruct B as [|a [|b [|u B]]]; try (vm_compute in LB; discriminate).
    2:{ rewrite !PBase.zlen_cons in LB. pose proof (PBase.zlen_nonneg B). change (zlen (@nil pt)) with 0 in LB. lia. }
    apply Permutation_length_2_inv in PR. change (firstn (Z.to_nat 1) [a; b]) with [a] in Ix. change (znth [a; b] 1) with (Some b) in Eq. injection Eq as <-.
    destruct PR as [PR|PR]; injection PR as -> ->.
    - specialize (Ix p (or_introl eq_refl)). destruct x as [[x y] z]. unfold l, p, r in *. simpl in *. lra.
    - specialize (BD1 0 1 r p ltac:(lia) eq_refl eq_refl). unfold l, p, r in BD1. simpl in BD1. lra. }
  destruct C as [|a [|b C]]; [vm_compute; discriminate|vm_compute; discriminate|]. exfalso.
  pose proof (ONE a (or_introl eq_refl)). pose proof (ONE b (or_intror (or_introl eq_refl))). subst a b. inversion ND as [|? ? N1 _]. apply N1. now left.
Qed.
