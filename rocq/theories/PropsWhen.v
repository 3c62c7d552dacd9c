(** C89: which cells do not fit into the buffers. *)
From Verif Require Import Base Arith MUtils MXyz MCell MDnn MArgs MTess Exact SpecDnn SpecGeom SpecSort SpecKnn SpecVor SpecRows SpecParam SpecCap SpecWhen
  ArithQ PExact PGeomFinal PWhen PropsTess PropsGeom PropsCap.
From Coq Require Import Reals Lra Lia QArith.
Import SpecGeom.
Local Open Scope Z_scope.

(** ** C89.  The points [near] come one after the other, the nearest first.  A plane is
    needed for each one that cuts the cell left by those before it, and 2 f - 4 triangles
    when the cell has f facets. *)
Theorem C89_when : forall (N : Arith) (E : Exact N) (w : world N) c P0 o i b, api_ok N E c P0 -> tess_core N w c cpu P0 = Ok o -> znth (o_states N o) i = Some b ->
  exists p near, znth (map (valp N E) (o_pts N o)) i = Some p /\ nearest (sqdist N E (o_pts N o) i) (fun q => 0 <= q < zlen P0 /\ q <> i) near /\ zlen near = Z.min (c_k c) (zlen P0 - 1) /\
  let B := map (spot (map (valp N E) (o_pts N o))) near in
  (errorless b -> (forall C, cutters p B C -> zlen C + 6 <= c_pmax c) /\
     forall m J W, 1 <= m <= zlen near -> facets (p :: firstn (Z.to_nat m) B) 0 J W -> 2 * (zlen J + zlen W) - 4 <= c_tmax c) /\
  (Z.testbit b 4 = true -> exists C, cutters p B C /\ c_pmax c < zlen C + 6) /\
  (Z.testbit b 5 = true -> (exists C, cutters p B C /\ c_tmax c < 2 * zlen C + 8) /\ exists m J W, 1 <= m <= zlen near /\ contacts (p :: firstn (Z.to_nat m) B) 0 J W /\ c_tmax c < 2 * (zlen J + zlen W) - 4).
Proof. exact api_when. Qed.
Print Assumptions C89_when.
(** In general position this is exact. *)
Theorem C89_exactly : forall (N : Arith) (E : Exact N) (w : world N) c P0 o i b, api_ok N E c P0 -> tess_core N w c cpu P0 = Ok o -> znth (o_states N o) i = Some b ->
  exists p near, znth (map (valp N E) (o_pts N o)) i = Some p /\ nearest (sqdist N E (o_pts N o) i) (fun q => 0 <= q < zlen P0 /\ q <> i) near /\ zlen near = Z.min (c_k c) (zlen P0 - 1) /\
  let B := map (spot (map (valp N E) (o_pts N o))) near in firm p B -> (errorless b <-> holds_cell (c_pmax c) (c_tmax c) p B).
Proof. exact api_exactly. Qed.
Print Assumptions C89_exactly.

(** The call of C87_ex: the point in the middle is in general position, both others cut
    its cell, and 7 planes are one too few.  Eight are enough. *)
Example C89_ex : let P := [ptq 2 8 8; ptq 8 8 8; ptq 14 8 8] in let S := map (valp arithQ arithQ_exact) P in let p := (1 / 2, 1 / 2, 1 / 2)%R in let B := map (spot S) [0; 2] in
  firm p B /\ cutters p B [0; 1] /\ ~ holds_cell 7 10 p B /\ holds_cell 8 8 p B /\
  (exists o, tess_core arithQ (ex_world [] 4 false) (mkCfg 2 1 7 10 1 1 false 0 false) cpu P = Ok o /\ o_pts arithQ o = P /\ o_states arithQ o = [0; 16; 0]) /\
  exists o, tess_core arithQ (ex_world [] 4 false) (mkCfg 2 1 8 8 1 1 false 0 false) cpu P = Ok o /\ o_pts arithQ o = P /\ o_states arithQ o = [0; 0; 0].
Proof.
  cbv zeta. set (p := (1 / 2, 1 / 2, 1 / 2)%R). set (l := (1 / 8, 1 / 2, 1 / 2)%R). set (r := (7 / 8, 1 / 2, 1 / 2)%R).
  assert (E : map (valp arithQ arithQ_exact) [ptq 2 8 8; ptq 8 8 8; ptq 14 8 8] = [l; p; r]).
  { cbn [map]. assert (T : forall x y z x' y' z' : R, x = x' -> y = y' -> z = z' -> (x, y, z) = (x', y', z')) by congruence.
    f_equal; [|f_equal; [|f_equal]]; unfold valp, val, arithQ_exact, ptq, xq_val, Q2R; cbn [Qnum Qden]; apply T; lra. }
  rewrite E. change (map (spot [l; p; r]) [0; 2]) with [l; r]. clear E.
  assert (Z1 : forall T (x y : T) j q, znth [x; y] j = Some q -> (j = 0 /\ q = x) \/ (j = 1 /\ q = y)).
  { intros T x y j q H. pose proof (PBase.znth_some _ _ _ H) as Rg. change (0 <= j < 2) in Rg. assert (C : j = 0 \/ j = 1) by lia. destruct C as [->| ->]; injection H as <-; auto. }
  assert (Z3 : forall T (x y z : T) j q, znth [x; y; z] j = Some q -> (j = 0 /\ q = x) \/ (j = 1 /\ q = y) \/ (j = 2 /\ q = z)).
  { intros T x y z j q H. pose proof (PBase.znth_some _ _ _ H) as Rg. change (0 <= j < 3) in Rg. assert (C : j = 0 \/ j = 1 \/ j = 2) by lia. destruct C as [->|[->| ->]]; injection H as <-; auto. }
  assert (CUT : cutters p [l; r] [0; 1]).
  { split; [repeat constructor; simpl; intuition discriminate|]. intros d [<-|[<-|[]]].
    - exists l. split; [reflexivity|]. exists (0, 1 / 2, 1 / 2)%R. split; [|unfold p, l; simpl; lra]. split; [simpl; lra|]. intros q [].
    - exists r. split; [reflexivity|]. exists (1, 1 / 2, 1 / 2)%R. split; [|unfold p, r; simpl; lra]. split; [simpl; lra|]. intros q [<-|[]]. unfold p, l. simpl. lra. }
  assert (M : forall m, 1 <= m <= zlen [l; r] -> m = 1 \/ m = 2) by (intros m Hm; change (zlen [l; r]) with 2 in Hm; lia).
  split; [|split; [exact CUT|split; [|split; [|split]]]].
  - intros m J W Hm (NJ & NW & q0 & E0 & HJ & HW). injection E0 as <-. split; [assumption|]. split; [assumption|]. destruct (M m Hm) as [->| ->].
    + change (firstn (Z.to_nat 1) [l; r]) with [l] in *. split.
      * intros j Hj. destruct (HJ j Hj) as (q & x & Eq & Nq & _). apply Z1 in Eq as [[-> ->]|[-> ->]]; [now destruct Nq|].
        split; [|exists p, l; repeat split; auto]. exists p, l, (5 / 16, 1 / 2, 1 / 2)%R. split; [reflexivity|]. split; [reflexivity|]. unfold p, l. split; [simpl; lra|]. split; [simpl; lra|].
        intros a s H. apply Z1 in H as [[-> ->]|[-> ->]]; lia.
      * intros w Hw. destruct (HW w Hw) as ([[a b] c] & [_ Ic] & AW). specialize (Ic l ltac:(right; now left)). unfold p, l in Ic. simpl in Ic.
        assert (F : forall x, on_wall w x -> (let '(a, b, c) := x in 5 / 16 < a)%R -> wall_facet [p; l] 0 w).
        { intros x O X. exists p, x. split; [reflexivity|]. split; [assumption|]. destruct x as [[u v] t]. intros j s H Nj. apply Z1 in H as [[-> ->]|[-> ->]]; [lia|]. unfold p, l. simpl. lra. }
        destruct AW as [[-> Ha]|[[-> Ha]|[[-> Ha]|[[-> Ha]|[[-> Ha]|[-> Ha]]]]]].
        -- exfalso. subst a. lra.
        -- apply (F (1, 1 / 2, 1 / 2)%R); [|lra]. unfold on_wall. cbv zeta. right; left. repeat split; lra.
        -- apply (F (1 / 2, 0, 1 / 2)%R); [|lra]. unfold on_wall. cbv zeta. right; right; left. repeat split; lra.
        -- apply (F (1 / 2, 1, 1 / 2)%R); [|lra]. unfold on_wall. cbv zeta. right; right; right; left. repeat split; lra.
        -- apply (F (1 / 2, 1 / 2, 0)%R); [|lra]. unfold on_wall. cbv zeta. right; right; right; right; left. repeat split; lra.
        -- apply (F (1 / 2, 1 / 2, 1)%R); [|lra]. unfold on_wall. cbv zeta. right; right; right; right; right. repeat split; lra.
    + change (firstn (Z.to_nat 2) [l; r]) with [l; r] in *. split.
      * intros j Hj. destruct (HJ j Hj) as (q & x & Eq & Nq & _). apply Z3 in Eq as [[-> ->]|[[-> ->]|[-> ->]]]; [now destruct Nq| |].
        -- split; [|exists p, l; repeat split; auto]. exists p, l, (5 / 16, 1 / 2, 1 / 2)%R. split; [reflexivity|]. split; [reflexivity|]. unfold p, l. split; [simpl; lra|]. split; [simpl; lra|].
           intros a s H. apply Z3 in H as [[-> ->]|[[-> ->]|[-> ->]]]; try lia. intros _ _. unfold r. simpl. lra.
        -- split; [|exists p, r; repeat split; auto]. exists p, r, (11 / 16, 1 / 2, 1 / 2)%R. split; [reflexivity|]. split; [reflexivity|]. unfold p, r. split; [simpl; lra|]. split; [simpl; lra|].
           intros a s H. apply Z3 in H as [[-> ->]|[[-> ->]|[-> ->]]]; try lia. intros _ _. unfold l. simpl. lra.
      * intros w Hw. destruct (HW w Hw) as ([[a b] c] & [_ Ic] & AW). pose proof (Ic l ltac:(right; now left)) as I1. pose proof (Ic r ltac:(right; right; now left)) as I2. unfold p, l, r in I1, I2. simpl in I1, I2.
        assert (F : forall x, on_wall w x -> (let '(a, b, c) := x in a = 1 / 2)%R -> wall_facet [p; l; r] 0 w).
        { intros x O X. exists p, x. split; [reflexivity|]. split; [assumption|]. destruct x as [[u v] t]. subst u. intros j s H Nj. apply Z3 in H as [[-> ->]|[[-> ->]|[-> ->]]]; [lia| |]; unfold p, l, r; simpl; lra. }
        destruct AW as [[-> Ha]|[[-> Ha]|[[-> Ha]|[[-> Ha]|[[-> Ha]|[-> Ha]]]]]].
        -- exfalso. subst a. lra.
        -- exfalso. subst a. lra.
        -- apply (F (1 / 2, 0, 1 / 2)%R); [|reflexivity]. unfold on_wall. cbv zeta. right; right; left. repeat split; lra.
        -- apply (F (1 / 2, 1, 1 / 2)%R); [|reflexivity]. unfold on_wall. cbv zeta. right; right; right; left. repeat split; lra.
        -- apply (F (1 / 2, 1 / 2, 0)%R); [|reflexivity]. unfold on_wall. cbv zeta. right; right; right; right; left. repeat split; lra.
        -- apply (F (1 / 2, 1 / 2, 1)%R); [|reflexivity]. unfold on_wall. cbv zeta. right; right; right; right; right. repeat split; lra.
  - intros [H _]. specialize (H [0; 1] CUT). change (zlen [0; 1]) with 2 in H. lia.
  - split.
    + intros C [NC HC]. assert (I : incl C [0; 1]). { intros d Hd. destruct (HC d Hd) as (q & Eq & _). apply Z1 in Eq as [[-> _]|[-> _]]; simpl; auto. }
      pose proof (NoDup_incl_length NC I) as L. unfold zlen. simpl in L. lia.
    + intros m J W Hm (NJ & NW & HJ & HW). destruct (M m Hm) as [->| ->].
      * change (firstn (Z.to_nat 1) [l; r]) with [l] in *.
        assert (IJ : incl J [1]). { intros j Hj. destruct (HJ j Hj) as (_ & a & b & Ea & Eb & Nab). injection Ea as <-. apply Z1 in Eb as [[-> ->]|[-> ->]]; [now destruct Nab|now left]. }
        assert (IW : incl W [1; 2; 3; 4; 5]).
        { intros w Hw. destruct (HW w Hw) as (a & [[u v] t] & Ea & OW & D). injection Ea as <-. specialize (D 1 l eq_refl ltac:(lia)). unfold p, l in D. simpl in D.
          destruct OW as [(-> & -> & _)|[(-> & _)|[(-> & _)|[(-> & _)|[(-> & _)|(-> & _)]]]]]; [exfalso; lra|simpl; auto 10..]. }
        pose proof (NoDup_incl_length NJ IJ) as L1. pose proof (NoDup_incl_length NW IW) as L2. unfold zlen. simpl in L1, L2. lia.
      * change (firstn (Z.to_nat 2) [l; r]) with [l; r] in *.
        assert (IJ : incl J [1; 2]). { intros j Hj. destruct (HJ j Hj) as (_ & a & b & Ea & Eb & Nab). injection Ea as <-. apply Z3 in Eb as [[-> ->]|[[-> ->]|[-> ->]]]; [now destruct Nab|simpl; auto 10..]. }
        assert (IW : incl W [2; 3; 4; 5]).
        { intros w Hw. destruct (HW w Hw) as (a & [[u v] t] & Ea & OW & D). injection Ea as <-. pose proof (D 1 l eq_refl ltac:(lia)) as D1. pose proof (D 2 r eq_refl ltac:(lia)) as D2. unfold p, l, r in D1, D2. simpl in D1, D2.
          destruct OW as [(-> & -> & _)|[(-> & -> & _)|[(-> & _)|[(-> & _)|[(-> & _)|(-> & _)]]]]]; [exfalso; lra|exfalso; lra|simpl; auto 10..]. }
        pose proof (NoDup_incl_length NJ IJ) as L1. pose proof (NoDup_incl_length NW IW) as L2. unfold zlen. simpl in L1, L2. lia.
  - eexists. split; [vm_compute; reflexivity|]. split; reflexivity.
  - eexists. split; [vm_compute; reflexivity|]. split; reflexivity.
Qed.
