(** Which grid resolutions the sort survives: the exact condition for any number
    type, the resolutions 0 and below, and every resolution in binary32. *)
From Verif Require Import Base PBase SpecSort PSort Arith Exact MUtils MXyz PXyz PFloat Arith32 MArgs MTess.
From Verif Require Export SpecPoints SpecSingle.
From Flocq Require Import Core IEEE754.BinarySingleNaN.
From Coq Require Import Reals Lra Floats.SpecFloat.
Open Scope Z_scope.
Local Open Scope res_scope.

Lemma offsets_some idmax (ids : list Z) : 0 <= idmax -> (forall i, In i ids -> -1 <= i < idmax) ->
  exists o, offsets idmax ids = Ok o.
Proof.
  intros Hm Hi. unfold offsets. replace (idmax + 1 <? 0) with false by lia. cbn [rbind].
  destruct (hist_ok (fun i => i + 1) ids (repeat 0 (Z.to_nat (idmax + 1)))) as (o1 & -> & L1 & _).
  { intros i H. apply Hi in H. rewrite zlen_repeat. lia. }
  rewrite zlen_repeat, Z2Nat.id in L1 by lia. cbn [rbind].
  destruct (rfold_zrange_inv (fun '(o, u) i => v <-r rget o i ;; o <-r rset o i (u + v) ;; Ok (o, u + v))
    (fun i '(o, u) => zlen o = idmax + 1) 0 (zlen o1) (o1, 0)) as ([o2 u] & -> & L2).
  - apply zlen_nonneg.
  - exact L1.
  - intros i [o u] Hr Ho. destruct (znth_in_range o i) as [v Hv]; [lia|].
    rewrite (rget_some _ _ _ Hv). cbn [rbind]. rewrite rset_some by lia. cbn [rbind].
    eexists; split; [reflexivity|]. cbn. now rewrite zlen_zupd.
  - cbn [rbind]. rewrite rset_some by lia. eauto.
Qed.

Section Any.
Variable N : Arith.

Lemma ids_of gr pts : (forall p, In p pts -> exists c, has_cell N gr p c) ->
  exists ids t, rmap (cell_id N gr (grid_len N gr)) pts = Ok ids /\ length ids = length pts /\
    radix_sort N ids pts = Ok t /\ Permutation (fst t) ids /\
    (forall i, In i ids -> exists p, In p pts /\ has_cell N gr p i).
Proof.
  intros H. destruct (rmap_total N (cell_id N gr (grid_len N gr)) pts) as [ids E]; [exact H|].
  pose proof E as E'. apply rmap_combine in E as [L P].
  destruct (combine_fst_snd ids pts L) as [F1 F2].
  destruct (radix_sort_ok N (combine ids pts)) as (t & Et & (Pt & _)). rewrite F1, F2 in Et.
  exists ids. eexists. split; [exact E'|]. split; [exact L|]. split; [exact Et|]. split.
  - cbn. rewrite <- F1. now apply Permutation_map, Permutation_sym.
  - intros i Hi. rewrite <- F1 in Hi. apply in_map_iff in Hi as (r & <- & Hi). exists (snd r). split.
    + rewrite <- F2. now apply in_map.
    + rewrite Forall_forall in P. exact (P _ Hi).
Qed.

Lemma sort_ends_iff gr pts :
  (exists r, xyz_sort N gr pts = Ok r) <->
  0 <= gr /\ gr * gr * gr <= int_max /\ forall p, In p pts -> exists c, has_cell N gr p c /\ -1 <= c < gr * gr * gr.
Proof.
  split.
  - intros [[[pts' ids] o] H]. apply xyz_sort_inv in H as (l & t & El & Et & _ & (Pt & _) & Hl & R3 & R2 & _ & Eo).
    assert (G : 0 <= gr * gr * gr).
    { unfold offsets in Eo. destruct (gr * gr * gr + 1 <? 0) eqn:E; [discriminate|]. cbn [rbind] in Eo.
      destruct (Z.eq_dec (gr * gr * gr) (-1)) as [E1|]; [exfalso|lia].
      rewrite E1 in Eo. cbn [Z.add Z.to_nat repeat] in Eo.
      apply rbind_ok in Eo as (o1 & H1 & Eo).
      assert (zlen o1 = 0).
      { clear Eo. revert H1. assert (K : forall l (s s' : list Z), rfold l (fun o id => v <-r rget o (id + 1) ;; rset o (id + 1) (v + 1)) s = Ok s' -> zlen s' = zlen s).
        { clear. induction l as [|a l IH]; intros s s' H; cbn in H; [now injection H as <-|].
          apply rbind_ok in H as (s1 & H1 & H). apply rbind_ok in H1 as (v & _ & H1). apply rset_ok in H1 as [_ ->].
          rewrite (IH _ _ H). apply zlen_zupd. }
        intros H1. apply K in H1. rewrite H1. reflexivity. }
      destruct o1; [|rewrite zlen_cons in H; pose proof (zlen_nonneg o1); lia]. cbn in Eo. discriminate. }
    split; [nia|]. split; [lia|]. intros p Hp. rewrite <- El in Hp. apply in_map_iff in Hp as (r & <- & Hr).
    exists (fst r). split; [exact (Hl r Hr)|]. apply (offsets_inv _ _ _ Eo). rewrite <- Et.
    apply in_map. now apply (Permutation_in _ Pt).
  - intros (Hg & Hm & H). unfold xyz_sort.
    rewrite chk_ok by (unfold int_min, int_max in *; nia). cbn [rbind].
    rewrite chk_ok by (unfold int_min, int_max in *; nia). cbn [rbind].
    destruct (ids_of gr pts) as (ids & [ids1 pts1] & -> & _ & Er & Pt & Hi).
    { intros p Hp. destruct (H p Hp) as (c & Hc & _). eauto. }
    cbn [rbind]. rewrite Er. cbn [rbind].
    destruct (offsets_some (gr * gr * gr) ids1) as [o ->]; [nia| |cbn [rbind]; eauto].
    intros i Ki. apply (Permutation_in _ Pt) in Ki. destruct (Hi _ Ki) as (p & Kp & Kc).
    destruct (H p Kp) as (c & Hc & Rc). unfold has_cell in *. rewrite Kc in Hc. injection Hc as ->. exact Rc.
Qed.

(** below -1 the size of the offset array is negative: std::length_error *)
Lemma sort_throws gr pts : gr <= -2 -> int_min <= gr * gr * gr -> (forall p, In p pts -> exists c, has_cell N gr p c) ->
  xyz_sort N gr pts = Err EThrow.
Proof.
  intros Hg Hm H. unfold xyz_sort.
  assert (gr * gr <= int_max) by (unfold int_max, int_min in *; nia).
  rewrite chk_ok by (unfold int_min, int_max in *; nia). cbn [rbind].
  rewrite chk_ok by (unfold int_min, int_max in *; nia). cbn [rbind].
  destruct (ids_of gr pts H) as (ids & [ids1 pts1] & -> & _ & Er & _). cbn [rbind]. rewrite Er. cbn [rbind].
  unfold offsets. replace (gr * gr * gr + 1 <? 0) with true by nia. reflexivity.
Qed.

Lemma sort_bad gr pts c : - 1 <= gr <= 0 -> (forall p, In p pts -> has_cell N gr p c) -> gr <= c -> pts <> [] ->
  xyz_sort N gr pts = Err EUB.
Proof.
  intros Hg H Hc Hp. unfold xyz_sort.
  rewrite chk_ok by (unfold int_min, int_max in *; nia). cbn [rbind].
  rewrite chk_ok by (unfold int_min, int_max in *; nia). cbn [rbind].
  destruct (ids_of gr pts) as (ids & [ids1 pts1] & -> & L & Er & Pt & Hi); [eauto|]. cbn [rbind]. rewrite Er. cbn [rbind].
  assert (K : exists x, offsets (gr * gr * gr) ids1 = Err EUB /\ In x ids1).
  { destruct ids1 as [|x ids1].
    - exfalso. apply Hp. apply Permutation_length in Pt. cbn in Pt. rewrite <- Pt in L. now destruct pts.
    - exists x. split; [|now left]. assert (x = c).
      { destruct (Hi x) as (p & Kp & Kc); [apply (Permutation_in _ Pt); now left|]. specialize (H p Kp). unfold has_cell in *. congruence. }
      subst x. assert (G : gr * gr * gr = gr) by nia. rewrite G. unfold offsets. replace (gr + 1 <? 0) with false by lia.
      cbn [rbind rfold]. unfold rget at 1. rewrite (proj2 (znth_none _ (c + 1))); [reflexivity|]. rewrite zlen_repeat. lia. }
  destruct K as (x & -> & _). reflexivity.
Qed.
End Any.

(** ** binary32 *)
Lemma grid_len_0 : grid_len arith32 0 = B754_infinity false.
Proof. apply B2SF_inj. vm_compute. reflexivity. Qed.

Lemma cell_zero_res x : is_finite x = true -> cell_coord arith32 (grid_len arith32 0) x = Ok 0.
Proof. intros H. rewrite grid_len_0. unfold cell_coord. cbn [fdiv arith32 ffloor]. now destruct x. Qed.

Lemma cell32_0 p : (let '(x, y, z) := p in is_finite x = true /\ is_finite y = true /\ is_finite z = true) -> has_cell arith32 0 p 0.
Proof.
  destruct p as [[x y] z]. intros (Hx & Hy & Hz). unfold has_cell, cell_id.
  rewrite !cell_zero_res by assumption. reflexivity.
Qed.

Lemma zero_res pts : Forall (fun p => let '(x, y, z) := p in is_finite x = true /\ is_finite y = true /\ is_finite z = true) pts ->
  pts <> [] -> xyz_sort arith32 0 pts = Err EUB.
Proof.
  intros HF Hp. apply (sort_bad arith32 0 pts 0); try lia; [|assumption].
  intros p K. rewrite Forall_forall in HF. apply cell32_0. exact (HF p K).
Qed.

Lemma grid_len_m1 : B2R (grid_len arith32 (-1)) = (-1)%R.
Proof.
  rewrite (sf_b2r _ (S754_finite true 8388608 (-23))) by (vm_compute; reflexivity).
  unfold SF2R, F2R. cbn [Fnum Fexp cond_Zopp bpow]. change (Z.pow_pos radix2 23) with 8388608. cbn [Z.opp]. lra.
Qed.

Lemma cell_m1 x : open01 x -> cell_coord arith32 (grid_len arith32 (-1)) x = Ok (-1).
Proof.
  intros [Fx Hx]. set (gl := grid_len arith32 (-1)).
  assert (G : B2R gl = (-1)%R) by apply grid_len_m1.
  assert (Q : (B2R x / B2R gl = B2R (Bopp x))%R) by (rewrite G, B2R_Bopp; lra).
  assert (R : rnd (B2R x / B2R gl) = (- B2R x)%R).
  { rewrite Q, <- B2R_Bopp. apply round_generic; [typeclasses eauto|]. apply generic_format_B2R. }
  assert (L : (Rabs (rnd (B2R x / B2R gl)) < bpow radix2 128)%R).
  { rewrite R, Rabs_Ropp, Rabs_pos_eq by lra. apply Rlt_trans with (bpow radix2 0); [change (bpow radix2 0) with 1%R; lra|]. apply bpow_lt. lia. }
  destruct (div32_small x gl ltac:(lra) Fx L) as [V Fq].
  unfold cell_coord. cbn [ffloor fdiv arith32]. change (Bdiv mode_NE x gl) with (div32 x gl). rewrite (f32_floor_spec _ Fq), V, R.
  replace (Zfloor (- B2R x)) with (-1); [reflexivity|]. symmetry. apply Zfloor_imp. rewrite plus_IZR. lra.
Qed.

Lemma minus_one_res pts : Forall open01p pts -> pts <> [] -> xyz_sort arith32 (-1) pts = Err EUB.
Proof.
  intros HF Hp. apply (sort_bad arith32 (-1) pts (-1)); try lia; [|assumption].
  intros [[x y] z] K. rewrite Forall_forall in HF. destruct (HF _ K) as (Hx & Hy & Hz). unfold has_cell, cell_id.
  rewrite !cell_m1 by assumption. reflexivity.
Qed.

(** ** exactly the resolutions of [safe_res] sort every set in the open cube *)
Lemma grid_len_fine gr : 0 < gr -> gr * gr * gr <= int_max ->
  pos_finite (grid_len arith32 gr) && is_finite (div32 pred_one32 (grid_len arith32 gr)) = true.
Proof.
  intros Hg Hm.
  assert (K : forallb (fun g => pos_finite (grid_len arith32 g) && is_finite (div32 pred_one32 (grid_len arith32 g))) (zrange 1 1291) = true)
    by (vm_compute; reflexivity).
  rewrite forallb_forall in K. apply K. apply in_zrange. unfold int_max in Hm. nia.
Qed.

Lemma safe_iff gr : 0 < gr -> gr * gr * gr <= int_max ->
  (safe_res gr = true <-> forall pts, Forall open01p pts -> exists r, xyz_sort arith32 gr pts = Ok r).
Proof.
  intros Hg Hm. split.
  - intros Hs pts HF. apply sort_ends_iff. split; [lia|]. split; [assumption|]. intros p Hp.
    destruct (in_range32 gr pts Hg Hm Hs HF p Hp) as (c & Hc & Rc). exists c. split; [exact Hc|lia].
  - intros H. unfold safe_res. cbv zeta. rewrite (grid_len_fine gr Hg Hm). cbn [andb].
    specialize (H [(pred_one32, pred_one32, pred_one32)]).
    destruct H as [r Hr].
    { constructor; [|constructor]. repeat split; apply pred_one_open. }
    assert (K : exists r, xyz_sort arith32 gr [(pred_one32, pred_one32, pred_one32)] = Ok r) by eauto.
    apply sort_ends_iff in K as (_ & _ & K). destruct (K _ (or_introl eq_refl)) as (i & Hi & Ri).
    unfold has_cell, cell_id in Hi. apply rbind_ok in Hi as (cx & Hx & Hi). rewrite Hx in Hi. cbn [rbind] in Hi.
    unfold cell_coord in Hx. cbn [ffloor fdiv arith32] in Hx. change (Bdiv mode_NE pred_one32 (grid_len arith32 gr)) with (div32 pred_one32 (grid_len arith32 gr)) in Hx.
    destruct (f32_floor (div32 pred_one32 (grid_len arith32 gr))) as [c|]; [|discriminate].
    destruct (Base.in_int c); [|discriminate]. injection Hx as ->.
    apply rbind_ok in Hi as (a1 & E1 & Hi). apply chk_inv in E1 as [-> _].
    apply rbind_ok in Hi as (a2 & E2 & Hi). apply chk_inv in E2 as [-> _].
    apply rbind_ok in Hi as (a3 & E3 & Hi). apply chk_inv in E3 as [-> _].
    apply rbind_ok in Hi as (a4 & E4 & Hi). apply chk_inv in E4 as [-> _].
    apply chk_inv in Hi as [-> _]. apply Z.ltb_lt. nia.
Qed.

(** ** the whole call *)
Lemma call_stops (w : world arith32) c dev pts : c_gr c = 0 \/ c_gr c = -1 -> Forall open01p pts -> pts <> [] ->
  tess_core arith32 w c dev pts = Err EUB.
Proof.
  intros Hc HF Hp. unfold tess_core.
  assert (xyz_sort arith32 (c_gr c) pts = Err EUB) as ->; [|reflexivity].
  destruct Hc as [-> | ->].
  - apply zero_res; [|assumption]. eapply Forall_impl; [|exact HF]. intros [[x y] z] ((? & _) & (? & _) & (? & _)). auto.
  - now apply minus_one_res.
Qed.

Lemma call_never (N : Arith) (w : world N) c dev pts o : tess_core N w c dev pts = Ok o ->
  0 <= c_gr c /\ c_gr c * c_gr c * c_gr c <= int_max /\
  forall p, In p pts -> exists i, has_cell N (c_gr c) p i /\ -1 <= i < c_gr c * c_gr c * c_gr c.
Proof.
  unfold tess_core. intros H. apply rbind_ok in H as ([[p ids] offs] & E & _).
  apply sort_ends_iff. eauto.
Qed.
