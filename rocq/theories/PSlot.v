(** One slot (k-NN search, then cell) at any layout of the shared arrays. *)
From Verif Require Import Base Arith PBase Prog PProg MUtils MHeap MKnn MBoundary MCell PHeap PReloc PHeapFinal
  SpecBnd PBnd PCellSim PCellRun PCell PCellRow PKnnSafe.
From Coq Require Import Permutation.
Local Open Scope prog_scope.

(** rows of the right length are triangles / planes *)
Lemma unflat3 (l : list Z) t : 0 <= t -> zlen l = 3 * t -> exists Tr, flat Tr = l /\ zlen Tr = t.
Proof.
  intros Ht. revert l. pattern t. apply natlike_ind; [| |assumption].
  - intros l H. exists []. destruct l; [auto|]. rewrite zlen_cons in H. pose proof (zlen_nonneg l). lia.
  - intros x Hx IH l H. unfold Z.succ in H. do 3 (destruct l as [|? l]; [rewrite ?zlen_cons in H; change (zlen (@nil Z)) with 0 in H; lia|]).
    rewrite !zlen_cons in H. destruct (IH l ltac:(lia)) as (Tr & E & L). exists ((z, z0, z1) :: Tr). split; [simpl; now rewrite <- E|]. rewrite zlen_cons. lia.
Qed.
Lemma unflat4 N (l : list (F N)) t : 0 <= t -> zlen l = 4 * t -> exists Pl, flat4 N Pl = l /\ zlen Pl = t.
Proof.
  intros Ht. revert l. pattern t. apply natlike_ind; [| |assumption].
  - intros l H. exists []. destruct l; [auto|]. rewrite zlen_cons in H. pose proof (zlen_nonneg l). lia.
  - intros x Hx IH l H. unfold Z.succ in H. do 4 (destruct l as [|? l]; [rewrite ?zlen_cons in H; change (zlen (@nil (F N))) with 0 in H; lia|]).
    rewrite !zlen_cons in H. destruct (IH l ltac:(lia)) as (Tr & E & L). exists ((f, f0, f1, f2) :: Tr). split; [simpl; now rewrite <- E|]. rewrite zlen_cons. lia.
Qed.
(** collect the cells at addresses f 0, f 1, ... *)
Lemma gather {A} (l : list A) (f : Z -> Z) len : 0 <= len -> (forall i, 0 <= i < len -> exists v, znth l (f i) = Some v) ->
  exists r, zlen r = len /\ forall i, 0 <= i < len -> znth r i = znth l (f i).
Proof.
  intros Hl. pattern len. apply natlike_ind; [| |assumption].
  - intros _. exists []. split; [reflexivity|]. intros; lia.
  - intros x Hx IH H. destruct IH as (r & L & E). { intros i Hi. apply H. lia. }
    destruct (H x ltac:(lia)) as [v Hv]. exists (r ++ [v]). split; [rewrite zlen_app, zlen_one; lia|].
    intros i Hi. destruct (Z.eq_dec i x) as [->|].
    + rewrite znth_app2 by lia. replace (x - zlen r) with 0 by lia. rewrite Hv. reflexivity.
    + rewrite znth_app1 by lia. apply E. lia.
Qed.

Section Slot.
Variable N : Arith.
Notation F := (F N).
Variable pts : Z -> option (point N).
Variable n : Z.
Variable dev : bool.
Variable wp : Z -> Z.
Variables k pmax tmax gr gr_arg : Z.
Variables ids offs : list Z.
Variable refs : Z -> option (point N).
Hypothesis Hpts : forall p, 0 <= p < n -> exists pp, pts p = Some pp.
Hypothesis Hk : 0 < k.
Hypothesis Hpm : 6 <= pmax <= 255.
Hypothesis Htm : 8 <= tmax.
Hypothesis Hgrid : grid_ok n gr ids offs.
Hypothesis Hwp : forall c, 0 <= c < gr -> wp c = c.

Definition slotL (wc : Z -> Z) (brk : bool) (ad : Z -> Z) (L : layout) (index : Z) : prog F unit :=
  bind (knn_compute N ad pts dev wp refs k gr gr_arg ids offs index)
       (fun _ => cell_compute N wc brk L k pmax tmax index pts refs).
Definition slot0 (wc : Z -> Z) (brk : bool) (index : Z) : prog F unit :=
  bind (knn_compute N (fun j => j) pts dev wp refs k gr gr_arg ids offs index)
       (fun _ => cell_compute N wc brk lay0 k pmax tmax 0 pts (fun _ => refs index)).

(** what happens in a slot: candidates found, how the clipping ended, final
    planes and triangles, whether a candidate was processed before the end *)
Record sres := mkS { r_h : list (Z * F); r_o : nbout; r_s : cst N; r_cl : bool }.
Definition r_K (r : sres) : list Z := map fst (r_h r).
Definition r_row (r : sres) : list Z := row_after N k (r_K r) (r_o r) (r_s r).
Definition r_byte (r : sres) (b : Z) : Z := loop_byte (r_cl r) (r_o r) b.

Definition slot_res (index : Z) (h0 : list (Z * F)) (D0 : list Z) (r : sres) : Prop :=
  exists p, refs index = Some p /\ hok N n k (r_h r) /\
  run (knn_compute N (fun j => j) pts dev wp refs k gr gr_arg ids offs index) (hmem N (emem N) h0) = Ok (tt, hmem N (emem N) (r_h r)) /\
  walk N pmax tmax pts (r_K r) p (zrange 0 k) (cst0 N D0) (r_o r) (r_s r) /\
  good N k pmax tmax (r_s r).

Definition ssz (a : arr) : Z :=
  match a with AHeapId | AHeapPq | ADknn => k | AP => 4 * pmax | AT => 3 * tmax | AdR => pmax | ASt => 1 end.

(** the rows afterwards *)
Definition slot_after (r : sres) (b : Z) (l : mem F) : Prop :=
  exists Pl Tr C D, l = cm N (map snd (r_h r)) Pl Tr C (r_row r) D (r_byte r b) /\
    zlen Pl = pmax /\ zlen Tr = tmax /\ zlen C = pmax /\ zlen D = k /\
    (ok_out (r_o r) = true -> (exists Pj, Pl = cP N (r_s r) ++ Pj) /\ (exists Tj, Tr = cT N (r_s r) ++ Tj) /\ D = cD N (r_s r)).

Lemma slot_local index h0 D0 : 0 <= index < n -> (exists p, refs index = Some p) -> hok N n k h0 -> zlen D0 = k ->
  exists r, slot_res index h0 D0 r /\
    forall wc brk Pl Tr C b, wc_ok wc (Z.min tmax (2 * pmax - 6)) ->
    zlen Pl = pmax -> zlen Tr = tmax -> zlen C = pmax -> 0 <= b < 256 ->
    exists l', run (slot0 wc brk index) (cm N (map snd h0) Pl Tr C (map fst h0) D0 b) = Ok (tt, l') /\ slot_after r b l'.
Proof.
  intros Hi [p Hp] H0 HD.
  destruct (knn_safe N dev pts n Hpts (emem N) wp refs k gr gr_arg ids offs index h0 Hk Hgrid Hi (ex_intro _ p Hp) Hwp H0) as (h & E & Ho).
  assert (LK : zlen (map fst h) = k) by (rewrite zlen_map; apply Ho).
  assert (HK : forall q, In q (map fst h) -> q <> k_undefined /\ exists qp, pts q = Some qp).
  { intros q Hq. apply in_map_iff in Hq as (x & <- & Hx). destruct Ho as (_ & Ho). rewrite Forall_forall in Ho. specialize (Ho x Hx).
    split; [unfold k_undefined; lia|apply Hpts; assumption]. }
  destruct (run_cell N k pmax tmax pts (map fst h) Hpm Htm LK HK D0 p HD) as (o & s & cl & W & G & EC).
  exists (mkS h o s cl). split; [exists p; split; [assumption|]; split; [assumption|]; split; [assumption|]; split; assumption|].
  intros wc brk Pl Tr C b Hwc LP LT LC Hb.
  destruct (EC wc brk (map snd h) (fun _ => refs index) Pl Tr C b Hwc LP LT LC Hb Hp) as (Pl' & Tr' & C' & D' & R & Q1 & Q2 & Q3 & Q4 & Q5).
  eexists. split.
  - unfold slot0. 
    pose proof (lift_heap N (knn_compute N (fun j => j) pts dev wp refs k gr gr_arg ids offs index) (cm N (map snd h0) Pl Tr C (map fst h0) D0 b) h0 h tt
      ltac:(destruct Ho, H0; lia) E) as EL.
    change (hmem N (cm N (map snd h0) Pl Tr C (map fst h0) D0 b) h0) with (cm N (map snd h0) Pl Tr C (map fst h0) D0 b) in EL.
    change (hmem N (cm N (map snd h0) Pl Tr C (map fst h0) D0 b) h) with (cm N (map snd h) Pl Tr C (map fst h) D0 b) in EL.
    rewrite (run_bind_ok _ _ _ _ _ EL). exact R.
  - exists Pl', Tr', C', D'. split; [reflexivity|]. auto.
Qed.

(** the slot at a layout *)
Definition lay_ok (ad : Z -> Z) (L : layout) (index : Z) (phi : reloc) : Prop :=
  (forall j, ad j = phi AHeapId j) /\ (forall j, ad j = phi AHeapPq j) /\
  (forall j c, aP L j c = phi AP (4 * j + c)) /\ (forall d, aK L d = phi AHeapId d) /\ (forall d, aD L d = phi ADknn d) /\
  (forall x, tbase L + x = phi AT (0 + x)) /\ (forall x, rbase L + x = phi AdR (0 + x)) /\ index = phi ASt 0.

Lemma slot_sim wc brk ad L index phi : lay_ok ad L index phi -> psim phi (slot0 wc brk index) (slotL wc brk ad L index).
Proof.
  intros (H1 & H2 & H3 & H4 & H5 & H6 & H7 & H8). unfold slot0, slotL. apply psim_bind; [apply knn_sim; assumption|]. intros _. apply cell_sim; assumption.
Qed.

(** the slot's rows before: heap h0, labels D0, state byte b *)
Definition slot_before (phi : reloc) (m : mem F) (h0 : list (Z * F)) (D0 : list Z) (b : Z) : Prop :=
  (forall a i, 0 <= i < ssz a -> exists v, mrd m a (phi a i) = Some v) /\
  (forall j, 0 <= j < k -> mrd m AHeapId (phi AHeapId j) = znth (map fst h0) j) /\
  (forall j, 0 <= j < k -> mrd m AHeapPq (phi AHeapPq j) = znth (map snd h0) j) /\
  (forall j, 0 <= j < k -> mrd m ADknn (phi ADknn j) = znth D0 j) /\
  mrd m ASt (phi ASt 0) = Some b.

Lemma slot_shared index h0 D0 : 0 <= index < n -> (exists p, refs index = Some p) -> hok N n k h0 -> zlen D0 = k ->
  exists r, slot_res index h0 D0 r /\
    forall wc brk ad L phi m b, wc_ok wc (Z.min tmax (2 * pmax - 6)) -> lay_ok ad L index phi -> inj_on phi ssz ->
    slot_before phi m h0 D0 b -> 0 <= b < 256 ->
    exists m' l', run_in (image phi ssz) (slotL wc brk ad L index) m = Ok (tt, m') /\
      view phi l' m' /\ slot_after r b l'.
Proof.
  intros Hi Hp H0 HD. destruct (slot_local index h0 D0 Hi Hp H0 HD) as (r & SR & E). exists r. split; [assumption|].
  intros wc brk ad L phi m b Hwc HL Hinj (B1 & B2 & B3 & B4 & B5) Hb.
  destruct (gather (m_P m) (phi AP) (4 * pmax) ltac:(lia) (B1 AP)) as (lp & LP & EP).
  destruct (gather (m_T m) (phi AT) (3 * tmax) ltac:(lia) (B1 AT)) as (lt & LT & ET).
  destruct (gather (m_dR m) (phi AdR) pmax ltac:(lia) (B1 AdR)) as (C & LC & EC).
  destruct (unflat4 N lp pmax ltac:(lia) LP) as (Pl & <- & LPl). destruct (unflat3 lt tmax ltac:(lia) LT) as (Tr & <- & LTr).
  destruct (E wc brk Pl Tr C b Hwc LPl LTr LC Hb) as (l' & R & A).
  assert (L0 : zlen h0 = k) by apply H0.
  destruct (psim_run phi _ _ (slot_sim wc brk ad L index phi HL) (cm N (map snd h0) Pl Tr C (map fst h0) D0 b) m ssz) with (x := tt) (l' := l')
    as (m' & Rn & V & _ & _); auto.
  - intros a. unfold msz. destruct a; simpl; rewrite ?zlen_map; auto.
  - intros a i Hi'. destruct a; simpl in Hi'; rewrite ?zlen_map in Hi'.
    + rewrite B2 by lia. reflexivity.
    + rewrite B3 by lia. reflexivity.
    + unfold mrd. simpl. rewrite EP by lia. reflexivity.
    + unfold mrd. simpl. rewrite ET by lia. reflexivity.
    + unfold mrd. simpl. rewrite EC by lia. reflexivity.
    + rewrite B4 by lia. reflexivity.
    + assert (i = 0) by (change (zlen [b]) with 1 in Hi'; lia). subst i. rewrite B5. reflexivity.
  - exists m', l'. auto.
Qed.
End Slot.
