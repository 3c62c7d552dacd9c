(** C84: the order of the points after a call in single precision. *)
From Verif Require Import Base Arith PBase Prog MUtils MXyz MTess SpecPoints SpecSort PXyz PSort PSortFinal Arith32 PFloat PNear32 SpecGeom SpecText SpecSingle SpecFace.
From Flocq Require Import Core IEEE754.BinarySingleNaN.
From Coq Require Import Reals Lra Permutation.
Import SpecGeom.
Local Open Scope Z_scope.

(** any arithmetic: if the cell of each point is [key], the points are sorted by it *)
Lemma sort_by_key (N : Arith) (key : point N -> Z) gr P0 P ids offs : in_range_ids N gr P0 ->
  (forall p, In p P0 -> cell_id N gr (grid_len N gr) p = Ok (key p)) ->
  xyz_sort N gr P0 = Ok (P, ids, offs) -> stable_sort_of key P0 P.
Proof.
  intros Hr C H. 
  pose proof H as H'. apply xyz_sort_spec in H' as (l & t & El & Et & Ep & (PP & S & F) & Ht & Hl & _); [|eapply nonneg_of_range; eauto].
  assert (K : forall r, In r t -> key (snd r) = fst r).
  { intros r Hin. assert (H0 : In (snd r) P0) by (rewrite <- El; apply in_map, (Permutation_in _ (Permutation_sym PP)), Hin).
    specialize (C _ H0). rewrite Ht in C by assumption. congruence. }
  assert (PM : Permutation P0 P) by (rewrite <- El, <- Ep; now apply Permutation_map).
  split; [exact PM|]. split.
  - rewrite <- Ep. clear -S K. unfold sorted_by in *. induction S as [|r t S IH Fo]; simpl; constructor.
    + apply IH. intros; apply K; now right.
    + rewrite Forall_forall in *. intros p Hp. apply in_map_iff in Hp as (r' & <- & Hr). rewrite !K by (simpl; auto). now apply Fo.
  - intros c. pose proof (sort_stable N gr P0 P ids offs Hr H c) as Q.
    assert (G : forall l, (forall p, In p l -> In p P0) -> filter (cellb N gr c) l = filter (fun x => key x =? c) l).
    { clear -C. induction l as [|p l IH]; intros Hl; [reflexivity|]. simpl. unfold cellb at 1. rewrite C by (apply Hl; now left). rewrite IH by (intros; apply Hl; now right). reflexivity. }
    rewrite !G in Q; auto. intros p Hp. eapply Permutation_in; [apply Permutation_sym; exact PM|exact Hp].
Qed.

Lemma coord32_val gr x : 0 < gr -> gr * gr * gr <= int_max -> safe_res gr = true -> open01 x -> cell_coord arith32 (grid_len arith32 gr) x = Ok (coord32 gr (B2R x)) /\ 0 <= coord32 gr (B2R x) < gr.
Proof.
  intros Hg Hm Hs (Fx & Hx). assert (GI : 0 < gr <= 1290) by (unfold int_max in Hm; nia). destruct (cell_coord32 gr x) as (c & E & Rc); [unfold int_max; lia|assumption|assumption|lra|].
  enough (c = coord32 gr (B2R x)) by (subst; auto). unfold cell_coord in E.
  unfold safe_res in Hs. rewrite !andb_true_iff in Hs. destruct Hs as ((H1 & H2) & H3).
  assert (FL : is_finite (grid_len arith32 gr) = true) by (clear - H1; destruct (grid_len arith32 gr); simpl in *; congruence). apply pos_finite_val in H1.
  destruct (ofZ32 gr ltac:(lia)) as [Vg Fg]. destruct (ofZ32 1 ltac:(lia)) as [V1 F1].
  assert (GL : B2R (grid_len arith32 gr) = nearest (1 / IZR gr)).
  { unfold grid_len. simpl fdiv. destruct (div32_finite (fofZ arith32 1) (fofZ arith32 gr)) as [Q _].
    - rewrite Vg. apply not_0_IZR. lia.
    - exact FL.
    - rewrite Vg, V1 in Q. exact Q. }
  set (gl := grid_len arith32 gr) in *. clearbody gl. simpl ffloor in E. simpl fdiv in E. destruct (is_finite (div32 x gl)) eqn:FQ.
  - rewrite (f32_floor_spec _ FQ) in E. destruct (Base.in_int _); [|discriminate]. injection E as <-.
    destruct (div32_finite x gl ltac:(lra) FQ) as [Q _]. rewrite Q, GL. unfold coord32. change (nearest (B2R x / nearest (1 / IZR gr))) with (rnd (B2R x / nearest (1 / IZR gr))).
    generalize (rnd (B2R x / nearest (1 / IZR gr))). intros r. apply Zfloor_imp. rewrite plus_IZR. destruct (base_Int_part r). lra.
  - exfalso. destruct (div32 x gl); simpl in *; discriminate.
Qed.

Lemma sort32 gr P0 P ids offs : 0 < gr -> gr * gr * gr <= int_max -> safe_res gr = true -> Forall open01p P0 ->
  xyz_sort arith32 gr P0 = Ok (P, ids, offs) -> stable_sort_of (fun p => cell32 gr (real_pt p)) P0 P.
Proof.
  intros Hg Hm Hs HO H. apply (sort_by_key arith32 (fun p => cell32 gr (real_pt p)) gr P0 P ids offs); [now apply in_range32| |exact H].
  intros [[x y] z] Hp. rewrite Forall_forall in HO. destruct (HO _ Hp) as (Ox & Oy & Oz).
  destruct (coord32_val gr x Hg Hm Hs Ox) as [Ex Rx]. destruct (coord32_val gr y Hg Hm Hs Oy) as [Ey Ry]. destruct (coord32_val gr z Hg Hm Hs Oz) as [Ez Rz].
  unfold real_pt, cell32. set (a := coord32 gr (B2R x)) in *. set (b := coord32 gr (B2R y)) in *. set (c := coord32 gr (B2R z)) in *. clearbody a b c.
  unfold cell_id. rewrite Ex, Ey, Ez. cbn [rbind].
  assert (0 <= b * gr <= gr * gr - gr) by nia.
  assert (0 <= c * gr <= gr * gr - gr) by nia.
  assert (0 <= c * gr * gr <= gr * gr * gr - gr * gr) by nia.
  assert (gr * gr <= int_max) by nia.
  unfold int_max in *.
  rewrite (chk_ok (b * gr)) by (unfold int_min, int_max; lia). cbn [rbind].
  rewrite (chk_ok (a + b * gr)) by (unfold int_min, int_max; lia). cbn [rbind].
  rewrite (chk_ok (c * gr)) by (unfold int_min, int_max; lia). cbn [rbind].
  rewrite (chk_ok (c * gr * gr)) by (unfold int_min, int_max; lia). cbn [rbind].
  rewrite chk_ok by (unfold int_min, int_max; lia). reflexivity.
Qed.

Lemma stable_sort_map {A B} (f : A -> B) (key : B -> Z) l l' : stable_sort_of (fun x => key (f x)) l l' -> stable_sort_of key (map f l) (map f l').
Proof.
  intros (P & S & F). split; [now apply Permutation_map|]. split.
  - clear - S. unfold sorted_by in *. induction S as [|a l S IH Fo]; simpl; constructor; auto. rewrite Forall_forall in *. intros y Hy. apply in_map_iff in Hy as (x & <- & Hx). now apply Fo.
  - assert (G : forall c l, filter (fun x => key x =? c) (map f l) = map f (filter (fun x => key (f x) =? c) l)).
    { intros c. induction l0 as [|a l0 IH]; [reflexivity|]. simpl. destruct (key (f a) =? c); simpl; now rewrite IH. }
    intros c. now rewrite !G, F.
Qed.
