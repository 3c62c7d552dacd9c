(** The kernels at any layout are the relocated row kernels: heap and k-NN. *)
From Verif Require Import Base Arith PBase Prog PProg MUtils MHeap MKnn.
Local Open Scope prog_scope.

Section R.
Variable N : Arith.
Notation F := (F N).
Variable phi : reloc.
Variable ad : Z -> Z.
Hypothesis HI : forall j, ad j = phi AHeapId j.
Hypothesis HQ : forall j, ad j = phi AHeapPq j.
Notation id := (fun j : Z => j).

Lemma swap_sim a b : psim phi (heap_swap N id a b) (heap_swap N ad a b).
Proof.
  unfold heap_swap.
  apply psim_bind; [apply psim_rd, HI|]; intros ia.
  apply psim_bind; [apply psim_rd, HI|]; intros ib.
  apply psim_bind; [apply psim_wr, HI|]; intros _.
  apply psim_bind; [apply psim_wr, HI|]; intros _.
  apply psim_bind; [apply psim_rd, HQ|]; intros qa.
  apply psim_bind; [apply psim_rd, HQ|]; intros qb.
  apply psim_bind; [apply psim_wr, HQ|]; intros _. apply psim_wr, HQ.
Qed.
Lemma pick_sim s c g : psim phi (heap_pick N id s c g) (heap_pick N ad s c g).
Proof.
  unfold heap_pick. destruct (c <? s); [|constructor].
  apply psim_bind; [apply psim_rd, HQ|]; intros x.
  apply psim_bind; [apply psim_rd, HQ|]; intros y. destruct (flt N y x); constructor.
Qed.
Lemma mhl_sim fuel : forall s i, psim phi (maxheapify_loop N id fuel s i) (maxheapify_loop N ad fuel s i).
Proof.
  induction fuel as [|f IH]; intros s i; cbn [maxheapify_loop].
  - apply psim_bind; [apply pick_sim|]; intros g1. apply psim_bind; [apply pick_sim|]; intros g.
    destruct (i =? g); constructor.
  - apply psim_bind; [apply pick_sim|]; intros g1. apply psim_bind; [apply pick_sim|]; intros g.
    destruct (i =? g); [constructor|]. apply psim_bind; [apply swap_sim|]; intros _. apply IH.
Qed.
Lemma mh_sim s i : psim phi (maxheapify N id s i) (maxheapify N ad s i).
Proof. apply mhl_sim. Qed.
Lemma sort_sim k : psim phi (heap_sort N id k) (heap_sort N ad k).
Proof.
  unfold heap_sort. apply psim_bind.
  - apply psim_forM. intros. apply mh_sim.
  - intros _. apply psim_forM. intros. apply psim_bind; [apply swap_sim|]. intros _. apply mh_sim.
Qed.

Lemma visit_sim pts dev k index q p :
  psim phi (knn_visit N id pts dev k index q p) (knn_visit N ad pts dev k index q p).
Proof.
  unfold knn_visit. destruct (p =? index); [constructor|].
  apply psim_bind; [apply psim_refl_pure|]; intros pp.
  apply psim_bind; [apply psim_rd, HQ|]; intros cur.
  destruct dev.
  - apply psim_bind; [apply psim_rd, HI|]; intros hi. apply psim_bind; [apply psim_wr, HI|]; intros _.
    apply psim_bind; [apply psim_rd, HQ|]; intros hp. apply psim_bind; [apply psim_wr, HQ|]; intros _.
    apply mh_sim.
  - destruct (flt N _ _); [|constructor].
    apply psim_bind; [apply psim_wr, HI|]; intros _. apply psim_bind; [apply psim_wr, HQ|]; intros _.
    apply mh_sim.
Qed.
Lemma cellk_sim pts dev k gr offset index q c :
  psim phi (knn_cell N id pts dev k gr offset index q c) (knn_cell N ad pts dev k gr offset index q c).
Proof.
  destruct c as [[x y] z]. unfold knn_cell.
  apply psim_bind; [apply psim_refl_pure|]; intros o0. apply psim_bind; [apply psim_refl_pure|]; intros o1.
  apply psim_forM. intros. apply visit_sim.
Qed.
Lemma shells_sim pts dev rs k gr gl mn offset index q px py pz :
  psim phi (knn_shells N id pts dev rs k gr gl mn offset index q px py pz)
           (knn_shells N ad pts dev rs k gr gl mn offset index q px py pz).
Proof.
  induction rs as [|r rs IH]; cbn [knn_shells]; [constructor|].
  apply psim_bind; [apply psim_forM; intros; apply cellk_sim|]; intros _.
  apply psim_bind; [apply psim_rd, HQ|]; intros top. destruct (flt N _ _); [constructor|apply IH].
Qed.
Lemma knn_sim pts dev wp refs k gr gr_arg ids offset index :
  psim phi (knn_compute N id pts dev wp refs k gr gr_arg ids offset index)
           (knn_compute N ad pts dev wp refs k gr gr_arg ids offset index).
Proof.
  unfold knn_compute. apply psim_bind; [apply psim_refl_pure|]; intros q.
  apply psim_bind; [apply psim_refl_pure|]; intros idv.
  apply psim_bind; [destruct (gr =? 0); constructor|]; intros _.
  apply psim_bind; [apply shells_sim|]; intros _. apply sort_sim.
Qed.
End R.
