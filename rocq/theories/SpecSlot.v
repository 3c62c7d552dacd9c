(** Which cells of the shared arrays belong to a slot, and how to read a row;
    independent of the kernels. *)
From Verif Require Import Base Prog MUtils.

(** row i of a table with w columns stored row by row *)
Definition trow {A} (l : list A) (w i : Z) : list A := firstn (Z.to_nat w) (skipn (Z.to_nat (w * i)) l).

Definition between (a x b : Z) : bool := (a <=? x) && (x <? b).

(** host: row i of every array, and the state of the slot's own point *)
Definition own_rows (k pm tm i index : Z) : region := fun a x =>
  match a with
  | AHeapId | AHeapPq | ADknn => between (k * i) x (k * (i + 1))
  | AP => between (4 * pm * i) x (4 * pm * (i + 1))
  | AT => between (3 * tm * i) x (3 * tm * (i + 1))
  | AdR => between (pm * i) x (pm * (i + 1))
  | ASt => x =? index
  end.

(** device: column i of the arrays stored column by column (s columns), row i
    of T, this item's part of the local memory (from cell rb on) *)
Definition own_columns (s k pm tm i rb index : Z) : region := fun a x =>
  match a with
  | AHeapId | AHeapPq | ADknn => between 0 x (s * k) && (x mod s =? i)
  | AP => between 0 x (s * (4 * pm)) && (x mod s =? i)
  | AT => between (3 * tm * i) x (3 * tm * (i + 1))
  | AdR => between rb x (rb + pm)
  | ASt => x =? index
  end.

(** the arrays are long enough for slot i and n states *)
Definition room {F} (k pm tm i n : Z) (m : mem F) : Prop :=
  0 <= i /\ k * (i + 1) <= zlen (m_hid m) /\ k * (i + 1) <= zlen (m_hpq m) /\ k * (i + 1) <= zlen (m_dknn m) /\
  4 * pm * (i + 1) <= zlen (m_P m) /\ 3 * tm * (i + 1) <= zlen (m_T m) /\ pm * (i + 1) <= zlen (m_dR m) /\
  n <= zlen (m_st m).

(** label d occurs in a triangle *)
Definition occurs (T : list (Z * Z * Z)) (d : Z) : bool :=
  existsb (fun '(a, b, c) => (a =? d) || (b =? d) || (c =? d)) T.
(** the candidates whose label occurs in T, in order *)
Definition kept (T : list (Z * Z * Z)) (cand labels : list Z) : list Z :=
  map fst (filter (fun x => occurs T (snd x)) (combine cand labels)).
(** fill up with the marker *)
Definition filled (k marker : Z) (l : list Z) : list Z := l ++ repeat marker (Z.to_nat (k - zlen l)).

(** the triangle list T, three cells each, from cell o of l on *)
Definition tris_at (l : list Z) (o : Z) (T : list (Z * Z * Z)) : Prop :=
  forall j a b c, znth T j = Some (a, b, c) ->
    znth l (o + 3 * j) = Some a /\ znth l (o + 3 * j + 1) = Some b /\ znth l (o + 3 * j + 2) = Some c.
(** plane number l of the row of planes starting at cell o *)
Definition plane_is {F} (P : list F) (o l : Z) (x : F * F * F * F) : Prop :=
  let '(a, b, c, d) := x in
  znth P (o + 4 * l) = Some a /\ znth P (o + 4 * l + 1) = Some b /\ znth P (o + 4 * l + 2) = Some c /\ znth P (o + 4 * l + 3) = Some d.

(** device: the arrays are long enough for s columns *)
Definition dev_room {F} (k pm tm s i rb n : Z) (m : mem F) : Prop :=
  s * k <= zlen (m_hid m) /\ s * k <= zlen (m_hpq m) /\ s * k <= zlen (m_dknn m) /\ s * (4 * pm) <= zlen (m_P m) /\
  3 * tm * (i + 1) <= zlen (m_T m) /\ 0 <= rb /\ rb + pm <= zlen (m_dR m) /\ n <= zlen (m_st m).
(** first cell of work item i in the local memories: groups of nd items *)
Definition local_base (nd pm i : Z) : Z := i / nd * (nd * pm) + pm * (i mod nd).
(** none of the three errors *)
Definition no_error (b : Z) : Prop :=
  st_get b error_p_overflow = false /\ st_get b error_t_overflow = false /\ st_get b error_infinite_boundary = false.
