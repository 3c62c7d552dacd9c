(** Objects of class votess::dnn used directly: the constructors, and positions of any
    sign.  src/dnn.ipp and the bindings in src/pybind11. *)
From Verif Require Import Base MUtils MDnn.
Local Open Scope res_scope.

(** src/dnn.ipp:52-62 and the binding init<std::vector<int>&, std::vector<int>&>: both
    vectors are taken as they are *)
Definition dnn_make (lst offs : list Z) : dnn := mkDnn lst offs.

(** src/dnn.ipp:64-75, 149-152: operator[] takes an int, the proxy keeps a size_t *)
Definition at_row (i : Z) : Z := w64 i.
(** src/dnn.ipp:154-157: the position is a size_t (the binding passes an int); the sum with
    the int offset is a size_t.  Simplification: a position beyond the vector is undefined
    behaviour, as in the standard, whatever is found there. *)
Definition idx_at (d : dnn) (i j : Z) : res Z := o <-r rget (d_offs d) (at_row i) ;; Ok (w64 (o + w64 j)).
Definition idx_get (d : dnn) (i j : Z) : res Z := a <-r idx_at d i j ;; rget (d_list d) a.
(** d[i][j] = v, by the reference that 154-157 return *)
Definition idx_set (d : dnn) (i j v : Z) : res dnn := a <-r idx_at d i j ;; l <-r rset (d_list d) a v ;; Ok (mkDnn l (d_offs d)).
(** src/dnn.ipp:159-163 *)
Definition idx_size (d : dnn) (i : Z) : res Z := row_size d (at_row i).
