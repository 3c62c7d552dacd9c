(** Model of src/dnn.ipp (class votess::dnn and its proxy, Ti = int) and of
    tmpnn_fill / tmpnn_getdnn, src/votess.ipp:99-166. *)
From Verif Require Import Base MUtils.
From Coq Require Import String Ascii.
Local Open Scope res_scope.

(** ** Decimal output of an int: [os << v] with default flags. *)
Definition digit_char (d : Z) : ascii := ascii_of_nat (Z.to_nat (48 + d)).

Fixpoint show_digits (fuel : nat) (n : Z) (acc : string) : string :=
  match fuel with
  | O => acc
  | S fuel =>
      let acc := String (digit_char (n mod 10)) acc in
      if n / 10 =? 0 then acc else show_digits fuel (n / 10) acc
  end.

(** 2^64 bits need at most 20 decimal digits; [Z.to_nat (log2 n) + 1] rounds
    are enough for every n. *)
Definition show_nat (n : Z) : string :=
  show_digits (S (Z.to_nat (Z.log2 n))) n EmptyString.
Definition show_int (z : Z) : string :=
  if z <? 0 then String "-" (show_nat (- z)) else show_nat z.

(** src/dnn.ipp:25-26 *)
Record dnn := mkDnn { d_list : list Z; d_offs : list Z }.

(** src/dnn.ipp:47-50: the default constructor *)
Definition dnn_default : dnn := mkDnn [] [].

(** src/dnn.ipp:77-80 size(): size_t, so an empty offs wraps *)
Definition dnn_size (d : dnn) : Z := w64 (zlen (d_offs d) - 1).

(** src/dnn.ipp:159-163 proxy::size() of row i.  operator[] takes an int and
    the proxy stores size_t; both are the same for 0 <= i. *)
Definition row_size (d : dnn) (i : Z) : res Z :=
  if i =? w64 (zlen (d_offs d) - 1) then
    o <-r rget (d_offs d) i ;; Ok (w64 (zlen (d_list d) - o))
  else
    o1 <-r rget (d_offs d) (i + 1) ;;
    o0 <-r rget (d_offs d) i ;;
    Ok (w64 (o1 - o0)).

(** src/dnn.ipp:154-157 proxy::operator[] *)
Definition row_get (d : dnn) (i j : Z) : res Z :=
  o <-r rget (d_offs d) i ;; rget (d_list d) (o + j).

(** The common loop of print (src/dnn.ipp:90-103) and savetxt (116-127): [sep]
    is written at a row change, [fin] after each element. *)
Fixpoint out_loop (sep fin : string) (offs : list Z) (l : list Z)
  (index counter : Z) (acc : string) : res string :=
  match l with
  | [] => Ok acc
  | x :: l =>
      o <-r rget offs counter ;;
      let hit := index =? o in
      let counter' := if hit && (counter <? zlen offs - 1) then counter + 1 else counter in
      let acc := if hit then append acc sep else acc in
      let acc := append acc (append (show_int x) fin) in
      out_loop sep fin offs l (index + 1) counter' acc
  end.

Definition nl : string := String (ascii_of_nat 10) EmptyString.

(** src/dnn.ipp:82-106: the text written to stdout *)
Definition dnn_print (d : dnn) : res string :=
  match d_list d with
  | [] => Ok (append "{}" nl)
  | _ =>
      s <-r out_loop (append "}" (append nl "  {")) ", " (d_offs d) (d_list d) 0 1
             (append "{" (append nl "  {")) ;;
      Ok (append s (append "}" (append nl (append "}" nl))))
  end.

(** src/dnn.ipp:108-130: the contents of the file (opening it is assumed to
    succeed) *)
Definition dnn_savetxt (d : dnn) : res string :=
  s <-r out_loop nl " " (d_offs d) (d_list d) 0 1 EmptyString ;;
  Ok (append s nl).

(** ** src/votess.ipp:99-134 tmpnn_fill *)

(** 114-120: number of leading entries before the undefined marker *)
Fixpoint count_row (fuel : nat) (knn : list Z) (base j k : Z) : res Z :=
  match fuel with
  | O => Ok j
  | S fuel =>
      if j <? k then
        x <-r rget knn (base + j) ;;
        if x =? k_undefined then Ok j else count_row fuel knn base (j + 1) k
      else Ok j
  end.

(** 122-130: the row copied to tmpnn[index] (the test at 126 never fires) *)
Definition copy_row (knn : list Z) (base n : Z) : res (list Z) :=
  rfold (zrange 0 n) (fun row j => x <-r rget knn (base + j) ;; Ok (row ++ [x])) [].

Definition tmpnn_fill (k : Z) (indices : list Z) (size : Z) (knn : list Z)
  (tmpnn : list (list Z)) : res (list (list Z)) :=
  rfold (zrange 0 size) (fun tmpnn i =>
    index <-r rget indices i ;;
    n <-r count_row (Z.to_nat k) knn (k * i) 0 k ;;
    row <-r copy_row knn (k * i) n ;;
    rset tmpnn index row) tmpnn.

(** src/votess.ipp:136-166 tmpnn_getdnn; offsets are int, so sums are checked *)
Fixpoint take_defined (row : list Z) : list Z :=
  match row with
  | [] => []
  | x :: row => if x =? k_undefined then [] else x :: take_defined row
  end.

Definition getdnn (tmpnn : list (list Z)) : res dnn :=
  let n := zlen tmpnn in
  r <-r rfold (zrange 0 n) (fun '(lst, offs) i =>
         row <-r rget tmpnn i ;;
         rfold (take_defined row) (fun '(lst, offs) x =>
           o <-r rget offs (i + 1) ;;
           o' <-r chk (o + 1) ;;
           offs <-r rset offs (i + 1) o' ;;
           Ok (lst ++ [x], offs)) (lst, offs))
         ([], repeat 0 (S (List.length tmpnn))) ;;
  let '(lst, offs) := r in
  offs <-r rfold (zrange 1 (n + 1)) (fun offs i =>
         a <-r rget offs i ;; b <-r rget offs (i - 1) ;;
         c <-r chk (a + b) ;; rset offs i c) offs ;;
  Ok (mkDnn lst offs).
