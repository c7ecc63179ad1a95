(** Multi-dimensional ensembles: reshaping (utils.py 875-915), the row index of
    rv_frozen_rows (pdf_gen.py 227-236) and the evaluation of an ensemble whose PDFs
    are arranged in an array of any shape. *)
From Coq Require Import List Arith ZArith Bool.
From Verif Require Import Num Py NdArray NumpyLib Utils ScipyWrap.
Import ListNotations.

(** Where Python cuts a sequence of length [n] for the slices [:k] and [k:]. *)
Definition py_cut (n : nat) (k : Z) : nat :=
  (if (k <? 0)%Z then Z.to_nat (Z.of_nat n + k) else Nat.min (Z.to_nat k) n)%nat.
(** utils.py 875-894 [reshape_to_pdf_size(vals, split_dim)] for any split *)
Definition reshape_to_pdf_size_at {A} (a : nd A) (split_dim : Z) : res (nd A) :=
  let in_shape := shp a in                                                       (* 890 *)
  let c := py_cut (length in_shape) split_dim in
  let npdf := prod (firstn c in_shape) in                                        (* 891 *)
  let per_pdf := skipn c in_shape in                                             (* 892 *)
  np_reshape (npdf :: per_pdf) a.                                                (* 893-894 *)

(** numpy broadcasting: the common shape of two shapes, aligned at the last axis *)
Fixpoint bc_rev (s t : list nat) : res (list nat) :=
  match s, t with
  | [], t => Ok t
  | s, [] => Ok s
  | a :: s, b :: t =>
      let* r := bc_rev s t in
      if Nat.eqb a b then Ok (a :: r) else if Nat.eqb a 1 then Ok (b :: r) else if Nat.eqb b 1 then Ok (a :: r) else Err ValueError
  end.
Definition np_broadcast_shape (s t : list nat) : res (list nat) := let* r := bc_rev (rev s) (rev t) in Ok (rev r).
(** [np.broadcast_to(a, t)]: [s] is the shape of [a] padded with ones on the left *)
Fixpoint bc_data {A} (s t : list nat) (l : list A) : list A :=
  match s, t with
  | n :: s', m :: t' =>
      if Nat.eqb n m then concat (map (bc_data s' t') (chunks n (prod s') l))
      else concat (repeat (bc_data s' t' l) m)
  | _, _ => l
  end.
Definition np_broadcast_to {A} (t : list nat) (a : nd A) : list A :=
  bc_data (repeat 1 (length t - length (shp a)) ++ shp a) t (dat a).

(** pdf_gen.py 229-235: [row = np.expand_dims(np.arange(npdf).reshape(shape), -1)] *)
Definition frozen_rows (shape : list nat) : nd nat := mknd (shape ++ [1]) (seq 0 (prod shape)).

Section Shaped.
  Context {T : Type} {N : Num T}.
  (** [rv_eval] (ScipyWrap.v) for PDFs arranged in [shape] and points of any shape: scipy broadcasts the points and [row], calls the
      method on the raveled arrays and puts the values in an array of the common shape. *)
  Definition rv_eval_shaped (shape : list nat) (cond : T -> bool) (other : T -> xnum T)
      (method : nd T -> nd nat -> res (list T)) (x : nd T) : res (nd (xnum T)) :=
    let row := frozen_rows shape in
    let* s := np_broadcast_shape (shp x) (shp row) in
    let xf := np_broadcast_to s x in
    let rf := np_broadcast_to s row in
    let* vals :=
      if forallb cond xf then (if Nat.eqb (length xf) 0 then Ok [] else method (nd1 xf) (nd1 rf))
      else if existsb cond xf then
        let xe := filter cond xf in
        let re := map snd (filter (fun p => cond (fst p)) (combine xf rf)) in
        method (nd1 xe) (if Nat.eqb (prod shape) 1 then row else nd1 re)
      else Ok [] in
    Ok (mknd s (place cond other xf vals)).
End Shaped.
