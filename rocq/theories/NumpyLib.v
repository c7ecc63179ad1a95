(** numpy / scipy array routines used by qp, on 1-d arrays (lists).
    TRUSTED: these definitions state the documented behaviour of the library
    calls; the qp call sites are cited. *)
From Coq Require Import List Arith ZArith Bool.
From Verif Require Import Num.
Import ListNotations.

(** Sorting and removal of repetitions, for any total order test. *)
Section SortBy.
  Context {A : Type} (leb : A -> A -> bool).
  Fixpoint insert_by (x : A) (l : list A) : list A :=
    match l with
    | [] => [x]
    | y :: t => if leb x y then x :: y :: t else y :: insert_by x t
    end.
  Definition sort_by (l : list A) : list A := fold_right insert_by [] l.
  (** Keep one element of each run of equal neighbours. *)
  Fixpoint dedup_by (l : list A) : list A :=
    match l with
    | x :: t => match t with
                | y :: _ => if leb x y && leb y x then dedup_by t else x :: dedup_by t
                | [] => [x]
                end
    | [] => []
    end.
  Definition unique_by (l : list A) : list A := dedup_by (sort_by l).
End SortBy.

Section NumpyLib.
  Context {T : Type} {N : Num T}.
  Local Open Scope num_scope.

  (** [np.searchsorted(xs, x, side="left")] on a sorted array: number of
      elements < x.  (Call site: utils.py 91.) *)
  Fixpoint searchsorted_left (xs : list T) (x : T) : nat :=
    match xs with
    | [] => 0
    | y :: t => if y <? x then S (searchsorted_left t x) else 0
    end.

  (** [side="right"]: number of elements <= x. *)
  Fixpoint searchsorted_right (xs : list T) (x : T) : nat :=
    match xs with
    | [] => 0
    | y :: t => if y <=? x then S (searchsorted_right t x) else 0
    end.

  (** [scipy.interpolate.interp1d(xs, ys, kind="linear", bounds_error=False,
      fill_value=(lo, hi))(x)] for 1-d [ys]: scipy delegates to [np.interp]
      and then overwrites the points outside [xs[0], xs[-1]] by the fill values.
      [np.interp] looks for the last j with xs[j] <= x.
      (Call sites: utils.py 518, 571, 627, 657, 686, 742, 772, 801.) *)
  Definition interp1d (xs ys : list T) (lo hi : T) (x : T) : T :=
    if x <? nhead xs then lo
    else if nlast xs <? x then hi
    else
      let j := pred (searchsorted_right xs x) in
      if Nat.eqb j (pred (length xs)) then nth0 j ys
      else
        let x0 := nth0 j xs in let x1 := nth0 (S j) xs in
        let y0 := nth0 j ys in let y1 := nth0 (S j) ys in
        if x0 =? x then y0
        else ((y1 - y0) / (x1 - x0)) * (x - x0) + y0.

  (** The same call for 2-d [ys] (utils.py 545): scipy's own [_call_linear],
      which uses the left search clipped to [1, n-1]. *)
  Definition interp1d_nd (xs ys : list T) (lo hi : T) (x : T) : T :=
    if x <? nhead xs then lo
    else if nlast xs <? x then hi
    else
      let h := Nat.min (Nat.max (searchsorted_left xs x) 1) (pred (length xs)) in
      let l := pred h in
      let x0 := nth0 l xs in let x1 := nth0 h xs in
      let y0 := nth0 l ys in let y1 := nth0 h ys in
      ((y1 - y0) / (x1 - x0)) * (x - x0) + y0.

  (** [np.sort] and [np.unique] of a float array. *)
  Definition np_sort (l : list T) : list T := sort_by nleb l.
  Definition np_unique (l : list T) : list T := unique_by nleb l.

  (** [np.isclose(a, b)] / [np.allclose(l, b)] with the default tolerances
      rtol = 1e-5, atol = 1e-8: |a - b| <= atol + rtol * |b|. *)
  Definition np_isclose (a b : T) : bool :=
    nabs (a - b) <=? nfrac 1 100000000 + nfrac 1 100000 * nabs b.
  Definition np_allclose_scalar (l : list T) (b : T) : bool :=
    forallb (fun a => np_isclose a b) l.

  (** [np.linspace(a, b, n)] *)
  Definition np_linspace (a b : T) (n : nat) : list T :=
    match n with
    | 0 => []
    | 1 => [a]
    | S (S m) =>
        map (fun i => a + nofZ (Z.of_nat i) * ((b - a) / nofZ (Z.of_nat (S m)))) (seq 0 n)
    end.

  (** [np.argmax] (first maximum). *)
  Fixpoint argmax_from (best : T) (bi i : nat) (l : list T) : nat :=
    match l with
    | [] => bi
    | x :: t => if best <? x then argmax_from x i (S i) t else argmax_from best bi (S i) t
    end.
  Definition np_argmax (l : list T) : nat :=
    match l with [] => 0 | x :: t => argmax_from x 0 1 t end.
  (** [np.argmin] (first minimum). *)
  Fixpoint argmin_from (best : T) (bi i : nat) (l : list T) : nat :=
    match l with
    | [] => bi
    | x :: t => if x <? best then argmin_from x i (S i) t else argmin_from best bi (S i) t
    end.
  Definition np_argmin (l : list T) : nat :=
    match l with [] => 0 | x :: t => argmin_from x 0 1 t end.

  (** [np.histogram(l, bins=edges)[0]]: half-open bins, the last one closed. *)
  Definition in_bin (edges : list T) (i : nat) (x : T) : bool :=
    (nth0 i edges <=? x) &&
    ((x <? nth0 (S i) edges) ||
     (Nat.eqb (S (S i)) (length edges) && (x =? nth0 (S i) edges))).
  Definition np_histogram (l edges : list T) : list nat :=
    map (fun i => length (filter (in_bin edges i) l)) (seq 0 (pred (length edges))).

  (** [np.mean] of a non-empty array. *)
  Definition np_mean (l : list T) : T := nsum l / nofZ (Z.of_nat (length l)).
End NumpyLib.

(** [np.unique] of an integer array. *)
Definition np_unique_nat (l : list nat) : list nat := unique_by Nat.leb l.
