(** Model of qp/utils.py: bin lookup, evaluation-case dispatch, histogram and
    interpolation evaluators, reshaping. *)
From Coq Require Import List Arith ZArith Bool.
From Verif Require Import Num Py NdArray NumpyLib.
Import ListNotations.

Section Utils.
  Context {T : Type} {N : Num T}.
  Local Open Scope num_scope.

  (** utils.py 70-72 [edge_to_center] *)
  Definition edge_to_center (edges : list T) : list T :=
    map2 (fun hi lo => nhalf * (hi + lo)) (tl edges) (removelast edges).

  (** utils.py 75-77 [bin_widths] *)
  Definition bin_widths (edges : list T) : list T := ndiff edges.

  (** utils.py 80-95 [get_bin_indices], for one value [x] (the code is
      elementwise in x).  Returns (index, mask).  Needs at least two edges
      (otherwise [widths[0]] raises IndexError). *)
  Definition get_bin_index_raw (bins : list T) (x : T) : Z :=
    let widths := bin_widths bins in
    if np_allclose_scalar widths (nhead widths)              (* line 88 *)
    then nfloor ((x - nhead bins) / nhead widths)             (* line 89 *)
    else (Z.of_nat (searchsorted_left bins x) - 1)%Z.         (* line 91 *)
  Definition get_bin_indices (bins : list T) (x : T) : nat * bool :=
    let n_bins := pred (length bins) in
    let idx := get_bin_index_raw bins x in
    let mask := (0 <=? idx)%Z && (idx <? Z.of_nat n_bins)%Z in   (* line 92 *)
    let idx := if mask then idx else 0%Z in                        (* line 93 *)
    (Z.to_nat (Z.max 0 (Z.min idx (Z.of_nat n_bins - 1))), mask).  (* line 95 *)

  (** utils.py 164-215 [get_eval_case] *)
  Inductive eval_case := CASE_PRODUCT | CASE_FACTOR | CASE_2D | CASE_FLAT.

  Definition get_eval_case (x : nd T) (row : nd nat)
    : res (eval_case * nd T * nd nat) :=
    let nd_x := np_ndim x in
    let nd_row := np_ndim row in
    if ((2 <=? nd_x) && negb (nd_row =? 1))%nat then Ok (CASE_2D, x, row)      (* 197 *)
    else if ((2 <=? nd_x) && (nd_row =? 1))%nat then Err ValueError            (* 199 *)
    else if (2 <=? nd_row)%nat then Ok (CASE_PRODUCT, x, row)                  (* 203 *)
    else if ((np_size x =? 1) || (np_size row =? 1))%nat then Ok (CASE_FLAT, x, row)
    else
      let ux := nd1 (np_unique (dat x)) in                               (* 207 *)
      let ur := nd1 (np_unique_nat (dat row)) in                         (* 208 *)
      let xx := if (np_size ux =? np_size x)%nat then x else ux in             (* 209 *)
      let rr := if (np_size ur =? np_size row)%nat then row else ur in         (* 211 *)
      if negb (np_size xx * np_size rr =? np_size x)%nat then Ok (CASE_FLAT, x, row)
      else Ok (CASE_FACTOR, xx, expand_last rr).                         (* 215 *)

  (** Shared shape of the dispatchers: the three evaluators [flat], [product],
      [two_d] produce the raveled result (every caller applies [.ravel()]).
      utils.py 350-355, 488-493, 597-602, 712-717, 827-832. *)
  Definition dispatch (x : nd T) (row : nd nat)
      (flat product : list T -> list nat -> list T)
      (two_d : list (list T) -> list nat -> list T) : res (list T) :=
    let* (c, xx, rr) := get_eval_case x row in
    match c with
    | CASE_PRODUCT | CASE_FACTOR => Ok (product (dat xx) (dat rr))
    | CASE_2D => Ok (two_d (rows_of xx) (dat rr))
    | CASE_FLAT => Ok (flat (dat xx) (dat rr))
    end.

  (** [np.vectorize(f)(x, row)] on arrays that broadcast: equal lengths, or one
      of them of length 1. *)
  Definition vectorize2 (f : T -> nat -> T) (x : list T) (row : list nat) : list T :=
    match x, row with
    | [x0], _ => map (f x0) row
    | _, [r0] => map (fun xv => f xv r0) x
    | _, _ => map2 f x row
    end.
  (** One output row per entry of [rows]. *)
  Definition per_row (f : nat -> list T) (rows : list nat) : list T := flat_map f rows.
  (** [x] of shape (npdf, nx) against [row] of shape (npdf, 1). *)
  Definition per_row_2d (f : T -> nat -> T) (x : list (list T)) (row : list nat) : list T :=
    concat (map2 (fun xr r => map (fun xv => f xv r) xr) x row).

  Definition at2 (m : list (list T)) (r i : nat) : T := nth0 i (nth r m []).

  (** utils.py 245-248 / 316-319, [derivs is None]: value of one point. *)
  Definition hist_point (bins : list T) (vals : list (list T)) (xv : T) (rv : nat) : T :=
    let '(idx, mask) := get_bin_indices bins xv in
    if mask then at2 vals rv idx else n0.
  (** utils.py 218-251 [evaluate_hist_x_multi_y_flat] (derivs=None) *)
  Definition evaluate_hist_x_multi_y_flat bins vals (x : list T) (row : list nat) :=
    vectorize2 (hist_point bins vals) x row.
  (** utils.py 254-286 [evaluate_hist_x_multi_y_product]:
      [vals[:, idx][squeeze(row)]], so columns are gathered first, then rows. *)
  Definition evaluate_hist_x_multi_y_product bins vals (x : list T) (row : list nat) :=
    let im := map (get_bin_indices bins) x in
    let gathered := map (fun v => map (fun p => nth0 (fst p) v) im) vals in  (* vals[:, idx] *)
    per_row (fun r => map2 (fun (p : nat * bool) (g : T) => if snd p then g else n0)
                           im (nth r gathered [])) row.
  (** utils.py 289-322 [evaluate_hist_x_multi_y_2d] *)
  Definition evaluate_hist_x_multi_y_2d bins vals (x : list (list T)) (row : list nat) :=
    per_row_2d (hist_point bins vals) x row.
  (** utils.py 325-355 [evaluate_hist_x_multi_y] *)
  Definition evaluate_hist_x_multi_y (x : nd T) (row : nd nat) bins vals : res (list T) :=
    dispatch x row (evaluate_hist_x_multi_y_flat bins vals)
                   (evaluate_hist_x_multi_y_product bins vals)
                   (evaluate_hist_x_multi_y_2d bins vals).

  (** utils.py 381-387 / 416-424: per-row bins, with slopes [derivs]. *)
  Definition hist_multi_point (bins vals derivs : list (list T)) (xv : T) (rv : nat) : T :=
    let bins_row := nth rv bins [] in
    let '(idx, mask) := get_bin_indices bins_row xv in
    let delta := xv - nth0 idx bins_row in
    if mask then at2 vals rv idx + delta * at2 derivs rv idx else n0.
  (** utils.py 468-493 [evaluate_hist_multi_x_multi_y] (with derivs) *)
  Definition evaluate_hist_multi_x_multi_y (x : nd T) (row : nd nat) bins vals derivs
    : res (list T) :=
    dispatch x row (vectorize2 (hist_multi_point bins vals derivs))
      (fun xs => per_row (fun r => map (fun xv => hist_multi_point bins vals derivs xv r) xs))
      (per_row_2d (hist_multi_point bins vals derivs)).

  (** The interpolators take the 1-d interpolation routine [ip1] and the one
      used for 2-d tables [ip2] as arguments, because [kind] is "linear" or
      "quadratic" depending on the caller.  Fill values are part of [ip]. *)
  Section Interpolators.
    Variables ip1 ip2 : list T -> list T -> T -> T.

    (** utils.py 496-602 [interpolate_x_multi_y]: shared xvals, per-row yvals *)
    Definition interpolate_x_multi_y (x : nd T) (row : nd nat)
        (xvals : list T) (yvals : list (list T)) : res (list T) :=
      let pt xv rv := ip1 xvals (nth rv yvals []) xv in
      dispatch x row (vectorize2 pt)
        (fun xs rows =>                                                  (* 524-545 *)
           match rows with
           | [r] => map (ip1 xvals (nth r yvals [])) xs     (* squeeze gives a 1-d table *)
           | _ => per_row (fun r => map (ip2 xvals (nth r yvals [])) xs) rows
           end)
        (per_row_2d (fun xv rv => ip2 xvals (nth rv yvals []) xv)).     (* 548-574 *)

    (** utils.py 605-717 [interpolate_multi_x_multi_y] *)
    Definition interpolate_multi_x_multi_y (x : nd T) (row : nd nat)
        (xvals yvals : list (list T)) : res (list T) :=
      let pt xv rv := ip1 (nth rv xvals []) (nth rv yvals []) xv in
      dispatch x row (vectorize2 pt)
        (fun xs => per_row (fun r => map (fun xv => pt xv r) xs))
        (per_row_2d pt).

    (** utils.py 720-832 [interpolate_multi_x_y]: per-row xvals, shared yvals *)
    Definition interpolate_multi_x_y (x : nd T) (row : nd nat)
        (xvals : list (list T)) (yvals : list T) : res (list T) :=
      let pt xv rv := ip1 (nth rv xvals []) yvals xv in
      dispatch x row (vectorize2 pt)
        (fun xs => per_row (fun r => map (fun xv => pt xv r) xs))
        (per_row_2d pt).
  End Interpolators.

  (** utils.py 98-122 [normalize_interp1d], one row. *)
  Definition right_rect_terms (xs ys : list T) : list T :=
    map2 nsub (map2 nmul (tl xs) (tl ys)) (map2 nmul (removelast xs) (tl ys)).
  Definition normalize_interp1d_row (xs ys : list T) : list T :=
    let integral := npsum (right_rect_terms xs ys) in
    map (fun y => y / integral) ys.
End Utils.

(** utils.py 875-894 [reshape_to_pdf_size(vals, split_dim)], for the only
    split used, [split_dim = -1]: all axes but the last are PDFs. *)
Definition reshape_to_pdf_size {A} (a : nd A) : res (nd A) :=
  let npdf := prod (removelast (shp a)) in
  let per_pdf := match shp a with [] => [] | s => [last s 0] end in
  np_reshape (npdf :: per_pdf) a.

(** utils.py 897-915 [reshape_to_pdf_shape] *)
Definition reshape_to_pdf_shape {A} (a : nd A) (pdf_shape per_pdf : list nat) : res (nd A) :=
  np_reshape (pdf_shape ++ per_pdf) a.
