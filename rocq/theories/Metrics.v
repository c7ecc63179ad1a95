(** Model of qp/metrics/metrics.py, array_metrics.py, brier.py and of the accumulating classes
    of concrete_metric_classes.py.  The functions return values only; their effect on an
    ensemble is that of [gridded] (Ensemble.v). *)
From Coq Require Import List Arith ZArith Bool.
From Verif Require Import Num Py NdArray NumpyLib ScipyWrap Values Ensemble QuantPdf.
Import ListNotations.

Section Metrics.
  Context {T : Type} {N : Num T}.
  Local Open Scope num_scope.
  (** [np.log] and [np.sqrt] *)
  Variables nlog nsqrt : T -> T.
  (** [cls.create] of the classes, by name (Ensemble.v) *)
  Variable class_create : String.string -> option (vdict T -> res (gobj T)).

  (** metrics.py 14-16 [Grid]; the limits are kept by the caller *)
  Record mgrid := mkmgrid { mg_values : list T; mg_card : nat; mg_res : T; mg_edges : list T }.
  (** metrics.py 19-47, the limits being a pair of Python floats: dividing by 0 and a grid of
      one point raise ZeroDivisionError; a negative number of points (np.linspace) and no
      point (np.histogram_bin_edges) raise ValueError.  [np.histogram_bin_edges(a, n)] is
      [np.linspace(min a, max a, n + 1)] when min a < max a, as is always the case here. *)
  Definition grid_parameters (lo hi dx : T) : res mgrid :=
    if dx =? n0 then Err ZeroDivisionError
    else
      let c := int_trunc ((hi - lo) / dx) in
      if (c <? 0)%Z then Err ValueError
      else if (c =? 1)%Z then Err ZeroDivisionError
      else if (c =? 0)%Z then Err ValueError
      else
        let card := Z.to_nat c in
        let r := (hi - lo) / nofZ (c - 1) in
        let a := lo - r * nhalf in
        let b := hi + r * nhalf in
        Ok (mkmgrid (np_linspace lo hi card) card r (np_linspace (nmin a b) (nmax a b) (S card))).

  (** [p.gridded(grid)[1]] as numbers *)
  Definition on_grid (p : ens T) (grid : list T) : res (list (list T)) :=
    match fst (gridded p grid) with Ok (_, v) => Ok (map (map xval) v) | Err x => Err x end.

  (** metrics.py 50-80 *)
  Definition calculate_moment (p : ens T) (n : nat) (lo hi dx : T) : res (list T) :=
    let* g := grid_parameters lo hi dx in
    let* pe := on_grid p (mg_values g) in
    Ok (map (fun line => quick_moment line (map (fun x => npow x n) (mg_values g)) (mg_res g)) pe).

  (** utils.py 19-35 [safelog] *)
  Definition safelog (x : T) : T := nlog (nmax float_eps x).
  (** array_metrics.py 30-54 [quick_kld], one line *)
  Definition quick_kld (p q : list T) (dx : T) : T :=
    dx * nsum (map2 (fun a b => a * (safelog a - safelog b)) p q).
  (** array_metrics.py 81-103 [quick_rmse], one line *)
  Definition quick_rmse (p q : list T) (n : nat) : T :=
    nsqrt (nsum (map2 (fun a b => (a - b) * (a - b)) p q) / nofZ (Z.of_nat n)).

  (** [p.shape != q.shape] *)
  Fixpoint shape_eqb (s t : list nat) : bool :=
    match s, t with
    | [], [] => true
    | a :: s', b :: t' => (a =? b)%nat && shape_eqb s' t'
    | _, _ => false
    end.
  (** metrics.py 83-129 *)
  Definition calculate_kld (p q : ens T) (lo hi dx : T) : res (list T) :=
    if negb (shape_eqb (g_shape (e_obj p)) (g_shape (e_obj q))) then Err ValueError
    else
      let* g := grid_parameters lo hi dx in
      let* pn := on_grid p (mg_values g) in
      let* qn := on_grid q (mg_values g) in
      let D := map2 (fun a b => quick_kld a b (mg_res g)) pn qn in
      if existsb (fun d => d <? n0) D then Ok (map (fun _ => float_eps) D) else Ok D.
  (** metrics.py 132-175 *)
  Definition calculate_rmse (p q : ens T) (lo hi dx : T) : res (list T) :=
    if negb (shape_eqb (g_shape (e_obj p)) (g_shape (e_obj q))) then Err ValueError
    else
      let* g := grid_parameters lo hi dx in
      let* pe := on_grid p (mg_values g) in
      let* qe := on_grid q (mg_values g) in
      Ok (map2 (fun a b => quick_rmse a b (mg_card g)) pe qe).

  (** ** Brier score *)
  (** brier.py 44-94: [np.sum(.., axis)] of the squared differences; the arrays are numeric.
      The axis is 0 for 1-d arrays and 1 otherwise (a 0-d array has no axis 1: an AxisError,
      which is a ValueError). *)
  Definition sq_diff (p t : nd T) : list T := map2 (fun a b => (a - b) * (a - b)) (dat p) (dat t).
  Definition brier_valid (p t : nd T) : res unit :=
    if negb (shape_eqb (shp p) (shp t)) then Err ValueError
    else match shp p with [] => Err ValueError | _ => Ok tt end.
  (** the number of entries left after summing along the axis *)
  Definition brier_count (p : nd T) : nat :=
    match shp p with a :: _ :: rest => (a * prod rest)%nat | _ => 1%nat end.
  (** brier.py 26-37, 96-102: the mean of no number is NaN *)
  Definition brier_evaluate (p t : nd T) : res (xnum T) :=
    let* _ := brier_valid p t in
    Ok (if (brier_count p =? 0)%nat then NaN else Fin (nsum (sq_diff p t) / nofZ (Z.of_nat (brier_count p)))).
  (** brier.py 39-42, 104-107 *)
  Definition brier_accumulate (p t : nd T) : res T :=
    let* _ := brier_valid p t in
    Ok (nsum (sq_diff p t)).

  (** [np.squeeze([np.histogram(t, edges)[0] for t in truth])] *)
  Definition truth_array (edges truth : list T) : nd T :=
    match truth with
    | [] => nd1 []
    | _ => np_squeeze (nd2 (pred (length edges)) (map (fun t => map (fun c => nofZ (Z.of_nat c)) (np_histogram [t] edges)) truth))
    end.
  (** metrics.py 220-248 *)
  Definition prepare_for_brier (p : ens T) (truth : list T) (lo hi dx : T) : res (nd T * nd T) :=
    if negb (e_npdf p =? length truth)%nat then Err ValueError
    else if existsb (fun t => t <? lo) truth || existsb (fun t => hi <? t) truth then Err ValueError
    else
      let* g := grid_parameters lo hi dx in
      let* v := on_grid p (mg_values g) in
      Ok (mknd (g_shape (e_obj p) ++ [mg_card g]) (concat v), truth_array (mg_edges g) truth).
  (** metrics.py 250-279, 281-286 *)
  Definition calculate_brier (p : ens T) (truth : list T) (lo hi dx : T) : res (xnum T) :=
    let* ab := prepare_for_brier p truth lo hi dx in brier_evaluate (fst ab) (snd ab).
  Definition calculate_brier_for_accumulation (p : ens T) (truth : list T) (lo hi dx : T) : res (T * nat) :=
    let* ab := prepare_for_brier p truth lo hi dx in
    let* s := brier_accumulate (fst ab) (snd ab) in
    Ok (s, e_npdf p).
  (** [a / b] of numpy floats *)
  Definition xdiv (a b : T) : xnum T :=
    if b =? n0 then (if a =? n0 then NaN else if n0 <? a then PInf else NInf) else Fin (a / b).
  (** concrete_metric_classes.py 146-152: [np.atleast_2d([])] has no column 0 *)
  Definition brier_finalize (ts : list (T * nat)) : res (xnum T) :=
    match ts with
    | [] => Err IndexError
    | _ => Ok (xdiv (nsum (map fst ts)) (nofZ (Z.of_nat (list_sum (map snd ts)))))
    end.

  (** ** Conditional density loss *)
  (** [np.trapz(y, x)], one line *)
  Fixpoint np_trapz (y x : list T) : T :=
    match y, x with
    | y0 :: ((y1 :: _) as yt), x0 :: ((x1 :: _) as xt) => (x1 - x0) * (y0 + y1) * nhalf + np_trapz yt xt
    | _, _ => n0
    end.
  Definition nearest (xvals : list T) (z : T) : nat := np_argmin (map (fun x => nabs (x - z)) xvals).
  (** concrete_metric_classes.py 319-327, 332-337: the two terms of every PDF, for 1-d sets of PDFs.
      [np.argmin] of nothing is a ValueError; [pdfs[range(npdf), nns]] broadcasts its two index lists: one reference
      goes with every PDF, one PDF with every reference, other unequal lengths are an IndexError. *)
  Definition cde_terms (xvals : list T) (e : ens T) (ref : list T) : res (list T * list T) :=
    let* v := ens_pdf e (PGrid xvals) in
    let pdfs := map (map xval) v in
    if (length xvals =? 0)%nat && negb (length ref =? 0)%nat then Err ValueError
    else
      let nns := map (nearest xvals) ref in
      let term1 := map (fun line => np_trapz (map (fun y => y * y) line) xvals) pdfs in
      if (length nns =? e_npdf e)%nat
      then Ok (term1, map2 (fun line j => nth0 j line) pdfs nns)
      else match nns with
           | [j] => Ok (term1, map (fun line => nth0 j line) pdfs)
           | _ => if (e_npdf e =? 1)%nat then Ok (term1, map (fun j => nth0 j (hd [] pdfs)) nns) else Err IndexError
           end.
  (** [np.mean], NaN for no number *)
  Definition xmean (l : list T) : xnum T := match l with [] => NaN | _ => Fin (np_mean l) end.
  Definition cde_value (a b : xnum T) : xnum T :=
    match a, b with Fin x, Fin y => Fin (x - nofZ 2 * y) | _, _ => NaN end.
  (** 314-329 [evaluate] *)
  Definition cde_evaluate (xvals : list T) (e : ens T) (ref : list T) : res (xnum T) :=
    let* t := cde_terms xvals e ref in
    Ok (cde_value (xmean (fst t)) (xmean (snd t))).
  (** 331-339 [accumulate] *)
  Definition cde_accumulate (xvals : list T) (e : ens T) (ref : list T) : res (T * T * nat) :=
    let* t := cde_terms xvals e ref in
    Ok (nsum (fst t), nsum (snd t), e_npdf e).
  (** 341-345 [finalize]; every quotient by 0 makes the result NaN or infinite; SIMPLIFICATION: NaN *)
  Definition cde_finalize (ts : list (T * T * nat)) : res (xnum T) :=
    match ts with
    | [] => Err IndexError
    | _ =>
        let n := nofZ (Z.of_nat (list_sum (map snd ts))) in
        Ok (cde_value (xdiv (nsum (map (fun t => fst (fst t)) ts)) n) (xdiv (nsum (map (fun t => snd (fst t)) ts)) n))
    end.

  (** ** Outlier rate *)
  (** metrics.py 354-379; [[0][0]] of an empty table is an IndexError; iterating follows
      [iterate_from], None when the iteration has not ended *)
  Definition outlier_of (lo hi : T) (d : ens T) : res (xnum T) :=
    let* a := ens_cdf d (PScalar lo) in
    let* b := ens_cdf d (PScalar hi) in
    match a, b with
    | (x :: _) :: _, (y :: _) :: _ =>
        Ok (match x, y with Fin u, Fin w => Fin (u + (n1 - w)) | _, _ => NaN end)
    | _, _ => Err IndexError
    end.
  Definition calculate_outlier_rate (p : ens T) (lo hi : T) (fuel : nat) : option (res (list (xnum T))) :=
    match iterate_from class_create p 0 fuel with
    | Some (Ok ds) => Some (mapM (outlier_of lo hi) ds)
    | Some (Err x) => Some (Err x)
    | None => None
    end.
End Metrics.
