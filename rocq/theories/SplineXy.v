(** Model of the spline constructors of qp/spline_pdf.py that start from points (x, y). *)
From Coq Require Import String List Arith ZArith Bool.
From Verif Require Import Num Py NdArray NumpyLib Utils ScipyWrap Values Ensemble SplinePdf Classes.
Import ListNotations.
Local Open Scope string_scope.
Local Open Scope list_scope.

Section SplineXy.
  Context {T : Type} {N : Num T}.
  (** scipy.interpolate.splrep: knots, coefficients and order of the spline through the points; scipy.integrate.quad *)
  Variable splrep : list T -> list T -> res (list T * list T * nat).
  Variable quad : (T -> T) -> T -> T -> T.
  Local Open Scope num_scope.

  (** spline_pdf.py 18-50 [normalize_spline], one row: [splrep] is asked again for every point of the integration, with the same answer *)
  Definition normalize_spline_row (lo hi : T) (x y : list T) : res (list T) :=
    let* tck := splrep x y in
    let '(t, c, k) := tck in
    let integral := quad (splev t c k) lo hi in                              (* 43, 45 *)
    Ok (map (fun v => v / integral) y).                                      (* 50 *)
  Definition normalize_spline (lo hi : T) (xs ys : list (list T)) : res (list (list T)) :=
    mapM (fun xy => normalize_spline_row lo hi (fst xy) (snd xy)) (combine xs ys).
  (** 53-81 [build_splines]; [np.vstack] wants rows of one length *)
  Definition build_splines (xs ys : list (list T)) : res (nd T * nd T * nd T) :=
    let* reps := mapM (fun xy => splrep (fst xy) (snd xy)) (combine xs ys) in
    let ts := map (fun tck => fst (fst tck)) reps in
    let cs := map (fun tck => snd (fst tck)) reps in
    let n := length (hd [] ts) in
    if forallb (fun l => (length l =? n)%nat) (ts ++ cs)
    then Ok (nd2 n ts, nd2 n cs, nd2 1 (map (fun tck => [nofZ (Z.of_nat (snd tck))]) reps))
    else Err ValueError.
  (** 157-185 [build_normed_splines].  SIMPLIFICATION: the arrays must have two axes. *)
  Definition build_normed_splines (xv yv : nd T) : res (nd T * nd T * nd T) :=
    if negb (if list_eq_dec Nat.eq_dec (shp xv) (shp yv) then true else false) then Err ValueError       (* 177-181 *)
    else if (length (dat xv) =? 0)%nat then Err ValueError                   (* 182 np.min of nothing *)
    else
      match shp xv with
      | [_; _] =>
          let lo := nminimum (nhead (dat xv)) (tl (dat xv)) in               (* 182: over all rows *)
          let hi := nmaximum (nhead (dat xv)) (tl (dat xv)) in               (* 183 *)
          let* yn := normalize_spline lo hi (rows_of xv) (rows_of yv) in     (* 184 *)
          build_splines (rows_of xv) yn                                      (* 185 *)
      | _ => Err NotModelled
      end.
  (** 188-206 [create_from_xy_vals] as the creation function of an ensemble (350 [spline_from_xy]); other keywords would go to [quad] *)
  Definition spline_from_xy (d : vdict T) : res (gobj T) :=
    if negb (known ["xvals"; "yvals"] d) then Err TypeError else
    let* a := arg d "xvals" in let* b := arg d "yvals" in
    let* xv := as_numbers a in let* yv := as_numbers b in
    let* r := build_normed_splines xv yv in
    let '(x, y, n) := r in
    spline_create [("splx", VArr x); ("sply", VArr y); ("spln", VArr n)].
  (** scipy.stats.gaussian_kde: the density estimated from samples *)
  Variable kde : list T -> res (T -> T).
  (** 209-229 [create_from_samples] (351 [spline_from_samples]); utils.py 125-142 [build_kdes], 145-161 [evaluate_kdes].
      A keyword [yvals] is dropped (226).  SIMPLIFICATION: [xvals] has one axis, [samples] two. *)
  Definition build_kdes (samples : list (list T)) : res (list (T -> T)) := mapM kde samples.
  Definition evaluate_kdes (x : list T) (kdes : list (T -> T)) : res (nd T) :=
    match kdes with
    | [] => Err ValueError                                                   (* np.vstack of nothing *)
    | _ => Ok (nd2 (length x) (map (fun f => map f x) kdes))
    end.
  Definition spline_from_samples (d : vdict T) : res (gobj T) :=
    if negb (known ["xvals"; "samples"; "yvals"] d) then Err TypeError else
    let* a := arg d "xvals" in let* b := arg d "samples" in
    let* x := as_grid a in let* sm := as_numbers b in
    match shp sm with
    | [_; _] =>
        let* kdes := build_kdes (rows_of sm) in
        let* yv := evaluate_kdes x kdes in
        let xv := nd2 (length x) (map (fun _ => x) (rows_of sm)) in          (* 228 *)
        spline_from_xy [("xvals", VArr xv); ("yvals", VArr yv)]
    | _ => Err NotModelled
    end.
End SplineXy.
