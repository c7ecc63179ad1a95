(** Model of qp/metrics/goodness_of_fit.py and of calculate_goodness_of_fit (metrics.py). *)
From Coq Require Import String List Arith ZArith Bool.
From Verif Require Import Num Py NdArray NumpyLib ScipyWrap Values Ensemble QuantPdf.
Import ListNotations.

Section Fit.
  Context {T : Type} {N : Num T}.
  Local Open Scope num_scope.
  (** [np.log] *)
  Variable nlog : T -> T.

  (** [a.max(axis=-1)] of one line; ValueError for an empty one *)
  Definition line_max (l : list T) : res T :=
    match l with [] => Err ValueError | x :: r => Ok (fold_left nmax r x) end.
  Definition of_nat (n : nat) : T := nofZ (Z.of_nat n).

  (** goodness_of_fit.py 33-35, one line *)
  Definition compute_dplus (c : list T) : res T :=
    line_max (map2 (fun i f => of_nat (S i) / of_nat (length c) - f) (seq 0 (length c)) c).
  (** goodness_of_fit.py 38-40, one line *)
  Definition compute_dminus (c : list T) : res T :=
    line_max (map2 (fun i f => f - of_nat i / of_nat (length c)) (seq 0 (length c)) c).
  (** goodness_of_fit.py 25-30, one line of [cdfvals] *)
  Definition ks_line (c : list T) : res (xnum T) :=
    let* dp := compute_dplus c in
    let* dm := compute_dminus c in
    Ok (Fin (nmax dp dm)).
  (** goodness_of_fit.py 43-49, one line of [cdfvals]; [n] is a Python int *)
  Definition cvm_line (c : list T) : res (xnum T) :=
    let n := length c in
    if (n =? 0)%nat then Err ZeroDivisionError
    else
      let u i := (of_nat 2 * of_nat (S i) - n1) / (of_nat 2 * of_nat n) in
      Ok (Fin (n1 / (of_nat 12 * of_nat n) + nsum (map2 (fun i f => (u i - f) * (u i - f)) (seq 0 n) c))).
  (** goodness_of_fit.py 16-22, one line of cdf values; scipy's logcdf and logsf are the logarithms of the cdf and of
      1 - cdf, with log 0 = -inf and nan below *)
  Definition ad_line (c : list T) : res (xnum T) :=
    let n := length c in
    if existsb (fun f => (f <? n0) || (n1 <? f)) c then Ok NaN
    else if existsb (fun f => (f =? n0) || (f =? n1)) c then Ok PInf
    else
      let term i := (of_nat 2 * of_nat (S i) - n1) / of_nat n * (nlog (nth0 i c) + nlog (n1 - nth0 (n - 1 - i) c)) in
      Ok (Fin (nopp (of_nat n) - nsum (map term (seq 0 n)))).

  (** goodness_of_fit.py 56-60 *)
  Definition fit_metrics (name : string) : option (list T -> res (xnum T)) :=
    if String.eqb name "ad" then Some ad_line
    else if String.eqb name "cvm" then Some cvm_line
    else if String.eqb name "ks" then Some ks_line
    else None.

  (** [np.sort(np.squeeze(samples), axis=-1)] for samples of shape (npdf, size), [size] >= 1: axes of length 1 vanish,
      and sorting a number raises numpy's AxisError, which is a ValueError. *)
  Definition sorted_squeezed (S : list (list T)) : res (points T) :=
    match S with
    | [row] => match row with [_] => Err ValueError | _ => Ok (PGrid (np_sort row)) end
    | _ => if forallb (fun row => (length row =? 1)%nat) S then Ok (PGrid (np_sort (concat S))) else Ok (PMat (map np_sort S))
    end.

  (** metrics.py 382-462.  [samples] is what [estimate.rvs(size=num_samples)] returns: one line of [num_samples] >= 1
      values per PDF of the estimate.  The size checks only log warnings.
      SIMPLIFICATION: [sort] is applied here once (every metric starts with it); sorting [data[..., ::-1]] of the AD
      statistic is the reversed line. *)
  Definition calculate_goodness_of_fit (samples : list (list T)) (reference : ens T) (fit_metric : string) : res (list (xnum T)) :=
    match fit_metrics fit_metric with
    | None => Err KeyError
    | Some stat =>
        let* x := sorted_squeezed samples in
        let* c := ens_cdf reference x in
        mapM (fun line => stat (map xval line)) c
    end.
End Fit.
