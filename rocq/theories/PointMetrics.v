(** Model of qp/metrics/point_estimate_metric_classes.py and of the iteration of qp/metrics/base_metric_classes.py over chunks of
    point estimates. *)
From Coq Require Import String List Arith ZArith Bool.
From Verif Require Import Num Py NdArray NumpyLib ScipyWrap Values QuantPdf.
Import ListNotations.

Section Quantile.
  Context {T : Type} {N : Num T}.
  Local Open Scope num_scope.
  (** [np.quantile(l, q)] (method "linear") of a 1-d array: ValueError unless 0 <= q <= 1, IndexError for an empty array.
      TRUSTED: numpy. *)
  Definition np_quantile (l : list T) (q : T) : res T :=
    if (q <? n0) || (n1 <? q) then Err ValueError
    else match l with
         | [] => Err IndexError
         | _ => let s := np_sort l in
                let h := q * nofZ (Z.of_nat (length l) - 1) in
                let i := Z.to_nat (nfloor h) in
                let t := h - nofZ (nfloor h) in
                let a := nth0 i s in
                let b := nth0 (Nat.min (S i) (length l - 1)) s in
                Ok (a + (b - a) * t)
         end.
  (** [np.median(l)]; NaN for an empty array *)
  Definition np_median (l : list T) : xnum T :=
    let s := np_sort l in
    let n := length l in
    match n with
    | O => NaN
    | _ => if Nat.even n then Fin ((nth0 (n / 2 - 1) s + nth0 (n / 2) s) / nofZ 2) else Fin (nth0 (n / 2) s)
    end.
End Quantile.

Section Point.
  Context {T : Type} {N : Num T}.
  Local Open Scope num_scope.

  (** Two 1-d arrays of the same length, or one of length 1, broadcast; ValueError otherwise *)
  Definition broadcast1 (a b : list T) : res (list (T * T)) :=
    if (length a =? length b)%nat then Ok (combine a b)
    else match a, b with
         | [x], _ => Ok (map (fun y => (x, y)) b)
         | _, [y] => Ok (map (fun x => (x, y)) a)
         | _, _ => Err ValueError
         end.
  (** point_estimate_metric_classes.py 36, 98, 126, 165, 200, 262: [(estimate - reference) / (1.0 + reference)].
      SIMPLIFICATION: a reference of -1 (infinities in numpy) is not modelled. *)
  Definition ez (estimate reference : list T) : res (list T) :=
    let* p := broadcast1 estimate reference in
    mapM (fun er => let d := n1 + snd er in if d =? n0 then Err NotModelled else Ok ((fst er - snd er) / d)) p.

  (** 126-130 *)
  Definition sigma_iqr_of (e : list T) : res T :=
    let* x75 := np_quantile e (nfrac 3 4) in
    let* x25 := np_quantile e (nfrac 1 4) in
    Ok ((x75 - x25) / nfrac 1349 1000).
  Definition sigma_iqr (estimate reference : list T) : res T := let* e := ez estimate reference in sigma_iqr_of e.
  (** 165 *)
  Definition point_bias (estimate reference : list T) : res (xnum T) := let* e := ez estimate reference in Ok (np_median e).
  (** 200-207 *)
  Definition outlier_rate (estimate reference : list T) : res T :=
    let* e := ez estimate reference in
    let* sig := sigma_iqr estimate reference in
    let cut := nmax (nfrac 6 100) (nofZ 3 * sig) in
    let outlier := length (filter (fun x => cut <? nabs x) e) in
    Ok (nofZ (Z.of_nat outlier) / nofZ (Z.of_nat (length e))).
  (** 261-264 *)
  Definition sigma_mad (estimate reference : list T) : res (xnum T) :=
    let* e := ez estimate reference in
    match np_median e with
    | Fin m => match np_median (map (fun x => nabs (x - m)) e) with
               | Fin d => Ok (Fin (d * nfrac 14826 10000))
               | _ => Ok NaN
               end
    | _ => Ok NaN
    end.
End Point.

(** ** Chunks.  pytdigest is external: [D] are its digests, [Cs] arrays of centroids. *)
Section Chunks.
  Context {T : Type} {N : Num T} {D Cs A : Type}.
  Variables (digest_of : list T -> D) (centroids_of : D -> Cs) (of_centroids : Cs -> D) (add : D -> D -> D) (compute_from_digest : D -> A).
  (** 19-39 *)
  Definition accumulate (estimate reference : list T) : res Cs :=
    let* e := ez estimate reference in Ok (centroids_of (digest_of e)).
  (** 41-63: [reduce] of an empty sequence is a TypeError *)
  Definition finalize_digests (centroids : list Cs) : res A :=
    match map of_centroids centroids with
    | [] => Err TypeError
    | d :: ds => Ok (compute_from_digest (fold_left add ds d))
    end.
  (** base_metric_classes.py 158-162: the loop over [zip(estimate, reference)] rebinds [centroids] *)
  Fixpoint last_centroids (chunks : list (list T * list T)) (centroids : option Cs) : res (option Cs) :=
    match chunks with
    | [] => Ok centroids
    | (est, ref) :: rest => let* c := accumulate est ref in last_centroids rest (Some c)
    end.
  Definition eval_from_iterator (estimates references : list (list T)) : res A :=
    let* c := last_centroids (combine estimates references) None in
    match c with None => Err UnboundLocalError | Some c => finalize_digests [c] end.
End Chunks.
