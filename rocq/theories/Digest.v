(** Model of the metrics computed from t-digests: the methods [compute_from_digest] of qp/metrics/point_estimate_metric_classes.py and
    the class [PITMetric] of qp/metrics/concrete_metric_classes.py.  pytdigest is external: a digest is known by what these methods
    read from it. *)
From Coq Require Import String List Arith ZArith Bool.
From Verif Require Import Num Py NdArray NumpyLib ScipyWrap Values Ensemble QuantPdf Fit PointMetrics Pit.
Import ListNotations.
Local Open Scope string_scope.
Local Open Scope list_scope.

(** what is read from a [pytdigest.TDigest]: [weight], [cdf], [inverse_cdf], [get_centroids()] (pairs of location and weight) *)
Record digest (T : Type) : Type := mkdigest { d_weight : T; d_cdf : T -> T; d_inv : T -> T; d_centroids : list (T * T) }.
Arguments mkdigest {T}. Arguments d_weight {T}. Arguments d_cdf {T}. Arguments d_inv {T}. Arguments d_centroids {T}.

Section Digest.
  Context {T : Type} {N : Num T}.
  Local Open Scope num_scope.

  (** point_estimate_metric_classes.py 167-168 *)
  Definition bias_digest (d : digest T) : T := d_inv d nhalf.
  (** 132-136 *)
  Definition iqr_digest (d : digest T) : T := (d_inv d (nfrac 3 4) - d_inv d (nfrac 1 4)) / nfrac 1349 1000.
  (** 209-226 *)
  Definition outlier_digest (d : digest T) : T :=
    let cut := nmax (nfrac 6 100) (nofZ 3 * iqr_digest d) in
    nsum (map snd (filter (fun c => cut <? nabs (fst c)) (d_centroids d))) / d_weight d.

  Fixpoint cumsum_from (acc : T) (l : list T) : list T :=
    match l with [] => [] | x :: r => (acc + x) :: cumsum_from (acc + x) r end.
  (** 266-284.  [argsort] is [np.argsort], which leaves the order of equal entries open.  [lows] and [highs] are [bins[0:-1]] and
      [bins[1:]].  The index is out of range (IndexError) if the bins hold less than one half together. *)
  Definition mad_digest (argsort : list T -> list nat) (num_bins : nat) (d : digest T) : res T :=
    let this_median := d_inv d nhalf in
    let bins := np_linspace (d_inv d n0) (d_inv d n1) num_bins in
    let lows := removelast bins in
    let highs := tl bins in
    let bin_cents := map2 (fun a b => (a + b) / nofZ 2) lows highs in
    let this_pdf := map2 (fun a b => d_cdf d b - d_cdf d a) lows highs in
    let bin_dist := map (fun c => nabs (c - this_median)) bin_cents in
    let idx := argsort bin_dist in
    let sorted_bins_dist := map (fun i => nth0 i bin_dist) idx in
    let cumulative_sorted := cumsum_from n0 (map (fun i => nth0 i this_pdf) idx) in
    let median_sorted_bin := searchsorted_left cumulative_sorted nhalf in
    if (median_sorted_bin <? length sorted_bins_dist)%nat
    then Ok (nth0 median_sorted_bin sorted_bins_dist * nfrac 14826 10000) else Err IndexError.
  (** one of the orders [np.argsort] may return *)
  Definition stable_argsort (l : list T) : list nat :=
    map snd (sort_by (fun a b => nleb (fst a) (fst b)) (combine l (seq 0 (length l)))).

  (** concrete_metric_classes.py 284-300 (PITMetric.compute_from_digest) and pit.py 191-205.  [int(digest.weight)] truncates. *)
  Definition pit_table_digest (d : digest T) (grid : list T) : list T * list T :=
    let total := Z.to_nat (nfloor (d_weight d)) in
    let g := if (total <? length grid)%nat then np_linspace n0 n1 total else grid in
    let data := map (d_inv d) g in
    let kept := filter (fun v => (n0 <? v) && (v <? n1)) (np_unique data) in
    (map (fun v => nth0 (first_index v data) g) kept, kept).
  Definition pit_from_digest (create : vdict T -> res (gobj T)) (d : digest T) (grid : list T) : res (ens T) :=
    let ql := pit_table_digest d grid in
    ens_new create [("quants", VArr (nd1 (fst ql))); ("locs", VArr (nd2 (length (snd ql)) [snd ql]))] None.
  (** concrete_metric_classes.py 278-282 (PITMetric.accumulate): a whole PIT object is built first *)
  Definition pit_accumulate {D Cs} (digest_of : list T -> D) (centroids_of : D -> Cs) (create : vdict T -> res (gobj T)) (grid : list T)
      (e : ens T) (truth : list T) : res Cs :=
    let* _ := pit_new create e truth grid in
    let* s := gather_pit_samples e truth in
    Ok (centroids_of (digest_of s)).
  (** 40-62 (DistToPointMetricDigester.finalize): see [finalize_digests] *)
  Definition pit_finalize {D Cs} (of_centroids : Cs -> D) (add : D -> D -> D) (view : D -> digest T) (create : vdict T -> res (gobj T)) (grid : list T)
      (cs : list Cs) : res (ens T) :=
    let* r := finalize_digests of_centroids add (fun d => pit_from_digest create (view d) grid) cs in r.
End Digest.
