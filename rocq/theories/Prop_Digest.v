(** Metrics from digests: C111, C112, C113. *)
From Coq Require Import QArith String List Arith ZArith Bool Sorted Permutation Lia Reals Lra.
From Verif Require Import Num NumProofs Py NdArray NumpyLib ScipyWrap Spec Values Ensemble Classes Kinds EnsembleProofs KindInputs ReachProofs EnsembleTheorems
  SortProofs EvalProofs InterpProofs BinProofs MixmodTheorems HistProofs QuantPdf Fit FitProofs FitTheorems PointMetrics PointProofs PointTheorems Pit PitTheorems PitExamples
  Digest DigestTheorems DigestExamples DigestPit.
Import ListNotations.
Local Open Scope list_scope.
Local Open Scope R_scope.

(** C111: digests within delta of the quantiles give metrics within multiples of delta of those of all data. *)
Theorem C111_chunks : forall (D Cs : Type) (digest_of : list R -> D) (centroids_of : D -> Cs) (of_centroids : Cs -> D) (add : D -> D -> D) (view : D -> digest R),
  forall delta chunks, 0 <= delta -> digest_laws digest_of centroids_of of_centroids add (fun D l => summarises delta (view D) l) ->
    all_usable chunks -> all_residuals chunks <> [] ->
    let est := concat (map fst chunks) in let ref := concat (map snd chunks) in
    exists cs b s b' s' o', mapM (fun c => accumulate digest_of centroids_of (fst c) (snd c)) chunks = Ok cs /\
      point_bias est ref = Ok (Fin b) /\ sigma_iqr est ref = Ok s /\
      finalize_digests of_centroids add (fun d => bias_digest (view d)) cs = Ok b' /\ Rabs (b' - b) <= delta /\
      finalize_digests of_centroids add (fun d => iqr_digest (view d)) cs = Ok s' /\ Rabs (s' - s) <= 2 * delta / 1.349 /\
      finalize_digests of_centroids add (fun d => outlier_digest (view d)) cs = Ok o' /\
      beyond (Rmax 0.06 (3 * s) + 6 * delta / 1.349) (residuals est ref) <= o' <= beyond (Rmax 0.06 (3 * s) - 6 * delta / 1.349) (residuals est ref).
Proof. exact (@c111_chunks). Qed.

(** C111: digests that keep everything give the metrics of all data. *)
Theorem C111_exact : forall (D Cs : Type) (digest_of : list R -> D) (centroids_of : D -> Cs) (of_centroids : Cs -> D) (add : D -> D -> D) (view : D -> digest R),
  forall chunks, digest_laws digest_of centroids_of of_centroids add (fun D l => summarises 0 (view D) l) ->
    all_usable chunks -> all_residuals chunks <> [] ->
    let est := concat (map fst chunks) in let ref := concat (map snd chunks) in
    exists cs b s o, mapM (fun c => accumulate digest_of centroids_of (fst c) (snd c)) chunks = Ok cs /\
      point_bias est ref = Ok (Fin b) /\ finalize_digests of_centroids add (fun d => bias_digest (view d)) cs = Ok b /\
      sigma_iqr est ref = Ok s /\ finalize_digests of_centroids add (fun d => iqr_digest (view d)) cs = Ok s /\
      outlier_rate est ref = Ok o /\ finalize_digests of_centroids add (fun d => outlier_digest (view d)) cs = Ok o.
Proof. exact (@c111_exact). Qed.

(** (two chunks) *)
Example C111_example : digest_laws (fun l => l) (fun d => d) (fun c => c) (@app R) (fun d l => summarises 0 (exact_view d) l) /\
  all_usable [([1; 3], [0; 1]); ([2; 5], [1; 0])] /\ all_residuals [([1; 3], [0; 1]); ([2; 5], [1; 0])] = [1; 1; 1/2; 5].
Proof. exact c111_example. Qed.

(** C112: the chunked MAD is within half a bin of the digest's own median absolute deviation. *)
Theorem C112_mad : forall argsort n d, sorts argsort -> (2 <= n)%nat -> monotone (d_cdf d) ->
  let lo := d_inv d 0 in let hi := d_inv d 1 in let m := d_inv d (1 / 2) in let w := (hi - lo) / (INR n - 1) in
  lo <= m <= hi -> 1 / 2 <= d_cdf d hi - d_cdf d lo ->
  exists s, mad_digest argsort n d = Ok (s * 1.4826) /\ 0 <= s /\ 1 / 2 <= near (d_cdf d) lo hi m (s + w / 2) /\ (w / 2 < s -> near (d_cdf d) lo hi m (s - w / 2) < 1 / 2).
Proof. exact c112_mad. Qed.

(** C112: it raises when less than half of the weight is in the bins. *)
Theorem C112_raises : forall argsort n d, sorts argsort -> monotone (d_cdf d) -> d_inv d 0 <= d_inv d 1 ->
  (n < 2)%nat \/ d_cdf d (d_inv d 1) - d_cdf d (d_inv d 0) < 1 / 2 -> mad_digest argsort n d = Err IndexError.
Proof. exact c112_raises. Qed.

(** C112: it raises when all residuals are equal. *)
Theorem C112_constant : forall argsort n d, sorts argsort -> monotone (d_cdf d) -> d_inv d 0 = d_inv d 1 -> mad_digest argsort n d = Err IndexError.
Proof. exact c112_constant. Qed.

(** C112: it does not depend on the order numpy gives equal distances. *)
Theorem C112_order : forall a a' n d, sorts a -> sorts a' -> monotone (d_cdf d) -> d_inv d 0 <= d_inv d 1 -> mad_digest a n d = mad_digest a' n d.
Proof. exact c112_order. Qed.

(** C112: for perfect estimates evaluate returns 0 and accumulate/finalize raise. *)
Theorem C112_perfect : forall est num_bins, est <> [] -> (forall r, In r est -> r <> -1) ->
  sigma_mad est est = Ok (Fin 0) /\
  (let* cs := mapM (fun c => accumulate (fun l => l) (fun d => d) (fst c) (snd c)) [(est, est)] in
   let* r := finalize_digests (fun c => c) (@app R) (fun d => mad_digest stable_argsort num_bins (exact_view d)) cs in r) = Err IndexError.
Proof. exact c112_perfect. Qed.

(** (a uniform distribution) *)
Example C112_example : sorts stable_argsort /\ monotone (d_cdf uniform4) /\ d_inv uniform4 0 <= d_inv uniform4 (1 / 2) <= d_inv uniform4 1 /\
  1 / 2 <= d_cdf uniform4 (d_inv uniform4 1) - d_cdf uniform4 (d_inv uniform4 0) /\
  mad_digest stable_argsort 9 (mkdigest 100 (fun x => x / (4 # 1)) (fun p => (4 # 1) * p) [])%Q = Ok (22239 # 20000)%Q.
Proof. exact c112_example. Qed.

(** C113: chunks that can be accumulated and digests that keep everything give the PIT ensemble of all values. *)
Theorem C113_chunks : forall (D Cs : Type) (digest_of : list R -> D) (centroids_of : D -> Cs) (of_centroids : Cs -> D) (add : D -> D -> D) (view : D -> digest R),
  forall create grid chunks samples, digest_laws digest_of centroids_of of_centroids add (fun D l => summarises 0 (view D) l) ->
    prob_grid grid -> chunks <> [] -> (forall c, In c chunks -> samples c <> [] /\ exists p, pit_new create (fst c) (snd c) grid = Ok (samples c, p)) ->
    exists cs, mapM (fun c => pit_accumulate digest_of centroids_of create grid (fst c) (snd c)) chunks = Ok cs /\
      pit_finalize of_centroids add view create grid cs = pit_ensemble create (concat (map samples chunks)) grid.
Proof. exact (@c113_chunks). Qed.

(** C113: the same for reachable ensembles, from their distribution functions. *)
Theorem C113_reachable : forall (D Cs : Type) (digest_of : list R -> D) (centroids_of : D -> Cs) (of_centroids : Cs -> D) (add : D -> D -> D) (view : D -> digest R),
  forall X grid (chunks : list (ens R * list R)) F, fill_outside X -> digest_laws digest_of centroids_of of_centroids add (fun D l => summarises 0 (view D) l) ->
    prob_grid grid -> chunks <> [] ->
    let values c := map (fun r => F c r (nth r (snd c) 0)) (seq 0 (length (snd c))) in
    (forall c, In c chunks -> has_cdf X (fst c) (length (snd c)) (F c) /\ (2 <= length (snd c))%nat /\ exists p, pit_ensemble (create_of (qp X) "quant") (values c) grid = Ok p) ->
    exists cs, mapM (fun c => pit_accumulate digest_of centroids_of (create_of (qp X) "quant") grid (fst c) (snd c)) chunks = Ok cs /\
      pit_finalize of_centroids add view (create_of (qp X) "quant") grid cs = pit_ensemble (create_of (qp X) "quant") (concat (map values chunks)) grid.
Proof. exact (@c113_reachable). Qed.

(** C113: a chunk with one PDF raises. *)
Theorem C113_one : forall (D Cs : Type) (digest_of : list R -> D) (centroids_of : D -> Cs),
  forall X create grid e F t, fill_outside X -> has_cdf X e 1 F -> pit_accumulate digest_of centroids_of create grid e [t] = Err TypeError.
Proof. exact (@c113_one). Qed.

(** C113: a chunk in which all PIT values are 0, or all are 1, raises. *)
Theorem C113_zeros : forall (D Cs : Type) (digest_of : list R -> D) (centroids_of : D -> Cs),
  forall X e n F truth grid, fill_outside X -> has_cdf X e n F -> (2 <= n)%nat -> length truth = n -> prob_grid grid ->
    (forall r, (r < n)%nat -> F r (nth r truth 0) = 0) \/ (forall r, (r < n)%nat -> F r (nth r truth 0) = 1) ->
    pit_accumulate digest_of centroids_of (create_of (qp X) "quant") grid e truth = Err ValueError.
Proof. exact (@c113_zeros). Qed.

(** C113: without chunks finalize raises. *)
Theorem C113_none : forall (D Cs : Type) (of_centroids : Cs -> D) (add : D -> D -> D) (view : D -> digest R),
  forall (create : vdict R -> res (gobj R)) grid, pit_finalize of_centroids add view create grid [] = Err TypeError.
Proof. exact (@c113_none). Qed.

(** (three histograms) *)
Example C113_example : exists X e F, fill_outside X /\ digest_laws (fun l => l) (fun d => d) (fun c => c) (@app R) (fun d l => summarises 0 (exact_view d) l) /\
  prob_grid [0; 1/2; 1] /\ has_cdf X e 3 F /\ map (fun r => F r (nth r [1/2; 1/2; 1/2] 0)) (seq 0 3) = [1/4; 1/8; 3/8] /\
  exists p, pit_ensemble (create_of (qp X) "quant") [1/4; 1/8; 3/8] [0; 1/2; 1] = Ok p.
Proof. exact c113_example. Qed.

(** (one histogram) *)
Example C113_one_example : exists X e F, fill_outside X /\ has_cdf X e 1 F.
Proof. exact c102_one_example. Qed.

(** (three true values outside the bins) *)
Example C113_zeros_example : exists X e F, fill_outside X /\ has_cdf X e 3 F /\ forall r, (r < 3)%nat -> F r (nth r [0; 0; 0] 0) = 0.
Proof. exact c102_empty_example. Qed.

Print Assumptions C111_chunks.
Print Assumptions C111_exact.
Print Assumptions C112_mad.
Print Assumptions C112_raises.
Print Assumptions C112_constant.
Print Assumptions C112_order.
Print Assumptions C112_perfect.
Print Assumptions C113_chunks.
Print Assumptions C113_reachable.
Print Assumptions C113_one.
Print Assumptions C113_zeros.
Print Assumptions C113_none.
