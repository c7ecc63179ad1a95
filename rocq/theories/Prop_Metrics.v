(** Metric grids, Brier score, CDE loss, KLD, RMSE, outlier rate: C37-C41, C49, C94-C97. *)
From Coq Require Import String List Arith ZArith Bool Lia Reals Lra.
From Verif Require Import Num NumProofs Py NdArray NumpyLib Utils ScipyWrap Spec Values Ensemble Classes
  SortProofs InterpProofs HistTheorems QuantTheorems MixmodTheorems Kinds EnsembleProofs KindInputs ReachProofs EnsembleTheorems IntegrateTheorems
  Hdf5Theorems Metrics MetricsProofs BrierProofs KldProofs MetricsTheorems MetricsExamples.
Import ListNotations.
Local Open Scope string_scope.
Local Open Scope list_scope.
Local Open Scope R_scope.

(** C49: for a positive [dx] and limits at least two steps apart the grid has the number of points of the code, starts at the lower
    limit, ends at the upper one, has the reported spacing, and its bins are centred on its points. *)
Theorem C49_grid : forall lo hi dx, 0 < dx -> 2 * dx <= hi - lo ->
  exists g n, grid_parameters lo hi dx = Ok g /\ (2 <= n)%nat /\ INR n * dx <= hi - lo < (INR n + 1) * dx /\ mg_card g = n /\
    length (mg_values g) = n /\ nth 0 (mg_values g) 0 = lo /\ nth (pred n) (mg_values g) 0 = hi /\
    (forall i, (S i < n)%nat -> nth (S i) (mg_values g) 0 - nth i (mg_values g) 0 = mg_res g) /\
    length (mg_edges g) = S n /\
    (forall i, (i < n)%nat -> nth i (mg_edges g) 0 = nth i (mg_values g) 0 - mg_res g / 2 /\ nth (S i) (mg_edges g) 0 = nth i (mg_values g) 0 + mg_res g / 2).
Proof. exact c49_grid. Qed.

(** C49: a truth inside the limits falls in exactly one bin: its histogram is one at one point, within half a step, and zero elsewhere. *)
Theorem C49_truth : forall lo hi dx g t, 0 < dx -> grid_parameters lo hi dx = Ok g -> lo <= t <= hi ->
  exists i, (i < mg_card g)%nat /\ Rabs (t - nth i (mg_values g) 0) <= mg_res g / 2 /\
    np_histogram [t] (mg_edges g) = map (fun j => if Nat.eqb j i then 1%nat else 0%nat) (seq 0 (mg_card g)).
Proof. exact c49_truth. Qed.

(** The remaining limits: less than one step raises ValueError, less than two ZeroDivisionError. *)
Theorem C49_rejected : forall lo hi dx, 0 < dx ->
  (hi - lo < dx -> grid_parameters lo hi dx = Err ValueError) /\ (dx <= hi - lo < 2 * dx -> grid_parameters lo hi dx = Err ZeroDivisionError) /\ grid_parameters lo hi 0 = Err ZeroDivisionError.
Proof. exact c49_rejected. Qed.

(** (limits 0 and 3, step 1/2, truth 0.7) *)
Example C49_example : 0 < 1 / 2 /\ 2 * (1 / 2) <= 3 - 0 /\ 0 <= 7 / 10 <= 3.
Proof. exact c49_example. Qed.

(** C37: the Brier score of two arrays of the same shape. *)
Theorem C37_score : forall n k a b, (0 < n)%nat ->
  brier_evaluate (matrix n k a) (matrix n k b) = Ok (Fin (rsum n (fun i => rsum k (fun j => (a i j - b i j) * (a i j - b i j))) / INR n)).
Proof. exact c37_score. Qed.

(** C37: for rows that are probability vectors and one-hot truths the score lies in [0,2] and is 0 exactly for the perfect prediction. *)
Theorem C37_range : forall n k a h, (0 < n)%nat -> probability_rows n k a -> (forall i, (i < n)%nat -> (h i < k)%nat) ->
  exists v, brier_evaluate (matrix n k a) (matrix n k (one_hot h)) = Ok (Fin v) /\ 0 <= v <= 2 /\
    (v = 0 <-> forall i j, (i < n)%nat -> (j < k)%nat -> a i j = if Nat.eqb j (h i) then 1 else 0).
Proof. exact c37_range. Qed.

(** C37: the same for a single row given as a one-dimensional array. *)
Theorem C37_range_1d : forall k a h, (h < k)%nat -> (forall j, (j < k)%nat -> 0 <= a j) -> rsum k a = 1 ->
  exists v, brier_evaluate (nd1 (map a (seq 0 k))) (nd1 (map (fun j => if Nat.eqb j h then 1 else 0) (seq 0 k))) = Ok (Fin v) /\ 0 <= v <= 2 /\
    (v = 0 <-> forall j, (j < k)%nat -> a j = if Nat.eqb j h then 1 else 0).
Proof. exact c37_range_1d. Qed.

(** C37: arrays of different shapes are rejected. *)
Theorem C37_rejected : forall p t : nd R, shp p <> shp t -> brier_evaluate p t = Err ValueError /\ brier_accumulate p t = Err ValueError.
Proof. exact c37_rejected. Qed.

(** (two rows of three bins) *)
Example C37_example : probability_rows 2 3 (fun i j => nth j (nth i [[1 / 2; 1 / 4; 1 / 4]; [0; 1; 0]] []) 0) /\ shp (matrix 2 3 (fun _ _ => 0)) <> shp (matrix 3 2 (fun _ _ => 0)) /\
  brier_evaluate (matrix 2 3 (fun i j => nth j (nth i [[1 / 2; 1 / 4; 1 / 4]; [0; 1; 0]] []) 0)) (matrix 2 3 (one_hot (fun i => i))) = Ok (Fin (3 / 16)).
Proof. exact c37_example. Qed.

(** C95: calculate_brier of two or more PDFs compares densities (not probabilities) with the one-hot truth on the grid. *)
Theorem C95_score : forall X p m f truth lo hi dx n r, fill_outside X -> has_density X p m f -> metric_grid lo hi dx n r ->
  length truth = m -> in_limits lo hi truth -> (2 <= m)%nat ->
  calculate_brier p truth lo hi dx = Ok (Fin (rsum m (fun j => density_distance (f j) lo r n (nth j truth 0)) / INR m)).
Proof. exact c95_score. Qed.

(** C95: an ensemble of one PDF is rejected. *)
Theorem C95_single : forall X p f truth lo hi dx n r, fill_outside X -> has_density X p 1 f -> metric_grid lo hi dx n r -> length truth = 1%nat -> in_limits lo hi truth ->
  calculate_brier p truth lo hi dx = Err ValueError /\ calculate_brier_for_accumulation p truth lo hi dx = Err ValueError.
Proof. exact c95_single. Qed.

(** C95: another number of truths, or a truth outside the limits, is rejected. *)
Theorem C95_rejected : forall (p : ens R) truth lo hi dx, e_npdf p <> length truth \/ ~ in_limits lo hi truth ->
  calculate_brier p truth lo hi dx = Err ValueError /\ calculate_brier_for_accumulation p truth lo hi dx = Err ValueError.
Proof. exact c95_rejected. Qed.

(** C95: no bound holds for the score of valid calls: densities may be large. *)
Theorem C95_unbounded : forall B, exists X p m f truth lo hi dx n r v, fill_outside X /\ has_density X p m f /\ metric_grid lo hi dx n r /\ length truth = m /\ in_limits lo hi truth /\
  calculate_brier p truth lo hi dx = Ok (Fin v) /\ B < v.
Proof. exact c95_unbounded. Qed.

(** (three histograms) *)
Example C95_example : exists X p f lo hi dx n r truth, fill_outside X /\ has_density X p 3 f /\ metric_grid lo hi dx n r /\ length truth = 3%nat /\ in_limits lo hi truth.
Proof. exact c95_example. Qed.

(** (one histogram) *)
Example C95_single_example : exists X p f lo hi dx n r truth, fill_outside X /\ has_density X p 1 f /\ metric_grid lo hi dx n r /\ length truth = 1%nat /\ in_limits lo hi truth.
Proof. exact c95_single_example. Qed.

(** (a truth outside the limits) *)
Example C95_rejected_example : exists (p : ens R) lo hi truth, e_npdf p <> length truth \/ ~ in_limits lo hi truth.
Proof. exact c95_rejected_example. Qed.

(** C38: for the CDE loss, accumulating over any partition of the ensemble and finalising gives the value of the whole. *)
Theorem C38_cde : forall X e m f s xs ref cs, fill_outside X -> has_density X e m f -> has_ancil e s -> increasing xs -> xs <> [] -> length ref = m -> splits X e 0 ref cs ->
  exists ts, mapM (fun x => cde_accumulate xs (fst x) (snd x)) cs = Ok ts /\ cde_finalize ts = cde_evaluate xs e ref.
Proof. exact c38_cde. Qed.

(** C38, partial: for the Brier score the same holds when every chunk has at least two PDFs.  Missing: chunks of one PDF, for which it
    is false. *)
Theorem C38_brier_partial : forall X e m f s truth lo hi dx n r cs, fill_outside X -> has_density X e m f -> has_ancil e s -> metric_grid lo hi dx n r ->
  length truth = m -> in_limits lo hi truth -> splits X e 0 truth cs -> (forall c t, In (c, t) cs -> (2 <= length t)%nat) ->
  exists ts, mapM (fun x => calculate_brier_for_accumulation (fst x) (snd x) lo hi dx) cs = Ok ts /\ brier_finalize ts = calculate_brier e truth lo hi dx.
Proof. exact c38_brier. Qed.

(** C38 is false with a chunk of one PDF: the whole ensemble has a score, the accumulation raises. *)
Theorem C38_refuted : exists X e f s truth lo hi dx n r cs, fill_outside X /\ has_density X e 3 f /\ has_ancil e s /\ metric_grid lo hi dx n r /\ length truth = 3%nat /\ in_limits lo hi truth /\
  splits X e 0 truth cs /\ (exists v, calculate_brier e truth lo hi dx = Ok v) /\ mapM (fun x => calculate_brier_for_accumulation (fst x) (snd x) lo hi dx) cs = Err ValueError.
Proof. exact c38_refuted. Qed.

(** (three histograms in two chunks) *)
Example C38_cde_example : exists X e f xs truth cs, fill_outside X /\ has_density X e 3 f /\ has_ancil e None /\ increasing xs /\ xs <> [] /\ length truth = 3%nat /\
  splits X e 0 truth cs /\ length cs = 2%nat.
Proof. exact c38_cde_example. Qed.

(** (three histograms in one chunk) *)
Example C38_brier_example : exists X e f lo hi dx n r truth cs, fill_outside X /\ has_density X e 3 f /\ has_ancil e None /\ metric_grid lo hi dx n r /\ length truth = 3%nat /\ in_limits lo hi truth /\
  splits X e 0 truth cs /\ forall c t, In (c, t) cs -> (2 <= length t)%nat.
Proof. exact c38_brier_example. Qed.

(** C96: accumulating the Brier score over chunks of two or more PDFs gives the score of the whole. *)
Theorem C96_chunks : forall X e m f s truth lo hi dx n r cs, fill_outside X -> has_density X e m f -> has_ancil e s -> metric_grid lo hi dx n r ->
  length truth = m -> in_limits lo hi truth -> splits X e 0 truth cs -> (forall c t, In (c, t) cs -> (2 <= length t)%nat) ->
  exists ts, mapM (fun x => calculate_brier_for_accumulation (fst x) (snd x) lo hi dx) cs = Ok ts /\ brier_finalize ts = calculate_brier e truth lo hi dx.
Proof. exact c38_brier. Qed.

(** C96: a chunk of one PDF anywhere in the partition raises ValueError. *)
Theorem C96_single : forall X e m f s truth lo hi dx n r cs, fill_outside X -> has_density X e m f -> has_ancil e s -> metric_grid lo hi dx n r ->
  length truth = m -> in_limits lo hi truth -> splits X e 0 truth cs -> (exists c t, In (c, t) cs /\ length t = 1%nat) ->
  mapM (fun x => calculate_brier_for_accumulation (fst x) (snd x) lo hi dx) cs = Err ValueError.
Proof. exact c96_single. Qed.

(** (three histograms in two chunks, the second of one PDF) *)
Example C96_example : exists X e f lo hi dx n r truth cs, fill_outside X /\ has_density X e 3 f /\ has_ancil e None /\ metric_grid lo hi dx n r /\ length truth = 3%nat /\ in_limits lo hi truth /\
  splits X e 0 truth cs /\ length cs = 2%nat /\ exists c t, In (c, t) cs /\ length t = 1%nat.
Proof. exact c96_example. Qed.

(** C97: the CDE loss is the mean trapezoid integral of the squared densities minus twice the mean density at the grid point nearest
    to the truth. *)
Theorem C97_loss : forall X e m f xs ref, fill_outside X -> has_density X e m f -> increasing xs -> xs <> [] -> length ref = m ->
  exists near, (forall j, (j < m)%nat -> (near j < length xs)%nat /\ forall k, (k < length xs)%nat -> Rabs (nth (near j) xs 0 - nth j ref 0) <= Rabs (nth k xs 0 - nth j ref 0)) /\
  cde_evaluate xs e ref = Ok (Fin (rsum m (fun j => trapezoid xs (fun x => f j x * f j x)) / INR m - 2 * (rsum m (fun j => f j (nth (near j) xs 0)) / INR m))).
Proof. exact c97_loss. Qed.

(** (the hypotheses are met by) *)
Example C97_example : exists X e f xs truth cs, fill_outside X /\ has_density X e 3 f /\ has_ancil e None /\ increasing xs /\ xs <> [] /\ length truth = 3%nat /\
  splits X e 0 truth cs /\ length cs = 2%nat.
Proof. exact c38_cde_example. Qed.

(** C39: the divergence of an ensemble with itself is zero for every PDF. *)
Theorem C39_self : forall X p m f lo hi dx n r, fill_outside X -> has_density X p m f -> metric_grid lo hi dx n r ->
  calculate_kld ln p p lo hi dx = Ok (repeat 0 m).
Proof. exact c39_self. Qed.

(** C39: no reported value is negative, for any two ensembles. *)
Theorem C39_nonneg : forall p q lo hi dx D, calculate_kld ln p q lo hi dx = Ok D -> List.Forall (fun d => 0 <= d) D.
Proof. exact c39_nonneg. Qed.

(** C39 is false in its last part: the value reported for PDF 0 of an ensemble of two differs from the value reported when PDF 0 is
    evaluated alone. *)
Theorem C39_refuted : exists X p q p0 q0 lo hi dx n r D D0 f h,
  fill_outside X /\ has_density X p 2 f /\ has_density X q 2 h /\ metric_grid lo hi dx n r /\
  getitem (qp X) p (KSlice 0 1) = Ok p0 /\ getitem (qp X) q (KSlice 0 1) = Ok q0 /\
  calculate_kld ln p q lo hi dx = Ok D /\ calculate_kld ln p0 q0 lo hi dx = Ok D0 /\ nth 0 D 0 <> nth 0 D0 0.
Proof. exact c39_refuted. Qed.

(** (two ensembles of two histograms) *)
Example C39_example : exists X p q f h lo hi dx n r, fill_outside X /\ has_density X p 2 f /\ has_density X q 2 h /\ metric_grid lo hi dx n r /\
  f 0%nat lo <> h 0%nat lo /\ (exists j, (j < 2)%nat /\ kld_of f h lo r n j < 0) /\ (forall j i, (j < 2)%nat -> (i < n)%nat -> 0 <= f j (lo + INR i * r)).
Proof. exact pair_example. Qed.

(** C94: when no raw divergence is negative the raw values are reported; when one is, every PDF is reported as machine epsilon. *)
Theorem C94_reported : forall X p q m f h lo hi dx n r, fill_outside X -> has_density X p m f -> has_density X q m h -> metric_grid lo hi dx n r ->
  ((forall j, (j < m)%nat -> 0 <= kld_of f h lo r n j) -> calculate_kld ln p q lo hi dx = Ok (map (kld_of f h lo r n) (seq 0 m))) /\
  ((exists j, (j < m)%nat /\ kld_of f h lo r n j < 0) -> calculate_kld ln p q lo hi dx = Ok (repeat eps m)).
Proof. exact c94_reported. Qed.

(** C94: a raw divergence is at least the difference of the masses on the grid. *)
Theorem C94_gibbs : forall f h lo r n j, 0 <= r -> (forall x, 0 <= f j x) ->
  r * (rsum n (fun i => f j (lo + INR i * r)) - rsum n (fun i => Rmax eps (h j (lo + INR i * r)))) <= kld_of f h lo r n j.
Proof. exact c94_gibbs. Qed.

(** C94: so where the grid holds at least as much of [p] as of [q] the raw values are reported. *)
Theorem C94_exact : forall X p q m f h lo hi dx n r, fill_outside X -> has_density X p m f -> has_density X q m h -> metric_grid lo hi dx n r ->
  (forall j x, (j < m)%nat -> 0 <= f j x) ->
  (forall j, (j < m)%nat -> rsum n (fun i => Rmax eps (h j (lo + INR i * r))) <= rsum n (fun i => f j (lo + INR i * r))) ->
  calculate_kld ln p q lo hi dx =
  Ok (map (fun j => r * rsum n (fun i => f j (lo + INR i * r) * (ln (Rmax eps (f j (lo + INR i * r))) - ln (Rmax eps (h j (lo + INR i * r)))))) (seq 0 m)).
Proof. exact c94_exact. Qed.

(** C94: ensembles of different sizes are rejected by KLD and RMSE. *)
Theorem C94_other_size : forall X p q m k f h lo hi dx, fill_outside X -> has_density X p m f -> has_density X q k h -> m <> k ->
  calculate_kld ln p q lo hi dx = Err ValueError /\ calculate_rmse sqrt p q lo hi dx = Err ValueError.
Proof. exact c94_other_size. Qed.

(** (two ensembles of two histograms) *)
Example C94_example : exists X p q f h lo hi dx n r, fill_outside X /\ has_density X p 2 f /\ has_density X q 2 h /\ metric_grid lo hi dx n r /\
  (forall j, (j < 2)%nat -> rsum n (fun i => Rmax eps (h j (lo + INR i * r))) <= rsum n (fun i => f j (lo + INR i * r))) /\
  (exists j, (j < 2)%nat /\ f j lo <> h j lo).
Proof. exact c94_example. Qed.

(** (two ensembles with a negative raw divergence) *)
Example C94_broken_example : exists X p q f h lo hi dx n r, fill_outside X /\ has_density X p 2 f /\ has_density X q 2 h /\ metric_grid lo hi dx n r /\
  f 0%nat lo <> h 0%nat lo /\ (exists j, (j < 2)%nat /\ kld_of f h lo r n j < 0) /\ (forall j i, (j < 2)%nat -> (i < n)%nat -> 0 <= f j (lo + INR i * r)).
Proof. exact pair_example. Qed.

(** (two and three histograms) *)
Example C94_other_size_example : exists X p q f h, fill_outside X /\ has_density X p 2 f /\ has_density X q 3 h.
Proof. exact other_size_example. Qed.

(** C40: the root mean squared difference of the gridded densities. *)
Theorem C40_value : forall X p q m f h lo hi dx n r, fill_outside X -> has_density X p m f -> has_density X q m h -> metric_grid lo hi dx n r ->
  calculate_rmse sqrt p q lo hi dx = Ok (map (fun j => sqrt (rsum n (fun i => (f j (lo + INR i * r) - h j (lo + INR i * r)) ^ 2) / INR n)) (seq 0 m)).
Proof. exact c40_value. Qed.

(** C40: non-negative, symmetric, and zero exactly when the gridded values agree. *)
Theorem C40_metric : forall X p q m f h lo hi dx n r, fill_outside X -> has_density X p m f -> has_density X q m h -> metric_grid lo hi dx n r ->
  exists D, calculate_rmse sqrt p q lo hi dx = Ok D /\ calculate_rmse sqrt q p lo hi dx = Ok D /\ length D = m /\
    (forall j, (j < m)%nat -> 0 <= nth j D 0) /\
    (forall j, (j < m)%nat -> nth j D 0 = 0 <-> forall i, (i < n)%nat -> f j (lo + INR i * r) = h j (lo + INR i * r)).
Proof. exact c40_metric. Qed.

(** C40: the triangle inequality, PDF by PDF. *)
Theorem C40_triangle : forall X p q s m f h k lo hi dx n r A B C, fill_outside X -> has_density X p m f -> has_density X q m h -> has_density X s m k -> metric_grid lo hi dx n r ->
  calculate_rmse sqrt p q lo hi dx = Ok A -> calculate_rmse sqrt q s lo hi dx = Ok B -> calculate_rmse sqrt p s lo hi dx = Ok C ->
  forall j, (j < m)%nat -> nth j C 0 <= nth j A 0 + nth j B 0.
Proof. exact c40_triangle. Qed.

(** (three ensembles of two histograms) *)
Example C40_example : exists X p q s f h k lo hi dx n r A B C, fill_outside X /\ has_density X p 2 f /\ has_density X q 2 h /\ has_density X s 2 k /\ metric_grid lo hi dx n r /\
  calculate_rmse sqrt p q lo hi dx = Ok A /\ calculate_rmse sqrt q s lo hi dx = Ok B /\ calculate_rmse sqrt p s lo hi dx = Ok C.
Proof. exact c40_example. Qed.

(** C41: the outlier rate is one minus the probability inside the limits. *)
Theorem C41_rate : forall X M e s F lo hi fuel, fill_outside X -> made X M e -> has_ancil e s -> anc_plain s -> evaluates (ens_cdf e) (e_npdf e) F -> (e_npdf e < fuel)%nat ->
  calculate_outlier_rate (qp X) e lo hi fuel = Some (Ok (map (fun r => Fin (1 - (F r hi - F r lo))) (seq 0 (e_npdf e)))).
Proof. exact c41_rate. Qed.

(** C41: for every ensemble obtained by valid calls (all classes but quant) and limits in order every rate is in [0,1]. *)
Theorem C41_reachable : forall X M e s lo hi fuel, fill_outside X -> normal_laws (s_phi X) (s_Phi X) -> made X M e -> proper_class e ->
  has_ancil e s -> anc_plain s -> lo <= hi -> (e_npdf e < fuel)%nat ->
  exists F D, computes (ens_cdf e) (e_npdf e) F /\ calculate_outlier_rate (qp X) e lo hi fuel = Some (Ok (map (fun v => Fin v) D)) /\ length D = e_npdf e /\
    forall r, (r < e_npdf e)%nat -> nth r D 0 = 1 - (F r hi - F r lo) /\ 0 <= nth r D 0 <= 1.
Proof. exact c41_reachable. Qed.

(** (three histograms with a table) *)
Example C41_example : exists X M e s, fill_outside X /\ normal_laws (s_phi X) (s_Phi X) /\ made X M e /\ proper_class e /\ has_ancil e s /\ anc_plain s /\ s <> None /\ e_npdf e = 3%nat /\
  exists F, evaluates (ens_cdf e) (e_npdf e) F.
Proof. exact c41_example. Qed.

Print Assumptions C49_grid.
Print Assumptions C49_truth.
Print Assumptions C49_rejected.
Print Assumptions C37_score.
Print Assumptions C37_range.
Print Assumptions C37_range_1d.
Print Assumptions C37_rejected.
Print Assumptions C95_score.
Print Assumptions C95_single.
Print Assumptions C95_rejected.
Print Assumptions C95_unbounded.
Print Assumptions C38_cde.
Print Assumptions C38_brier_partial.
Print Assumptions C38_refuted.
Print Assumptions C96_chunks.
Print Assumptions C96_single.
Print Assumptions C97_loss.
Print Assumptions C39_self.
Print Assumptions C39_nonneg.
Print Assumptions C39_refuted.
Print Assumptions C94_reported.
Print Assumptions C94_gibbs.
Print Assumptions C94_exact.
Print Assumptions C94_other_size.
Print Assumptions C40_value.
Print Assumptions C40_metric.
Print Assumptions C40_triangle.
Print Assumptions C41_rate.
Print Assumptions C41_reachable.
