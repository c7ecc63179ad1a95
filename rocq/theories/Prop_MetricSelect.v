(** C152: which metrics treat the PDFs separately.  [chosen X e m key ps e'] (MetricSelectTheorems.v): indexing [e], which has [m] PDFs, by the key (slice, list or mask)
    gives [e'] with the PDFs at positions [ps]; [has_density], [metric_grid], [kld_of]: MetricsProofs.v, KldProofs.v; [eps] is the machine epsilon of metrics.py. *)
From Coq Require Import String List Arith ZArith Bool Lia Reals Lra.
From Verif Require Import Num NumProofs PairwiseProofs Py NdArray NumpyLib Utils ScipyWrap Spec Values Ensemble Classes
  HistPdf SortProofs BinProofs EvalProofs NdProofs InterpProofs HistProofs HistTheorems QuantTheorems MixmodTheorems
  Kinds KindProofs EnsembleProofs KindInputs ReachProofs RowProofs EnsembleTheorems IntegrateTheorems ConvertTheorems CommuteTheorems
  Hdf5 Hdf5Theorems Metrics MetricsProofs BrierProofs KldProofs MetricsTheorems MetricsExamples Fit FitTheorems Pit PitTheorems MetricSelectTheorems.
Import ListNotations.
Local Open Scope string_scope.
Local Open Scope list_scope.
Local Open Scope R_scope.

(** C152: root mean square differences of the selected PDFs. *)
Theorem C152_rmse : forall X p q m f h lo hi dx n r key ps p' q', fill_outside X -> has_density X p m f -> has_density X q m h -> metric_grid lo hi dx n r ->
  chosen X p m key ps p' -> chosen X q m key ps q' ->
  exists v, calculate_rmse sqrt p q lo hi dx = Ok v /\ length v = m /\ calculate_rmse sqrt p' q' lo hi dx = Ok (select 0 v ps).
Proof. exact c152_rmse. Qed.

(** C152: divergences of the selected PDFs when no divergence is negative. *)
Theorem C152_kld : forall X p q m f h lo hi dx n r key ps p' q', fill_outside X -> has_density X p m f -> has_density X q m h -> metric_grid lo hi dx n r ->
  chosen X p m key ps p' -> chosen X q m key ps q' -> (forall j, (j < m)%nat -> 0 <= kld_of f h lo r n j) ->
  exists v, calculate_kld ln p q lo hi dx = Ok v /\ length v = m /\ calculate_kld ln p' q' lo hi dx = Ok (select 0 v ps).
Proof. exact c152_kld. Qed.

(** C152: a negative divergence of one PDF replaces those of all the others. *)
Theorem C152_kld_spoiled : forall X p q m f h lo hi dx n r key ps p' q', fill_outside X -> has_density X p m f -> has_density X q m h -> metric_grid lo hi dx n r ->
  chosen X p m key ps p' -> chosen X q m key ps q' -> (exists j, (j < m)%nat /\ kld_of f h lo r n j < 0) -> (forall j, In j ps -> 0 <= kld_of f h lo r n j) ->
  calculate_kld ln p q lo hi dx = Ok (repeat eps m) /\ calculate_kld ln p' q' lo hi dx = Ok (map (kld_of f h lo r n) ps).
Proof. exact c152_kld_spoiled. Qed.

(** C152: outlier rates of the selected PDFs. *)
Theorem C152_outlier : forall X M e F lo hi fuel fuel' key ps e', fill_outside X -> made X M e -> evaluates (ens_cdf e) (e_npdf e) F -> chosen X e (e_npdf e) key ps e' ->
  (e_npdf e < fuel)%nat -> (length ps < fuel')%nat ->
  exists v, calculate_outlier_rate (qp X) e lo hi fuel = Some (Ok v) /\ length v = e_npdf e /\ calculate_outlier_rate (qp X) e' lo hi fuel' = Some (Ok (select NaN v ps)).
Proof. exact c152_outlier. Qed.

(** C152: PIT values of the selected PDFs and truths. *)
Theorem C152_pit : forall X M e F truth key ps e', fill_outside X -> made X M e -> evaluates (ens_cdf e) (e_npdf e) F -> chosen X e (e_npdf e) key ps e' ->
  length truth = e_npdf e -> (2 <= e_npdf e)%nat -> (2 <= length ps)%nat ->
  exists v, gather_pit_samples e truth = Ok v /\ length v = e_npdf e /\ gather_pit_samples e' (select 0 truth ps) = Ok (select 0 v ps).
Proof. exact c152_pit. Qed.

Example C152_example : exists X p q f h lo hi dx n r key ps p' q', fill_outside X /\ has_density X p 2 f /\ has_density X q 2 h /\ metric_grid lo hi dx n r /\
  chosen X p 2 key ps p' /\ chosen X q 2 key ps q' /\ (exists j, (j < 2)%nat /\ kld_of f h lo r n j < 0) /\ (forall j, In j ps -> eps < kld_of f h lo r n j).
Proof. exact c152_example. Qed.

Example C152_kld_example : exists X p q f h lo hi dx n r key ps p' q', fill_outside X /\ has_density X p 2 f /\ has_density X q 2 h /\ metric_grid lo hi dx n r /\
  chosen X p 2 key ps p' /\ chosen X q 2 key ps q' /\ (forall j, (j < 2)%nat -> 0 < kld_of f h lo r n j).
Proof. exact c152_kld_example. Qed.

Example C152_cdf_example : exists X M e F key ps e', fill_outside X /\ made X M e /\ evaluates (ens_cdf e) (e_npdf e) F /\ chosen X e (e_npdf e) key ps e' /\ e_npdf e = 3%nat /\ ps = [1; 2]%nat.
Proof. exact c152_cdf_example. Qed.

Print Assumptions C152_rmse.
Print Assumptions C152_kld.
Print Assumptions C152_kld_spoiled.
Print Assumptions C152_outlier.
Print Assumptions C152_pit.
