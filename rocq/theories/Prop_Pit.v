(** The probability integral transform: C44, C102. *)
From Coq Require Import QArith String List Arith ZArith Bool Lia Reals Lra Sorted Permutation.
From Verif Require Import Num NumProofs Py NdArray NumpyLib Utils ScipyWrap Spec Values Ensemble Classes QuantPdf
  SortProofs EvalProofs EvalTheorems InterpProofs NdProofs HistTheorems QuantTheorems MixmodTheorems Kinds KindProofs EnsembleProofs KindInputs ReachProofs EnsembleTheorems
  IntegrateTheorems MatrixTheorems Fit FitProofs FitTheorems PointMetrics PointProofs PointTheorems Pit PitTheorems PitExamples.
Import ListNotations.
Local Open Scope string_scope.
Local Open Scope list_scope.
Local Open Scope R_scope.

(** C44, partial: with two or more PDFs, none of them a quantile table, every PIT value is the cdf of its own PDF at its own true
    value and lies in [0,1].  Missing: one PDF (raises, C102_one) and quantile tables (C44_range_refuted). *)
Theorem C44_samples_partial : forall X e n F truth, fill_outside X -> normal_laws (s_phi X) (s_Phi X) -> has_cdf X e n F -> proper_class e -> (2 <= n)%nat -> length truth = n ->
  exists s, gather_pit_samples e truth = Ok s /\ length s = n /\ forall r, (r < n)%nat -> nth r s 0 = F r (nth r truth 0) /\ 0 <= nth r s 0 <= 1.
Proof. exact c44_samples. Qed.

(** C44, partial: the table handed to the quantile class has strictly increasing probabilities and strictly increasing locations inside
    (0,1).  Missing: the ensemble itself, whose end locations are extrapolated (C44_outside_refuted). *)
Theorem C44_table_partial : forall samples grid, samples <> [] -> prob_grid grid ->
  exists qs ls, pit_table samples grid = Ok (qs, ls) /\ is_pit_table samples (pit_grid samples grid) qs ls.
Proof. exact c102_table. Qed.

(** C44 is false of the ensemble: a location at 13/10. *)
Theorem C44_outside_refuted : exists e : ens Q, four_hists = Ok e /\
  pit_locs (pit_new (quant_create lagrange_fill (fun _ _ _ => 0%Q) (fun _ _ _ => 0%Q)) e [1 # 10; 1 # 2; 9 # 10; 9 # 10]%Q [0; 1 # 4; 1 # 2; 3 # 4; 1]%Q) =
  Ok ([1 # 10; 1 # 2; 9 # 10; 9 # 10]%Q, [("locs", VArr (nd2 4 [[1 # 10; 1 # 2; 9 # 10; 13 # 10]%Q]))]).
Proof. exact c44_outside_refuted. Qed.

(** C44 is false for quantile tables: a PIT value of 49/18. *)
Theorem C44_range_refuted : exists e : ens Q,
  ens_new (quant_create lagrange_fill (fun _ _ _ => 0%Q) (fun _ _ _ => 0%Q)) [("quants", VArr (nd1 [0; 9 # 10; 1]%Q)); ("locs", VArr (nd2 3 [[0; 1 # 10; 1]; [0; 1 # 10; 1]]%Q))] None = Ok e /\
  gather_pit_samples e [1 # 2; 1 # 10]%Q = Ok [49 # 18; 9 # 10]%Q.
Proof. exact c44_range_refuted. Qed.

(** (three histograms) *)
Example C44_example : exists X e F, fill_outside X /\ normal_laws (s_phi X) (s_Phi X) /\ has_cdf X e 3 F /\ proper_class e /\
  map (fun r => F r (nth r [1/2; 1/2; 1/2] 0)) (seq 0 3) = [1/4; 1/8; 3/8].
Proof. exact c44_example. Qed.

(** C102: with two or more PDFs of any kind and one true value for each, the PIT values are the cdf values of each PDF at its own true value. *)
Theorem C102_samples : forall X e n F truth, fill_outside X -> has_cdf X e n F -> (2 <= n)%nat -> length truth = n ->
  gather_pit_samples e truth = Ok (map (fun r => F r (nth r truth 0)) (seq 0 n)).
Proof. exact pit_samples_eq. Qed.

(** C102: one PDF and several true values: its cdf at each. *)
Theorem C102_single : forall X e F truth, fill_outside X -> has_cdf X e 1 F -> (2 <= length truth)%nat ->
  gather_pit_samples e truth = Ok (map (F 0%nat) truth).
Proof. exact pit_samples_single. Qed.

(** C102: one PDF and one true value raise TypeError. *)
Theorem C102_one : forall X e F t grid create, fill_outside X -> has_cdf X e 1 F -> pit_new create e [t] grid = Err TypeError.
Proof. exact c102_one. Qed.

(** C102: no true value raises ValueError. *)
Theorem C102_none : forall create (e : ens R) grid, pit_new create e [] grid = Err ValueError.
Proof. exact c102_none. Qed.

(** C102: the table of the samples: probabilities of the grid with their quantiles strictly between 0 and 1, each quantile once with the
    least probability that has it, and all of them. *)
Theorem C102_table : forall samples grid, samples <> [] -> prob_grid grid ->
  exists qs ls, pit_table samples grid = Ok (qs, ls) /\ is_pit_table samples (pit_grid samples grid) qs ls.
Proof. exact c102_table. Qed.

(** C102: the ensemble holds this table, extended at an end where the probability 0 (or 1) was dropped by linear extrapolation. *)
Theorem C102_ensemble : forall X e n F truth grid, fill_outside X -> has_cdf X e n F -> (2 <= n)%nat -> length truth = n -> prob_grid grid ->
  (forall p, In p (pit_grid truth grid) -> p = 0 \/ / 2 ^ 52 < p) ->
  let samples := map (fun r => F r (nth r truth 0)) (seq 0 n) in
  exists qs ls, is_pit_table samples (pit_grid truth grid) qs ls /\
    ((2 <= length ls)%nat -> (3 <= length ls)%nat \/ 0 < nth0 0 qs \/ nlast qs < 1 ->
     exists p lo hi, pit_new (create_of (qp X) "quant") e truth grid = Ok (samples, p) /\ made X [MPdf; MCdf; MPpf] p /\ e_npdf p = 1%nat /\
       objdata p = [("locs", VArr (nd2 (length (lo ++ ls ++ hi)) [lo ++ ls ++ hi]))] /\ increasing (lo ++ ls ++ hi) /\
       (nth0 0 qs = 0 -> lo = []) /\ (0 < nth0 0 qs -> lo = [line_at (nth 0 qs 0) (nth 0 ls 0) (nth 1 qs 0) (nth 1 ls 0) 0]) /\
       (nlast qs = 1 -> hi = []) /\
       (nlast qs < 1 -> hi = [line_at (nth (length ls - 2) qs 0) (nth (length ls - 2) ls 0) (nth (length ls - 1) qs 0) (nth (length ls - 1) ls 0) 1])).
Proof. exact c102_ensemble. Qed.

(** C102: if all PIT values are 0, or all are 1, the constructor raises. *)
Theorem C102_empty : forall X e n F truth grid, fill_outside X -> has_cdf X e n F -> (2 <= n)%nat -> length truth = n -> prob_grid grid ->
  (forall r, (r < n)%nat -> F r (nth r truth 0) = 0) \/ (forall r, (r < n)%nat -> F r (nth r truth 0) = 1) ->
  pit_new (create_of (qp X) "quant") e truth grid = Err ValueError.
Proof. exact c102_empty. Qed.

(** C102: the KS statistic is the attained distance of the PIT values from the uniform distribution. *)
Theorem C102_ks : forall samples, samples <> [] -> exists D, pit_ks samples = Ok (Fin D) /\ is_ks uniform samples D.
Proof. exact c102_ks. Qed.

(** C102: the CvM statistic is the textbook formula for the uniform distribution. *)
Theorem C102_cvm : forall samples, (2 <= length samples)%nat -> exists W, pit_cvm samples = Ok (Fin W) /\ is_cvm uniform samples W.
Proof. exact c102_cvm. Qed.

(** C102: trimming keeps exactly the values in the closed range. *)
Theorem C102_trim : forall (samples : list R) lo hi v, In v (trim_pit_values samples lo hi) <-> In v samples /\ lo <= v <= hi.
Proof. exact c102_trim. Qed.

(** (three samples on a grid of three probabilities) *)
Example C102_example : prob_grid [0; 1/2; 1] /\ (forall p, In p (pit_grid [1/2; 1/2; 1/2] [0; 1/2; 1]) -> p = 0 \/ / 2 ^ 52 < p) /\
  pit_table [1 # 4; 1 # 8; 3 # 8]%Q [0; 1 # 2; 1]%Q = Ok ([0; 1 # 2; 1], [1 # 8; 1 # 4; 3 # 8])%Q.
Proof. exact c102_example. Qed.

(** (three histograms) *)
Example C102_samples_example : exists X e F, fill_outside X /\ normal_laws (s_phi X) (s_Phi X) /\ has_cdf X e 3 F /\ proper_class e /\
  map (fun r => F r (nth r [1/2; 1/2; 1/2] 0)) (seq 0 3) = [1/4; 1/8; 3/8].
Proof. exact c44_example. Qed.

(** (true values at the lower end) *)
Example C102_empty_example : exists X e F, fill_outside X /\ has_cdf X e 3 F /\ forall r, (r < 3)%nat -> F r (nth r [0; 0; 0] 0) = 0.
Proof. exact c102_empty_example. Qed.

(** (one histogram) *)
Example C102_one_example : exists X e F, fill_outside X /\ has_cdf X e 1 F.
Proof. exact c102_one_example. Qed.

Print Assumptions C44_samples_partial.
Print Assumptions C44_table_partial.
Print Assumptions C44_outside_refuted.
Print Assumptions C44_range_refuted.
Print Assumptions C102_samples.
Print Assumptions C102_single.
Print Assumptions C102_one.
Print Assumptions C102_none.
Print Assumptions C102_table.
Print Assumptions C102_ensemble.
Print Assumptions C102_empty.
Print Assumptions C102_ks.
Print Assumptions C102_cvm.
Print Assumptions C102_trim.
