(** C138: the summary statistics of the probability integral transform.  [kept lo hi s]: the values of [s] in the range (PitMetaTheorems.v); [spaced]: equally spaced points
    (SparseConvertTheorems.v); [is_ad2], [mid]: the Anderson-Darling sum with mid-ranks (PitMetaProofs.v); [ad_variance], [harmonic], [double_harmonic]: PitVariance.v. *)
From Coq Require Import QArith String List Arith ZArith Bool Lia Reals Lra Sorted Permutation.
From Verif Require Import Num NumProofs Py NdArray NumpyLib Utils ScipyWrap Spec Values Ensemble Classes QuantPdf
  SortProofs EvalProofs EvalTheorems InterpProofs NdProofs HistTheorems QuantTheorems MixmodTheorems Kinds KindProofs EnsembleProofs KindInputs ReachProofs EnsembleTheorems
  IntegrateTheorems MatrixTheorems Fit FitProofs FitTheorems PointMetrics PointProofs PointTheorems SparseConvertTheorems Pit PitTheorems PitVariance PitMeta PitMetaProofs PitMetaTheorems PitMetaExamples.
Import ListNotations.
Local Open Scope string_scope.
Local Open Scope list_scope.
Local Open Scope R_scope.

(** C138: with two or more PIT values in the range the statistic is the normalised mid-rank sum of these values against as many equally spaced ones; the variance is positive, so nothing is undefined. *)
Theorem C138_value : forall s lo hi, lo < hi -> (2 <= length (kept lo hi s))%nat ->
  exists A, is_ad2 (kept lo hi s) (spaced lo hi (length (kept lo hi s))) A /\ 0 < ad_variance (length (kept lo hi s)) /\
    pit_ad sqrt s lo hi = Ok ((A - 1) / sqrt (ad_variance (length (kept lo hi s)))).
Proof. exact c138_value. Qed.

(** C138: it is smallest exactly when the PIT values in the range are the equally spaced ones in some order. *)
Theorem C138_smallest : forall s lo hi, lo < hi -> (2 <= length (kept lo hi s))%nat ->
  exists v, pit_ad sqrt s lo hi = Ok v /\ - 1 / sqrt (ad_variance (length (kept lo hi s))) <= v /\
    (v = - 1 / sqrt (ad_variance (length (kept lo hi s))) <-> Permutation (kept lo hi s) (spaced lo hi (length (kept lo hi s)))).
Proof. exact c138_smallest. Qed.

(** (three of four values in the range) *)
Example C138_value_example : kept 0 1 [1/4; 2; 1/8; 3/8] = [1/4; 1/8; 3/8].
Proof. exact c138_value_example. Qed.

(** (values that are the grid) *)
Example C138_smallest_example : kept 0 1 [1; 0; 1/2] = [1; 0; 1/2] /\ Permutation [1; 0; 1/2] (spaced 0 1 3).
Proof. exact c138_smallest_example. Qed.

(** C138: in all other cases it raises; one value in the range that is not the lower limit gives an IndexError. *)
Theorem C138_errors : forall s lo hi,
  (kept lo hi s = [] -> pit_ad sqrt s lo hi = Err ValueError) /\
  (hi <= lo -> pit_ad sqrt s lo hi = Err ValueError) /\
  (forall v, lo < hi -> kept lo hi s = [v] -> pit_ad sqrt s lo hi = Err (if Req_EM_T v lo then ValueError else IndexError)).
Proof. exact c138_errors. Qed.

(** (one value in the range; the lower limit; none) *)
Example C138_errors_example : kept 0 1 [2; 1/2; 3] = [1/2] /\ kept 0 1 [0; -1] = [0] /\ kept 0 1 [2] = [].
Proof. exact c138_errors_example. Qed.

(** C138: no statistic and not the PIT ensemble depends on the order of the PIT values. *)
Theorem C138_order : forall (X : scipy) s s' grid lo hi fuel, Permutation s s' ->
  pit_ad sqrt s lo hi = pit_ad sqrt s' lo hi /\ pit_ks s = pit_ks s' /\ pit_cvm s = pit_cvm s' /\
  pit_ensemble (create_of (qp X) "quant") s grid = pit_ensemble (create_of (qp X) "quant") s' grid /\
  forall pit, calculate_pit_meta_metrics sqrt (qp X) fuel s pit = calculate_pit_meta_metrics sqrt (qp X) fuel s' pit.
Proof. exact c138_order. Qed.

(** C138: so reordering the PDFs together with their true values changes neither the PIT ensemble nor the dictionary of statistics. *)
Theorem C138_rows : forall X e e' n F F' truth truth' order grid s p fuel, fill_outside X -> has_cdf X e n F -> has_cdf X e' n F' -> (2 <= n)%nat ->
  length truth = n -> length truth' = n -> Permutation order (seq 0 n) ->
  (forall i, (i < n)%nat -> nth i truth' 0 = nth (nth i order 0%nat) truth 0 /\ forall x, F' i x = F (nth i order 0%nat) x) ->
  pit_new (create_of (qp X) "quant") e truth grid = Ok (s, p) ->
  exists s', pit_new (create_of (qp X) "quant") e' truth' grid = Ok (s', p) /\ Permutation s s' /\
    calculate_pit_meta_metrics sqrt (qp X) fuel s' p = calculate_pit_meta_metrics sqrt (qp X) fuel s p.
Proof. exact c138_rows. Qed.

(** C138: the dictionary holds the four statistics, each under its own name. *)
Theorem C138_meta : forall X e truth grid s p M F fuel, fill_outside X -> pit_new (create_of (qp X) "quant") e truth grid = Ok (s, p) -> made X M p -> e_npdf p = 1%nat -> evaluates (ens_cdf p) 1 F ->
  (2 <= length s)%nat -> (forall v, In v s -> 0 <= v <= 1) -> (1 < fuel)%nat ->
  exists A W D, is_ad2 s (spaced 0 1 (length s)) A /\ is_cvm uniform s W /\ is_ks uniform s D /\
    calculate_pit_meta_metrics sqrt (qp X) fuel s p =
      Some (Ok [("ad", Fin ((A - 1) / sqrt (ad_variance (length s)))); ("cvm", Fin W); ("ks", Fin D); ("outlier_rate", Fin (1 - (F 0%nat (9999 / 10000) - F 0%nat (1 / 10000))))]).
Proof. exact c138_meta. Qed.

(** (three histograms, in two orders) *)
Example C138_rows_example : exists X e e' F F' s p M G, fill_outside X /\ has_cdf X e 3 F /\ has_cdf X e' 3 F' /\ Permutation [1; 2; 0]%nat (seq 0 3) /\
  (forall i, (i < 3)%nat -> nth i [1/2; 1/2; 1/2] 0 = nth (nth i [1; 2; 0]%nat 0%nat) [1/2; 1/2; 1/2] 0 /\ forall x, F' i x = F (nth i [1; 2; 0]%nat 0%nat) x) /\
  pit_new (create_of (qp X) "quant") e [1/2; 1/2; 1/2] [0; 1/2; 1] = Ok (s, p) /\ made X M p /\ e_npdf p = 1%nat /\ evaluates (ens_cdf p) 1 G /\
  s = [1/4; 1/8; 3/8].
Proof. exact c138_rows_example. Qed.

(** C138: [quick_anderson_ksamp] is symmetric, *)
Theorem C138_symmetric : forall p q, quick_anderson_ksamp sqrt p q = quick_anderson_ksamp sqrt q p.
Proof. exact c138_symmetric. Qed.

(** C138: and depends only on the ranks: a strictly increasing change of units leaves it unchanged. *)
Theorem C138_monotone : forall f p q, (forall x y, x < y -> f x < f y) -> quick_anderson_ksamp sqrt (map f p) (map f q) = quick_anderson_ksamp sqrt p q.
Proof. exact c138_monotone. Qed.

(** (by computation, with the identity for the square root) *)
Example C138_computed_example : quick_anderson_ksamp (fun x => x) [1 # 4; 1 # 8; 3 # 8]%Q [0; 1 # 2; 1]%Q = Ok (1600 # 29029)%Q.
Proof. exact c138_computed. Qed.

(** (the trusted formulas against a published value) *)
Example C138_published_example : exists a v,
  anderson_ksamp (fun x => x)
    [[387#10; 415#10; 438#10; 445#10; 455#10; 460#10; 477#10; 580#10]; [392#10; 393#10; 397#10; 414#10; 418#10; 429#10; 433#10; 458#10];
     [340#10; 350#10; 390#10; 400#10; 430#10; 430#10; 440#10; 450#10]; [340#10; 348#10; 348#10; 354#10; 372#10; 378#10; 412#10; 428#10]]%Q = Ok a /\
  ksamp_sigmasq [8; 8; 8; 8]%nat 32 = Ok v /\ (Qle_bool ((44795 # 10000) * (44795 # 10000)) (a * a * v) && Qle_bool (a * a * v) ((44805 # 10000) * (44805 # 10000)))%Q%bool = true.
Proof. exact c138_published. Qed.

Print Assumptions C138_value.
Print Assumptions C138_smallest.
Print Assumptions C138_errors.
Print Assumptions C138_order.
Print Assumptions C138_rows.
Print Assumptions C138_meta.
Print Assumptions C138_symmetric.
Print Assumptions C138_monotone.
