(** C134, C135: points of the wrong shape and the checks of the goodness-of-fit metrics.  [fits]: RowShapeTheorems.v; [warnings_of]: FitCheckTheorems.v;
    [made], [has_ancil], [anc_plain]: EnsembleTheorems.v; [has_cdf], [cdf_like], [fit_name], [fit_value]: FitTheorems.v. *)
From Coq Require Import String List Arith ZArith Bool Lia Reals Lra.
From Verif Require Import Num NumProofs Py NdArray NumpyLib ScipyWrap Spec Values Ensemble Classes Kinds EnsembleProofs KindInputs ReachProofs EnsembleTheorems RowProofs
  SortProofs InterpProofs MatrixTheorems RowShapeTheorems Metrics MetricsTheorems BrierProofs MetricsExamples Fit FitProofs FitTheorems FitExamples FitChecks FitCheckTheorems.
Import ListNotations.
Local Open Scope string_scope.
Local Open Scope list_scope.
Local Open Scope R_scope.

(** C134: a matrix whose number of lines is neither 1 nor the number of PDFs, for an ensemble of several PDFs: ValueError, whatever the entries. *)
Theorem C134_rows : forall X M e m Y, fill_outside X -> made X M e -> In m M -> ~ fits Y (e_npdf e) -> evaluate m e (PMat Y) = Err ValueError.
Proof. exact c134_rows. Qed.

(** C134: a matrix of one line is treated as the grid, for every method and all entries. *)
Theorem C134_one_row : forall X M e m l, made X M e -> evaluate m e (PMat [l]) = evaluate m e (PGrid l).
Proof. exact c134_one_row. Qed.

(** C134: a number is treated as the grid of that number. *)
Theorem C134_number : forall X M e m t, made X M e -> evaluate m e (PScalar t) = evaluate m e (PGrid [t]).
Proof. exact c134_number. Qed.

(** (two histograms and three) *)
Example C134_example : exists X Mp p Mq q, fill_outside X /\ made X Mp p /\ has_ancil p None /\ made X Mq q /\ has_ancil q None /\ In MCdf Mq /\
  e_npdf p = 2%nat /\ e_npdf q = 3%nat /\ warnings_of 2 3 = [WNumber] /\ warnings_of 3 1 = [] /\ fit_name "ks" /\
  ~ fits [[1/2; 1]; [1; 3/2]] (e_npdf q) /\ evaluate MCdf q (PMat [[1/2; 1]; [1; 3/2]]) = Err ValueError /\
  goodness_of_fit ln (qp X) p q "ks" (Ok [[1/2; 1]; [1; 3/2]]) 4 = Some ([WNumber], Err ValueError).
Proof. exact c135_example. Qed.

(** C135: the checks never change the result; a warning is logged exactly if the numbers of PDFs differ and there is not one reference PDF. *)
Theorem C135_value : forall X Mp p sp Mq q sq name samples fuel, fill_outside X ->
  made X Mp p -> has_ancil p sp -> anc_plain sp -> made X Mq q -> has_ancil q sq -> anc_plain sq -> (e_npdf p < fuel)%nat -> (e_npdf q < fuel)%nat ->
  goodness_of_fit ln (qp X) p q name (Ok samples) fuel = Some (warnings_of (e_npdf p) (e_npdf q), calculate_goodness_of_fit ln samples q name).
Proof. exact c135_value. Qed.

(** C135: with two or more estimates and a different number, two or more, of references, and two or more samples: ValueError. *)
Theorem C135_mismatch : forall X Mq q S w name, fill_outside X -> made X Mq q -> In MCdf Mq -> fit_name name ->
  (2 <= w)%nat -> (forall s, In s S -> length s = w) -> length S <> e_npdf q -> (2 <= length S)%nat -> (2 <= e_npdf q)%nat ->
  calculate_goodness_of_fit ln S q name = Err ValueError.
Proof. exact c135_mismatch. Qed.

(** C135: one sample per PDF: the samples of all PDFs together are compared with each reference PDF. *)
Theorem C135_one_sample : forall X q m F S name, fill_outside X -> has_cdf X q m F -> (forall r, (r < m)%nat -> cdf_like (F r)) -> fit_name name ->
  (2 <= length S)%nat -> (forall s, In s S -> length s = 1%nat) ->
  exists vs, calculate_goodness_of_fit ln S q name = Ok vs /\ length vs = m /\ forall r, (r < m)%nat -> fit_value name (F r) (concat S) (nth r vs NaN).
Proof. exact c135_one_sample. Qed.

(** C135: the check of the outlier rate never changes the result either. *)
Theorem C135_outlier : forall X M e s F lo hi fuel, fill_outside X -> made X M e -> has_ancil e s -> anc_plain s -> evaluates (ens_cdf e) (e_npdf e) F -> (e_npdf e < fuel)%nat ->
  outlier_rate_logged (qp X) e lo hi fuel = Some ([], Ok (map (fun r => Fin (F r lo + (1 - F r hi))) (seq 0 (e_npdf e)))).
Proof. exact c135_outlier. Qed.

(** C135: with a normal distribution whose parameters are plain numbers, as estimate or reference, the calls never return. *)
Theorem C135_endless : forall X loc scale, exists q, ens_new (create_of (qp X) "norm") [("loc", VNum loc); ("scale", VNum scale)] None = Ok q /\ e_npdf q = 1%nat /\
  (forall Mp p sp name samples fuel, fill_outside X -> made X Mp p -> has_ancil p sp -> anc_plain sp -> goodness_of_fit ln (qp X) p q name samples fuel = None) /\
  (forall r name samples fuel, goodness_of_fit ln (qp X) q r name samples fuel = None) /\
  (forall lo hi fuel, outlier_rate_logged (qp X) q lo hi fuel = None).
Proof. exact c135_endless. Qed.

Example C135_example : exists X Mp p Mq q, fill_outside X /\ made X Mp p /\ has_ancil p None /\ made X Mq q /\ has_ancil q None /\ In MCdf Mq /\
  e_npdf p = 2%nat /\ e_npdf q = 3%nat /\ warnings_of 2 3 = [WNumber] /\ warnings_of 3 1 = [] /\ fit_name "ks" /\
  ~ fits [[1/2; 1]; [1; 3/2]] (e_npdf q) /\ evaluate MCdf q (PMat [[1/2; 1]; [1; 3/2]]) = Err ValueError /\
  goodness_of_fit ln (qp X) p q "ks" (Ok [[1/2; 1]; [1; 3/2]]) 4 = Some ([WNumber], Err ValueError).
Proof. exact c135_example. Qed.

Example C135_one_example : exists X q F S, fill_outside X /\ has_cdf X q 1 F /\ cdf_like (F 0%nat) /\ length S = 2%nat /\ (forall s, In s S -> length s = 1%nat) /\
  calculate_goodness_of_fit ln S q "ks" = Ok [Fin (1/4)].
Proof. exact c135_one_example. Qed.

Print Assumptions C134_rows.
Print Assumptions C134_one_row.
Print Assumptions C134_number.
Print Assumptions C135_value.
Print Assumptions C135_mismatch.
Print Assumptions C135_one_sample.
Print Assumptions C135_outlier.
Print Assumptions C135_endless.
