(** C148: bounds and relations of the three goodness-of-fit metrics of the same samples.  [has_cdf], [cdf_like], [fit_value]: FitTheorems.v; [agree]: FitBoundTheorems.v. *)
From Coq Require Import String List Arith ZArith Bool Lia Reals Lra Sorted Permutation.
From Verif Require Import Num NumProofs Py NdArray NumpyLib Utils ScipyWrap Spec Values Ensemble Classes
  SortProofs EvalTheorems InterpProofs HistTheorems QuantTheorems MixmodTheorems Kinds EnsembleProofs KindInputs ReachProofs EnsembleTheorems IntegrateTheorems
  MatrixTheorems Fit FitProofs FitTheorems FitExamples FitBoundTheorems.
Import ListNotations.
Local Open Scope string_scope.
Local Open Scope list_scope.
Local Open Scope R_scope.

(** C148: as many reference PDFs as PDFs of the estimate, no PDF repeats a sample. *)
Theorem C148_paired : forall X q m F S w, fill_outside X -> has_cdf X q m F -> (forall r, (r < m)%nat -> cdf_like (F r)) ->
  (2 <= m)%nat -> (2 <= w)%nat -> length S = m -> (forall s, In s S -> length s = w) ->
  distinct (concat S) <> w \/ (forall s, In s S -> NoDup s) ->
  exists ks cvm ad, calculate_goodness_of_fit ln S q "ks" = Ok ks /\ calculate_goodness_of_fit ln S q "cvm" = Ok cvm /\
    calculate_goodness_of_fit ln S q "ad" = Ok ad /\ length ks = m /\ length cvm = m /\ length ad = m /\
    forall r, (r < m)%nat -> agree w (nth r ks NaN) (nth r cvm NaN) (nth r ad NaN).
Proof. exact c148_paired. Qed.

(** C148: an estimate of one PDF, ties or not. *)
Theorem C148_single : forall X q m F s, fill_outside X -> has_cdf X q m F -> (forall r, (r < m)%nat -> cdf_like (F r)) -> (2 <= length s)%nat ->
  exists ks cvm ad, calculate_goodness_of_fit ln [s] q "ks" = Ok ks /\ calculate_goodness_of_fit ln [s] q "cvm" = Ok cvm /\
    calculate_goodness_of_fit ln [s] q "ad" = Ok ad /\ length ks = m /\ length cvm = m /\ length ad = m /\
    forall r, (r < m)%nat -> agree (length s) (nth r ks NaN) (nth r cvm NaN) (nth r ad NaN).
Proof. exact c148_single. Qed.

(** C148: one reference PDF, ties or not. *)
Theorem C148_one_reference : forall X q F S w, fill_outside X -> has_cdf X q 1 F -> cdf_like (F 0%nat) ->
  (2 <= length S)%nat -> (2 <= w)%nat -> (forall s, In s S -> length s = w) ->
  exists ks cvm ad, calculate_goodness_of_fit ln S q "ks" = Ok ks /\ calculate_goodness_of_fit ln S q "cvm" = Ok cvm /\
    calculate_goodness_of_fit ln S q "ad" = Ok ad /\ length ks = (length S) /\ length cvm = (length S) /\ length ad = (length S) /\
    forall r, (r < (length S))%nat -> agree w (nth r ks NaN) (nth r cvm NaN) (nth r ad NaN).
Proof. exact c148_one_reference. Qed.

(** C148: one sample of each PDF (pooled, see C100). *)
Theorem C148_pooled : forall X q m F S, fill_outside X -> has_cdf X q m F -> (forall r, (r < m)%nat -> cdf_like (F r)) ->
  (2 <= length S)%nat -> (forall row, In row S -> length row = 1%nat) ->
  exists ks cvm ad, calculate_goodness_of_fit ln S q "ks" = Ok ks /\ calculate_goodness_of_fit ln S q "cvm" = Ok cvm /\
    calculate_goodness_of_fit ln S q "ad" = Ok ad /\ length ks = m /\ length cvm = m /\ length ad = m /\
    forall r, (r < m)%nat -> agree (length S) (nth r ks NaN) (nth r cvm NaN) (nth r ad NaN).
Proof. exact c148_pooled. Qed.

(** C148: the largest CvM value is taken exactly if all samples have probability 0, or all have probability 1. *)
Theorem C148_most : forall F s W, s <> [] -> cdf_like F -> fit_value "cvm" F s (Fin W) ->
  W <= INR (length s) / 3 /\ (W = INR (length s) / 3 <-> (forall x, In x s -> F x = 0) \/ (forall x, In x s -> F x = 1)).
Proof. exact c148_most. Qed.

(** C148: a finite AD value is at least 1/(3n), so it is positive. *)
Theorem C148_least : forall F s A, s <> [] -> fit_value "ad" F s (Fin A) -> 1 / (3 * INR (length s)) <= A.
Proof. exact c148_least. Qed.

Example C148_example : exists X q F, fill_outside X /\ has_cdf X q 1 F /\ (forall r, (r < 1)%nat -> cdf_like (F r)) /\ (2 <= length [3; 1/2])%nat /\
  F 0%nat (1/2) = 1/4 /\ F 0%nat 2 = 1.
Proof. exact c148_example. Qed.

Print Assumptions C148_paired.
Print Assumptions C148_single.
Print Assumptions C148_one_reference.
Print Assumptions C148_pooled.
Print Assumptions C148_most.
Print Assumptions C148_least.
