(** Evaluation on every form of points and goodness of fit: C42, C43, C98-C100. *)
From Coq Require Import QArith String List Arith ZArith Bool Lia Reals Lra Sorted Permutation.
From Verif Require Import Num NumProofs Py NdArray NumpyLib Utils ScipyWrap Spec Values Ensemble Classes
  SortProofs EvalTheorems InterpProofs HistTheorems QuantTheorems MixmodTheorems Kinds EnsembleProofs KindInputs ReachProofs EnsembleTheorems IntegrateTheorems
  MatrixTheorems Fit FitProofs FitTheorems FitExamples.
Import ListNotations.
Local Open Scope string_scope.
Local Open Scope list_scope.
Local Open Scope R_scope.

(** C98: every method of an ensemble obtained by valid calls answers at every single number. *)
Theorem C98_numbers : forall X M e m, fill_outside X -> made X M e -> In m M -> exists v, at_numbers e m v.
Proof. exact c98_numbers. Qed.

(** C98: on a grid that is strictly increasing, or has a repeated point, or belongs to an ensemble of one PDF, every entry is the answer
    at that number. *)
Theorem C98_grid : forall X M e m v l, fill_outside X -> made X M e -> In m M -> at_numbers e m v -> allowed m l ->
  increasing l \/ e_npdf e = 1%nat \/ ~ NoDup l ->
  evaluate m e (PGrid l) = table (e_npdf e) v l.
Proof. exact c98_grid. Qed.

(** C98: on a matrix with one line per PDF every entry is the answer of that PDF at that number, unless several PDFs have exactly as
    many different points as columns (see C06). *)
Theorem C98_per_pdf : forall X M e m v Y w, fill_outside X -> made X M e -> In m M -> at_numbers e m v -> allowed m (concat Y) ->
  matrix_of Y w -> length Y = e_npdf e -> e_npdf e = 1%nat \/ w = 1%nat \/ distinct (concat Y) <> w ->
  evaluate m e (PMat Y) = Ok (map (fun r => map (v r) (nth r Y [])) (seq 0 (e_npdf e))).
Proof. exact c98_per_pdf. Qed.

(** C98: in that case it still is when all lines are the same strictly increasing one. *)
Theorem C98_repeated : forall X M e m v l, fill_outside X -> made X M e -> In m M -> at_numbers e m v -> allowed m l -> increasing l ->
  evaluate m e (PMat (repeat l (e_npdf e))) = table (e_npdf e) v l.
Proof. exact c98_repeated. Qed.

(** C98: an ensemble of one PDF answers any matrix entry by entry. *)
Theorem C98_single : forall X M e m v Y w, fill_outside X -> made X M e -> In m M -> at_numbers e m v -> allowed m (concat Y) ->
  matrix_of Y w -> e_npdf e = 1%nat -> evaluate m e (PMat Y) = Ok (map (map (v 0%nat)) Y).
Proof. exact c98_single. Qed.

(** (two histograms and a matrix in no order with a repeated point) *)
Example C98_example : exists X M e v, fill_outside X /\ made X M e /\ In MCdf M /\ at_numbers e MCdf v /\ e_npdf e = 2%nat /\
  let Y := [[3/2; 1/2; 1/4]; [1; 1/8; 1/2]] in matrix_of Y 3 /\ allowed MCdf (concat Y) /\ distinct (concat Y) <> 3%nat /\
  evaluate MCdf e (PMat Y) = Ok [[Fin (3/4); Fin (1/4); Fin (1/8)]; [Fin (1/4); Fin (1/32); Fin (1/8)]].
Proof. exact c98_example. Qed.

(** C42, partial: the KS statistic of each PDF lies between 1/(2n) and 1, bounds the distance between the empirical distribution
    function of its samples (and its limit from the left) and the reference distribution function everywhere, and is attained at a sample.  Missing: samples
    with repeated values such that all PDFs together have exactly n different ones, for which it is false. *)
Theorem C42_partial : forall X q m F S w, fill_outside X -> has_cdf X q m F -> (forall r, (r < m)%nat -> cdf_like (F r)) ->
  (2 <= m)%nat -> (2 <= w)%nat -> length S = m -> (forall s, In s S -> length s = w) ->
  distinct (concat S) <> w \/ (forall s, In s S -> NoDup s) ->
  exists D, calculate_goodness_of_fit ln S q "ks" = Ok (map Fin D) /\ length D = m /\
    forall r, (r < m)%nat -> let s := nth r S [] in let d := nth r D 0 in
      1 / (2 * INR w) <= d <= 1 /\ (forall x, Rabs (upto s x - F r x) <= d /\ Rabs (under s x - F r x) <= d) /\
      (exists x, In x s /\ (d = upto s x - F r x \/ d = F r x - under s x)).
Proof. exact c42_paired. Qed.

(** C42, C43: no statistic depends on the order of the samples, for any reference and any name. *)
Theorem C42_order : forall (nlog : R -> R) S S' q name, Forall2 (@Permutation R) S S' -> calculate_goodness_of_fit nlog S q name = calculate_goodness_of_fit nlog S' q name.
Proof. exact fit_order. Qed.

(** C42 and C43 are false with ties: the samples 1/2, 1/2 of PDF 0 and 3/2, 3/2 of PDF 1 against two uniform densities on [0,2].
    The distance for PDF 0 is 3/4 at 1/2, reported is 1/4; the reported CvM value is the bound 1/(12n), reached without midpoints. *)
Theorem C42_refuted : exists q : ens Q, two_hists = Ok q /\
  ens_cdf q (PScalar (1 # 2)%Q) = Ok [[Fin (1 # 4)]; [Fin (1 # 4)]]%Q /\
  calculate_goodness_of_fit (fun x => x) [[1 # 2; 1 # 2]; [3 # 2; 3 # 2]]%Q q "ks" = Ok [Fin (1 # 4); Fin (1 # 4)]%Q /\
  calculate_goodness_of_fit (fun x => x) [[1 # 2; 1 # 2]; [3 # 2; 3 # 2]]%Q q "cvm" = Ok [Fin (1 # 24); Fin (1 # 24)]%Q.
Proof. exact fit_ties_refuted. Qed.

(** (two different histograms, three samples of each) *)
Example C42_example : exists X q F, fill_outside X /\ has_cdf X q 2 F /\ (forall r, (r < 2)%nat -> cdf_like (F r)) /\
  F 0%nat (1/4) <> F 1%nat (1/4) /\
  let S := [[3/2; 1/2; 1/4]; [1; 1/8; 1/2]] in length S = 2%nat /\ (forall s, In s S -> length s = 3%nat /\ NoDup s).
Proof. exact c42_example. Qed.

(** C43, partial: the CvM statistic is at least 1/(12n) with equality exactly at the midpoints.  Missing: ties as for C42. *)
Theorem C43_partial : forall X q m F S w, fill_outside X -> has_cdf X q m F -> (forall r, (r < m)%nat -> cdf_like (F r)) ->
  (2 <= m)%nat -> (2 <= w)%nat -> length S = m -> (forall s, In s S -> length s = w) ->
  distinct (concat S) <> w \/ (forall s, In s S -> NoDup s) ->
  exists W, calculate_goodness_of_fit ln S q "cvm" = Ok (map Fin W) /\ length W = m /\
    forall r, (r < m)%nat -> 1 / (12 * INR w) <= nth r W 0 /\
      (nth r W 0 = 1 / (12 * INR w) <->
       forall t, Permutation (nth r S []) t -> StronglySorted Rle t -> forall i, (i < w)%nat -> F r (nth i t 0) = (2 * INR i + 1) / (2 * INR w)).
Proof. exact c43_paired. Qed.

(** C43: no statistic depends on the order of the samples. *)
Theorem C43_order : forall (nlog : R -> R) S S' q name, Forall2 (@Permutation R) S S' -> calculate_goodness_of_fit nlog S q name = calculate_goodness_of_fit nlog S' q name.
Proof. exact fit_order. Qed.

(** C43 is false with ties. *)
Theorem C43_refuted : exists q : ens Q, two_hists = Ok q /\
  ens_cdf q (PScalar (1 # 2)%Q) = Ok [[Fin (1 # 4)]; [Fin (1 # 4)]]%Q /\
  calculate_goodness_of_fit (fun x => x) [[1 # 2; 1 # 2]; [3 # 2; 3 # 2]]%Q q "ks" = Ok [Fin (1 # 4); Fin (1 # 4)]%Q /\
  calculate_goodness_of_fit (fun x => x) [[1 # 2; 1 # 2]; [3 # 2; 3 # 2]]%Q q "cvm" = Ok [Fin (1 # 24); Fin (1 # 24)]%Q.
Proof. exact fit_ties_refuted. Qed.

(** (the same ensembles) *)
Example C43_example : exists X q F, fill_outside X /\ has_cdf X q 2 F /\ (forall r, (r < 2)%nat -> cdf_like (F r)) /\
  F 0%nat (1/4) <> F 1%nat (1/4) /\
  let S := [[3/2; 1/2; 1/4]; [1; 1/8; 1/2]] in length S = 2%nat /\ (forall s, In s S -> length s = 3%nat /\ NoDup s).
Proof. exact c42_example. Qed.

(** C99: each PDF of an estimate of several PDFs is compared with its own reference PDF, if no PDF repeats a sample (or the number of
    different samples is not n). *)
Theorem C99_paired : forall X q m F S w name, fill_outside X -> has_cdf X q m F -> (forall r, (r < m)%nat -> cdf_like (F r)) -> fit_name name ->
  (2 <= m)%nat -> (2 <= w)%nat -> length S = m -> (forall s, In s S -> length s = w) ->
  distinct (concat S) <> w \/ (forall s, In s S -> NoDup s) ->
  exists vs, calculate_goodness_of_fit ln S q name = Ok vs /\ length vs = m /\ forall r, (r < m)%nat -> fit_value name (F r) (nth r S []) (nth r vs NaN).
Proof. exact fit_paired. Qed.

(** C99: an estimate of one PDF with two or more samples is compared with every reference PDF, ties or not. *)
Theorem C99_single : forall X q m F s name, fill_outside X -> has_cdf X q m F -> (forall r, (r < m)%nat -> cdf_like (F r)) -> fit_name name ->
  (2 <= length s)%nat ->
  exists vs, calculate_goodness_of_fit ln [s] q name = Ok vs /\ length vs = m /\ forall r, (r < m)%nat -> fit_value name (F r) s (nth r vs NaN).
Proof. exact fit_single. Qed.

(** C99: with one reference PDF every PDF of the estimate is compared with it, ties or not. *)
Theorem C99_one_reference : forall X q F S w name, fill_outside X -> has_cdf X q 1 F -> cdf_like (F 0%nat) -> fit_name name ->
  (2 <= length S)%nat -> (2 <= w)%nat -> (forall s, In s S -> length s = w) ->
  exists vs, calculate_goodness_of_fit ln S q name = Ok vs /\ length vs = length S /\
    forall r, (r < length S)%nat -> fit_value name (F 0%nat) (nth r S []) (nth r vs NaN).
Proof. exact fit_one_reference. Qed.

(** C99: the hypothesis on the reference holds for every ensemble obtained by valid calls except quantile tables. *)
Theorem C99_proper : forall X q m F, fill_outside X -> normal_laws (s_phi X) (s_Phi X) -> has_cdf X q m F -> proper_class q ->
  forall r, (r < m)%nat -> cdf_like (F r).
Proof. exact reachable_cdf_like. Qed.

(** C99: a finite AD statistic has a least value for n samples, taken exactly at the midpoints. *)
Theorem C99_ad : forall F s A, s <> [] -> fit_value "ad" F s (Fin A) ->
  ad_least (length s) <= A /\ (A = ad_least (length s) <->
    forall t, Permutation s t -> StronglySorted Rle t -> forall i, (i < length s)%nat -> F (nth i t 0) = (2 * INR i + 1) / (2 * INR (length s))).
Proof. exact c99_ad. Qed.

(** C99: an unknown metric raises KeyError. *)
Theorem C99_unknown : forall (nlog : R -> R) S q name, ~ fit_name name -> calculate_goodness_of_fit nlog S q name = Err KeyError.
Proof. exact fit_unknown. Qed.

(** (one uniform density and the midpoints: the least values) *)
Example C99_example : exists X q F, fill_outside X /\ has_cdf X q 1 F /\ cdf_like (F 0%nat) /\
  calculate_goodness_of_fit ln [[3/2; 1/2]] q "ks" = Ok [Fin (1/4)] /\ calculate_goodness_of_fit ln [[3/2; 1/2]] q "cvm" = Ok [Fin (1/24)].
Proof. exact c99_example. Qed.

(** (several PDFs) *)
Example C99_paired_example : exists X q F, fill_outside X /\ has_cdf X q 2 F /\ (forall r, (r < 2)%nat -> cdf_like (F r)) /\
  F 0%nat (1/4) <> F 1%nat (1/4) /\
  let S := [[3/2; 1/2; 1/4]; [1; 1/8; 1/2]] in length S = 2%nat /\ (forall s, In s S -> length s = 3%nat /\ NoDup s).
Proof. exact c42_example. Qed.

(** C100: one sample from each of several PDFs: the samples of ALL PDFs are pooled, and each reference PDF is compared with the pool. *)
Theorem C100_pooled : forall X q m F S name, fill_outside X -> has_cdf X q m F -> (forall r, (r < m)%nat -> cdf_like (F r)) -> fit_name name ->
  (2 <= length S)%nat -> (forall row, In row S -> length row = 1%nat) ->
  exists vs, calculate_goodness_of_fit ln S q name = Ok vs /\ length vs = m /\ forall r, (r < m)%nat -> fit_value name (F r) (concat S) (nth r vs NaN).
Proof. exact fit_pooled. Qed.

(** C100: one sample of one PDF raises. *)
Theorem C100_one : forall (nlog : R -> R) x q name, fit_name name -> calculate_goodness_of_fit nlog [[x]] q name = Err ValueError.
Proof. exact fit_one_sample. Qed.

(** (one sample of each of three PDFs) *)
Example C100_example : exists X q F, fill_outside X /\ has_cdf X q 2 F /\ (forall r, (r < 2)%nat -> cdf_like (F r)) /\
  let S := [[3/2]; [1/2]; [1/2]] in (2 <= length S)%nat /\ (forall s, In s S -> length s = 1%nat).
Proof. exact c100_example. Qed.

Print Assumptions C98_numbers.
Print Assumptions C98_grid.
Print Assumptions C98_per_pdf.
Print Assumptions C98_repeated.
Print Assumptions C98_single.
Print Assumptions C42_partial.
Print Assumptions C42_order.
Print Assumptions C42_refuted.
Print Assumptions C43_partial.
Print Assumptions C43_order.
Print Assumptions C43_refuted.
Print Assumptions C99_paired.
Print Assumptions C99_single.
Print Assumptions C99_one_reference.
Print Assumptions C99_proper.
Print Assumptions C99_ad.
Print Assumptions C99_unknown.
Print Assumptions C100_pooled.
Print Assumptions C100_one.
