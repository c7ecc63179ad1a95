(** Random samples: C67, C70.  [U] is the matrix of uniform draws. *)
From Coq Require Import String List Arith ZArith QArith Bool Sorted Lia Reals Lra.
From Verif Require Import Num NumProofs Py NdArray NumpyLib Utils ScipyWrap HistPdf InterpPdf QuantPdf MixmodPdf Sampling Spec
  InterpProofs HistTheorems GridTheorems IrrTheorems EvalTheorems QuantTheorems MixmodTheorems SamplingTheorems.
Import ListNotations.
Local Open Scope R_scope.

(** C67 for quantile ensembles of two or more PDFs (the other tabulated classes: C70). *)
Theorem C67_quantile_rvs_partial : forall quad quants rows name q, quant_input quants rows -> In name pdf_constructor_names ->
  quant_ctor quants (nd2 (length quants) rows) true name = Ok q -> (3 <= length (q_quants q))%nat ->
  (2 <= length rows)%nat ->
  exists Q, evaluates_on 0 1 (quant_ens_ppf quad q) (length rows) Q /\ samples_quantiles (quant_ens_rvs quad q) (length rows) Q.
Proof. exact quant_rvs. Qed.

(** With one PDF sampling always raises. *)
Theorem C67_quantile_single_rvs_raises : forall quad quants row name q size U, quant_input quants [row] -> In name pdf_constructor_names ->
  quant_ctor quants (nd2 (length quants) [row]) true name = Ok q ->
  quant_ens_rvs quad q size U = Err ValueError.
Proof. exact quant_rvs_single. Qed.

(** Sampling a mixture always raises. *)
Theorem C67_mixture_rvs_raises : forall Phi (m : mixmod R) size U, mixmod_ens_rvs Phi m size U = Err ValueError.
Proof. exact mixmod_rvs. Qed.

(** C70: sample (r, i) is the quantile of PDF r at draw (r, i), hence sample <= x exactly when the
    draw is at most cdf_r(x), up to the draw that hits cdf_r(x). *)
Theorem C70_hist_rvs : forall bins rows h, hist_input bins rows -> hist_ctor bins (nd2 (pred (length bins)) rows) true = Ok h ->
  exists F Q, evaluates (hist_ens_cdf h) (length rows) F /\ evaluates_on 0 1 (hist_ens_ppf h) (length rows) Q /\
    samples_quantiles (hist_ens_rvs h) (length rows) Q /\
    forall r u x, (r < length rows)%nat -> 0 < u < 1 ->
      (u < F r x -> Q r u <= x) /\ (Q r u <= x -> u <= F r x).
Proof. exact hist_rvs. Qed.

Theorem C70_interp_rvs : forall xs rows i, interp_input xs rows -> interp_ctor xs (nd2 (length xs) rows) true = Ok i ->
  exists Q, evaluates_on 0 1 (interp_ens_ppf i) (length rows) Q /\ samples_quantiles (interp_ens_rvs i) (length rows) Q.
Proof. exact interp_rvs. Qed.

Theorem C70_irregular_rvs : forall n xr yr o, irr_input n xr yr -> irr_ctor (nd2 n xr) (nd2 n yr) true = Ok o ->
  exists F Q, evaluates (irr_ens_cdf o) (length xr) F /\ evaluates_on 0 1 (irr_ens_ppf o) (length xr) Q /\
    samples_quantiles (irr_ens_rvs o) (length xr) Q /\
    forall r u x, (r < length xr)%nat -> 0 < u < 1 ->
      (u < F r x -> Q r u <= x) /\ (Q r u <= x -> u <= F r x).
Proof. exact irr_rvs. Qed.

(** The hypotheses of the theorems above can be met. *)
Example C70_example : (hist_input [0; 1; 3] [[1; 2]; [0; 5]] /\ interp_input [0; 1; 3] [[1; 2; 0]; [0; 5; 5]]) /\
  irr_input 3 [[0; 1; 3]; [1; 2; 5]] [[1; 2; 0]; [0; 5; 5]] /\ quant_input [1/4; 1/2; 3/4] [[0; 1; 3]; [-2; 5; 6]].
Proof. exact c70_ex. Qed.

Print Assumptions C67_quantile_rvs_partial.
Print Assumptions C67_quantile_single_rvs_raises.
Print Assumptions C67_mixture_rvs_raises.
Print Assumptions C70_hist_rvs.
Print Assumptions C70_interp_rvs.
Print Assumptions C70_irregular_rvs.
