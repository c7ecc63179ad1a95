(** Gaussian mixtures: C15, C54, C68, C69.  [phi]/[Phi] stand for the standard normal density and
    distribution function; [normal_laws] (MixmodTheorems.v) is all that is assumed of them. *)
From Coq Require Import List Arith ZArith QArith Bool Sorted Lia Reals Lra.
From Coquelicot Require Import Coquelicot.
From Verif Require Import Num NumProofs Py NdArray NumpyLib Utils ScipyWrap MixmodPdf Spec
  InterpProofs EvalTheorems MixmodTheorems.
Import ListNotations.
Local Open Scope R_scope.

(** C15: the weights of every PDF are rescaled to sum to 1. *)
Theorem C15_weights_normalised : forall k means stds weights, mix_input k means stds weights ->
  exists m, mixmod_ctor (nd2 k means) (nd2 k stds) (nd2 k weights) = Ok m /\
    m_means m = means /\ m_stds m = stds /\ length (m_weights m) = length weights /\
    forall r, (r < length means)%nat ->
      (forall i, (i < k)%nat -> 0 <= at2 (m_weights m) r i) /\
      rsum k (fun i => at2 (m_weights m) r i) = 1 /\
      exists c, 0 < c /\ forall i, (i < k)%nat -> at2 (m_weights m) r i = c * at2 weights r i.
Proof. exact c15_weights. Qed.

(** C15: pdf and cdf are the weighted sums; the pdf is non-negative, the cdf is monotone with
    values in [0,1], and the pdf is its derivative. *)
Theorem C15_pdf_cdf : forall k means stds weights m, mix_input k means stds weights ->
  mixmod_ctor (nd2 k means) (nd2 k stds) (nd2 k weights) = Ok m ->
  forall phi Phi, normal_laws phi Phi ->
  exists f F, evaluates (mixmod_ens_pdf phi m) (length means) f /\ evaluates (mixmod_ens_cdf Phi m) (length means) F /\
    forall r, (r < length means)%nat ->
      (forall x, f r x = rsum k (fun i => at2 (m_weights m) r i *
                           (phi ((x - at2 means r i) / at2 stds r i) / at2 stds r i))) /\
      (forall x, F r x = rsum k (fun i => at2 (m_weights m) r i * Phi ((x - at2 means r i) / at2 stds r i))) /\
      (forall x, 0 <= f r x) /\ (forall x, 0 <= F r x <= 1) /\
      (forall x y, x <= y -> F r x <= F r y) /\ (forall x, is_derive (F r) x (f r x)).
Proof. exact c15_eval. Qed.

(** C15: any negative weight is a ValueError. *)
Theorem C15_negative_weights : forall k means stds weights,
  (forall l, In l means -> length l = k) -> (forall l, In l stds -> length l = k) -> (forall l, In l weights -> length l = k) ->
  (exists l w, In l weights /\ In w l /\ w < 0) ->
  mixmod_ctor (nd2 k means) (nd2 k stds) (nd2 k weights) = Err ValueError.
Proof. exact c15_negative. Qed.

Example C15_example : mix_input 2 [[0; 1]; [3; 5]] [[1; 2]; [1; 1]] [[1; 3]; [2; 0]].
Proof. exact mix_input_example. Qed.

(** The assumption on the distribution function can be met. *)
Example C15_laws_example : normal_laws (fun z => exp (- z) / (1 + exp (- z)) ^ 2) (fun z => / (1 + exp (- z))).
Proof. exact logistic_laws. Qed.

(** C54 for numbers and sorted common grids: the answer for PDF r lies in the same cell of the
    200-cell grid as the exact quantile of PDF r. *)
Theorem C54_mixture_ppf_partial : forall k means stds weights m phi Phi, mix_input k means stds weights ->
  mixmod_ctor (nd2 k means) (nd2 k stds) (nd2 k weights) = Ok m -> normal_laws phi Phi ->
  exists F Q lo hi, evaluates (mixmod_ens_cdf Phi m) (length means) F /\
    evaluates_on 0 1 (mixmod_ens_ppf Phi m) (length means) Q /\
    (forall ps, increasing ps -> (forall p, In p ps -> 0 < p < 1) ->
       mixmod_ens_ppf Phi m (PGrid ps) = table (length means) (fin Q) ps) /\
    mix_range k means stds lo hi /\
    forall r p, (r < length means)%nat -> F r lo <= p < F r hi ->
      exists a b, b - a = (hi - lo) / 200 /\ lo <= a < b /\ b <= hi /\ a <= Q r p <= b /\ F r a <= p < F r b.
Proof. exact c54_ppf. Qed.

(** Two PDFs at 0 and at 10: for the grid (1/2, 1/2) both are reported with median 0. *)
Theorem C54_repeated_grid_refuted :
  exists m, mixmod_ctor (nd2 1 mix_means) (nd2 1 mix_ones) (nd2 1 mix_ones) = Ok m /\
    mixmod_ens_ppf uPhi m (PScalar (1 # 2)%Q) = Ok [[Fin (0 # 1)]; [Fin (10 # 1)]]%Q /\
    mixmod_ens_ppf uPhi m (PGrid [1 # 2; 1 # 2]%Q) = Ok [[Fin (0 # 1); Fin (0 # 1)]; [Fin (0 # 1); Fin (0 # 1)]]%Q.
Proof. exact c54_repeated_grid_refuted. Qed.

(** The same for per-PDF probabilities. *)
Theorem C54_matrix_refuted :
  exists m, mixmod_ctor (nd2 1 mix_means) (nd2 1 mix_ones) (nd2 1 mix_ones) = Ok m /\
    mixmod_ens_ppf uPhi m (PScalar (1 # 2)%Q) = Ok [[Fin (0 # 1)]; [Fin (10 # 1)]]%Q /\
    mixmod_ens_ppf uPhi m (PMat [[1 # 2; 1 # 4]; [1 # 2; 3 # 4]]%Q) =
      Ok [[Fin (0 # 1); Fin (-(1 # 2))]; [Fin (0 # 1); Fin (1 # 2)]]%Q.
Proof. exact c54_matrix_refuted. Qed.

Theorem C54_single_refuted :
  exists m, mixmod_ctor (nd2 1 [[0]]%Q) (nd2 1 [[1]]%Q) (nd2 1 [[1]]%Q) = Ok m /\
    mixmod_ens_ppf uPhi m (PGrid [0; 1 # 2]%Q) = Err ValueError.
Proof. exact c54_single_refuted. Qed.

(** C68: pdf and cdf of a mixture answer every grid (sorted or not, with repetitions or not) and
    every per-PDF matrix point by point. *)
Theorem C68_mixture_pointwise : forall k means stds weights m phi Phi, mix_input k means stds weights ->
  mixmod_ctor (nd2 k means) (nd2 k stds) (nd2 k weights) = Ok m ->
  exists f F, evaluates (mixmod_ens_pdf phi m) (length means) f /\ evaluates (mixmod_ens_cdf Phi m) (length means) F /\
    (forall xs, mixmod_ens_pdf phi m (PGrid xs) = table (length means) (fin f) xs) /\
    (forall xs, mixmod_ens_cdf Phi m (PGrid xs) = table (length means) (fin F) xs) /\
    (forall X w, length X = length means -> (forall l, In l X -> length l = w) ->
       mixmod_ens_pdf phi m (PMat X) = Ok (map (fun r => map (fin f r) (nth r X [])) (seq 0 (length means))) /\
       mixmod_ens_cdf Phi m (PMat X) = Ok (map (fun r => map (fin F r) (nth r X [])) (seq 0 (length means)))).
Proof. exact c68_faithful. Qed.

(** C69: with w >= 2 probabilities per PDF that are not w distinct numbers in all, PDF r is given
    quantiles of PDF r/w. *)
Theorem C69_mixture_ppf_rows : forall k means stds weights m phi Phi, mix_input k means stds weights ->
  mixmod_ctor (nd2 k means) (nd2 k stds) (nd2 k weights) = Ok m -> normal_laws phi Phi ->
  exists Q, evaluates_on 0 1 (mixmod_ens_ppf Phi m) (length means) Q /\
    forall X w, (2 <= length means)%nat -> (2 <= w)%nat -> length X = length means ->
      (forall l, In l X -> length l = w) -> (forall p, In p (concat X) -> 0 < p < 1) ->
      distinct (concat X) <> w ->
      mixmod_ens_ppf Phi m (PMat X) =
      Ok (map (fun r => map (fun p => Fin (Q (r / w)%nat p)) (nth r X [])) (seq 0 (length means))).
Proof. exact c69_flat. Qed.

Print Assumptions C15_weights_normalised.
Print Assumptions C15_pdf_cdf.
Print Assumptions C15_negative_weights.
Print Assumptions C54_mixture_ppf_partial.
Print Assumptions C54_repeated_grid_refuted.
Print Assumptions C54_matrix_refuted.
Print Assumptions C54_single_refuted.
Print Assumptions C68_mixture_pointwise.
Print Assumptions C69_mixture_ppf_rows.
