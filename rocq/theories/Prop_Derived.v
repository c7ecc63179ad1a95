(** sf, isf, median and interval: C108 - C110. *)
From Coq Require Import QArith String List Arith ZArith Bool Sorted Lia Reals Lra.
From Verif Require Import Num NumProofs Py NdArray NumpyLib Utils ScipyWrap Spec HistPdf InterpPdf QuantPdf MixmodPdf Packing PackedPdf
  Values Ensemble Classes Kinds EnsembleProofs KindInputs ReachProofs EnsembleTheorems HistTheorems GridTheorems IrrTheorems
  InterpProofs BinProofs MatrixTheorems EdgeTheorems Derived DerivedTheorems.
Import ListNotations.
Local Open Scope list_scope.
Local Open Scope R_scope.

(** C108: sf(x) is 1 - cdf(x), entry by entry, whatever the points are, and fails when cdf fails. *)
Theorem C108_sf : forall n (cdf : nd R -> nd nat -> res (list R)) x,
  rv_sf n cdf x = match rv_cdf n cdf x with Ok t => Ok (map (map one_minus) t) | Err e => Err e end.
Proof. exact c108_sf. Qed.

(** C108, partial: isf at one number p is ppf at 1 - p.  Missing: grids (C108_isf_refuted; C109 says what comes out). *)
Theorem C108_scalar_partial : forall X M e isf v p, fill_outside X -> made X M e -> In MPpf M -> at_numbers e MPpf v ->
  g_name (e_obj e) <> "norm"%string -> isf_method e isf -> isf (PScalar p) = Ok (column (e_npdf e) (fun r => v r (1 - p))).
Proof. exact c108_scalar. Qed.

(** C108 is false on a grid: two histograms, isf([1/4, 1/2]) gives the answers for [1/2, 1/4]. *)
Theorem C108_isf_refuted : exists (bins : list Q) (rows : list (list Q)) (h : hist Q),
  hist_ctor bins (nd2 2 rows) true = Ok h /\ length rows = 2%nat /\
  rv_isf 2 (hist_ppf h) (PScalar (1 # 4)) = Ok [[Fin (3 # 2)]; [Fin (5 # 3)]] /\ rv_isf 2 (hist_ppf h) (PScalar (1 # 2)) = Ok [[Fin 1%Q]; [Fin (4 # 3)]] /\
  rv_isf 2 (hist_ppf h) (PGrid [1 # 4; 1 # 2]) = Ok [[Fin 1%Q; Fin (3 # 2)]; [Fin (4 # 3); Fin (5 # 3)]].
Proof. exact c108_isf_refuted. Qed.

(** (two interpolated PDFs) *)
Example C108_example : exists X M e isf v, fill_outside X /\ made X M e /\ In MPpf M /\ at_numbers e MPpf v /\
  g_name (e_obj e) <> "norm"%string /\ g_name (e_obj e) <> "mixmod"%string /\ e_npdf e = 2%nat /\ isf_method e isf /\
  increasing [1/4; 1/2] /\ (forall p, In p [1/4; 1/2] -> inner p) /\
  isf (PGrid [1/4; 1/2]) = Ok (map (fun r => [v r (1/2); v r (3/4)]) (seq 0 2)).
Proof. exact c108_example. Qed.

(** C109: isf(q) is ppf(1 - q), for every q of every shape, failures included; q = 1 gives -infinity, q = 0 gives +infinity (C89). *)
Theorem C109_isf : forall X M e, made X M e -> g_name (e_obj e) <> "norm"%string ->
  (exists isf, isf_method e isf) /\ forall isf, isf_method e isf -> forall q, isf q = ens_ppf e (complement q).
Proof. exact c108_isf. Qed.

(** C109: so on a strictly increasing grid of probabilities two or more PDFs get their values in reverse order. *)
Theorem C109_reversed : forall X M e isf v q, fill_outside X -> made X M e -> In MPpf M -> at_numbers e MPpf v ->
  g_name (e_obj e) <> "norm"%string -> g_name (e_obj e) <> "mixmod"%string -> (2 <= e_npdf e)%nat -> isf_method e isf ->
  increasing q -> (forall p, In p q -> inner p) ->
  (forall p, isf (PScalar p) = Ok (map (fun r => [v r (1 - p)]) (seq 0 (e_npdf e)))) /\
  isf (PGrid q) = Ok (map (fun r => rev (map (fun p => v r (1 - p)) q)) (seq 0 (e_npdf e))).
Proof. exact c108_reversed. Qed.

(** (two interpolated PDFs) *)
Example C109_example : exists X M e isf v, fill_outside X /\ made X M e /\ In MPpf M /\ at_numbers e MPpf v /\
  g_name (e_obj e) <> "norm"%string /\ g_name (e_obj e) <> "mixmod"%string /\ e_npdf e = 2%nat /\ isf_method e isf /\
  increasing [1/4; 1/2] /\ (forall p, In p [1/4; 1/2] -> inner p) /\
  isf (PGrid [1/4; 1/2]) = Ok (map (fun r => [v r (1/2); v r (3/4)]) (seq 0 2)).
Proof. exact c108_example. Qed.

(** C110: histograms. *)
Theorem C110_hist : forall bins rows h, hist_input bins rows -> hist_ctor bins (nd2 (pred (length bins)) rows) true = Ok h ->
  exists F, evaluates (hist_ens_cdf h) (length rows) F /\ central (length rows) F (hist_ens_interval h) (hist_ens_median h).
Proof. exact c110_hist. Qed.

(** C110: PDFs with their own grids. *)
Theorem C110_irr : forall n xr yr o, irr_input n xr yr -> irr_ctor (nd2 n xr) (nd2 n yr) true = Ok o ->
  exists F, evaluates (irr_ens_cdf o) (length xr) F /\ central (length xr) F (irr_ens_interval o) (irr_ens_median o).
Proof. exact c110_irr. Qed.

(** C110: PDFs on a shared grid. *)
Theorem C110_interp : forall xs rows i, interp_input xs rows -> interp_ctor xs (nd2 (length xs) rows) true = Ok i ->
  exists F, evaluates (interp_ens_cdf i) (length rows) F /\
    interp_ens_interval i 1 = Ok (column (length rows) (fun _ => NInf), column (length rows) (fun _ => PInf)) /\
    (forall alpha, alpha < 0 \/ 1 < alpha -> interp_ens_interval i alpha = Err ValueError) /\
    (exists m, interp_ens_median i = Ok (column (length rows) (fun r => Fin (m r))) /\ forall r, (r < length rows)%nat -> F r (nth0 0 xs) <= 1 / 2 -> F r (m r) = 1 / 2) /\
    forall alpha, 0 <= alpha < 1 -> exists a b, interp_ens_interval i alpha = Ok (column (length rows) (fun r => Fin (a r)), column (length rows) (fun r => Fin (b r))) /\
      forall r, (r < length rows)%nat -> a r <= b r /\
        (F r (nth0 0 xs) <= (1 - alpha) / 2 -> F r (a r) = (1 - alpha) / 2 /\ F r (b r) - F r (a r) = alpha) /\
        ((1 - alpha) / 2 < F r (nth0 0 xs) <= (1 + alpha) / 2 -> a r = nth0 0 xs /\ F r (b r) = (1 + alpha) / 2 /\ F r (b r) - F r (a r) < alpha).
Proof. exact c110_interp. Qed.

(** (two histograms) *)
Example C110_hist_example : hist_input [0; 1; 3] [[1; 2]; [0; 5]] /\ sound_bins [0; 1; 3].
Proof. exact hist_input_example. Qed.

(** (two PDFs with their own grids) *)
Example C110_irr_example : irr_input 3 [[0; 1; 3]; [1; 2; 5]] [[1; 2; 0]; [0; 5; 5]].
Proof. exact irr_input_example. Qed.

(** (two PDFs on a shared grid) *)
Example C110_interp_example : interp_input [0; 1; 3] [[1; 2; 0]; [0; 5; 5]].
Proof. exact interp_input_example. Qed.

Print Assumptions C108_sf.
Print Assumptions C108_scalar_partial.
Print Assumptions C108_isf_refuted.
Print Assumptions C109_isf.
Print Assumptions C109_reversed.
Print Assumptions C110_hist.
Print Assumptions C110_irr.
Print Assumptions C110_interp.
