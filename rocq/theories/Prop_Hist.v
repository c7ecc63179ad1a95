(** Histogram ensembles: C01 - C04. *)
From Coq Require Import List Arith ZArith QArith Bool Sorted Lia Reals Lra.
From Coquelicot Require Import Coquelicot.
From Verif Require Import Num NumProofs Py NdArray NumpyLib Utils ScipyWrap HistPdf Spec
  InterpProofs BinProofs HistProofs HistTheorems.
Import ListNotations.
Local Open Scope R_scope.

(** [hist_input bins rows]: strictly increasing edges, at least one bin and one
    PDF, non-negative values, positive total mass in every row. *)

(** C01 *)
Theorem C01_hist_values_normalised : forall bins rows, hist_input bins rows ->
  exists h, hist_ctor bins (nd2 (pred (length bins)) rows) true = Ok h /\
    h_bins h = bins /\ length (h_pdfs h) = length rows /\
    forall r, (r < length rows)%nat ->
      (exists k, 0 < k /\ forall i, (i < pred (length bins))%nat ->
          at2 (h_pdfs h) r i = k * at2 rows r i) /\
      (forall i, (i < pred (length bins))%nat -> 0 <= at2 (h_pdfs h) r i) /\
      rsum (pred (length bins)) (fun i => at2 (h_pdfs h) r i * (nth0 (S i) bins - nth0 i bins)) = 1.
Proof. exact c01_values. Qed.

(** The function computed by [ens.pdf] is non-negative and has integral 1. *)
Theorem C01_hist_pdf_integral : forall bins rows h, hist_input bins rows -> sound_bins bins ->
  hist_ctor bins (nd2 (pred (length bins)) rows) true = Ok h ->
  exists f, evaluates (hist_ens_pdf h) (length rows) f /\
    forall r, (r < length rows)%nat ->
      (forall x, 0 <= f r x) /\
      is_RInt (f r) (nth0 0 bins) (nlast bins) 1 /\
      (forall x, x < nth0 0 bins \/ nlast bins < x -> f r x = 0).
Proof. exact c01_integral. Qed.

Example C01_example : hist_input [0; 1; 3] [[1; 2]; [0; 5]] /\ sound_bins [0; 1; 3].
Proof. exact hist_input_example. Qed.

(** C02: interior of a bin, outside, and the convention at the edges. *)
Theorem C02_hist_pdf_is_bin_value_partial : forall bins rows chk h, increasing bins -> (2 <= length bins)%nat ->
  rows <> [] -> (forall row, In row rows -> length row = pred (length bins)) -> sound_bins bins ->
  hist_ctor bins (nd2 (pred (length bins)) rows) chk = Ok h ->
  exists f, evaluates (hist_ens_pdf h) (length rows) f /\
    forall r x, (r < length rows)%nat ->
      (forall i, (S i < length bins)%nat -> nth0 i bins < x < nth0 (S i) bins -> f r x = at2 (h_pdfs h) r i) /\
      (x < nth0 0 bins \/ nlast bins < x -> f r x = 0) /\
      (equal_width bins -> forall i, (S i < length bins)%nat -> nth0 i bins <= x < nth0 (S i) bins ->
                           f r x = at2 (h_pdfs h) r i) /\
      (clearly_unequal bins -> forall i, (S i < length bins)%nat -> nth0 i bins < x <= nth0 (S i) bins ->
                           f r x = at2 (h_pdfs h) r i).
Proof. exact c02_value. Qed.

(** C61 *)
Theorem C61_hist_pdf_sound_bins : forall bins rows chk h, increasing bins -> (2 <= length bins)%nat ->
  rows <> [] -> (forall row, In row rows -> length row = pred (length bins)) -> sound_bins bins ->
  hist_ctor bins (nd2 (pred (length bins)) rows) chk = Ok h ->
  exists f, evaluates (hist_ens_pdf h) (length rows) f /\
    forall r x, (r < length rows)%nat ->
      (forall i, (S i < length bins)%nat -> nth0 i bins < x < nth0 (S i) bins -> f r x = at2 (h_pdfs h) r i) /\
      (x < nth0 0 bins \/ nlast bins < x -> f r x = 0) /\
      (equal_width bins -> forall i, (S i < length bins)%nat -> nth0 i bins <= x < nth0 (S i) bins ->
                           f r x = at2 (h_pdfs h) r i) /\
      (clearly_unequal bins -> forall i, (S i < length bins)%nat -> nth0 i bins < x <= nth0 (S i) bins ->
                           f r x = at2 (h_pdfs h) r i).
Proof. exact c02_value. Qed.

(** Without [sound_bins] the statement is false: bins [0, 1e-9, 1e-8] (a tenth of a
    nanometre in metres, say) are taken for equal-width bins, and a point in the
    middle of the second bin gets density 0 although that bin carries all the mass. *)
Theorem C02_hist_pdf_is_bin_value_refuted :
  exists (bins : list Q) (rows : list (list Q)) (h : hist Q) (x : Q),
    hist_ctor bins (nd2 2 rows) true = Ok h /\
    (nth 1 bins 0 < x)%Q /\ (x < nth 2 bins 0)%Q /\ (0 < nth 1 (nth 0 (h_pdfs h) []) 0)%Q /\
    hist_ens_pdf h (PScalar x) = Ok [[Fin 0%Q]].
Proof. exact c02_refuted. Qed.

(** At the last edge of equal-width bins, and at the first edge of unequal ones,
    the density is 0. *)
Theorem C02_edge_convention : forall bins rows chk h, increasing bins -> (2 <= length bins)%nat ->
  rows <> [] -> (forall row, In row rows -> length row = pred (length bins)) ->
  hist_ctor bins (nd2 (pred (length bins)) rows) chk = Ok h ->
  exists f, evaluates (hist_ens_pdf h) (length rows) f /\
    forall r, (r < length rows)%nat ->
      (equal_width bins -> f r (nlast bins) = 0) /\ (clearly_unequal bins -> f r (nth0 0 bins) = 0).
Proof. exact c02_edges. Qed.

(** C03 *)
Theorem C03_hist_cdf_is_integral : forall bins rows h, hist_input bins rows ->
  hist_ctor bins (nd2 (pred (length bins)) rows) true = Ok h ->
  exists F, evaluates (hist_ens_cdf h) (length rows) F /\
    forall r, (r < length rows)%nat ->
      (forall x y, x <= y -> F r x <= F r y) /\
      (forall x, 0 <= F r x <= 1) /\
      (forall x, x <= nth0 0 bins -> F r x = 0) /\
      (forall x, nlast bins <= x -> F r x = 1) /\
      (* the integral of the step function of the stored values *)
      (forall i x, (S i < length bins)%nat -> nth0 i bins <= x <= nth0 (S i) bins ->
         F r x = rsum i (fun k => at2 (h_pdfs h) r k * (nth0 (S k) bins - nth0 k bins))
                 + at2 (h_pdfs h) r i * (x - nth0 i bins)) /\
      (* the integral of ens.pdf *)
      (sound_bins bins -> forall f, evaluates (hist_ens_pdf h) (length rows) f ->
         forall x, nth0 0 bins <= x <= nlast bins -> is_RInt (f r) (nth0 0 bins) x (F r x)).
Proof. exact c03_cdf. Qed.

(** C04 *)
Theorem C04_hist_ppf_inverts_cdf : forall bins rows h, hist_input bins rows ->
  hist_ctor bins (nd2 (pred (length bins)) rows) true = Ok h ->
  exists F Q, evaluates (hist_ens_cdf h) (length rows) F /\
    evaluates_on 0 1 (hist_ens_ppf h) (length rows) Q /\
    forall r, (r < length rows)%nat ->
      (forall p, 0 < p < 1 -> nth0 0 bins <= Q r p <= nlast bins /\ F r (Q r p) = p) /\
      (forall p q, 0 < p -> p <= q -> q < 1 -> Q r p <= Q r q) /\
      (* sampling x = ppf(u): the event x <= t is u <= cdf(t), up to the boundary *)
      (forall p t, 0 < p < 1 -> (Q r p <= t -> p <= F r t) /\ (p < F r t -> Q r p < t)) /\
      (forall i x, (S i < length bins)%nat -> nth0 i bins < x < nth0 (S i) bins ->
         0 < at2 rows r i -> 0 < F r x < 1 -> Q r (F r x) = x).
Proof. exact c04_ppf. Qed.

Print Assumptions C01_hist_values_normalised.
Print Assumptions C01_hist_pdf_integral.
Print Assumptions C02_hist_pdf_is_bin_value_partial.
Print Assumptions C02_hist_pdf_is_bin_value_refuted.
Print Assumptions C02_edge_convention.
Print Assumptions C03_hist_cdf_is_integral.
Print Assumptions C04_hist_ppf_inverts_cdf.
Print Assumptions C61_hist_pdf_sound_bins.
