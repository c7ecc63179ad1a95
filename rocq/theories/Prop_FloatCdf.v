(** C136: the cumulative distribution of histograms in double precision.  [double], [answers], [zero64]: FloatTheorems.v; [modest], [area], [normalisable]: FloatNorm.v;
    [good_edges], [good_row], [area_below], [share], [first_edge], [last_edge], [one64]: FloatCdfTheorems.v. *)
From Coq Require Import List Arith ZArith Bool Lia Reals Lra Floats.SpecFloat.
From Flocq Require Import Core.Zaux Core.Raux.
From Verif Require Import Num Py NdArray NumpyLib ScipyWrap HistPdf Spec Float FloatProofs FloatHist FloatMachine FloatTheorems FloatExamples FloatNorm FloatCdf FloatCdfTheorems.
Import ListNotations.
Local Open Scope R_scope.

(** C136: exactly 0 to the left of the edges, exactly 1 to the right; in between the stored area to the left of x, up to (edges + 7) 2^-51; never negative, never an infinity or NaN. *)
Theorem C136_value : forall h x, good_edges (h_bins h) -> (0 < length (h_pdfs h))%nat -> (forall row, In row (h_pdfs h) -> good_row (h_bins h) row) -> double x ->
  exists v, answers (hist_ens_cdf (N := SFNum) h (PScalar x)) (length (h_pdfs h)) v /\
    forall r, (r < length (h_pdfs h))%nat ->
      fin64 (v r) /\ 0 <= val64 (v r) /\
      (val64 x < first_edge (h_bins h) -> v r = zero64) /\
      (last_edge (h_bins h) < val64 x -> v r = one64) /\
      (first_edge (h_bins h) <= val64 x <= last_edge (h_bins h) ->
         Rabs (val64 (v r) - area_below (h_bins h) (nth r (h_pdfs h) []) (val64 x)) <= INR (length (h_bins h) + 7) / 2 ^ 51).
Proof. exact c136_value. Qed.

(** C136: inside one bin the values never decrease. *)
Theorem C136_in_bin : forall h x x' v v' i r, good_edges (h_bins h) -> (0 < length (h_pdfs h))%nat -> (forall row, In row (h_pdfs h) -> good_row (h_bins h) row) -> double x -> double x' ->
  answers (hist_ens_cdf (N := SFNum) h (PScalar x)) (length (h_pdfs h)) v -> answers (hist_ens_cdf (N := SFNum) h (PScalar x')) (length (h_pdfs h)) v' ->
  (S i < length (h_bins h))%nat -> val64 (nth i (h_bins h) zero64) < val64 x -> val64 x <= val64 x' -> val64 x' < val64 (nth (S i) (h_bins h) zero64) -> (r < length (h_pdfs h))%nat ->
  val64 (v r) <= val64 (v' r).
Proof. exact c136_in_bin. Qed.

(** C136: normalised on creation and again when frozen, whatever check_input: the share of the area of the given histogram to the left of x, up to (4 edges + 16) 2^-51. *)
Theorem C136_created : forall edges rows chk h x, good_edges edges -> rows <> [] -> (forall row, In row rows -> normalisable edges row) ->
  hist_ctor (N := SFNum) edges (nd2 (pred (length edges)) rows) chk = Ok h -> double x ->
  exists v, answers (hist_ens_cdf (N := SFNum) h (PScalar x)) (length rows) v /\
    forall r, (r < length rows)%nat ->
      fin64 (v r) /\ 0 <= val64 (v r) /\
      (val64 x < first_edge edges -> v r = zero64) /\
      (last_edge edges < val64 x -> v r = one64) /\
      (first_edge edges <= val64 x <= last_edge edges -> Rabs (val64 (v r) - share edges (nth r rows []) (val64 x)) <= INR (4 * length edges + 16) / 2 ^ 51).
Proof. exact c136_created. Qed.

(** C136: across bins the values decrease by no more than the rounding, and exceed 1 by no more than the rounding. *)
Theorem C136_order : forall edges rows chk h x x' v v' r, good_edges edges -> rows <> [] -> (forall row, In row rows -> normalisable edges row) ->
  hist_ctor (N := SFNum) edges (nd2 (pred (length edges)) rows) chk = Ok h -> double x -> double x' ->
  answers (hist_ens_cdf (N := SFNum) h (PScalar x)) (length rows) v -> answers (hist_ens_cdf (N := SFNum) h (PScalar x')) (length rows) v' -> (r < length rows)%nat -> val64 x <= val64 x' ->
  val64 (v r) <= val64 (v' r) + INR (4 * length edges + 16) / 2 ^ 50 /\ 0 <= val64 (v r) <= 1 + INR (4 * length edges + 16) / 2 ^ 51.
Proof. exact c136_order. Qed.

(** C136: they do exceed 1 and do decrease for the histogram 3, 4, 3 on the edges 0, 1, 4, 5. *)
Theorem C136_above_one : exists h x x' v v', hist_ctor (N := SFNum) w_edges (nd2 3 [w_row]) true = Ok h /\
  answers (hist_ens_cdf (N := SFNum) h (PScalar x)) 1 v /\ answers (hist_ens_cdf (N := SFNum) h (PScalar x')) 1 v' /\ val64 x < val64 x' /\ 1 < val64 (v 0%nat) /\ val64 (v' 0%nat) < val64 (v 0%nat).
Proof. exact c136_above_one. Qed.

Example C136_example : good_edges w_edges /\ normalisable w_edges w_row /\ first_edge w_edges = 0 /\ last_edge w_edges = 5 /\ share w_edges w_row 3 = 11 / 18.
Proof. exact c136_example. Qed.

Print Assumptions C136_value.
Print Assumptions C136_in_bin.
Print Assumptions C136_created.
Print Assumptions C136_order.
Print Assumptions C136_above_one.
