(** C143: quantiles of histograms in double precision.  [double], [answers], [zero64]: FloatTheorems.v; [modest], [area], [normalisable]: FloatNorm.v;
    [good_edges], [good_row], [area_below], [share], [first_edge], [last_edge]: FloatCdfTheorems.v; [no_slivers], [no_tiny_share], [reach]: FloatPpfTheorems.v. *)
From Coq Require Import List Arith ZArith Bool Lia Reals Lra Floats.SpecFloat.
From Flocq Require Import Core.Zaux Core.Raux.
From Verif Require Import Num Py NdArray NumpyLib ScipyWrap HistPdf Spec Float FloatProofs FloatHist FloatMachine FloatTheorems FloatExamples FloatNorm FloatCdf FloatCdfTheorems FloatPpf FloatPpfTheorems.
Import ListNotations.
Local Open Scope R_scope.

(** C143: the answer is finite, not below the first edge, and within 2^-49 of the largest edge from a point between the edges at which the area to the left is q up to (edges + 2) 2^-51 (the whole area if that is less than q). *)
Theorem C143_value : forall h q, good_edges (h_bins h) -> (0 < length (h_pdfs h))%nat -> (forall row, In row (h_pdfs h) -> good_row (h_bins h) row /\ no_slivers (h_bins h) row) -> double q -> 0 < val64 q < 1 ->
  exists v, answers (hist_ens_ppf (N := SFNum) h (PScalar q)) (length (h_pdfs h)) v /\
    forall r, (r < length (h_pdfs h))%nat ->
      fin64 (v r) /\ first_edge (h_bins h) <= val64 (v r) <= last_edge (h_bins h) + reach (h_bins h) / 2 ^ 49 /\
      exists x, first_edge (h_bins h) <= x <= last_edge (h_bins h) /\ Rabs (val64 (v r) - x) <= reach (h_bins h) / 2 ^ 49 /\
        Rabs (area_below (h_bins h) (nth r (h_pdfs h) []) x - Rmin (val64 q) (area (h_bins h) (nth r (h_pdfs h) []))) <= INR (length (h_bins h) + 2) / 2 ^ 51.
Proof. exact c143_value. Qed.

(** C143: for a histogram normalised on creation and again when frozen, the share of the given area to the left of that point is q up to (7 edges + 20) 2^-51. *)
Theorem C143_created : forall edges rows chk h q, good_edges edges -> rows <> [] -> (forall row, In row rows -> normalisable edges row /\ no_tiny_share edges row) ->
  hist_ctor (N := SFNum) edges (nd2 (pred (length edges)) rows) chk = Ok h -> double q -> 0 < val64 q < 1 ->
  exists v, answers (hist_ens_ppf (N := SFNum) h (PScalar q)) (length rows) v /\
    forall r, (r < length rows)%nat ->
      fin64 (v r) /\ first_edge edges <= val64 (v r) <= last_edge edges + reach edges / 2 ^ 49 /\
      exists x, first_edge edges <= x <= last_edge edges /\ Rabs (val64 (v r) - x) <= reach edges / 2 ^ 49 /\
        Rabs (share edges (nth r rows []) x - val64 q) <= INR (7 * length edges + 20) / 2 ^ 51.
Proof. exact c143_created. Qed.

(** C143: larger probabilities give larger quantiles, up to 2^-49 of the largest edge. *)
Theorem C143_order : forall h q q' v v' r, good_edges (h_bins h) -> (0 < length (h_pdfs h))%nat -> (forall row, In row (h_pdfs h) -> good_row (h_bins h) row /\ no_slivers (h_bins h) row) ->
  double q -> double q' -> 0 < val64 q -> val64 q <= val64 q' -> val64 q' < 1 ->
  answers (hist_ens_ppf (N := SFNum) h (PScalar q)) (length (h_pdfs h)) v -> answers (hist_ens_ppf (N := SFNum) h (PScalar q')) (length (h_pdfs h)) v' -> (r < length (h_pdfs h))%nat ->
  val64 (v r) <= val64 (v' r) + reach (h_bins h) / 2 ^ 49.
Proof. exact c143_order. Qed.

(** C143: a quantile can lie beyond the last edge: edges -1, 0, 11, values 6, 1, q = 1 - 2^-53. *)
Theorem C143_beyond : exists h q v, hist_ctor (N := SFNum) o_edges (nd2 2 [o_row]) true = Ok h /\ double q /\ 0 < val64 q < 1 /\
  answers (hist_ens_ppf (N := SFNum) h (PScalar q)) 1 v /\ last_edge o_edges < val64 (v 0%nat).
Proof. exact c143_beyond. Qed.

(** C143: without the lower bound on the bins a quantile can be infinite: edges 0, 1, 2, values 2^-1070, 1, q = 2^-1071. *)
Theorem C143_infinite : exists h q v, hist_ctor (N := SFNum) s_edges (nd2 2 [s_row]) true = Ok h /\ good_edges s_edges /\ normalisable s_edges s_row /\ double q /\ 0 < val64 q < 1 /\
  answers (hist_ens_ppf (N := SFNum) h (PScalar q)) 1 v /\ v 0%nat = S754_infinity false.
Proof. exact c143_infinite. Qed.

Example C143_example : good_edges o_edges /\ normalisable o_edges o_row /\ no_tiny_share o_edges o_row /\ first_edge o_edges = -1 /\ last_edge o_edges = 11 /\ reach o_edges = 11 /\ share o_edges o_row 0 = 6 / 17.
Proof. exact c143_example. Qed.

Print Assumptions C143_value.
Print Assumptions C143_created.
Print Assumptions C143_order.
Print Assumptions C143_beyond.
Print Assumptions C143_infinite.
