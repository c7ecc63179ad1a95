(** C129-C132: double precision.  [SFNum]: IEEE binary64 numbers, [rd]: rounding to them (Float.v); [val64]: the real number that a double stands for; [double], [answers]:
    FloatTheorems.v; [nearly_even], [margin], [widths_differ]: FloatHist.v; [has_points], [steps], [literal]: FloatGrid.v; [packable64], [greatest]: FloatPack.v;
    [area], [normalisable], [added]: FloatNorm.v. *)
From Coq Require Import List Arith ZArith Bool Sorted Lia Reals Lra Floats.SpecFloat.
From Flocq Require Import Core.Zaux Core.Raux.
From Verif Require Import Num NumProofs Py NdArray NumpyLib Utils ScipyWrap SortProofs InterpProofs HistPdf Packing Metrics Spec
  Float FloatProofs FloatHist FloatMachine FloatTheorems FloatExamples FloatGrid FloatPack FloatNorm.
Import ListNotations.
Local Open Scope R_scope.

(** C129: edges that are evenly spaced up to d, any double x: farther than the margin from the edges [ens.pdf(x)] is the value of the bin of x, and 0 outside. *)
Theorem C129_even : forall bins rows chk h x, (2 <= length bins)%nat -> (forall b, In b bins -> double b) -> double x ->
  rows <> [] -> (forall row, In row rows -> length row = pred (length bins)) ->
  hist_ctor (N := SFNum) bins (nd2 (pred (length bins)) rows) chk = Ok h -> forall w d,
  nearly_even (map val64 bins) w d -> Rabs (val64 x - nth 0 (map val64 bins) 0) <= 2 ^ 1000 * w ->
    exists v, answers (hist_ens_pdf (N := SFNum) h (PScalar x)) (length rows) v /\
      forall r, (r < length rows)%nat ->
        (forall i, (S i < length bins)%nat -> nth i (map val64 bins) 0 + margin (map val64 bins) w d <= val64 x <= nth (S i) (map val64 bins) 0 - margin (map val64 bins) w d ->
           v r = nth i (nth r (h_pdfs h) []) zero64) /\
        (val64 x <= nth 0 (map val64 bins) 0 - margin (map val64 bins) w d \/ nth (pred (length bins)) (map val64 bins) 0 + margin (map val64 bins) w d <= val64 x -> v r = zero64).
Proof. exact c129_even. Qed.

(** C129: edges whose widths clearly differ: no error at all, and the bins are open on the left and closed on the right. *)
Theorem C129_differ : forall bins rows chk h x, (2 <= length bins)%nat -> (forall b, In b bins -> double b) -> double x ->
  rows <> [] -> (forall row, In row rows -> length row = pred (length bins)) ->
  hist_ctor (N := SFNum) bins (nd2 (pred (length bins)) rows) chk = Ok h -> 
  increasing (map val64 bins) -> widths_differ (map val64 bins) -> Rabs (val64 x - nth 0 (map val64 bins) 0) <= 2 ^ 1000 * rd (nth 1 (map val64 bins) 0 - nth 0 (map val64 bins) 0) ->
    exists v, answers (hist_ens_pdf (N := SFNum) h (PScalar x)) (length rows) v /\
      forall r, (r < length rows)%nat ->
        (forall i, (S i < length bins)%nat -> nth i (map val64 bins) 0 < val64 x <= nth (S i) (map val64 bins) 0 -> v r = nth i (nth r (h_pdfs h) []) zero64) /\
        (val64 x <= nth 0 (map val64 bins) 0 \/ nth (pred (length bins)) (map val64 bins) 0 < val64 x -> v r = zero64).
Proof. exact c129_differ. Qed.

(** C129: the margin cannot be dropped: an edge of a grid may get the value of the bin below it (np.linspace(1, 2, 11) at 1.2). *)
Theorem C129_margin_needed : exists bins row h w d i,
  (forall b, In b bins -> double b) /\ nearly_even (map val64 bins) w d /\ (S i < length bins)%nat /\ length row = pred (length bins) /\
  hist_ctor (N := SFNum) bins (nd2 (pred (length bins)) [row]) true = Ok h /\
  exists v, answers (hist_ens_pdf (N := SFNum) h (PScalar (nth i bins zero64))) 1 v /\
    v 0%nat = nth (pred i) (nth 0 (h_pdfs h) []) zero64 /\ v 0%nat <> nth i (nth 0 (h_pdfs h) []) zero64.
Proof. exact c129_margin_needed. Qed.

Example C129_example : (2 <= length grid11)%nat /\ (forall b, In b grid11 -> double b) /\ double (f64 5179139571476070 (-52)) /\
  nearly_even (map val64 grid11) step11 (/ 2 ^ 50) /\
  nth 1 (map val64 grid11) 0 + margin (map val64 grid11) step11 (/ 2 ^ 50) <= val64 (f64 5179139571476070 (-52)) <= nth 2 (map val64 grid11) 0 - margin (map val64 grid11) step11 (/ 2 ^ 50).
Proof. exact c129_example. Qed.

Example C129_differ_example : let bins := [f64 4503599627370496 (-52); f64 4503599627370496 (-51); f64 4503599627370496 (-50)] in
  increasing (map val64 bins) /\ widths_differ (map val64 bins).
Proof. exact c129_differ_example. Qed.

(** C130: linear packing of doubles and back: every entry is a byte, and comes back within half a step and M * 2^-47. *)
Theorem C130_error : forall rows,
  (forall row, In row rows -> packable64 row) ->
  exists packed maxs back, linear_pack (N := SFNum) rows = Ok (packed, maxs) /\ linear_unpack (N := SFNum) packed maxs = back /\
    length packed = length rows /\ length maxs = length rows /\ length back = length rows /\
    forall r, (r < length rows)%nat -> length (nth r packed []) = length (nth r rows []) /\ length (nth r back []) = length (nth r rows []) /\
      greatest (val64 (nth r maxs zero64)) (nth r rows []) /\
      forall M i, greatest M (nth r rows []) -> (i < length (nth r rows []))%nat ->
        (0 <= code packed r i <= 255)%Z /\ Rabs (IZR (code packed r i) - 255 * cell rows r i / M) <= / 2 + / 2 ^ 40 /\ Rabs (cell back r i - cell rows r i) <= M / 510 + M / 2 ^ 47.
Proof. exact c130_error. Qed.

(** C130: packing what was unpacked gives the same bytes. *)
Theorem C130_again : forall rows,
  (forall row, In row rows -> packable64 row) ->
  exists packed maxs maxs', linear_pack (N := SFNum) rows = Ok (packed, maxs) /\ linear_pack (N := SFNum) (linear_unpack (N := SFNum) packed maxs) = Ok (packed, maxs').
Proof. exact c130_again. Qed.

Example C130_example : packable64 [d05; S754_zero false; d1; f64 7205759403792794 (-56)].
Proof. exact c130_example. Qed.

(** C131: the number of grid points is the integer part of the quotient unless that is next to an integer; *)
Theorem C131_points : forall lo hi dx n,
  double lo -> double hi -> double dx -> 0 < val64 dx -> (2 <= n)%nat ->
  INR n + INR (n + 1) / 2 ^ 50 <= steps lo hi dx <= INR (n + 1) - INR (n + 1) / 2 ^ 50 -> has_points lo hi dx n.
Proof. exact c131_points. Qed.

(** C131: next to the integer n it is n or n - 1. *)
Theorem C131_near : forall lo hi dx n,
  double lo -> double hi -> double dx -> 0 < val64 dx -> (3 <= n)%nat -> INR n <= 2 ^ 49 ->
  Rabs (steps lo hi dx - INR n) <= INR (n + 1) / 2 ^ 50 -> has_points lo hi dx n \/ has_points lo hi dx (n - 1).
Proof. exact c131_near. Qed.

(** C131: limits (0, 3) and step 0.01 give 300 points. *)
Theorem C131_default : literal d0 0 /\ literal d3 3 /\ literal d001 (1 / 100) /\ steps d0 d3 d001 < 300 /\ has_points d0 d3 d001 300.
Proof. exact c131_default. Qed.

(** C131: limits (0, 0.3) and step 0.1 give 2 points, one fewer than the decimal numbers suggest. *)
Theorem C131_short : literal d0 0 /\ literal d03 (3 / 10) /\ literal d01 (1 / 10) /\ (3 / 10 - 0) / (1 / 10) = INR 3 /\ has_points d0 d03 d01 2.
Proof. exact c131_short. Qed.

Example C131_example : double d0 /\ double d3 /\ double d01 /\ 0 < val64 d01 /\ INR 29 + INR 30 / 2 ^ 50 <= steps d0 (f64 6650000000000000 (-51)) d01 <= INR 30 - INR 30 / 2 ^ 50.
Proof. exact c131_example. Qed.

(** C132: the rows stored by the histogram constructor: finite, non-negative, of total probability 1 up to (number of edges + 3) * 2^-51. *)
Theorem C132_normal : forall edges rows chk, (2 <= length edges)%nat -> INR (length edges) <= 2 ^ 40 -> (forall b, In b edges -> modest b) ->
  (forall i, (S i < length edges)%nat -> val64 (nth i edges zero64) <= val64 (nth (S i) edges zero64)) -> (forall row, In row rows -> normalisable edges row) ->
  exists h, hist_ctor (N := SFNum) edges (nd2 (pred (length edges)) rows) chk = Ok h /\ h_bins h = edges /\ length (h_pdfs h) = length rows /\
    forall row, In row (h_pdfs h) -> length row = pred (length edges) /\ (forall x, In x row -> fin64 x /\ 0 <= val64 x) /\
      Rabs (area edges row - 1) <= INR (length edges + 3) / 2 ^ 51.
Proof. exact c132_normal. Qed.

(** C132: the same in whatever order the products are added (numpy adds pairwise). *)
Theorem C132_any_order : forall n p W w s,
  (1 <= n)%nat -> INR n <= 2 ^ 40 -> (forall i, (i < n)%nat -> 0 <= p i) -> (forall i, (i < n)%nat -> 0 <= W i) ->
  (forall i, (i < n)%nat -> Rabs (w i - W i) <= u53 * W i) -> rsum n W <= 2 ^ 502 -> / 2 ^ 500 <= rsum n (fun i => p i * W i) -> added (fun i => rd (p i * w i)) (seq 0 n) s ->
  0 < s /\ (forall i, (i < n)%nat -> 0 <= rd (p i / s)) /\ Rabs (rsum n (fun i => rd (p i / s) * W i) - 1) <= (INR n + 4) / 2 ^ 51.
Proof. exact c132_any_order. Qed.

Example C132_example : let edges := [f64 4503599627370496 (-52); f64 6755399441055744 (-52); f64 4503599627370496 (-51)] in let row := [f64 7205759403792794 (-56); f64 4503599627370496 (-52)] in
  (forall b, In b edges -> modest b) /\ (forall i, (S i < length edges)%nat -> val64 (nth i edges zero64) <= val64 (nth (S i) edges zero64)) /\ normalisable edges row.
Proof. exact c132_example. Qed.

Print Assumptions C129_even.
Print Assumptions C129_differ.
Print Assumptions C129_margin_needed.
Print Assumptions C130_error.
Print Assumptions C130_again.
Print Assumptions C131_points.
Print Assumptions C131_near.
Print Assumptions C131_default.
Print Assumptions C131_short.
Print Assumptions C132_normal.
Print Assumptions C132_any_order.
