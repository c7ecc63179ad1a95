(** C137: the keyword check_input=False.  [bins_area], [lines_area], [right_area]: area under a row (UncheckedTheorems.v); [at2 m r i]: entry i of row r. *)
From Coq Require Import String List Arith ZArith Bool Lia Reals Lra.
From Verif Require Import Num NumProofs Py NdArray NumpyLib Utils Spec HistPdf InterpPdf QuantPdf Packing PackedPdf PackingTheorems PackedTheorems UncheckedTheorems.
Import ListNotations.
Local Open Scope R_scope.

(** C137: histograms store the values divided by their area, with check_input=True and with check_input=False. *)
Theorem C137_hist : forall bins rows chk, (2 <= length bins)%nat ->
  (forall row, In row rows -> length row = pred (length bins) /\ bins_area bins row <> 0) ->
  exists h, hist_ctor bins (nd2 (pred (length bins)) rows) chk = Ok h /\ h_bins h = bins /\ length (h_pdfs h) = length rows /\
    forall r i, (r < length rows)%nat -> (i < pred (length bins))%nat -> at2 (h_pdfs h) r i = at2 rows r i / bins_area bins (nth r rows []).
Proof. exact c137_hist. Qed.

(** C137: so do tables of densities on one grid, *)
Theorem C137_interp : forall xs rows chk, (2 <= length xs)%nat ->
  (forall row, In row rows -> length row = length xs /\ lines_area xs row <> 0) ->
  exists t, interp_ctor xs (nd2 (length xs) rows) chk = Ok t /\ i_xvals t = xs /\ length (i_yvals t) = length rows /\
    forall r i, (r < length rows)%nat -> (i < length xs)%nat -> at2 (i_yvals t) r i = at2 rows r i / lines_area xs (nth r rows []).
Proof. exact c137_interp. Qed.

(** C137: tables with a grid per distribution (by the sum over right-hand values), *)
Theorem C137_irr : forall n xr yr chk, (2 <= n)%nat -> length yr = length xr ->
  (forall xs, In xs xr -> length xs = n) -> (forall ys, In ys yr -> length ys = n) ->
  (forall r, (r < length xr)%nat -> right_area (nth r xr []) (nth r yr []) <> 0) ->
  exists t, irr_ctor (nd2 n xr) (nd2 n yr) chk = Ok t /\ r_xvals t = xr /\ length (r_yvals t) = length yr /\
    forall r i, (r < length xr)%nat -> (i < n)%nat -> at2 (r_yvals t) r i = at2 yr r i / right_area (nth r xr []) (nth r yr []).
Proof. exact c137_irr. Qed.

(** C137: and packed tables. *)
Theorem C137_packed : forall xs (pk : list (list Z)) ms pt lf ys chk, (2 <= length xs)%nat ->
  (forall row, In row pk -> length row = length xs) -> length ms = length pk ->
  unpack_array pow10R pt (Some lf) pk ms = Ok ys -> length ys = length pk -> (forall row, In row ys -> lines_area xs row <> 0) ->
  exists k, packed_ctor pow10R xs (nd2 (length xs) pk) (column ms) pt lf chk = Ok k /\ i_xvals (k_table k) = xs /\ length (i_yvals (k_table k)) = length pk /\ forall r i, (r < length pk)%nat -> (i < length xs)%nat -> at2 (i_yvals (k_table k)) r i = at2 ys r i / lines_area xs (nth r ys []).
Proof. exact c137_packed. Qed.

(** C137: the ensembles with and without the check are the same, so no later call can tell them apart. *)
Theorem C137_same :
  (forall bins rows, (2 <= length bins)%nat -> (forall row, In row rows -> length row = pred (length bins) /\ bins_area bins row <> 0) ->
     hist_ctor bins (nd2 (pred (length bins)) rows) false = hist_ctor bins (nd2 (pred (length bins)) rows) true) /\
  (forall xs rows, (2 <= length xs)%nat -> (forall row, In row rows -> length row = length xs /\ lines_area xs row <> 0) ->
     interp_ctor xs (nd2 (length xs) rows) false = interp_ctor xs (nd2 (length xs) rows) true) /\
  (forall n xr yr, (2 <= n)%nat -> length yr = length xr -> (forall xs, In xs xr -> length xs = n) -> (forall ys, In ys yr -> length ys = n) ->
     (forall r, (r < length xr)%nat -> right_area (nth r xr []) (nth r yr []) <> 0) ->
     irr_ctor (nd2 n xr) (nd2 n yr) false = irr_ctor (nd2 n xr) (nd2 n yr) true) /\
  (forall xs (pk : list (list Z)) ms pt lf ys, (2 <= length xs)%nat -> (forall row, In row pk -> length row = length xs) -> length ms = length pk ->
     unpack_array pow10R pt (Some lf) pk ms = Ok ys -> length ys = length pk -> (forall row, In row ys -> lines_area xs row <> 0) ->
     packed_ctor pow10R xs (nd2 (length xs) pk) (column ms) pt lf false = packed_ctor pow10R xs (nd2 (length xs) pk) (column ms) pt lf true).
Proof. exact c137_same. Qed.

(** C137: quantile tables do honour the keyword: unchecked they are kept as given, checked two quantiles are added. *)
Theorem C137_quant : forall quants rows name, (2 <= length quants)%nat -> rows <> [] -> (forall row, In row rows -> length row = length quants) -> In name pdf_constructor_names ->
  / 2 ^ 52 < nth0 0 quants -> nlast quants < 1 ->
  exists q q', quant_ctor quants (nd2 (length quants) rows) false name = Ok q /\ quant_ctor quants (nd2 (length quants) rows) true name = Ok q' /\ q_quants q = quants /\ q_locs q = rows /\ length (q_quants q') = (length quants + 2)%nat /\ forall row, In row (q_locs q') -> length row = (length quants + 2)%nat.
Proof. exact c137_quant. Qed.

Example C137_example : (forall row, In row [[1; 3]; [2; 0]] -> length row = pred (length [0; 1; 3]) /\ bins_area [0; 1; 3] row <> 0) /\
  (forall row, In row [[1; 3; 0]] -> length row = length [0; 1; 3] /\ lines_area [0; 1; 3] row <> 0) /\ right_area [0; 1; 3] [1; 3; 1] <> 0 /\ / 2 ^ 52 < nth0 0 [1 / 4; 1 / 2; 3 / 4] /\ nlast [1 / 4; 1 / 2; 3 / 4] < 1.
Proof. exact c137_example. Qed.

Print Assumptions C137_hist.
Print Assumptions C137_interp.
Print Assumptions C137_irr.
Print Assumptions C137_packed.
Print Assumptions C137_same.
Print Assumptions C137_quant.
