(** Moments: C48, C104. *)
From Coq Require Import QArith String List Arith ZArith Bool Sorted Lia Reals Lra.
From Coquelicot Require Import Coquelicot.
From Verif Require Import Num NumProofs Py NdArray NumpyLib Utils ScipyWrap Spec HistPdf InterpPdf Packing PackedPdf Moments
  Values Ensemble Classes Kinds EnsembleProofs KindInputs ReachProofs EnsembleTheorems Metrics MetricsProofs
  SortProofs EvalProofs NdProofs InterpProofs IntegralProofs BinProofs HistProofs HistTheorems TableProofs InterpPdfProofs GridTheorems PackingTheorems PackedTheorems MomentTheorems MomentGrid.
Import ListNotations.
Local Open Scope list_scope.
Local Open Scope R_scope.

(** C48, partial: histograms on equal bins: moment(0) = 1, moment(1) = mean() = the integral of x f(x).  Missing: other bins
    (C48_hist_refuted) and the classes whose moments scipy integrates numerically (not modelled). *)
Theorem C48_hist_partial : forall bins rows h w, hist_input bins rows -> spaced w bins -> hist_ctor bins (nd2 (pred (length bins)) rows) true = Ok h ->
  exists f, evaluates (hist_ens_pdf h) (length rows) f /\
    forall r, (r < length rows)%nat -> nth0 r (hist_ens_moment h 0) = 1 /\ has_moment (f r) (nth0 0 bins) (nlast bins) 1 (nth0 r (hist_ens_moment h 1)) /\ has_moment (f r) (nth0 0 bins) (nlast bins) 1 (nth0 r (hist_ens_mean h)).
Proof. exact c48_hist. Qed.

(** C48, partial: piecewise-linear PDFs on an equally spaced grid that vanish at both ends; the variance is too small by w^2/6.  Missing:
    PDFs that do not vanish at the ends (C48_interp_refuted). *)
Theorem C48_interp_partial : forall xs rows i w, interp_input xs rows -> spaced w xs -> interp_ctor xs (nd2 (length xs) rows) true = Ok i ->
  exists f, evaluates (interp_ens_pdf i) (length rows) f /\
    forall r, (r < length rows)%nat -> f r (nth0 0 xs) = 0 -> f r (nlast xs) = 0 ->
      nth0 r (interp_ens_moment i 0) = 1 /\ nth0 r (interp_moment i 0) = 1 /\
      has_moment (f r) (nth0 0 xs) (nlast xs) 1 (nth0 r (interp_ens_moment i 1)) /\ has_moment (f r) (nth0 0 xs) (nlast xs) 1 (nth0 r (interp_ens_mean i)) /\
      has_variance (f r) (nth0 0 xs) (nlast xs) (nth0 r (interp_ens_var i) + w * w / 6).
Proof. exact c48_interp. Qed.

(** C48 is false: the histogram with bins 0, 1, 3 and equal heights has mean 3/2, moment(1) gives 5/6. *)
Theorem C48_hist_refuted : exists bins rows h f v, hist_input bins rows /\ sound_bins bins /\ hist_ctor bins (nd2 (pred (length bins)) rows) true = Ok h /\
  evaluates (hist_ens_pdf h) (length rows) f /\ has_moment (f 0%nat) (nth0 0 bins) (nlast bins) 1 v /\ nth0 0 (hist_ens_moment h 1) = 5 / 6 /\ v = 3 / 2.
Proof. exact c48_refuted_hist. Qed.

(** C48 is false: the PDF 1 on [0,1] has mean 1/2, moment(1) gives 1, custom_generic_moment(0) gives 2. *)
Theorem C48_interp_refuted : exists xs rows i f v, interp_input xs rows /\ spaced 1 xs /\ interp_ctor xs (nd2 (length xs) rows) true = Ok i /\
  evaluates (interp_ens_pdf i) (length rows) f /\ has_moment (f 0%nat) (nth0 0 xs) (nlast xs) 1 v /\ nth0 0 (interp_moment i 0) = 2 /\ nth0 0 (interp_ens_moment i 1) = 1 /\ v = 1 / 2.
Proof. exact c48_refuted_interp. Qed.

(** C48 is false for the sums over a grid: a PDF uniform on [0,1], limits 0 and 3/2: calculate_moment gives 3/2 for order 0,
    moment_partial half of that. *)
Theorem C48_grid_refuted : exists X p f lo hi dx n r v, fill_outside X /\ has_density X p 3 f /\ metric_grid lo hi dx n r /\ lo <= 0 /\ 1 <= hi /\ (forall x, 0 <= x < 1 -> f 2%nat x = 1) /\
  calculate_moment p 0 lo hi dx = Ok v /\ nth 2 v 0 = 3 / 2 /\ fst (moment_partial p 0 lo hi dx) = Ok (map (fun x => x / 2) v).
Proof. exact c48_refuted_grid. Qed.

(** (two histograms on three bins) *)
Example C48_hist_example : hist_input [0; 1; 2; 3] [[1; 4; 1]; [0; 5; 2]] /\ spaced 1 [0; 1; 2; 3].
Proof. exact c48_hist_example. Qed.

(** (two PDFs on four points) *)
Example C48_interp_example : interp_input [-1; 0; 1; 2] [[0; 4; 1; 0]; [0; 5; 2; 0]] /\ spaced 1 [-1; 0; 1; 2].
Proof. exact c48_interp_example. Qed.

(** C104: histograms on equal bins of width w: orders 0 and 1 are exact, order 2 and var() are too small by exactly w^2/12. *)
Theorem C104_hist : forall bins rows h w, hist_input bins rows -> spaced w bins ->
  hist_ctor bins (nd2 (pred (length bins)) rows) true = Ok h ->
  exists f, evaluates (hist_ens_pdf h) (length rows) f /\
    forall r, (r < length rows)%nat ->
      nth0 r (hist_ens_moment h 0) = 1 /\ nth0 r (hist_moment h 0) = 1 /\
      nth0 r (hist_ens_mean h) = nth0 r (hist_ens_moment h 1) /\
      has_moment (f r) (nth0 0 bins) (nlast bins) 1 (nth0 r (hist_ens_moment h 1)) /\
      has_moment (f r) (nth0 0 bins) (nlast bins) 2 (nth0 r (hist_ens_moment h 2) + w * w / 12) /\
      has_variance (f r) (nth0 0 bins) (nlast bins) (nth0 r (hist_ens_var h) + w * w / 12).
Proof. exact c104_hist. Qed.

(** C104: on any bins moment(k) is the sum of midpoint^k times height, times the width of the first bin. *)
Theorem C104_hist_formula : forall bins rows h k r, hist_input bins rows -> hist_ctor bins (nd2 (pred (length bins)) rows) true = Ok h -> (r < length rows)%nat -> (1 <= k)%nat ->
  nth0 r (hist_ens_moment h k) = rsum (pred (length bins)) (fun i => ((nth0 i bins + nth0 (S i) bins) / 2) ^ k * at2 (h_pdfs h) r i) * (nth0 1 bins - nth0 0 bins).
Proof. exact c104_hist_formula. Qed.

(** C104: piecewise-linear PDFs on a grid of step w: orders 1 and 2 differ from the true moments exactly by these terms of the two
    ends, order 2 also by w^2/6. *)
Theorem C104_interp : forall xs rows i w, interp_input xs rows -> spaced w xs -> interp_ctor xs (nd2 (length xs) rows) true = Ok i ->
  exists f, evaluates (interp_ens_pdf i) (length rows) f /\
    forall r, (r < length rows)%nat -> let a := nth0 0 xs in let b := nlast xs in
      nth0 r (interp_ens_moment i 0) = 1 /\
      nth0 r (interp_moment i 0) = 1 + w * (f r a + f r b) / 2 /\
      nth0 r (interp_ens_mean i) = nth0 r (interp_ens_moment i 1) /\
      has_moment (f r) a b 1 (nth0 r (interp_ens_moment i 1) - w * (a * f r a + b * f r b) / 2 - w * w * (f r b - f r a) / 6) /\
      has_moment (f r) a b 2 (nth0 r (interp_ens_moment i 2) + w * w / 6 - w * (a * a * f r a + b * b * f r b) / 2 - w * w * (b * f r b - a * f r a) / 3).
Proof. exact c104_interp. Qed.

(** C104: a packed ensemble has the moments of the interpolated ensemble of the unpacked values. *)
Theorem C104_packed : forall xs pk ms pt lf chk back k i, (forall row, In row pk -> length row = length xs) -> length ms = length pk -> length back = length pk ->
  unpack_array pow10R pt (Some lf) pk ms = Ok back ->
  packed_ctor pow10R xs (nd2 (length xs) pk) (column ms) pt lf chk = Ok k -> interp_ctor xs (nd2 (length xs) back) chk = Ok i ->
  (forall n, packed_ens_moment k n = interp_ens_moment i n) /\ packed_ens_mean k = interp_ens_mean i /\ packed_ens_var k = interp_ens_var i.
Proof. exact c104_packed. Qed.

(** C104: calculate_moment and moment_partial sum f(x) x^k over the same grid, multiplied by the spacing of the grid and by the requested
    spacing. *)
Theorem C104_grid : forall X p m f k lo hi dx n r, has_density X p m f -> metric_grid lo hi dx n r ->
  calculate_moment p k lo hi dx = Ok (map (fun j => rsum n (fun i => f j (gpoint lo r i) * gpoint lo r i ^ k) * r) (seq 0 m)) /\
  fst (moment_partial p k lo hi dx) = Ok (map (fun j => rsum n (fun i => f j (gpoint lo r i) * gpoint lo r i ^ k) * dx) (seq 0 m)).
Proof. exact c104_grid. Qed.

(** C104: so moment_partial is always smaller by the factor dx / r < 1. *)
Theorem C104_ratio : forall X p m f k lo hi dx n r v, has_density X p m f -> metric_grid lo hi dx n r ->
  calculate_moment p k lo hi dx = Ok v -> 0 < r /\ dx < r /\ fst (moment_partial p k lo hi dx) = Ok (map (fun x => x * (dx / r)) v).
Proof. exact c104_ratio. Qed.

(** (two histograms on three bins) *)
Example C104_hist_example : hist_input [0; 1; 2; 3] [[1; 4; 1]; [0; 5; 2]] /\ spaced 1 [0; 1; 2; 3].
Proof. exact c48_hist_example. Qed.

(** (two PDFs on four points) *)
Example C104_interp_example : interp_input [-1; 0; 1; 2] [[0; 4; 1; 0]; [0; 5; 2; 0]] /\ spaced 1 [-1; 0; 1; 2].
Proof. exact c48_interp_example. Qed.

(** (one packed PDF on three points) *)
Example C104_packed_example : exists xs pk ms pt lf back k i, (forall row, In row pk -> length row = length xs) /\ length ms = length pk /\ length back = length pk /\
  unpack_array pow10R pt (Some lf) pk ms = Ok back /\ packed_ctor pow10R xs (nd2 (length xs) pk) (column ms) pt lf true = Ok k /\ interp_ctor xs (nd2 (length xs) back) true = Ok i.
Proof. exact c104_packed_example. Qed.

(** (three histograms on two points) *)
Example C104_grid_example : exists X p f lo hi dx n r, has_density X p 3 f /\ metric_grid lo hi dx n r.
Proof. exact c104_grid_example. Qed.

Print Assumptions C48_hist_partial.
Print Assumptions C48_interp_partial.
Print Assumptions C48_hist_refuted.
Print Assumptions C48_interp_refuted.
Print Assumptions C48_grid_refuted.
Print Assumptions C104_hist.
Print Assumptions C104_hist_formula.
Print Assumptions C104_interp.
Print Assumptions C104_packed.
Print Assumptions C104_grid.
Print Assumptions C104_ratio.
