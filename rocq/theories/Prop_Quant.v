(** Quantile ensembles: C12 - C14, C63 - C66.  [quad], [cubic], [dspline] stand for
    scipy's splines; [interpolates] (QuantTheorems.v) is all that is assumed of [quad]. *)
From Coq Require Import String List Arith ZArith QArith Bool Sorted Lia Reals Lra.
From Verif Require Import Num NumProofs Py NdArray NumpyLib Utils ScipyWrap QuantPdf Spec
  InterpProofs BinProofs HistTheorems EvalTheorems QuantTheorems.
Import ListNotations.
Local Open Scope R_scope.

(** C12: the padded table is strictly increasing, starts within 2^-52 of 0, ends at 1,
    keeps every given pair, and padding it again changes nothing. *)
Theorem C12_quantile_padding : forall quants rows name, quant_input quants rows -> In name pdf_constructor_names ->
  exists q, quant_ctor quants (nd2 (length quants) rows) true name = Ok q /\
    increasing (q_quants q) /\
    0 <= nth0 0 (q_quants q) <= / 2 ^ 52 /\
    nlast (q_quants q) = 1 /\
    length (q_locs q) = length rows /\
    (length (q_quants q) <= length quants + 2)%nat /\
    (exists off, forall i, (i < length quants)%nat ->
       nth0 (off + i) (q_quants q) = nth0 i quants /\
       forall r, (r < length rows)%nat -> at2 (q_locs q) r (off + i) = at2 rows r i) /\
    (forall r, (r < length rows)%nat ->
       length (nth r (q_locs q) []) = length (q_quants q) /\ increasing (nth r (q_locs q) [])) /\
    exists q', quant_ctor (q_quants q) (nd2 (length (q_quants q)) (q_locs q)) true name = Ok q' /\
       q_quants q' = q_quants q /\ q_locs q' = q_locs q.
Proof. exact c12. Qed.

Example C12_example : quant_input [1/4; 1/2; 3/4] [[0; 1; 3]; [-2; 5; 6]].
Proof. exact quant_input_example. Qed.

(** C13 for tables of at least three (padded) quantiles and quantiles inside (0,1). *)
Theorem C13_quantiles_partial : forall quad, interpolates quad ->
  forall quants rows name q, quant_input quants rows -> In name pdf_constructor_names ->
  quant_ctor quants (nd2 (length quants) rows) true name = Ok q -> (3 <= length (q_quants q))%nat ->
  exists F Q, evaluates (quant_ens_cdf quad q) (length rows) F /\
    evaluates_on 0 1 (quant_ens_ppf quad q) (length rows) Q /\
    forall r, (r < length rows)%nat ->
      (forall i, (i < length quants)%nat -> F r (at2 rows r i) = nth0 i quants) /\
      (forall i, (i < length quants)%nat -> 0 < nth0 i quants < 1 -> Q r (nth0 i quants) = at2 rows r i) /\
      (forall x, x < at2 (q_locs q) r 0 -> F r x = 0) /\
      (forall x, nlast (nth r (q_locs q) []) <= x -> F r x = 1).
Proof. exact c13. Qed.

(** The quantiles (0,1) alone give a table that cannot be evaluated. *)
Theorem C13_two_quantiles_refuted :
  exists (quants : list Q) (rows : list (list Q)) (q : quant Q),
    quant_ctor quants (nd2 2 rows) true "piecewise_linear" = Ok q /\
    forall quad x, quant_ens_cdf quad q (PScalar x) = Err ValueError.
Proof. exact c13_refuted_two. Qed.

(** ppf at the given quantiles 0 and 1 is infinite. *)
Theorem C13_end_quantiles_refuted :
  exists (quants : list Q) (rows : list (list Q)) (q : quant Q),
    quant_ctor quants (nd2 3 rows) true "piecewise_linear" = Ok q /\
    forall quad, quant_ens_ppf quad q (PGrid [0; 1]%Q) = Ok [[NInf; PInf]].
Proof. exact c13_refuted_ends. Qed.

(** The assumption on the spline can be met. *)
Example C13_oracle_example : interpolates interp1d.
Proof. exact interpolates_example. Qed.

(** C14 for the default constructor: non-negative, the difference quotient at the middle
    of each quantile interval, straight lines between them, 0 outside the first and last middle. *)
Theorem C14_piecewise_linear_partial : forall cubic dspline quants rows q, quant_input quants rows ->
  quant_ctor quants (nd2 (length quants) rows) true "piecewise_linear" = Ok q -> (3 <= length (q_quants q))%nat ->
  exists f, evaluates (quant_ens_pdf cubic dspline q) (length rows) f /\
    forall r, (r < length rows)%nat ->
      let l := nth r (q_locs q) [] in
      (forall x, 0 <= f r x) /\
      (forall j, (S j < length l)%nat -> f r (mid l j) = quotient (q_quants q) l j) /\
      (forall j x, (S (S j) < length l)%nat -> mid l j <= x <= mid l (S j) ->
         f r x * (mid l (S j) - mid l j) = f r (mid l j) * (mid l (S j) - x) + f r (mid l (S j)) * (x - mid l j)) /\
      (forall x, x < mid l 0 \/ mid l (length l - 2) < x -> f r x = 0).
Proof. exact c14_linear. Qed.

(** What the piecewise-constant constructor computes. *)
Theorem C14_piecewise_constant_value : forall cubic dspline quants rows q, quant_input quants rows ->
  quant_ctor quants (nd2 (length quants) rows) true "piecewise_constant" = Ok q ->
  exists f, evaluates (quant_ens_pdf cubic dspline q) (length rows) f /\
    forall r, (r < length rows)%nat ->
      let l := nth r (q_locs q) [] in
      sound_bins (adjusted_locations l) ->
      (forall j x, (S (S j) < length l)%nat -> mid l j < x < mid l (S j) ->
         f r x = quotient (q_quants q) l j + (x - mid l j) * (quotient (q_quants q) l (S j) - quotient (q_quants q) l j)) /\
      (forall x, (3 <= length l)%nat -> x < mid l 0 \/ mid l (length l - 2) < x -> f r x = 0).
Proof. exact c14_constant. Qed.

(** It is not constant between the points 1 and 6, and negative there. *)
Theorem C14_constant_refuted :
  exists (quants : list Q) (rows : list (list Q)) (q : quant Q),
    quant_ctor quants (nd2 4 rows) true "piecewise_constant" = Ok q /\
    forall cubic dspline, quant_ens_pdf cubic dspline q (PGrid [3 # 2; 7 # 2]%Q) =
       Ok [[Fin (1 # 8); Fin (- 7 # 40)]]%Q.
Proof. exact c14_refuted_constant. Qed.

(** The derivative of the cubic through four points can be negative. *)
Theorem C14_cdf_spline_refuted :
  exists (quants : list Q) (rows : list (list Q)) (q : quant Q),
    quant_ctor quants (nd2 4 rows) true "cdf_spline_derivative" = Ok q /\
    quant_ens_pdf lagrange dlagrange4 q (PScalar (5 # 1)%Q) = Ok [[Fin (- 13 # 120)]]%Q.
Proof. exact c14_refuted_cdf_spline. Qed.

(** So can the average of the two cubics. *)
Theorem C14_dual_spline_refuted :
  exists (quants : list Q) (rows : list (list Q)) (q : quant Q),
    quant_ctor quants (nd2 8 rows) true "dual_spline_average" = Ok q /\
    quant_ens_pdf (fun xs ys => lagrange_fill xs ys 0%Q 0%Q) dlagrange4 q (PScalar (5 # 1)%Q) = Ok [[Fin (- 9 # 64)]]%Q.
Proof. exact c14_refuted_dual_spline. Qed.

(** C63 *)
Theorem C63_quantile_pairs : forall quad, interpolates quad ->
  forall quants rows name q, quant_input quants rows -> In name pdf_constructor_names ->
  quant_ctor quants (nd2 (length quants) rows) true name = Ok q -> (3 <= length (q_quants q))%nat ->
  exists F Q, evaluates (quant_ens_cdf quad q) (length rows) F /\
    evaluates_on 0 1 (quant_ens_ppf quad q) (length rows) Q /\
    forall r, (r < length rows)%nat ->
      (forall i, (i < length quants)%nat -> F r (at2 rows r i) = nth0 i quants) /\
      (forall i, (i < length quants)%nat -> 0 < nth0 i quants < 1 -> Q r (nth0 i quants) = at2 rows r i) /\
      (forall x, x < at2 (q_locs q) r 0 -> F r x = 0) /\
      (forall x, nlast (nth r (q_locs q) []) <= x -> F r x = 1).
Proof. exact c13. Qed.

(** C64 at the given locations. *)
Theorem C64_quantile_cdf_partial : forall quad, interpolates quad ->
  forall quants rows name q, quant_input quants rows -> In name pdf_constructor_names ->
  quant_ctor quants (nd2 (length quants) rows) true name = Ok q -> (3 <= length (q_quants q))%nat ->
  exists F, evaluates (quant_ens_cdf quad q) (length rows) F /\
    forall r, (r < length rows)%nat ->
      (forall i j, (i < j < length quants)%nat -> F r (at2 rows r i) < F r (at2 rows r j)) /\
      (forall i, (i < length quants)%nat -> 0 <= F r (at2 rows r i) <= 1).
Proof. exact c64. Qed.

(** Between the locations 1/10 and 1 the cdf is 49/18 at 1/2. *)
Theorem C64_overshoot_refuted :
  exists (quants : list Q) (rows : list (list Q)) (q : quant Q),
    quant_ctor quants (nd2 3 rows) true "piecewise_linear" = Ok q /\
    quant_ens_cdf lagrange_fill q (PGrid [1 # 10; 1 # 2; 1]%Q) = Ok [[Fin (9 # 10); Fin (49 # 18); Fin 1]]%Q.
Proof. exact quant_cdf_overshoots. Qed.

(** C65 for cdf, ppf and the two piecewise constructors. *)
Theorem C65_own_table_partial : forall quad cubic dspline quants rows name q, quant_input quants rows ->
  name = "piecewise_linear"%string \/ name = "piecewise_constant"%string ->
  quant_ctor quants (nd2 (length quants) rows) true name = Ok q -> (3 <= length (q_quants q))%nat ->
  exists f F Q,
    (evaluates (quant_ens_pdf cubic dspline q) (length rows) f /\ evaluates (quant_ens_cdf quad q) (length rows) F /\
     evaluates_on 0 1 (quant_ens_ppf quad q) (length rows) Q) /\
    (faithful_on_grids (quant_ens_pdf cubic dspline q) (length rows) (fin f) /\
     faithful_on_matrices (quant_ens_pdf cubic dspline q) (length rows) (fin f)) /\
    (faithful_on_grids (quant_ens_cdf quad q) (length rows) (fin F) /\
     faithful_on_matrices (quant_ens_cdf quad q) (length rows) (fin F)) /\
    (ppf_on_grids (quant_ens_ppf quad q) (length rows) Q /\
     forall p, quant_ens_ppf quad q (PScalar p) = Ok (map (fun r => [with_ends Q r p]) (seq 0 (length rows)))).
Proof. exact quant_eval. Qed.

(** With the spline constructors every PDF of the ensemble gets the density of PDF 0. *)
Theorem C65_cdf_spline_first_pdf : forall cubic dspline quants rows q, quant_input quants rows ->
  quant_ctor quants (nd2 (length quants) rows) true "cdf_spline_derivative" = Ok q -> (4 <= length (q_quants q))%nat ->
  forall xs, xs <> [] -> quant_ens_pdf cubic dspline q (PGrid xs) =
    table (length rows) (fun _ x => Fin (dspline (nth 0 (q_locs q) []) (q_quants q) x)) xs.
Proof. exact c65_cdf_spline. Qed.

Theorem C65_dual_spline_first_pdf : forall cubic dspline quants rows q, quant_input quants rows ->
  quant_ctor quants (nd2 (length quants) rows) true "dual_spline_average" = Ok q -> (4 <= length (odds (q_quants q)))%nat ->
  forall xs, xs <> [] -> exists f, quant_ens_pdf cubic dspline q (PGrid xs) = table (length rows) (fun _ x => Fin (f x)) xs.
Proof. exact c65_dual_spline. Qed.

(** Two PDFs with locations (0,1,2,3) and (0,2,4,6): both are reported with density 1/3 at 2,
    the second one has 1/6. *)
Theorem C65_own_table_refuted :
  exists (quants : list Q) (rows : list (list Q)) (q : quant Q),
    quant_ctor quants (nd2 4 rows) true "cdf_spline_derivative" = Ok q /\
    quant_ens_pdf lagrange dlagrange4 q (PScalar (2 # 1)%Q) = Ok [[Fin (1 # 3)]; [Fin (1 # 3)]]%Q /\
    dlagrange4 (nth 1 (q_locs q) []) (q_quants q) 2%Q = (1 # 6)%Q.
Proof. exact c65_refuted. Qed.

(** C66 *)
Theorem C66_switch_constructor : forall quants rows name name' q, quant_input quants rows ->
  In name pdf_constructor_names -> In name' pdf_constructor_names ->
  quant_ctor quants (nd2 (length quants) rows) true name = Ok q ->
  set_pdf_constructor q name' = quant_ctor quants (nd2 (length quants) rows) true name'.
Proof. exact set_constructor_eq. Qed.

Theorem C66_unknown_constructor : forall (q : quant R) name, ~ In name pdf_constructor_names ->
  set_pdf_constructor q name = Err ValueError.
Proof. exact set_constructor_unknown. Qed.

Print Assumptions C12_quantile_padding.
Print Assumptions C13_quantiles_partial.
Print Assumptions C13_two_quantiles_refuted.
Print Assumptions C13_end_quantiles_refuted.
Print Assumptions C14_piecewise_linear_partial.
Print Assumptions C14_piecewise_constant_value.
Print Assumptions C14_constant_refuted.
Print Assumptions C14_cdf_spline_refuted.
Print Assumptions C14_dual_spline_refuted.
Print Assumptions C63_quantile_pairs.
Print Assumptions C64_quantile_cdf_partial.
Print Assumptions C64_overshoot_refuted.
Print Assumptions C65_own_table_partial.
Print Assumptions C65_cdf_spline_first_pdf.
Print Assumptions C65_dual_spline_first_pdf.
Print Assumptions C65_own_table_refuted.
Print Assumptions C66_switch_constructor.
Print Assumptions C66_unknown_constructor.
