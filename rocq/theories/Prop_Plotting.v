(** C162: what Ensemble.plot draws.  [spot], [curve] (the points of the curve), [others] (keywords for matplotlib), [drawable], [lines_only], [told], [counted], [crossed]: PlottingTheorems.v;
    the canvas (all axes with their lines): Plotting.v; [has_density]: MetricsProofs.v; [picks]: EnsembleTheorems.v. *)
From Coq Require Import String List Arith ZArith Bool Lia Reals Lra.
From Verif Require Import Num NumProofs Py NdArray NumpyLib Utils ScipyWrap Spec Values Ensemble Classes SortProofs InterpProofs
  Kinds KindProofs EnsembleProofs KindInputs ReachProofs EnsembleTheorems MetricsProofs Plotting PlottingTheorems.
Import ListNotations.
Local Open Scope string_scope.
Local Open Scope list_scope.
Local Open Scope R_scope.

(** C162: with limits, plot makes new axes with these limits and draws one line: the density of the selected PDF at equally spaced points. *)
Theorem C162_new : forall X e m f key p s line_kw kw lo hi n c, fill_outside X -> has_density X e m f -> picks m key [p] -> has_ancil e s -> (is_int key = true -> anc_plain s) -> lines_only line_kw ->
  told kw "axes" PNone -> told kw "xlim" (PLim lo hi) -> lo < hi -> counted kw n -> (2 <= n)%nat -> drawable line_kw kw ->
  ens_plot line_kw c (getitem (qp X) e key) kw = (c ++ [mkaxes (lo, hi) (PText "redshift") (PText "p(z)") [(curve (f p) lo hi n, others kw)]], Ok (length c)).
Proof. exact c162_new. Qed.

(** C162: with axes, the line is added to these axes, between their limits, and nothing else changes. *)
Theorem C162_axes : forall X e m f key p s line_kw kw i ax lo hi n c, fill_outside X -> has_density X e m f -> picks m key [p] -> has_ancil e s -> (is_int key = true -> anc_plain s) ->
  told kw "axes" (PAxes i) -> told kw "xlim" PNone -> nth_error c i = Some ax -> a_lim ax = (lo, hi) -> lo < hi -> counted kw n -> (2 <= n)%nat -> drawable line_kw kw ->
  exists c', ens_plot line_kw c (getitem (qp X) e key) kw = (c', Ok i) /\ length c' = length c /\
    nth_error c' i = Some (mkaxes (lo, hi) (a_xlabel ax) (a_ylabel ax) (a_lines ax ++ [(curve (f p) lo hi n, others kw)])) /\ forall j, j <> i -> nth_error c' j = nth_error c j.
Proof. exact c162_axes. Qed.

(** C162: neither or both of limits and axes: ValueError, and nothing is drawn. *)
Theorem C162_refuses : forall line_kw kw c part, (told kw "axes" PNone /\ told kw "xlim" PNone) \/ (exists i, told kw "axes" (PAxes i)) /\ ~ told kw "xlim" PNone ->
  ens_plot line_kw c (Ok part) kw = (c, Err ValueError).
Proof. exact c162_refuses. Qed.

(** C162: several PDFs are not drawn: the call fails, leaving empty axes - or, with as many PDFs as points, joins values of different PDFs. *)
Theorem C162_several_refuted : forall X e m f key ps s line_kw kw lo hi n c, fill_outside X -> has_density X e m f -> picks m key ps -> (2 <= length ps)%nat -> has_ancil e s -> (is_int key = true -> anc_plain s) -> lines_only line_kw ->
  told kw "axes" PNone -> told kw "xlim" (PLim lo hi) -> lo < hi -> counted kw n -> (2 <= n)%nat -> drawable line_kw kw ->
  ens_plot line_kw c (getitem (qp X) e key) kw =
    if (length ps =? n)%nat then (c ++ [mkaxes (lo, hi) (PText "redshift") (PText "p(z)") (map (fun j => (crossed f ps lo hi n j, others kw)) (seq 0 n))], Ok (length c))
    else (c ++ [mkaxes (lo, hi) (PText "redshift") (PText "p(z)") []], Err ValueError).
Proof. exact c162_several. Qed.

(** C162: a label for the axes makes the call fail after the axes have been made. *)
Theorem C162_label_refuted : forall X e m f key p s line_kw kw lo hi n c v, fill_outside X -> has_density X e m f -> picks m key [p] -> has_ancil e s -> (is_int key = true -> anc_plain s) -> lines_only line_kw ->
  told kw "axes" PNone -> told kw "xlim" (PLim lo hi) -> lo < hi -> counted kw n -> (2 <= n)%nat -> kget kw "xlabel" = Some v ->
  exists ylabel, ens_plot line_kw c (getitem (qp X) e key) kw = (c ++ [mkaxes (lo, hi) v ylabel []], Err AttributeError).
Proof. exact c162_label. Qed.

Example C162_example : exists X e m f s line_kw (kw kw' kw'' : kwargs R) lo hi (c : canvas R) i ax, fill_outside X /\ has_density X e m f /\ m = 2%nat /\ has_ancil e s /\ anc_plain s /\ lines_only line_kw /\ lo < hi /\
  picks m (KInt 1) [1%nat] /\ picks m (KSlice 0 2) [0%nat; 1%nat] /\
  told kw "axes" PNone /\ told kw "xlim" (PLim lo hi) /\ counted kw 101 /\ drawable line_kw kw /\ others kw <> [] /\
  told kw' "axes" (PAxes i) /\ told kw' "xlim" PNone /\ nth_error c i = Some ax /\ a_lim ax = (lo, hi) /\ counted kw' 2 /\ drawable line_kw kw' /\
  told kw'' "axes" PNone /\ told kw'' "xlim" (PLim lo hi) /\ counted kw'' 2 /\ kget kw'' "xlabel" = Some (PText "z").
Proof. exact c162_example. Qed.

Print Assumptions C162_new.
Print Assumptions C162_axes.
Print Assumptions C162_refuses.
Print Assumptions C162_several_refuted.
Print Assumptions C162_label_refuted.
