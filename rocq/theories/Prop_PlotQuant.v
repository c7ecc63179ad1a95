(** C165: what Ensemble.plot_native draws for quantiles.  [quant_keywords] (the user's keywords with defaults for label and colour), [marks_of]: PlotQuantTheorems.v; what is drawn (marks, curves, their keywords): PlotQuant.v;
    [curve], [counted], [told]: PlottingTheorems.v; the canvas: Plotting.v; [input]: KindInputs.v; [has_density]: MetricsProofs.v; [picks]: EnsembleTheorems.v. *)
From Coq Require Import String List Arith ZArith Bool Lia Reals Lra.
From Verif Require Import Num NumProofs Py NdArray NumpyLib Utils ScipyWrap Spec Values Ensemble Classes SortProofs InterpProofs
  Kinds KindProofs EnsembleProofs KindInputs ReachProofs EnsembleTheorems ConvertTheorems MetricsProofs Plotting PlottingTheorems PlotQuant PlotQuantTheorems.
Import ListNotations.
Local Open Scope string_scope.
Local Open Scope list_scope.
Local Open Scope R_scope.

(** C165: plot_native of a quantile ensemble makes new axes, marks the locations of the selected PDF and draws its density at equally spaced points. *)
Theorem C165_native : forall X quants rows name e key p mark_kw line_kw kw lo hi n c, fill_outside X -> KindInputs.input_ok (IQuant quants rows name) -> name = "piecewise_linear" \/ name = "piecewise_constant" ->
  ens_new (create_of (qp X) "quant") (input_dict (IQuant quants rows name)) None = Ok e -> picks (length rows) key [p] ->
  told kw "axes" PNone -> told kw "xlim" (PLim lo hi) -> lo < hi -> counted kw n -> (2 <= n)%nat -> (forall kv, In kv (quant_keywords kw) -> mark_kw (fst kv) = true /\ line_kw (fst kv) = true) ->
  exists f marks xlabel ylabel, has_density X e (length rows) f /\ marks_of (nth p rows []) marks /\
    quant_plot_native mark_kw line_kw c (getitem (qp X) e key) kw = (c ++ [mkaxes (lo, hi) xlabel ylabel []], Ok (length c, mkqdrawn marks (quant_keywords kw) [curve (f p) lo hi n] (quant_keywords kw))).
Proof. exact c165_native. Qed.

(** C165: on axes given by the user the same marks and curve are drawn, the curve over the limits of these axes; no axes are made. *)
Theorem C165_axes : forall X quants rows name e key p mark_kw line_kw kw j ax n c, fill_outside X -> KindInputs.input_ok (IQuant quants rows name) -> name = "piecewise_linear" \/ name = "piecewise_constant" ->
  ens_new (create_of (qp X) "quant") (input_dict (IQuant quants rows name)) None = Ok e -> picks (length rows) key [p] ->
  told kw "axes" (PAxes j) -> told kw "xlim" PNone -> nth_error c j = Some ax -> fst (a_lim ax) < snd (a_lim ax) -> counted kw n -> (2 <= n)%nat -> (forall kv, In kv (quant_keywords kw) -> mark_kw (fst kv) = true /\ line_kw (fst kv) = true) ->
  exists f marks, has_density X e (length rows) f /\ marks_of (nth p rows []) marks /\
    quant_plot_native mark_kw line_kw c (getitem (qp X) e key) kw = (c, Ok (j, mkqdrawn marks (quant_keywords kw) [curve (f p) (fst (a_lim ax)) (snd (a_lim ax)) n] (quant_keywords kw))).
Proof. exact c165_axes. Qed.

(** C165: without a label from the user, the curve is labelled 'Quantiles', like the marks. *)
Theorem C165_label : forall mark_kw line_kw c selected kw c' j d, kget kw "label" = None -> quant_plot_native (T := R) mark_kw line_kw c selected kw = (c', Ok (j, d)) -> kget (q_curves_kw d) "label" = Some (PText "Quantiles").
Proof. exact c165_label. Qed.

Example C165_example : exists X quants rows name e mark_kw line_kw (kw ka : kwargs R) lo hi n (c : canvas R) ax, fill_outside X /\ KindInputs.input_ok (IQuant quants rows name) /\ name = "piecewise_linear" /\ ens_new (create_of (qp X) "quant") (input_dict (IQuant quants rows name)) None = Ok e /\ length rows = 2%nat /\
  picks (length rows) (KInt 1) [1%nat] /\ told kw "axes" PNone /\ told kw "xlim" (PLim lo hi) /\ lo < hi /\ counted kw n /\ (2 <= n)%nat /\ (forall kv, In kv (quant_keywords kw) -> mark_kw (fst kv) = true /\ line_kw (fst kv) = true) /\ kget kw "label" = None /\
  told ka "axes" (PAxes 0) /\ told ka "xlim" PNone /\ nth_error c 0 = Some ax /\ fst (a_lim ax) < snd (a_lim ax) /\ counted ka n /\ (forall kv, In kv (quant_keywords ka) -> mark_kw (fst kv) = true /\ line_kw (fst kv) = true).
Proof. exact c165_example. Qed.

Print Assumptions C165_native.
Print Assumptions C165_axes.
Print Assumptions C165_label.
