(** C164: what Ensemble.plot_native draws for histograms.  [bar_area], [bar_keywords] (the user's keywords with defaults for colour and label): PlotHistTheorems.v; what is drawn (marks, bars as (left, right, height), keywords): PlotHist.v;
    [told]: PlottingTheorems.v; the canvas: Plotting.v; [hist_input]: HistTheorems.v; [sound_bins]: BinProofs.v; [has_density]: MetricsProofs.v; [picks]: EnsembleTheorems.v. *)
From Coq Require Import String List Arith ZArith Bool Lia Reals Lra.
From Verif Require Import Num NumProofs Py NdArray NumpyLib Utils ScipyWrap Spec Values Ensemble Classes SortProofs BinProofs InterpProofs HistTheorems
  Kinds KindProofs EnsembleProofs KindInputs ReachProofs EnsembleTheorems ConvertTheorems MetricsProofs Plotting PlottingTheorems PlotNative PlotNativeTheorems PlotHist PlotHistTheorems.
Import ListNotations.
Local Open Scope string_scope.
Local Open Scope list_scope.
Local Open Scope R_scope.

(** C164: plot_native of a histogram makes new axes, marks the bin edges and draws one bar per bin; the bars have area 1 and show the density of the selected PDF. *)
Theorem C164_native : forall X bins rows e key p bar_kw kw lo hi c, fill_outside X -> hist_input bins rows -> (3 <= length bins)%nat -> ens_new (create_of (qp X) "hist") (input_dict (IHist bins rows)) None = Ok e -> picks (length rows) key [p] ->
  told kw "axes" PNone -> told kw "xlim" (PLim lo hi) -> (forall kv, In kv (bar_keywords kw) -> bar_kw (fst kv) = true) ->
  exists f bars xlabel ylabel, has_density X e (length rows) f /\
    hist_plot_native bar_kw c (getitem (qp X) e key) kw = (c ++ [mkaxes (lo, hi) xlabel ylabel []], Ok (length c, mkdrawn bins bars (bar_keywords kw))) /\
    length bars = pred (length bins) /\ (forall j b, nth_error bars j = Some b -> fst (fst b) = nth0 j bins /\ snd (fst b) = nth0 (S j) bins) /\
    nsum (map bar_area bars) = 1 /\
    (sound_bins bins -> (forall b x, In b bars -> fst (fst b) < x < snd (fst b) -> f p x = snd b) /\ (forall x, x < nth0 0 bins \/ nlast bins < x -> f p x = 0)).
Proof. exact c164_native. Qed.

(** C164: on axes given by the user the same bars are drawn, no axes are made and none are changed otherwise. *)
Theorem C164_axes : forall X bins rows e key p bar_kw kw j ax c, fill_outside X -> hist_input bins rows -> (3 <= length bins)%nat -> ens_new (create_of (qp X) "hist") (input_dict (IHist bins rows)) None = Ok e -> picks (length rows) key [p] ->
  told kw "axes" (PAxes j) -> told kw "xlim" PNone -> nth_error c j = Some ax -> (forall kv, In kv (bar_keywords kw) -> bar_kw (fst kv) = true) ->
  exists f bars, has_density X e (length rows) f /\
    hist_plot_native bar_kw c (getitem (qp X) e key) kw = (c, Ok (j, mkdrawn bins bars (bar_keywords kw))) /\
    length bars = pred (length bins) /\ (forall j b, nth_error bars j = Some b -> fst (fst b) = nth0 j bins /\ snd (fst b) = nth0 (S j) bins) /\
    nsum (map bar_area bars) = 1 /\ (sound_bins bins -> forall b x, In b bars -> fst (fst b) < x < snd (fst b) -> f p x = snd b).
Proof. exact c164_axes. Qed.

(** C164: a key that selects several PDFs is refused, after the axes have been made. *)
Theorem C164_several : forall X bins rows e key ps bar_kw kw lo hi c, fill_outside X -> hist_input bins rows -> ens_new (create_of (qp X) "hist") (input_dict (IHist bins rows)) None = Ok e -> picks (length rows) key ps -> (2 <= length ps)%nat ->
  told kw "axes" PNone -> told kw "xlim" (PLim lo hi) ->
  exists xlabel ylabel, hist_plot_native bar_kw c (getitem (qp X) e key) kw = (c ++ [mkaxes (lo, hi) xlabel ylabel []], Err ValueError).
Proof. exact c164_several. Qed.

Example C164_example : exists X bins rows e bar_kw (kw ka : kwargs R) lo hi (c : canvas R) ax, fill_outside X /\ hist_input bins rows /\ sound_bins bins /\ (3 <= length bins)%nat /\ ens_new (create_of (qp X) "hist") (input_dict (IHist bins rows)) None = Ok e /\ length rows = 2%nat /\
  picks (length rows) (KInt 1) [1%nat] /\ picks (length rows) (KSlice 0 2) [0%nat; 1%nat] /\ told kw "axes" PNone /\ told kw "xlim" (PLim lo hi) /\ (forall kv, In kv (bar_keywords kw) -> bar_kw (fst kv) = true) /\ native_others kw <> [] /\ length (bar_keywords kw) = 2%nat /\
  told ka "axes" (PAxes 0) /\ told ka "xlim" PNone /\ nth_error c 0 = Some ax /\ (forall kv, In kv (bar_keywords ka) -> bar_kw (fst kv) = true).
Proof. exact c164_example. Qed.

Print Assumptions C164_native.
Print Assumptions C164_axes.
Print Assumptions C164_several.
