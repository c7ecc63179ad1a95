(** C166: what Ensemble.plot_native draws for irregular grids.  [on_drawing] (on the polyline through the points), [native_others] (keywords for matplotlib), [native_drawable], [fin_pair]: PlotNativeTheorems.v; the model: PlotIrr.v;
    [told], [lines_only]: PlottingTheorems.v; the canvas: Plotting.v; [irr_input]: IrrTheorems.v; [has_density]: MetricsProofs.v; [picks]: EnsembleTheorems.v. *)
From Coq Require Import String List Arith ZArith Bool Lia Reals Lra.
From Verif Require Import Num NumProofs Py NdArray NumpyLib Utils ScipyWrap Spec Values Ensemble Classes SortProofs InterpProofs IrrTheorems
  Kinds KindProofs EnsembleProofs KindInputs ReachProofs EnsembleTheorems ConvertTheorems MetricsProofs Plotting PlottingTheorems PlotNative PlotNativeTheorems PlotIrr PlotIrrTheorems.
Import ListNotations.
Local Open Scope string_scope.
Local Open Scope list_scope.
Local Open Scope R_scope.

(** C166: plot_native of an irregular grid makes new axes with one line through the density at the grid points of the selected PDF, and the line is the density: every point of the density over that grid lies on it, and the density is 0 elsewhere. *)
Theorem C166_native : forall X n xr yr e key p line_kw kw lo hi c, fill_outside X -> irr_input n xr yr -> ens_new (create_of (qp X) "interp_irregular") (input_dict (IIrr n xr yr)) None = Ok e -> picks (length xr) key [p] -> lines_only line_kw ->
  told kw "axes" PNone -> told kw "xlim" (PLim lo hi) -> native_drawable line_kw kw ->
  exists f pts, has_density X e (length xr) f /\
    irr_plot_native line_kw c (getitem (qp X) e key) kw = (c ++ [mkaxes (lo, hi) (PText "redshift") (PText "p(z)") [(map fin_pair pts, native_others kw)]], Ok (length c)) /\
    map fst pts = nth p xr [] /\ (forall x y, In (x, y) pts -> y = f p x) /\
    (forall x, nth0 0 (nth p xr []) <= x <= nlast (nth p xr []) -> on_drawing pts x (f p x)) /\ (forall x, x < nth0 0 (nth p xr []) \/ nlast (nth p xr []) < x -> f p x = 0).
Proof. exact c166_native. Qed.

(** C166: on axes given by the user the curve is added to what they show; no axes are made and no others are changed. *)
Theorem C166_axes : forall X n xr yr e key p line_kw kw j ax c, fill_outside X -> irr_input n xr yr -> ens_new (create_of (qp X) "interp_irregular") (input_dict (IIrr n xr yr)) None = Ok e -> picks (length xr) key [p] ->
  told kw "axes" (PAxes j) -> told kw "xlim" PNone -> nth_error c j = Some ax -> native_drawable line_kw kw ->
  exists f pts c', has_density X e (length xr) f /\ irr_plot_native line_kw c (getitem (qp X) e key) kw = (c', Ok j) /\ length c' = length c /\
    nth_error c' j = Some (mkaxes (a_lim ax) (a_xlabel ax) (a_ylabel ax) (a_lines ax ++ [(map fin_pair pts, native_others kw)])) /\ (forall k, k <> j -> nth_error c' k = nth_error c k) /\
    map fst pts = nth p xr [] /\ (forall x y, In (x, y) pts -> y = f p x) /\ (forall x, nth0 0 (nth p xr []) <= x <= nlast (nth p xr []) -> on_drawing pts x (f p x)).
Proof. exact c166_axes. Qed.

(** C166: npts, which plot accepts, makes plot_native fail and leaves empty axes. *)
Theorem C166_npts : forall X n xr yr e key p line_kw kw lo hi c v, fill_outside X -> irr_input n xr yr -> ens_new (create_of (qp X) "interp_irregular") (input_dict (IIrr n xr yr)) None = Ok e -> picks (length xr) key [p] -> line_kw "npts" = false ->
  told kw "axes" PNone -> told kw "xlim" (PLim lo hi) -> kget kw "npts" = Some v ->
  exists xlabel ylabel, irr_plot_native line_kw c (getitem (qp X) e key) kw = (c ++ [mkaxes (lo, hi) xlabel ylabel []], Err AttributeError).
Proof. exact c166_npts. Qed.

Example C166_example : exists X n xr yr e line_kw (kw kw' ka : kwargs R) lo hi (c : canvas R) ax, fill_outside X /\ irr_input n xr yr /\ ens_new (create_of (qp X) "interp_irregular") (input_dict (IIrr n xr yr)) None = Ok e /\ length xr = 2%nat /\ nth 1 xr [] = [1; 2; 5] /\
  picks (length xr) (KInt 1) [1%nat] /\ lines_only line_kw /\ line_kw "npts" = false /\ told kw "axes" PNone /\ told kw "xlim" (PLim lo hi) /\ native_drawable line_kw kw /\ native_others kw <> [] /\
  told kw' "axes" PNone /\ told kw' "xlim" (PLim lo hi) /\ kget kw' "npts" = Some (PCount 5) /\
  told ka "axes" (PAxes 0) /\ told ka "xlim" PNone /\ nth_error c 0 = Some ax /\ a_lines ax <> [] /\ native_drawable line_kw ka.
Proof. exact c166_example. Qed.

Print Assumptions C166_native.
Print Assumptions C166_axes.
Print Assumptions C166_npts.
