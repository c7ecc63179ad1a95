(** C163: what Ensemble.plot_native draws for interp and packed_interp.  [has_grid], [on_drawing] (on the polyline through the points), [native_others] (keywords for matplotlib), [native_drawable], [fin_pair]: PlotNativeTheorems.v;
    [told], [lines_only]: PlottingTheorems.v; the canvas: Plotting.v; [input]: KindInputs.v; [has_density]: MetricsProofs.v; [picks]: EnsembleTheorems.v. *)
From Coq Require Import String List Arith ZArith Bool Lia Reals Lra.
From Verif Require Import Num NumProofs Py NdArray NumpyLib Utils ScipyWrap Spec Values Ensemble Classes SortProofs InterpProofs
  Kinds KindProofs EnsembleProofs KindInputs ReachProofs EnsembleTheorems ConvertTheorems MetricsProofs Plotting PlottingTheorems PlotNative PlotNativeTheorems.
Import ListNotations.
Local Open Scope string_scope.
Local Open Scope list_scope.
Local Open Scope R_scope.

(** C163: plot_native of a gridded ensemble makes new axes with one line through the density at the grid points, and the line is the density: every point of the density over the grid lies on it, and the density is 0 elsewhere. *)
Theorem C163_native : forall X i xs e key p line_kw kw lo hi c, fill_outside X -> KindInputs.input_ok i -> has_grid i xs -> ens_new (create_of (qp X) (input_name i)) (input_dict i) None = Ok e -> picks (input_npdf i) key [p] -> lines_only line_kw ->
  told kw "axes" PNone -> told kw "xlim" (PLim lo hi) -> native_drawable line_kw kw ->
  exists f pts, has_density X e (input_npdf i) f /\
    grid_plot_native line_kw c (getitem (qp X) e key) kw = (c ++ [mkaxes (lo, hi) (PText "redshift") (PText "p(z)") [(map fin_pair pts, native_others kw)]], Ok (length c)) /\
    map fst pts = xs /\ (forall x y, In (x, y) pts -> y = f p x) /\ (forall x, nth0 0 xs <= x <= nlast xs -> on_drawing pts x (f p x)) /\ (forall x, x < nth0 0 xs \/ nlast xs < x -> f p x = 0).
Proof. exact c163_native. Qed.

(** C163: with axes, the same line is added to these axes, whatever their limits, and nothing else changes. *)
Theorem C163_axes : forall X i xs e key p line_kw kw j ax c, fill_outside X -> KindInputs.input_ok i -> has_grid i xs -> ens_new (create_of (qp X) (input_name i)) (input_dict i) None = Ok e -> picks (input_npdf i) key [p] ->
  told kw "axes" (PAxes j) -> told kw "xlim" PNone -> nth_error c j = Some ax -> native_drawable line_kw kw ->
  exists f pts c', has_density X e (input_npdf i) f /\ grid_plot_native line_kw c (getitem (qp X) e key) kw = (c', Ok j) /\ length c' = length c /\
    nth_error c' j = Some (mkaxes (a_lim ax) (a_xlabel ax) (a_ylabel ax) (a_lines ax ++ [(map fin_pair pts, native_others kw)])) /\ (forall k, k <> j -> nth_error c' k = nth_error c k) /\
    map fst pts = xs /\ (forall x y, In (x, y) pts -> y = f p x) /\ (forall x, nth0 0 xs <= x <= nlast xs -> on_drawing pts x (f p x)).
Proof. exact c163_axes. Qed.

(** C163: a key that selects several PDFs, but not as many as there are grid points, is refused, after the axes have been made. *)
Theorem C163_several : forall X i xs e key ps line_kw kw lo hi c, fill_outside X -> KindInputs.input_ok i -> has_grid i xs -> ens_new (create_of (qp X) (input_name i)) (input_dict i) None = Ok e -> picks (input_npdf i) key ps -> (2 <= length ps)%nat -> length ps <> length xs ->
  told kw "axes" PNone -> told kw "xlim" (PLim lo hi) ->
  exists xlabel ylabel, grid_plot_native line_kw c (getitem (qp X) e key) kw = (c ++ [mkaxes (lo, hi) xlabel ylabel []], Err ValueError).
Proof. exact c163_several. Qed.

(** C163: npts, which plot accepts, makes plot_native fail and leaves empty axes. *)
Theorem C163_npts : forall X i xs e key p line_kw kw lo hi c v, fill_outside X -> KindInputs.input_ok i -> has_grid i xs -> ens_new (create_of (qp X) (input_name i)) (input_dict i) None = Ok e -> picks (input_npdf i) key [p] -> line_kw "npts" = false ->
  told kw "axes" PNone -> told kw "xlim" (PLim lo hi) -> kget kw "npts" = Some v ->
  exists xlabel ylabel, grid_plot_native line_kw c (getitem (qp X) e key) kw = (c ++ [mkaxes (lo, hi) xlabel ylabel []], Err AttributeError).
Proof. exact c163_npts. Qed.

Example C163_example : exists X i xs e line_kw (kw kw' ka : kwargs R) lo hi (c : canvas R) ax, fill_outside X /\ KindInputs.input_ok i /\ has_grid i xs /\ ens_new (create_of (qp X) (input_name i)) (input_dict i) None = Ok e /\ input_npdf i = 2%nat /\ xs = [0; 1; 3] /\
  picks (input_npdf i) (KInt 1) [1%nat] /\ lines_only line_kw /\ line_kw "npts" = false /\ told kw "axes" PNone /\ told kw "xlim" (PLim lo hi) /\ native_drawable line_kw kw /\ native_others kw <> [] /\
  told kw' "axes" PNone /\ told kw' "xlim" (PLim lo hi) /\ kget kw' "npts" = Some (PCount 5) /\
  told ka "axes" (PAxes 0) /\ told ka "xlim" PNone /\ nth_error c 0 = Some ax /\ native_drawable line_kw ka /\ picks (input_npdf i) (KSlice 0 2) [0%nat; 1%nat] /\ length xs = 3%nat.
Proof. exact c163_example. Qed.

Print Assumptions C163_native.
Print Assumptions C163_axes.
Print Assumptions C163_several.
Print Assumptions C163_npts.
