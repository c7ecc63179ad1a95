(** Model of the native plot of a histogram: hist_pdf.py 163-171, plotting.py 188-229, with ensemble.py 622-630.
    Trusted translation of matplotlib: [Axes.scatter(x, 0)] draws one mark per x; [Axes.hist(x, bins=, weights=)] draws one bar
    per bin, whose height is the sum of the weights of the x in the bin (as [np.histogram]), after checking that there is one
    weight for every x and that it knows the keywords.
    SIMPLIFICATIONS: marks and bars are returned beside the axes and not stored in them; when the call fails the marks that
    have been drawn before are not reported; a histogram with one bin, whose weights are squeezed to a number, is not modelled. *)
From Coq Require Import String List Arith ZArith Bool.
From Verif Require Import Num Py NdArray NumpyLib Utils ScipyWrap Values Ensemble Plotting.
Import ListNotations.
Local Open Scope string_scope.
Local Open Scope num_scope.

Section PlotHist.
  Context {T : Type} {N : Num T}.
  (** the keywords that [Axes.hist] knows besides those given in plotting.py 221-228 *)
  Variable bar_kw : string -> bool.
  (** what is drawn: marks on the axis, bars (left, right, height), the keywords of the bars *)
  Record drawn := mkdrawn { d_marks : list T; d_bars : list (T * T * T); d_kw : kwargs T }.
  (** [kwargs.setdefault(name, v)] *)
  Definition ksetdefault (kw : kwargs T) (name : string) (v : pval T) : kwargs T := match kget kw name with Some _ => kw | None => (kw ++ [(name, v)])%list end.
  (** [np.histogram(x, bins=edges, weights=w)[0]], with [in_bin] of NumpyLib *)
  Definition weighted_histogram (x w edges : list T) : list T :=
    map (fun i => nsum (map snd (filter (fun p => in_bin edges i (fst p)) (combine x w)))) (seq 0 (pred (length edges))).
  (** [Axes.hist]: the bars *)
  Definition mpl_hist (x w edges : list T) (kw : kwargs T) : res (list (T * T * T)) :=
    if negb (length x =? length w)%nat then Err ValueError
    else if forallb (fun kv => bar_kw (fst kv)) kw then Ok (combine (combine edges (tl edges)) (weighted_histogram x w edges))
    else Err AttributeError.
  (** plotting.py 219: (hist[0][0:-1] + hist[0][1:]) / 2.0 *)
  Definition bin_centers (edges : list T) : list T := map2 (fun a b => (a + b) / nofZ 2) (removelast edges) (tl edges).
  (** plotting.py 188-229 [plot_pdf_histogram_on_axes]; [w] are the squeezed weights *)
  Definition plot_pdf_histogram_on_axes (edges w : list T) (kw : kwargs T) : res drawn :=
    let kw := ksetdefault kw "color" (PText "darkorange") in                        (* 210 *)
    let kw := ksetdefault kw "label" (PText "Histogram Interpolated PDF") in        (* 220 *)
    let* bars := mpl_hist (bin_centers edges) w edges kw in                         (* 219, 221-228 *)
    Ok (mkdrawn edges bars kw).                                                     (* 211-218, 229 *)
  (** [pdf.dist.bins] and [pdf.dist.pdfs[pdf.kwds["row"]]], squeezed: with several PDFs the weights are a table, which [hist] refuses *)
  Definition dist_bins (e : ens T) : res (list T) := match vget (metadata e) "bins" with Some (VArr a) => Ok (dat a) | _ => Err AttributeError end.
  Definition dist_weights (e : ens T) : res (list T) :=
    match vget (objdata e) "pdfs" with
    | Some (VArr a) => match shp a with
                       | [1; 1]%nat => Err NotModelled
                       | [1; _]%nat => Ok (dat a)
                       | _ => Err ValueError
                       end
    | _ => Err AttributeError
    end.
  (** hist_pdf.py 163-171 [plot_native]; the selected ensemble is the result of [self[key]] (ensemble.py 622-630) *)
  Definition hist_plot_native (c : canvas T) (selected : res (ens T)) (kw : kwargs T) : canvas T * res (nat * drawn) :=
    match selected with
    | Err e => (c, Err e)
    | Ok e' =>
        let '(c', r) := get_axes_and_xlims c kw in                                  (* 169 *)
        (c', let* t := r in let '(i, _, kw) := t in
             let* w := dist_weights e' in                                           (* 170 *)
             let* bins := dist_bins e' in
             let* d := plot_pdf_histogram_on_axes bins w kw in Ok (i, d))           (* 171 *)
    end.
End PlotHist.
