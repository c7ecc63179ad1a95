(** Model of the native plot of quantiles: quant_pdf.py 266-280, plotting.py 145-185, with ensemble.py 622-630.
    Trusted translation of matplotlib: [Axes.scatter(x, 0)] draws one mark per x; [Axes.plot] as in Plotting.v ([mpl_lines]); both check the keywords they get.
    SIMPLIFICATIONS: marks and curves are returned beside the axes and not stored in them; when the call fails the marks that have been drawn before are not reported. *)
From Coq Require Import String List Arith ZArith Bool.
From Verif Require Import Num Py NdArray NumpyLib Utils ScipyWrap Values Ensemble Plotting PlotHist.
Import ListNotations.
Local Open Scope string_scope.

Section PlotQuant.
  Context {T : Type} {N : Num T}.
  (** the keywords that [Axes.scatter] and [Axes.plot] know besides those given in plotting.py 175-184 *)
  Variables mark_kw line_kw : string -> bool.
  (** what is drawn: marks on the axis with their keywords, curves with theirs *)
  Record qdrawn := mkqdrawn { q_marks : list T; q_marks_kw : kwargs T; q_curves : list (list (xnum T * xnum T)); q_curves_kw : kwargs T }.
  (** plotting.py 145-185 [plot_pdf_quantiles_on_axes]; [t] is the table of values, one row per PDF *)
  Definition plot_pdf_quantiles_on_axes (xs : list T) (t : list (list (xnum T))) (locs : list T) (kw : kwargs T) : res qdrawn :=
    let kw := ksetdefault kw "label" (PText "Quantiles") in                         (* 173 *)
    let kw := ksetdefault kw "color" (PText "blueviolet") in                        (* 174 *)
    if negb (forallb (fun kv => mark_kw (fst kv)) kw) then Err AttributeError       (* 175-182 *)
    else
      let kw' := ksetdefault kw "label" (PText "Quantile Interpolated PDF") in      (* 183 *)
      let* ls := mpl_lines xs t in                                                  (* 184 *)
      if forallb (fun kv => line_kw (fst kv)) kw' then Ok (mkqdrawn locs kw ls kw') else Err AttributeError.
  (** [pdf.dist.locs[pdf.kwds["row"]]]: the locations of the selected PDFs *)
  Definition dist_locs (e : ens T) : res (list T) := match vget (objdata e) "locs" with Some (VArr a) => Ok (dat a) | _ => Err AttributeError end.
  (** quant_pdf.py 266-280 [plot_native]; the selected ensemble is the result of [self[key]] (ensemble.py 622-630) *)
  Definition quant_plot_native (c : canvas T) (selected : res (ens T)) (kw : kwargs T) : canvas T * res (nat * qdrawn) :=
    match selected with
    | Err e => (c, Err e)
    | Ok e' =>
        let '(c', r) := get_axes_and_xlims c kw in                                  (* 272 *)
        (c', let* s := r in let '(i, (lo, hi), kw) := s in
             match kpop kw "npts" (PCount 101) with                                 (* 273 *)
             | PCount n =>
                 let xs := np_linspace lo hi n in
                 let* locs := dist_locs e' in                                       (* 274 *)
                 let* t := ens_pdf e' (PGrid xs) in                                 (* 276 *)
                 let* d := plot_pdf_quantiles_on_axes xs t locs (kdel kw "npts") in Ok (i, d)   (* 277-279 *)
             | _ => Err TypeError
             end)
    end.
End PlotQuant.
