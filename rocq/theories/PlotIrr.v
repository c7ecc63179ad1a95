(** Model of the native plot of irregular grids: interp_pdf.py 363-371, plotting.py 86-109, with ensemble.py 622-630.
    SIMPLIFICATION: only for one selected PDF; the lines matplotlib takes from a table of points of several PDFs are not modelled. *)
From Coq Require Import String List Arith ZArith Bool.
From Verif Require Import Num Py NdArray NumpyLib Utils ScipyWrap Values Ensemble Plotting.
Import ListNotations.
Local Open Scope string_scope.

Section PlotIrr.
  Context {T : Type} {N : Num T}.
  Variable line_kw : string -> bool.
  (** [pdf.dist.xvals]: the table of grid points, also what [objdata()] reports (interp_pdf.py 274, 286, 300-302) *)
  Definition dist_xrows (e : ens T) : res (list (list T)) :=
    match vget (objdata e) "xvals" with
    | Some (VArr a) => match shp a with [m; k] => Ok (chunks m k (dat a)) | _ => Err NotModelled end
    | _ => Err AttributeError
    end.
  (** interp_pdf.py 363-371 [plot_native]; the selected ensemble is the result of [self[key]] (ensemble.py 622-630) *)
  Definition irr_plot_native (c : canvas T) (selected : res (ens T)) (kw : kwargs T) : canvas T * res nat :=
    match selected with
    | Err e => (c, Err e)
    | Ok e' =>
        let '(c', r) := get_axes_and_xlims c kw in                                  (* 369 *)
        match r with
        | Err x => (c', Err x)
        | Ok (i, _, kw) =>
            match dist_xrows e' with                                                (* 370 *)
            | Err x => (c', Err x)
            | Ok [xs] =>                                                            (* 371, plotting.py 107-109 *)
                match ens_pdf e' (PMat [xs]) with
                | Err x => (c', Err x)
                | Ok t => let '(c'', s) := mpl_plot line_kw c' i xs t kw in (c'', let* _ := s in Ok i)
                end
            | Ok _ => (c', Err NotModelled)
            end
        end
    end.
End PlotIrr.
