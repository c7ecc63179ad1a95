(** Model of the [plot_native] methods of the classes with a common grid: interp_pdf.py 187-194, packed_interp_pdf.py 254-261, with ensemble.py 622-630. *)
From Coq Require Import String List Arith ZArith Bool.
From Verif Require Import Num Py NdArray NumpyLib Utils ScipyWrap Values Ensemble Plotting.
Import ListNotations.
Local Open Scope string_scope.

Section PlotNative.
  Context {T : Type} {N : Num T}.
  Variable line_kw : string -> bool.
  (** [pdf.dist.xvals]: the attribute is also what [metadata()] reports (interp_pdf.py 76, 94; packed_interp_pdf.py 93, 118, 146-148) *)
  Definition dist_xvals (e : ens T) : res (list T) := match vget (metadata e) "xvals" with Some (VArr a) => Ok (dat a) | _ => Err AttributeError end.
  (** interp_pdf.py 187-194 and packed_interp_pdf.py 254-261 [plot_native]; the selected ensemble is the result of [self[key]] (ensemble.py 622-630) *)
  Definition grid_plot_native (c : canvas T) (selected : res (ens T)) (kw : kwargs T) : canvas T * res nat :=
    match selected with
    | Err e => (c, Err e)
    | Ok e' =>
        let '(c', r) := get_axes_and_xlims c kw in                                  (* 193, 260 *)
        match r with
        | Err x => (c', Err x)
        | Ok (i, _, kw) => match dist_xvals e' with Err x => (c', Err x) | Ok xs => plot_pdf_on_axes line_kw c' i (ens_pdf e') xs kw end   (* 194, 261 *)
        end
    end.
End PlotNative.
