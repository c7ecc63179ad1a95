(** Model of the class methods [get_allocation_kwds]: the tables to set up before PDFs are written piece by piece. *)
From Coq Require Import String List Arith ZArith Bool.
From Verif Require Import Num Py NdArray Values.
Import ListNotations.
Local Open Scope string_scope.
Local Open Scope list_scope.

Section Alloc.
  Context {T : Type} {N : Num T}.
  (** a dtype written in the code, or the one of the array given *)
  Inductive dtype := Fixed (name : string) | OfArray.
  (** [np.shape] *)
  Definition np_shape (v : value T) : list nat :=
    match v with VArr a => shp a | VByt a => shp a | VTxt a => shp a | _ => [] end.
  (** [np.shape(v)[-1]] *)
  Definition last_axis (v : value T) : res nat :=
    match rev (np_shape v) with [] => Err IndexError | n :: _ => Ok n end.
  Definition required (d : vdict T) (key : string) (e : exn) : res (value T) :=
    match vget d key with Some v => Ok v | None => Err e end.
  Definition allocation := list (string * (list nat * dtype)).
  Definition get_allocation_kwds (cls : string) (npdf : nat) (d : vdict T) : res allocation :=
    if String.eqb cls "hist" then                                            (* hist_pdf.py 156-161 *)
      let* b := required d "bins" ValueError in
      match b with
      | VArr a => Ok [("pdfs", ([npdf; pred (length (dat a))], Fixed "f4"))]
      | VByt a => Ok [("pdfs", ([npdf; pred (length (dat a))], Fixed "f4"))]
      | VTxt a => Ok [("pdfs", ([npdf; pred (length (dat a))], Fixed "f4"))]
      | _ => Err AttributeError                                              (* no [flatten] *)
      end
    else if String.eqb cls "interp" then                                     (* interp_pdf.py 169-185 *)
      let* x := required d "xvals" ValueError in let* n := last_axis x in Ok [("yvals", ([npdf; n], Fixed "f4"))]
    else if String.eqb cls "interp_irregular" then                           (* interp_pdf.py 345-361 *)
      let* x := required d "xvals" ValueError in let* n := last_axis x in Ok [("xvals", ([npdf; n], Fixed "f4")); ("yvals", ([npdf; n], Fixed "f4"))]
    else if String.eqb cls "mixmod" then                                     (* mixmod_pdf.py 148-169 *)
      let* x := required d "means" ValueError in let* n := last_axis x in
      Ok [("means", ([npdf; n], Fixed "f4")); ("stds", ([npdf; n], Fixed "f4")); ("weights", ([npdf; n], Fixed "f4"))]
    else if String.eqb cls "quant" then                                      (* quant_pdf.py 253-264: the KeyError is not caught *)
      let* x := required d "quants" KeyError in let* n := last_axis x in Ok [("locs", ([npdf; n], Fixed "f4"))]
    else if String.eqb cls "packed_interp" then                              (* packed_interp_pdf.py 233-252 *)
      let* x := required d "xvals" ValueError in let* n := last_axis x in
      Ok [("ypacked", ([npdf; n], Fixed "u1")); ("ymax", ([npdf; 1], Fixed "f4"))]
    else if String.eqb cls "spline" then                                     (* spline_pdf.py 280-298: [npdf] is not used *)
      let* x := required d "splx" ValueError in
      match np_shape x with
      | [] => Err IndexError
      | n :: _ => Ok [("splx", (np_shape x, Fixed "f4")); ("sply", (np_shape x, Fixed "f4")); ("spln", ([n; 1], Fixed "i4"))]
      end
    else if String.eqb cls "sparse" then                                     (* sparse_pdf.py 76-81; SIMPLIFICATION: dims as integers *)
      let* x := required d "dims" ValueError in
      match x with
      | VByt a => match nth_error (dat a) 4 with Some n => Ok [("sparse_indices", ([npdf; Z.to_nat n], Fixed "i8"))] | None => Err IndexError end
      | _ => Err NotModelled
      end
    else if String.eqb cls "norm" then                                       (* pdf_gen.py 414-416, the classes of scipy *)
      mapM (fun kv => match snd kv with
                      | VArr _ | VByt _ | VTxt _ => Ok (fst kv, ([npdf; 1], OfArray))
                      | _ => Err AttributeError                              (* no [dtype] *)
                      end) d
    else Err NotImplementedError.                                            (* pdf_gen.py 151-156 *)
End Alloc.
Arguments allocation : clear implicits.
