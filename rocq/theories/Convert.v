(** Model of the conversion functions (qp/conversion_funcs.py, qp/packed_interp_pdf.py) and of
    the two entry points [Factory.convert] and [Ensemble.convert_to]. *)
From Coq Require Import String List Arith ZArith Bool.
From Verif Require Import Num Py NdArray NumpyLib ScipyWrap Values Ensemble Classes Packing Registry.
Import ListNotations.
Local Open Scope string_scope.
Local Open Scope list_scope.

Section Convert.
  Context {T : Type} {N : Num T}.

  (** ** Extraction functions: the ensemble and the keywords (without "method") *)
  Definition extractor := ens T -> vdict T -> res (vdict T).
  (** An array argument.  SIMPLIFICATION: 1-d arrays of numbers; anything else is outside the model. *)
  Definition grid_arg (kw : vdict T) (k : string) : res (list T) :=
    match vget kw k with
    | None | Some VNone => Err ValueError                              (* "you must specify ..." *)
    | Some (VArr a) => if (length (shp a) =? 1)%nat then Ok (dat a) else Err NotModelled
    | Some _ => Err NotModelled
    end.
  (** A table of results as an array of shape (shape of the ensemble, width).  The dictionaries
      of the model hold finite numbers only. *)
  Definition finite (x : xnum T) : res T := match x with Fin t => Ok t | _ => Err NotModelled end.
  Definition table_value (e : ens T) (width : nat) (t : tbl T) : res (value T) :=
    let* rows := mapM (mapM finite) t in
    Ok (VArr (mknd (g_shape (e_obj e) ++ [width]) (concat rows))).

  (** conversion_funcs.py 17-39 [extract_vals_at_x] *)
  Definition extract_vals_at_x : extractor := fun e kw =>
    let* xs := grid_arg kw "xvals" in
    let* t := ens_pdf e (PGrid xs) in
    let* ys := table_value e (length xs) t in
    Ok [("xvals", VArr (nd1 xs)); ("yvals", ys)].
  (** conversion_funcs.py 42-65 [extract_xy_vals]: the grid once per PDF *)
  Definition extract_xy_vals : extractor := fun e kw =>
    let* xs := grid_arg kw "xvals" in
    let* t := ens_pdf e (PGrid xs) in
    let* ys := table_value e (length xs) t in
    Ok [("xvals", VArr (mknd (g_shape (e_obj e) ++ [length xs]) (concat (map (fun _ => xs) t)))); ("yvals", ys)].
  (** conversion_funcs.py 91-113 [extract_hist_values] *)
  Definition extract_hist_values : extractor := fun e kw =>
    let* bins := grid_arg kw "bins" in
    let* t := histogramize e bins in
    let* ps := table_value e (pred (length bins)) t in
    Ok [("bins", VArr (nd1 bins)); ("pdfs", ps)].
  (** conversion_funcs.py 152-175 [extract_quantiles] *)
  Definition extract_quantiles : extractor := fun e kw =>
    let* quants := grid_arg kw "quants" in
    let* t := ens_ppf e (PGrid quants) in
    let* locs := table_value e (length quants) t in
    Ok [("quants", VArr (nd1 quants)); ("locs", locs)].
  (** packed_interp_pdf.py 15-44 [extract_and_pack_vals_at_x]; the remaining keywords are passed on.
      SIMPLIFICATION: the packing type is a number. *)
  Definition extract_and_pack (log10 pow10 : T -> T) : extractor := fun e kw =>
    match vget kw "packing_type" with
    | None => Err KeyError
    | Some p =>
        let* xs := grid_arg kw "xvals" in
        let* t := ens_pdf e (PGrid xs) in
        let* rows := mapM (mapM finite) t in
        let* pt := as_scalar p in
        let* lf := match vget kw "log_floor" with None => Ok None | Some v => let* f := as_scalar v in Ok (Some f) end in
        let* (packed, maxs) := pack_array log10 pow10 (packing_of pt) lf rows in
        Ok ([("xvals", VArr (nd1 xs)); ("ypacked", VByt (mknd (g_shape (e_obj e) ++ [length xs]) (concat packed)));
             ("ymax", VArr (mknd (g_shape (e_obj e) ++ [1%nat]) maxs)); ("packing_type", p)]
            ++ vremove (vremove kw "xvals") "packing_type")
    end.

  (** ** The two entry points *)
  (** Functions registered for creation and for extraction *)
  Inductive mfunc := CreateFun (f : vdict T -> res (gobj T)) | ExtractFun (f : extractor).
  Definition call_create (v : mfunc) (d : vdict T) : res (gobj T) := match v with CreateFun f => f d | ExtractFun _ => Err TypeError end.
  Definition call_extract (v : mfunc) (e : ens T) (kw : vdict T) : res (vdict T) := match v with ExtractFun f => f e kw | CreateFun _ => Err TypeError end.

  Variable H : hierarchy mfunc.
  (** [method = kwds.pop("method", None)]: a number is never the name of a method, so the lookup
      gives the default as for None; an array cannot be a dictionary key. *)
  Definition method_key (kw : vdict T) : res (option string) :=
    match vget kw "method" with
    | None | Some VNone | Some (VNum _) => Ok None
    | Some (VStr s) => Ok (Some s)
    | Some _ => Err TypeError
    end.
  (** factory.py 103-124 [create]: calling None is a TypeError *)
  Definition factory_create (w : world mfunc) (name : string) (data : vdict T) (m : option string) : res (ens T) :=
    match dget String.eqb (w_registry w) name with
    | None => Err KeyError
    | Some c =>
        match method_of H w Creation c m with
        | None => Err TypeError
        | Some f => ens_new (call_create f) data None
        end
    end.
  (** factory.py 272-301 [convert] *)
  Definition factory_convert (w : world mfunc) (e : ens T) (name : string) (kw : vdict T) : res (ens T) :=
    match dget String.eqb (w_registry w) name with
    | None => Err KeyError
    | Some c =>
        let* m := method_key kw in
        match method_of H w Extraction c m with
        | None => Err KeyError
        | Some x =>
            let* data := call_extract x e (vremove kw "method") in
            factory_create w name data m
        end
    end.
  (** ensemble.py 127-163 [convert_to] *)
  Definition convert_to (w : world mfunc) (e : ens T) (c : nat) (kw : vdict T) : res (ens T) :=
    let* m := method_key kw in
    match method_of H w Creation c m with
    | None => Err KeyError
    | Some f =>
        match method_of H w Extraction c m with
        | None => Err KeyError
        | Some x =>
            let* data := call_extract x e (vremove kw "method") in
            ens_new (call_create f) data None
        end
    end.
End Convert.

(** ** The registrations of qp's own classes *)
Section QpWorld.
  Context {T : Type} {N : Num T}.
  Variables (phi Phi : T -> T) (quad : list T -> list T -> T -> T -> T -> T)
            (cubic dspline : list T -> list T -> T -> T) (log10 pow10 : T -> T)
            (voigt : T -> T -> T -> T) (sqrt : T -> T) (Phinv : T -> xnum T).
  (** extraction functions that are not modelled: fits, random draws, sparse representations *)
  Variables (hist_samples mixmod_fit xy_sparse : extractor (T := T)).
  Notation create name := (CreateFun (create_of (qp_classes phi Phi quad cubic dspline pow10 voigt sqrt Phinv) name)).
  Notation ereg f m := (mkreg Extraction (ExtractFun f) m).
  Definition class_names : list string := ["hist"; "interp"; "interp_irregular"; "mixmod"; "quant"; "packed_interp"; "norm"].
  (** the classes are numbered 1, 2, ... in the order of [class_names] *)
  Definition qp_name (c : nat) : option string := match c with O => None | S i => nth_error class_names i end.
  (** hist_pdf.py 176-180, interp_pdf.py 199-202 and 376-380, mixmod_pdf.py 174-177,
      quant_pdf.py 284-287, packed_interp_pdf.py 266-269, pdf_gen.py 418-423 *)
  Definition qp_mappings (c : nat) : list (registration mfunc) :=
    match qp_name c with
    | None => []
    | Some n =>
        mkreg Creation (create n) None ::
        (if n =? "hist" then [ereg extract_hist_values None; ereg hist_samples (Some "samples")]
         else if n =? "interp" then [ereg extract_vals_at_x None]
         else if n =? "interp_irregular" then [ereg extract_xy_vals None; ereg xy_sparse None]
         else if n =? "mixmod" then [ereg mixmod_fit None]
         else if n =? "quant" then [ereg extract_quantiles None]
         else if n =? "packed_interp" then [ereg (extract_and_pack log10 pow10) None]
         else [])
    end.
  Definition qp_hierarchy : hierarchy mfunc := mkhier qp_name qp_mappings (fun _ => None) (fun c => [c; 0]).
  (** factory.py 26-75 and the [add_class] calls at the end of the modules: scipy's classes first *)
  Definition qp_world : world mfunc := acts qp_hierarchy (start mfunc) (map (AddClass (V := mfunc)) [7; 1; 2; 3; 4; 5; 6]).
End QpWorld.
