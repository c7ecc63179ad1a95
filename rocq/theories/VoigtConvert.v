(** The remaining extraction functions of conversion_funcs.py: [extract_voigt_mixmod] (245-264), [extract_voigt_xy] (267-286),
    [extract_voigt_xy_sparse] (289-317) and [extract_xy_sparse] (366-418). *)
From Coq Require Import String List Arith ZArith Bool.
From Verif Require Import Num Py NdArray NumpyLib ScipyWrap Values Ensemble Classes InterpPdf Convert SampleConvert Sparse SparseShapes SparseConvert.
Import ListNotations.
Local Open Scope string_scope.
Local Open Scope list_scope.

Section VoigtConvert.
  Context {T : Type} {N : Num T}.
  Local Open Scope num_scope.
  (** scipy's Voigt profile, the square root, and the solutions of linear systems (Sparse.v) *)
  Variables (voigt : T -> T -> T -> T) (sqrt : T -> T).
  Variable chol : list (list T) -> list T -> list T.
  Variable dependent : list (list T) -> list T -> bool.

  (** [np.zeros_like(v)] *)
  Definition zeros_like (v : value T) : value T :=
    match v with VArr a => VArr (mknd (shp a) (map (fun _ => n0) (dat a))) | _ => VNum n0 end.
  (** [dict(k1=v1, ..., **kw)]: a keyword of [kw] that is given again is a TypeError *)
  Definition dict_with (d kw : vdict T) : res (vdict T) :=
    if existsb (fun k => dmem String.eqb d k) (keys kw) then Err TypeError else Ok (d ++ kw).
  Definition item (d : vdict T) (k : string) : res (value T) := match vget d k with Some v => Ok v | None => Err KeyError end.
  (** conversion_funcs.py 259-264 *)
  Definition extract_voigt_mixmod : extractor (T := T) := fun e kw =>
    let* means := item (objdata e) "means" in
    let* stds := item (objdata e) "stds" in
    let* weights := item (objdata e) "weights" in
    dict_with [("means", means); ("stds", stds); ("weights", weights); ("gammas", zeros_like means)] kw.

  (** 303-314, 394-404: values on equally spaced points between the first grid point and the last one where some value is
      positive; [n] names the keyword with the number of points.  SIMPLIFICATIONS: as for [extract_sparse_from_xy]. *)
  Definition rebin (y x nt : value T) : res (list T * list (list T)) :=
    match y, x, nt with
    | VArr y, VArr xa, VNum nt =>
        if negb ((length (shp y) =? 2)%nat && (length (shp xa) =? 1)%nat && sorted_grid (dat xa) && (nofZ (nfloor nt) =? nt)) then Err NotModelled else
        match dat xa with
        | [] => Err ValueError
        | x0 :: t =>
            let x := x0 :: t in
            let js := positive_columns (rows_of y) in
            if existsb (fun j => (length x <=? j)%nat) js then Err IndexError else
            match map (fun j => nth0 j x) js with
            | [] => Err ValueError
            | p0 :: ps =>
                if (nfloor nt <? 0)%Z then Err ValueError else
                let newx := np_linspace (nminimum x0 t) (nmaximum p0 ps) (Z.to_nat (nfloor nt)) in
                if negb (length x =? last (shp y) O)%nat then Err ValueError else
                Ok (newx, map (fun row => map (interp1d x row n0 n0) newx) (rows_of y))
            end
        end
    | _, _, _ => Err NotModelled
    end.
  (** the first line of the grid in the metadata (305, 395) *)
  Definition own_points (e : ens T) : res (value T) :=
    match vget (metadata e) "xvals" with
    | Some (VArr a) => Ok (VArr (nd1 (nth 0 (rows_of a) [])))
    | Some _ => Err NotModelled | None => Err KeyError end.

  (** sparse_rep.py 217-295 [build_sparse_representation] with the defaults: the integers, the dictionary [bigD] and the basis *)
  Definition build_all_of (x : list T) (P : list (list T)) : res (list (list Z) * vdict T * list (list T)) :=
    let* p := basis_plan x None None None None in
    let '(mu, nmu, sig, nsig) := p in
    let A := create_voigt_basis voigt sqrt x mu nmu sig nsig 3 (nfrac 1 100000) in
    let* r := build_all sqrt chol dependent 20 (nfrac 1 10000000000) A P in
    Ok (map (pad 20) (fst r),
        [("xvals", VArr (nd1 x)); ("mu", VArr (nd1 [fst mu; snd mu])); ("sig", VArr (nd1 [fst sig; snd sig]));
         ("dims", VByt (nd1 (map Z.of_nat [nmu; nsig; 3%nat] ++ [32001%Z; 20%Z]))); ("Ntot", VNum (nofZ (Z.of_nat (length P))))],
        snd r).

  (** conversion_funcs.py 394-418 *)
  Definition extract_xy_sparse : extractor (T := T) := fun e kw =>
    let* y := item (objdata e) "yvals" in
    let* dx := own_points e in
    let* r := rebin y (keyword kw "xvals" dx) (keyword kw "nvals" (VNum (nofZ 300))) in
    let* s := build_all_of (fst r) (snd r) in                                                          (* 405 *)
    let '(lines, meta, A) := s in
    if (length lines =? 0)%nat then Err IndexError else                                                (* 407 *)
    let* ys := mapM (fun inds => let '(ix, vals) := decode_sparse inds in
                                 weighted_sum A (length (fst r)) ix vals) lines in                     (* 407-409, 412 *)
    let* x := item meta "z" in                                                                         (* 411 *)
    match x with
    | VArr x =>
        let ys := map (fun y => map (fun v => v / trapezoid (dat x) y) y) ys in                        (* 413-414 *)
        dict_with [("xvals", VArr x); ("yvals", VArr (nd2 (length (fst r)) ys))] (vremove (vremove kw "xvals") "nvals")
    | _ => Err NotModelled
    end.

  (** conversion_funcs.py 303-317; the answer is the pair of indices and metadata.  SIMPLIFICATION: a trapezoidal sum of 0 is not
      modelled. *)
  Definition extract_voigt_xy_sparse (e : ens T) (kw : vdict T) : res (list (list Z) * vdict T) :=
    let* y := item (objdata e) "yvals" in
    let* dx := own_points e in
    let* r := rebin y (keyword kw "xvals" dx) (keyword kw "nz" (VNum (nofZ 300))) in
    let newz := fst r in
    if existsb (fun row => trapezoid newz row =? n0) (snd r) then Err NotModelled else
    let newpdf := map (fun row => map (fun v => v / trapezoid newz row) row) (snd r) in                (* 315 *)
    let* s := build_all_of newz newpdf in
    Ok (fst (fst s), snd (fst s)).
  (** conversion_funcs.py 281-286, sparse_rep.py 178-214 *)
  Definition extract_voigt_xy : extractor (T := T) := fun e kw =>
    let* s := extract_voigt_xy_sparse e kw in
    let (lines, meta) := s in
    let* m := item meta "mu" in let* sg := item meta "sig" in let* dm := item meta "dims" in
    let* mu := as_pair m in let* sig := as_pair sg in let* dims := as_bytes dm in
    let* shapes := mapM (indices2shapes_meta (mkmeta [] false mu sig (dat dims))) lines in
    if (length lines =? 0)%nat then Err IndexError else
    let table (f : list T * list T * list T * list T -> list T) := VArr (nd2 20 (map f shapes)) in
    Ok [("means", table (fun s => snd (fst (fst s)))); ("stds", table (fun s => snd (fst s)));
        ("weights", table (fun s => fst (fst (fst s)))); ("gammas", table (fun s => snd s))].
End VoigtConvert.
