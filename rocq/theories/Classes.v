(** The [create] functions of qp's classes as functions of a keyword dictionary, and the
    class table of the factory. *)
From Coq Require Import String List Arith ZArith Bool.
From Verif Require Import Num Py NdArray NumpyLib Utils ScipyWrap Values Ensemble
  HistPdf InterpPdf QuantPdf MixmodPdf Packing PackedPdf SplinePdf Sparse.
Import ListNotations.
Local Open Scope string_scope.
Local Open Scope list_scope.

Section Classes.
  Context {T : Type} {N : Num T}.
  Local Open Scope num_scope.

  (** A call with keywords: unknown and missing keywords are TypeErrors.  SIMPLIFICATION: the
      few keywords of scipy's rv_continuous (name, xtol, ...) count as unknown. *)
  Definition known (names : list string) (d : vdict T) : bool :=
    forallb (fun k => existsb (String.eqb k) names) (keys d).
  Definition arg (d : vdict T) (k : string) : res (value T) :=
    match vget d k with Some v => Ok v | None => Err TypeError end.
  (** [kwargs.pop(k, default)] *)
  Definition opt_arg (d : vdict T) (k : string) (v : value T) : value T :=
    match vget d k with Some w => w | None => v end.
  (** A grid argument.  SIMPLIFICATION: it must be a 1-d array of numbers. *)
  Definition as_grid (v : value T) : res (list T) :=
    match v with
    | VArr a => if (length (shp a) =? 1)%nat then Ok (dat a) else Err ValueError
    | _ => Err TypeError
    end.
  Definition as_numbers (v : value T) : res (nd T) :=
    match v with VArr a => Ok a | _ => Err AttributeError end.     (* [pdfs.reshape] *)
  Definition as_bytes (v : value T) : res (nd Z) :=
    match v with VByt a => Ok a | _ => Err AttributeError end.
  (** A scalar given as a Python number or as a 0-d array *)
  Definition as_scalar (v : value T) : res T :=
    match v with
    | VNum t => Ok t
    | VArr a => match dat a with [t] => Ok t | _ => Err ValueError end
    | _ => Err TypeError
    end.
  Definition as_bool (v : value T) : res bool := let* t := as_scalar v in Ok (negb (t =? n0)).
  Definition as_name (v : value T) : res string :=
    match v with
    | VStr s => Ok s
    | VTxt a => match dat a with [s] => Ok s | _ => Err KeyError end
    | _ => Err KeyError
    end.

  (** pdf_gen.py 55-63 [_addclassmetadata], [_addmetadata] *)
  Definition class_meta (name : string) : vdict T :=
    [("pdf_name", VTxt (nd1 [name])); ("pdf_version", VArr (nd1 [n0]))].
  Definition add_meta (k : string) (v : value T) : string * value T := (k, v_expand_first v).

  (** hist_pdf.py 53-88 *)
  Definition hist_obj (h : hist T) : gobj T :=
    mkgobj "hist" (class_meta "hist" ++ [add_meta "bins" (VArr (nd1 (h_bins h)))])
      [("pdfs", VArr (nd2 (pred (length (h_bins h))) (h_pdfs h)))]
      (h_shape h) (hist_ens_pdf h) (hist_ens_cdf h) (hist_ens_ppf h).
  Definition hist_create (d : vdict T) : res (gobj T) :=
    if negb (known ["bins"; "pdfs"; "check_input"] d) then Err TypeError else
    let* b := arg d "bins" in let* p := arg d "pdfs" in
    let* bins := as_grid b in let* pdfs := as_numbers p in
    let* chk := as_bool (opt_arg d "check_input" (VNum n1)) in
    let* h := hist_ctor bins pdfs chk in
    Ok (hist_obj h).

  (** interp_pdf.py 60-95 *)
  Definition interp_obj (i : interp T) : gobj T :=
    mkgobj "interp" (class_meta "interp" ++ [add_meta "xvals" (VArr (nd1 (i_xvals i)))])
      [("yvals", VArr (nd2 (length (i_xvals i)) (i_yvals i)))]
      (i_shape i) (interp_ens_pdf i) (interp_ens_cdf i) (interp_ens_ppf i).
  Definition interp_create (d : vdict T) : res (gobj T) :=
    if negb (known ["xvals"; "yvals"; "check_input"] d) then Err TypeError else
    let* x := arg d "xvals" in let* y := arg d "yvals" in
    let* xs := as_grid x in let* ys := as_numbers y in
    let* chk := as_bool (opt_arg d "check_input" (VNum n1)) in
    let* i := interp_ctor xs ys chk in
    Ok (interp_obj i).

  (** interp_pdf.py 258-287; both arrays are stored as (npdf, n) *)
  Definition row_width (a : nd T) : nat := last (shp a) 0%nat.
  Definition irr_obj (n : nat) (i : irregular T) : gobj T :=
    mkgobj "interp_irregular" (class_meta "interp_irregular")
      [("xvals", VArr (nd2 n (r_xvals i))); ("yvals", VArr (nd2 n (r_yvals i)))]
      (r_shape i) (irr_ens_pdf i) (irr_ens_cdf i) (irr_ens_ppf i).
  Definition irr_create (d : vdict T) : res (gobj T) :=
    if negb (known ["xvals"; "yvals"; "check_input"] d) then Err TypeError else
    let* x := arg d "xvals" in let* y := arg d "yvals" in
    let* xs := as_numbers x in let* ys := as_numbers y in
    if (length (dat xs) =? 0)%nat then Err ValueError else              (* np.min of nothing *)
    let* chk := as_bool (opt_arg d "check_input" (VNum n1)) in
    let* i := irr_ctor xs ys chk in
    Ok (irr_obj (row_width xs) i).

  (** mixmod_pdf.py 42-68 *)
  Definition mixmod_obj (phi Phi : T -> T) (n : nat) (m : mixmod T) : gobj T :=
    mkgobj "mixmod" (class_meta "mixmod")
      [("weights", VArr (nd2 n (m_weights m))); ("stds", VArr (nd2 n (m_stds m))); ("means", VArr (nd2 n (m_means m)))]
      (m_shape m) (mixmod_ens_pdf phi m) (mixmod_ens_cdf Phi m) (mixmod_ens_ppf Phi m).
  Definition mixmod_create (phi Phi : T -> T) (d : vdict T) : res (gobj T) :=
    if negb (known ["means"; "stds"; "weights"] d) then Err TypeError else
    let* a := arg d "means" in let* b := arg d "stds" in let* c := arg d "weights" in
    let* means := as_numbers a in let* stds := as_numbers b in let* weights := as_numbers c in
    let* m := mixmod_ctor means stds weights in
    Ok (mixmod_obj phi Phi (row_width means) m).

  (** quant_pdf.py 103-144 *)
  Definition of_bool (b : bool) : T := if b then n1 else n0.
  Definition quant_obj quad cubic dspline (q : quant T) : gobj T :=
    mkgobj "quant" (class_meta "quant" ++
        [add_meta "quants" (VArr (nd1 (q_quants q))); add_meta "pdf_constructor_name" (VStr (q_ctor_name q));
         add_meta "check_input" (VNum (of_bool (q_check q)))])
      [("locs", VArr (nd2 (length (q_quants q)) (q_locs q)))]
      (q_shape q) (quant_ens_pdf cubic dspline q) (quant_ens_cdf quad q) (quant_ens_ppf quad q).
  Definition quant_create quad cubic dspline (d : vdict T) : res (gobj T) :=
    if negb (known ["quants"; "locs"; "check_input"; "pdf_constructor_name"] d) then Err TypeError else
    let* a := arg d "quants" in let* b := arg d "locs" in
    let* quants := as_grid a in let* locs := as_numbers b in
    if (length (dat locs) =? 0)%nat then Err ValueError else            (* np.min of nothing *)
    let* chk := as_bool (opt_arg d "check_input" (VNum n1)) in
    let* name := as_name (opt_arg d "pdf_constructor_name" (VStr "piecewise_linear")) in
    let* q := quant_ctor quants locs chk name in
    Ok (quant_obj quad cubic dspline q).

  (** packed_interp_pdf.py 66-122; the packing type is stored as an integer *)
  Definition packing_of (t : T) : packing :=
    if t =? n0 then LinearFromRowmax else if t =? n1 then LogFromRowmax else OtherPacking.
  Definition of_packing (p : packing) : T :=
    match p with LinearFromRowmax => n0 | LogFromRowmax => n1 | OtherPacking => nofZ 2 end.
  Definition packed_obj (shape : list nat) (k : packed T) : gobj T :=
    let xs := i_xvals (k_table k) in
    mkgobj "packed_interp" (class_meta "packed_interp" ++
        [add_meta "xvals" (VArr (nd1 xs)); add_meta "packing_type" (VNum (of_packing (k_type k)));
         add_meta "log_floor" (VNum (k_floor k))])
      [("ypacked", VByt (nd2 (length xs) (k_packed k))); ("ymax", VArr (nd2 1 (map (fun m => [m]) (k_max k))))]
      shape (packed_ens_pdf k) (packed_ens_cdf k) (packed_ens_ppf k).
  Definition packed_create (pow10 : T -> T) (d : vdict T) : res (gobj T) :=
    if negb (known ["xvals"; "ypacked"; "ymax"; "packing_type"; "log_floor"; "check_input"] d) then Err TypeError else
    let* a := arg d "xvals" in let* b := arg d "ypacked" in let* c := arg d "ymax" in
    let* xs := as_grid a in let* yp := as_bytes b in let* ymax := as_numbers c in
    let* pt := as_scalar (opt_arg d "packing_type" (VNum n0)) in
    let* lf := as_scalar (opt_arg d "log_floor" (VNum (nofZ (-3)))) in
    let* chk := as_bool (opt_arg d "check_input" (VNum n1)) in
    let* k := packed_ctor pow10 xs yp ymax (packing_of pt) lf chk in
    Ok (packed_obj (removelast (shp yp)) k).

  (** spline_pdf.py 116-154; a missing [splx] is a ValueError (137), the others are [None] and have no shape *)
  Definition spline_obj (n w : nat) (s : spline T) : gobj T :=
    mkgobj "spline" (class_meta "spline")
      [("splx", VArr (nd2 n (sp_x s))); ("sply", VArr (nd2 n (sp_y s))); ("spln", VArr (nd2 w (sp_n s)))]
      (sp_shape s) (spline_ens_pdf s) (spline_ens_cdf s) (spline_ens_ppf s).
  Definition spline_create (d : vdict T) : res (gobj T) :=
    if negb (known ["splx"; "sply"; "spln"] d) then Err TypeError else
    match vget d "splx" with
    | None => Err ValueError
    | Some a =>
        match vget d "sply", vget d "spln" with
        | Some b, Some c =>
            let* x := as_numbers a in let* y := as_numbers b in let* n := as_numbers c in
            let* s := spline_ctor x y n in
            Ok (spline_obj (row_width x) (row_width n) s)
        | _, _ => Err AttributeError
        end
    end.

  (** sparse_pdf.py 34-61: the PDFs are interpolated; the stored data are the integers.  The basis is made first (42-43:
      dims, see sparse_rep.py 32-40, 61-63), then the integers are decoded (45): they must be a matrix with at least one line
      and one column (sparse_rep.py 170-174).
      SIMPLIFICATION: the keywords passed on to [interp_gen] are not modelled. *)
  Definition as_pair (v : value T) : res (T * T) := match v with VArr a => match dat a with [a; b] => Ok (a, b) | _ => Err NotModelled end | _ => Err NotModelled end.
  Definition sparse_obj (i : interp T) (xs : list T) (mu sig dims codes : value T) : gobj T :=
    mkgobj "sparse" (class_meta "sparse" ++ [add_meta "xvals" (VArr (nd1 xs)); add_meta "mu" mu; add_meta "sig" sig; add_meta "dims" dims])
      [("sparse_indices", codes)] (i_shape i) (interp_ens_pdf i) (interp_ens_cdf i) (interp_ens_ppf i).
  Definition sparse_create (voigt : T -> T -> T -> T) (sqrt : T -> T) (d : vdict T) : res (gobj T) :=
    let* x := arg d "xvals" in let* m := arg d "mu" in let* s := arg d "sig" in let* dm := arg d "dims" in let* c := arg d "sparse_indices" in
    if negb (known ["xvals"; "mu"; "sig"; "dims"; "sparse_indices"; "cut"] d) then Err NotModelled else
    let* cut := as_scalar (opt_arg d "cut" (VNum (nfrac 1 100000))) in
    let* xs := as_grid x in let* mu := as_pair m in let* sig := as_pair s in
    let* codes := as_bytes c in let* dims := as_bytes dm in
    match dat dims with
    | nmu :: nsig :: nv :: _ =>
        if (nmu <? 0)%Z || (nsig <? 0)%Z || (nv <? 0)%Z then Err ValueError else
        match shp codes with
        | [S _; S _] =>
            let* i := sparse_ctor voigt sqrt xs mu sig (Z.to_nat nmu) (Z.to_nat nsig) (Z.to_nat nv) cut (rows_of codes) in
            Ok (sparse_obj i xs m s dm c)
        | [_; _] | [_] => Err IndexError
        | _ => Err NotModelled
        end
    | _ => Err IndexError
    end.

  (** ** Classes wrapped from scipy (norm, ...), pdf_gen.py 159-182 and 386-423
      The distribution function of scipy is a parameter [f params x], with one number per
      keyword.  The number of PDFs is read off the shape of [np.array(list of keywords)]:
      keywords of different shapes are a ValueError; scalars and 1-d arrays count as ONE PDF. *)
  Definition wrap_shape (d : vdict T) : res (list nat) :=
    match d with
    | [] => Ok [1%nat]
    | (_, v) :: t =>
        if forallb (fun kv => if list_eq_dec Nat.eq_dec (v_shape (snd kv)) (v_shape v) then true else false) t
        then match v_shape v with [] => Ok [1%nat] | s => Ok (removelast s) end
        else Err ValueError
    end.
  (** keyword [k] of PDF [r]: entry [r] of a column, or the scalar; without the keyword scipy takes loc 0 and scale 1 *)
  Definition pick (r : nat) (l : list T) : T := match l with [t] => t | _ => nth0 r l end.
  Definition param (d : vdict T) (r : nat) (k : string) : T :=
    match vget d k with
    | Some (VNum t) => t
    | Some (VArr a) => pick r (dat a)
    | _ => if (k =? "scale")%string then n1 else n0
    end.
  (** [frozen.pdf(x)]: scipy works elementwise on the broadcast points and keywords.
      SIMPLIFICATION: only for keywords that are scalars or columns of shape (npdf, 1). *)
  Definition wrap_eval (f : (string -> T) -> T -> xnum T) (d : vdict T) (npdf : nat) (x : points T) : res (tbl T) :=
    let* (xs, rows) := broadcast_points npdf x in
    Ok (map2 (fun l r => map (f (param d r)) l) xs rows).
  Definition wrap_create (name : string) (params : list string) (pdf cdf ppf : (string -> T) -> T -> xnum T)
             (d : vdict T) : res (gobj T) :=
    if negb (known ("loc" :: "scale" :: params) d) then Err TypeError else
    let* s := wrap_shape d in
    Ok (mkgobj name (class_meta name) d s
          (wrap_eval pdf d (prod s)) (wrap_eval cdf d (prod s)) (wrap_eval ppf d (prod s))).
End Classes.

(** The factory of qp with the modelled classes; the external functions are parameters:
    the normal density and distribution function, scipy's splines, the power of 10, the Voigt profile and the square root. *)
Section Table.
  Context {T : Type} {N : Num T}.
  Variables (phi Phi : T -> T) (quad : list T -> list T -> T -> T -> T -> T)
            (cubic dspline : list T -> list T -> T -> T) (pow10 : T -> T)
            (voigt : T -> T -> T -> T) (sqrt : T -> T) (Phinv : T -> xnum T).
  (** scipy.stats.norm with [loc] and [scale]; scipy answers NaN unless the scale is positive *)
  Definition norm_pdf (p : string -> T) (x : T) : xnum T := if nltb n0 (p "scale") then Fin (ndiv (phi (ndiv (nsub x (p "loc")) (p "scale"))) (p "scale")) else NaN.
  Definition norm_cdf (p : string -> T) (x : T) : xnum T := if nltb n0 (p "scale") then Fin (Phi (ndiv (nsub x (p "loc")) (p "scale"))) else NaN.
  Definition norm_ppf (p : string -> T) (x : T) : xnum T :=
    if nltb n0 (p "scale") then match Phinv x with Fin z => Fin (nadd (p "loc") (nmul (p "scale") z)) | other => other end else NaN.
  Definition qp_classes (name : string) : option (vdict T -> res (gobj T)) :=
    if name =? "hist" then Some hist_create
    else if name =? "interp" then Some interp_create
    else if name =? "interp_irregular" then Some irr_create
    else if name =? "mixmod" then Some (mixmod_create phi Phi)
    else if name =? "quant" then Some (quant_create quad cubic dspline)
    else if name =? "packed_interp" then Some (packed_create pow10)
    else if name =? "spline" then Some spline_create
    else if name =? "sparse" then Some (sparse_create voigt sqrt)
    else if name =? "norm" then Some (wrap_create "norm" [] norm_pdf norm_cdf norm_ppf)
    else None.
End Table.
