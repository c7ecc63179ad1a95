(** Model of qp/packed_interp_pdf.py: piecewise-linear PDFs on a common grid whose
    values are stored as bytes. *)
From Coq Require Import List Arith ZArith Bool.
From Verif Require Import Num Py NdArray NumpyLib Utils ScipyWrap InterpPdf Packing.
Import ListNotations.

Section PackedPdf.
  Context {T : Type} {N : Num T}.
  Variables log10 pow10 : T -> T.
  Local Open Scope num_scope.

  (** The stored columns and metadata, and the tables [_yvals], [_ycumul] computed
      from them (kept here as an [interp], whose methods are the same code). *)
  Record packed := mkpacked {
    k_packed : list (list Z); k_max : list T; k_type : packing; k_floor : T; k_table : interp T }.

  (** packed_interp_pdf.py 66-143 [__init__], [_compute_ycumul], [_unpack]:
      unpack, then the very steps of interp_pdf.py 60-106 ([interp_init]).
      SIMPLIFICATION: [ymax] must be a column, one entry per PDF, as
      [pack_array] returns it; numpy would also broadcast a row of the length of
      the grid.  An unknown packing type raises ValueError (139). *)
  Definition packed_init (xs : list T) (yp : nd Z) (ymax : nd T) (pt : packing) (lf : T)
             (check_input : bool) : res packed :=
    if negb (Nat.eqb (length xs) (last (shp yp) 0)) then Err ValueError        (* 88-92 *)
    else
      let* m2 := reshape_to_pdf_size ymax in                                   (* 106 *)
      let* p2 := reshape_to_pdf_size yp in                                     (* 107 *)
      let rows := rows_of p2 in
      if negb (Nat.eqb (last (shp m2) 0) 1 && Nat.eqb (length (dat m2)) (length rows)) then Err ValueError
      else
        let* ys := unpack_array pow10 pt (Some lf) rows (dat m2) in            (* 137-143 *)
        let* t := interp_init xs (mknd (shp yp) (concat ys)) check_input in    (* 109-135 *)
        Ok (mkpacked rows (dat m2) pt lf t).

  (** packed_interp_pdf.py 221-231 [_updated_ctor_param] and pdf_gen.py 227-236:
      freezing builds a new object from the stored columns, with the default
      [check_input=True] (see [hist_freeze]). *)
  Definition packed_freeze (k : packed) : res packed :=
    let t := k_table k in
    let* f := packed_init (i_xvals t) (nd2 (length (i_xvals t)) (k_packed k)) (nd2 1 (map (fun m => [m]) (k_max k)))
                          (k_type k) (k_floor k) true in
    let g := k_table f in
    Ok (mkpacked (k_packed f) (k_max f) (k_type f) (k_floor f)
                 (mkinterp (i_xvals g) (i_yvals g) (i_cumul g) (i_shape t))).
  (** The distribution behind an ensemble: constructor and freezing *)
  Definition packed_ctor (xs : list T) (yp : nd Z) (ymax : nd T) (pt : packing) (lf : T)
             (check_input : bool) : res packed :=
    let* k := packed_init xs yp ymax pt lf check_input in packed_freeze k.

  Definition k_npdf (k : packed) : nat := i_npdf (k_table k).
  (** packed_interp_pdf.py 175-203: the same calls as interp_pdf.py 118-144 *)
  Definition packed_ens_pdf (k : packed) x := interp_ens_pdf (k_table k) x.
  Definition packed_ens_cdf (k : packed) x := interp_ens_cdf (k_table k) x.
  Definition packed_ens_ppf (k : packed) q := interp_ens_ppf (k_table k) q.
  (** packed_interp_pdf.py 213-219 *)
  Definition packed_moment (k : packed) (m : nat) : list T := interp_moment (k_table k) m.
End PackedPdf.
Arguments packed : clear implicits.
