(** Model of qp/hist_pdf.py: piecewise-constant PDFs on common bins. *)
From Coq Require Import List Arith ZArith Bool.
From Verif Require Import Num Py NdArray NumpyLib Utils ScipyWrap.
Import ListNotations.

Section HistPdf.
  Context {T : Type} {N : Num T}.
  Local Open Scope num_scope.

  (** State of a [hist_gen] object: [_hbins], [_hpdfs] (one row per PDF) and the
      shape handed to the base class.  ([_hcdfs] is a cache of a function of
      these two, recomputed on demand: hist_pdf.py 113, 121.) *)
  Record hist := mkhist { h_bins : list T; h_pdfs : list (list T); h_shape : list nat }.

  (** hist_pdf.py 80-81, one row: [pdfs / sum(pdfs * widths)], the sum in numpy's order ([npsum]).
      A zero sum gives inf/NaN in numpy; the theorems assume it is not zero. *)
  Definition hist_norm_row (widths row : list T) : list T :=
    let s := npsum (map2 nmul row widths) in map (fun p => p / s) row.

  (** hist_pdf.py 53-88 [hist_gen.__init__] *)
  Definition hist_init (bins : list T) (pdfs : nd T) (check_input : bool) : res hist :=
    let nbins := pred (length bins) in                                  (* 66 *)
    let widths := bin_widths bins in                                    (* 67 *)
    if negb (Nat.eqb (last (shp pdfs) 0) nbins) then Err ValueError     (* 70-74 *)
    else
      let* p2 := reshape_to_pdf_size pdfs in                            (* 78 / 83 *)
      let rows := rows_of p2 in
      Ok (mkhist bins (if check_input then map (hist_norm_row widths) rows else rows)
                 (removelast (shp pdfs))).                              (* 86 *)

  (** hist_pdf.py 147-154 [_updated_ctor_param] and pdf_gen.py 227-236: freezing an
      object (scipy's [rv_frozen.__init__]) makes a new one from the stored arrays.
      [check_input] is not among them, so the new object is built with the default
      True; the frozen distribution keeps the shape of the original. *)
  Definition hist_freeze (h : hist) : res hist :=
    let* f := hist_init (h_bins h) (nd2 (pred (length (h_bins h))) (h_pdfs h)) true in
    Ok (mkhist (h_bins f) (h_pdfs f) (h_shape h)).
  (** The distribution behind an ensemble: pdf_gen.py [create], constructor and freezing;
      ensemble.py 36-37 keeps [frozen.dist]. *)
  Definition hist_ctor (bins : list T) (pdfs : nd T) (check_input : bool) : res hist :=
    let* h := hist_init bins pdfs check_input in hist_freeze h.

  Definition h_npdf (h : hist) : nat := length (h_pdfs h).
  Definition h_widths (h : hist) : list T := bin_widths (h_bins h).

  (** hist_pdf.py 90-95 [_compute_cdfs], one row *)
  Definition hist_cdf_row (widths row : list T) : list T :=
    n0 :: ncumsum (map2 nmul row widths).
  Definition h_cdfs (h : hist) : list (list T) := map (hist_cdf_row (h_widths h)) (h_pdfs h).

  (** hist_pdf.py 107-109 [_pdf] *)
  Definition hist_pdf (h : hist) (x : nd T) (row : nd nat) : res (list T) :=
    evaluate_hist_x_multi_y x row (h_bins h) (h_pdfs h).

  (** hist_pdf.py 111-117 [_cdf] *)
  Definition hist_cdf (h : hist) (x : nd T) (row : nd nat) : res (list T) :=
    interpolate_x_multi_y (fun xs ys => interp1d xs ys n0 n1)
                          (fun xs ys => interp1d_nd xs ys n0 n1) x row (h_bins h) (h_cdfs h).

  (** hist_pdf.py 119-130 [_ppf] *)
  Definition hist_ppf (h : hist) (x : nd T) (row : nd nat) : res (list T) :=
    interpolate_multi_x_y (fun xs ys => interp1d xs ys (nhead (h_bins h)) (nlast (h_bins h)))
                          x row (h_cdfs h) (h_bins h).

  (** hist_pdf.py 140-145 [custom_generic_moment] *)
  Definition hist_moment (h : hist) (m : nat) : list T :=
    let dx := nth0 1 (h_bins h) - nth0 0 (h_bins h) in
    let xv := edge_to_center (h_bins h) in
    map (fun row => nsum (map2 (fun x p => npow x m * p) xv row) * dx) (h_pdfs h).

  (** What a user of the ensemble sees: [ens.pdf(x)], [ens.cdf(x)], [ens.ppf(q)]. *)
  Definition hist_ens_pdf (h : hist) (x : points T) := rv_pdf (h_npdf h) (hist_pdf h) x.
  Definition hist_ens_cdf (h : hist) (x : points T) := rv_cdf (h_npdf h) (hist_cdf h) x.
  Definition hist_ens_ppf (h : hist) (q : points T) := rv_ppf (h_npdf h) (hist_ppf h) q.
End HistPdf.
Arguments hist : clear implicits.
