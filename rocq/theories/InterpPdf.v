(** Model of qp/interp_pdf.py: piecewise-linear PDFs on a common grid
    ([interp_gen]) or on one grid per PDF ([interp_irregular_gen]). *)
From Coq Require Import List Arith ZArith Bool.
From Verif Require Import Num Py NdArray NumpyLib Utils ScipyWrap.
Import ListNotations.

Section InterpPdf.
  Context {T : Type} {N : Num T}.
  Local Open Scope num_scope.

  (** ** interp_gen *)

  (** interp_pdf.py 97-106 [_compute_ycumul], one row *)
  Definition trapezoids (xs ys : list T) : list T :=
    map2 nmul (map (fun d => d * nhalf) (ndiff xs)) (map2 nadd (tl ys) (removelast ys)).
  Definition ycumul_row (xs ys : list T) : list T :=
    (nhalf * nth0 0 ys * (nth0 1 xs - nth0 0 xs)) :: ncumsum (trapezoids xs ys).

  (** [_xvals], [_yvals], [_ycumul] and the shape. *)
  Record interp := mkinterp {
    i_xvals : list T; i_yvals : list (list T); i_cumul : list (list T); i_shape : list nat }.

  (** interp_pdf.py 60-95 [interp_gen.__init__].  With [check_input=False] the
      table [_ycumul] is computed on first use from the values as given. *)
  Definition interp_init (xs : list T) (ys : nd T) (check_input : bool) : res interp :=
    if negb (Nat.eqb (length xs) (last (shp ys) 0)) then Err ValueError     (* 71-75 *)
    else if Nat.eqb (length xs) 0 then Err IndexError                       (* 79: xvals[0] *)
    else
      let* y2 := reshape_to_pdf_size ys in                                  (* 83 *)
      let rows := rows_of y2 in
      let cumul := map (ycumul_row xs) rows in
      if check_input then                                                   (* 86-89 *)
        if Nat.eqb (length xs) 1 then Err IndexError                        (* 100: xvals[1] *)
        else Ok (mkinterp xs (map2 (fun r c => map (fun y => y / nlast c) r) rows cumul)
                     (map (fun c => map (fun v => v / nlast c) c) cumul) (removelast (shp ys)))
      else Ok (mkinterp xs rows cumul (removelast (shp ys))).               (* 90-91, 126 *)

  (** interp_pdf.py 160-167 [_updated_ctor_param] and pdf_gen.py 227-236: freezing
      builds a new object from the stored arrays, with the default [check_input=True]
      (see [hist_freeze]). *)
  Definition interp_freeze (i : interp) : res interp :=
    let* f := interp_init (i_xvals i) (nd2 (length (i_xvals i)) (i_yvals i)) true in
    Ok (mkinterp (i_xvals f) (i_yvals f) (i_cumul f) (i_shape i)).
  (** The distribution behind an ensemble: constructor and freezing *)
  Definition interp_ctor (xs : list T) (ys : nd T) (check_input : bool) : res interp :=
    let* i := interp_init xs ys check_input in interp_freeze i.

  Definition i_npdf (i : interp) : nat := length (i_yvals i).

  (** interp_pdf.py 118-122 [_pdf] *)
  Definition interp_pdf (i : interp) (x : nd T) (row : nd nat) : res (list T) :=
    interpolate_x_multi_y (fun xs ys => interp1d xs ys n0 n0)
                          (fun xs ys => interp1d_nd xs ys n0 n0) x row (i_xvals i) (i_yvals i).
  (** interp_pdf.py 124-130 [_cdf] *)
  Definition interp_cdf (i : interp) (x : nd T) (row : nd nat) : res (list T) :=
    interpolate_x_multi_y (fun xs ys => interp1d xs ys n0 n1)
                          (fun xs ys => interp1d_nd xs ys n0 n1) x row (i_xvals i) (i_cumul i).
  (** interp_pdf.py 132-144 [_ppf] *)
  Definition interp_ppf (i : interp) (x : nd T) (row : nd nat) : res (list T) :=
    interpolate_multi_x_y (fun xs ys => interp1d xs ys (nhead (i_xvals i)) (nlast (i_xvals i)))
                          x row (i_cumul i) (i_xvals i).
  (** interp_pdf.py 154-158 [custom_generic_moment] *)
  Definition interp_moment (i : interp) (m : nat) : list T :=
    let dx := nth0 1 (i_xvals i) - nth0 0 (i_xvals i) in
    map (fun row => nsum (map2 (fun x y => npow x m * y) (i_xvals i) row) * dx) (i_yvals i).

  Definition interp_ens_pdf i x := rv_pdf (i_npdf i) (interp_pdf i) x.
  Definition interp_ens_cdf i x := rv_cdf (i_npdf i) (interp_cdf i) x.
  Definition interp_ens_ppf i q := rv_ppf (i_npdf i) (interp_ppf i) q.

  (** ** interp_irregular_gen *)

  Record irregular := mkirr { r_xvals : list (list T); r_yvals : list (list T); r_shape : list nat }.

  (** interp_pdf.py 258-287 [interp_irregular_gen.__init__] *)
  Definition irr_init (xs ys : nd T) (check_input : bool) : res irregular :=
    if (if list_eq_dec Nat.eq_dec (shp xs) (shp ys) then false else true) then Err ValueError
    else
      let* x2 := reshape_to_pdf_size xs in
      let* y2 := reshape_to_pdf_size ys in
      let xr := rows_of x2 in let yr := rows_of y2 in
      Ok (mkirr xr (if check_input then map2 normalize_interp1d_row xr yr else yr)
                (removelast (shp xs))).

  (** interp_pdf.py 336-343 [_updated_ctor_param] and pdf_gen.py 227-236, as for
      [interp_freeze]; [k] is the length of the rows. *)
  Definition irr_freeze (k : nat) (i : irregular) : res irregular :=
    let* f := irr_init (nd2 k (r_xvals i)) (nd2 k (r_yvals i)) true in
    Ok (mkirr (r_xvals f) (r_yvals f) (r_shape i)).
  (** The distribution behind an ensemble: constructor and freezing *)
  Definition irr_ctor (xs ys : nd T) (check_input : bool) : res irregular :=
    let* i := irr_init xs ys check_input in irr_freeze (last (shp xs) 0) i.

  Definition r_npdf (i : irregular) : nat := length (r_yvals i).
  (** interp_pdf.py 289-297 [_compute_ycumul], one row *)
  Definition irr_cumul_row (xs ys : list T) : list T := n0 :: ncumsum (right_rect_terms xs ys).
  Definition r_cumul (i : irregular) : list (list T) := map2 irr_cumul_row (r_xvals i) (r_yvals i).
  (** interp_pdf.py 276-277: [np.min]/[np.max] of all the grids *)
  Definition r_xmin (i : irregular) : T :=
    let l := concat (r_xvals i) in nminimum (nhead l) (tl l).
  Definition r_xmax (i : irregular) : T :=
    let l := concat (r_xvals i) in nmaximum (nhead l) (tl l).

  (** interp_pdf.py 309-313 [_pdf] *)
  Definition irr_pdf (i : irregular) (x : nd T) (row : nd nat) : res (list T) :=
    interpolate_multi_x_multi_y (fun xs ys => interp1d xs ys n0 n0) x row (r_xvals i) (r_yvals i).
  (** interp_pdf.py 315-321 [_cdf] *)
  Definition irr_cdf (i : irregular) (x : nd T) (row : nd nat) : res (list T) :=
    interpolate_multi_x_multi_y (fun xs ys => interp1d xs ys n0 n1) x row (r_xvals i) (r_cumul i).
  (** interp_pdf.py 323-334 [_ppf] *)
  Definition irr_ppf (i : irregular) (x : nd T) (row : nd nat) : res (list T) :=
    interpolate_multi_x_multi_y (fun xs ys => interp1d xs ys (r_xmin i) (r_xmax i))
                                x row (r_cumul i) (r_xvals i).

  Definition irr_ens_pdf i x := rv_pdf (r_npdf i) (irr_pdf i) x.
  Definition irr_ens_cdf i x := rv_cdf (r_npdf i) (irr_cdf i) x.
  Definition irr_ens_ppf i q := rv_ppf (r_npdf i) (irr_ppf i) q.
End InterpPdf.
Arguments interp : clear implicits.
Arguments irregular : clear implicits.
