(** Model of qp/quant_pdf.py: PDFs given by quantiles. *)
From Coq Require Import String List Arith ZArith Bool.
From Verif Require Import Num Py NdArray NumpyLib Utils ScipyWrap.
Import ListNotations.

Section QuantPdf.
  Context {T : Type} {N : Num T}.
  Local Open Scope num_scope.

  (** [sys.float_info.epsilon] = 2^-52 *)
  Definition float_eps : T := nfrac 1 (2 ^ 52).

  Definition pad_lo (quants : list T) : bool := float_eps <? nhead quants.      (* 44 *)
  Definition pad_hi (quants : list T) : bool := nlast quants <? n1.             (* 51 *)
  Definition last2 (l : list T) : T := nth0 (pred (pred (length l))) l.         (* l[-2] *)

  (** quant_pdf.py 26-73 [pad_quantiles]: the quantiles, and one row of locations.
      [quants[1]], [locs[:, 1]], [locs[:, -2]] need two columns when padding: one column
      is broadcast by the assignment in 61 and then fails with IndexError, other wrong
      numbers of columns fail there with ValueError (see [quant_init]). *)
  Definition pad_quants (quants : list T) : list T :=
    (if pad_lo quants then [n0] else []) ++ quants ++ (if pad_hi quants then [n1] else []).
  Definition pad_locs (quants locs : list T) : list T :=
    (if pad_lo quants
     then [nth0 0 locs - nth0 0 quants * (nth0 1 locs - nth0 0 locs) / (nth0 1 quants - nth0 0 quants)]
     else []) ++
    locs ++
    (if pad_hi quants
     then [nlast locs - (n1 - nlast quants) * (last2 locs - nlast locs) / (nlast quants - last2 quants)]
     else []).

  Record quant := mkquant {
    q_quants : list T; q_locs : list (list T); q_xmin : T; q_xmax : T;
    q_ctor_name : string; q_check : bool; q_shape : list nat }.

  (** The keys of [PDF_CONSTRUCTORS], quant_pdf.py 77-82 *)
  Definition pdf_constructor_names : list string :=
    ["cdf_spline_derivative"; "dual_spline_average"; "piecewise_linear"; "piecewise_constant"]%string.

  (** quant_pdf.py 103-144 [quant_gen.__init__] *)
  Definition quant_init (quants : list T) (locs : nd T) (check_input : bool) (name : string) : res quant :=
    let xmin := nminimum (nhead (dat locs)) (tl (dat locs)) in              (* 115 *)
    let xmax := nmaximum (nhead (dat locs)) (tl (dat locs)) in              (* 116 *)
    let* l2 := reshape_to_pdf_size locs in                                  (* 118 *)
    let rows := rows_of l2 in
    if Nat.eqb (length (dat locs)) 0 then Err ValueError                    (* 115 *)
    else if check_input && (pad_lo quants || pad_hi quants)
         && (Nat.eqb (length quants) 0 || Nat.eqb (last (shp locs) 0) 1)
    then Err IndexError                                                     (* 44, 63-71 *)
    else if negb (Nat.eqb (last (shp locs) 0) (length quants)) then Err ValueError  (* 61 / 125 *)
    else if negb (existsb (String.eqb name) pdf_constructor_names) then Err KeyError (* 205 *)
    else Ok (mkquant (if check_input then pad_quants quants else quants)
                     (if check_input then map (pad_locs quants) rows else rows)
                     xmin xmax name check_input (removelast (shp locs))).

  (** quant_pdf.py 242-251 [_updated_ctor_param] and pdf_gen.py 227-236: freezing
      builds a new object from the stored arrays (see [hist_freeze]).  Here
      [check_input] is handed on; the new [_xmin], [_xmax] are those of the padded
      locations. *)
  Definition quant_freeze (q : quant) : res quant :=
    let* f := quant_init (q_quants q) (nd2 (length (q_quants q)) (q_locs q)) (q_check q) (q_ctor_name q) in
    Ok (mkquant (q_quants f) (q_locs f) (q_xmin f) (q_xmax f) (q_ctor_name f) (q_check f) (q_shape q)).
  (** The distribution behind an ensemble: constructor and freezing *)
  Definition quant_ctor (quants : list T) (locs : nd T) (check_input : bool) (name : string) : res quant :=
    let* q := quant_init quants locs check_input name in quant_freeze q.

  Definition q_npdf (q : quant) : nat := length (q_locs q).

  (** [interp1d(..., kind="quadratic", fill_value=(lo, hi))] is a parameter:
      [quad xs ys lo hi x].  scipy raises ValueError for fewer than three points. *)
  Section Methods.
    Variable quad : list T -> list T -> T -> T -> T -> T.
    (** quant_pdf.py 218-228 [_cdf] *)
    Definition quant_cdf (q : quant) (x : nd T) (row : nd nat) : res (list T) :=
      if (length (q_quants q) <? 3)%nat then Err ValueError else
      interpolate_multi_x_y (fun xs ys => quad xs ys n0 n1) x row (q_locs q) (q_quants q).
    (** quant_pdf.py 230-240 [_ppf] *)
    Definition quant_ppf (q : quant) (x : nd T) (row : nd nat) : res (list T) :=
      if (length (q_quants q) <? 3)%nat then Err ValueError else
      interpolate_x_multi_y (fun xs ys => quad xs ys (q_xmin q) (q_xmax q))
                            (fun xs ys => quad xs ys (q_xmin q) (q_xmax q))
                            x row (q_quants q) (q_locs q).
    Definition quant_ens_cdf q x := rv_cdf (q_npdf q) (quant_cdf q) x.
    Definition quant_ens_ppf q p := rv_ppf (q_npdf q) (quant_ppf q) p.
  End Methods.

  (** ** quantile_pdf_constructors: the [_pdf] method, quant_pdf.py 209-216 *)

  (** piecewise_linear.py 37-38: forward differences, one row *)
  Definition cdf_derivatives (quants locs : list T) : list T := map2 ndiv (ndiff quants) (ndiff locs).
  (** piecewise_linear.py 43: [locs[1:] - diff(locs) / 2] *)
  Definition adjusted_locations (locs : list T) : list T :=
    map2 (fun l d => l - d / nofZ 2) (tl locs) (ndiff locs).
  (** piecewise_linear.py 45-74 *)
  Definition piecewise_linear_pdf (q : quant) (x : nd T) (row : nd nat) : res (list T) :=
    interpolate_multi_x_multi_y (fun xs ys => interp1d xs ys n0 n0) x row
      (map adjusted_locations (q_locs q)) (map (cdf_derivatives (q_quants q)) (q_locs q)).

  (** piecewise_constant.py 38-43: a zero is appended to the first differences, and
      the "second derivatives" are the plain differences of those. *)
  Definition cdf_derivatives_0 (quants locs : list T) : list T := cdf_derivatives quants locs ++ [n0].
  Definition cdf_2nd_derivatives (quants locs : list T) : list T :=
    ndiff (cdf_derivatives_0 quants locs) ++ [n0].
  (** piecewise_constant.py 51-80 *)
  Definition piecewise_constant_pdf (q : quant) (x : nd T) (row : nd nat) : res (list T) :=
    evaluate_hist_multi_x_multi_y x row (map adjusted_locations (q_locs q))
      (map (cdf_derivatives_0 (q_quants q)) (q_locs q))
      (map (cdf_2nd_derivatives (q_quants q)) (q_locs q)).

  (** dual_spline_average.py 43-75 [prepare_constructor], one row *)
  Fixpoint p_of_zs_from (p : T) (first_term : list T) : list T :=
    match first_term with
    | [] => []
    | f :: t => let p' := nmax n0 (f - p) in p' :: p_of_zs_from p' t
    end.
  Definition p_of_zs (quants locs : list T) : list T :=
    n0 :: p_of_zs_from n0 (map2 (fun dq dl => nofZ 2 * dq / dl) (ndiff quants) (ndiff locs)).
  (** [l[0::2]] and [l[1::2]] *)
  Fixpoint evens {A} (l : list A) : list A :=
    match l with [] => [] | a :: t => a :: match t with [] => [] | _ :: u => evens u end end.
  Definition odds {A} (l : list A) : list A := evens (tl l).

  Section Splines.
    (** [interp1d(xs, ys, fill_value=0, kind="cubic")] (ValueError below four points), and
        [InterpolatedUnivariateSpline(xs, ys, k=3, ext=1).derivative()] (an exception of FITPACK
        below four points), are parameters. *)
    Variable cubic dspline : list T -> list T -> T -> T.
    (** dual_spline_average.py 77-137: one line of the result per DISTINCT row index, each
        over the whole list of points; [np.place] in scipy then reads the first values of the
        flattened result. *)
    Definition dual_spline_pdf (q : quant) (x : nd T) (row : nd nat) : res (list T) :=
      if (length (odds (q_quants q)) <? 4)%nat then Err ValueError else
      Ok (flat_map (fun r =>
            let l := nth r (q_locs q) [] in
            let p := p_of_zs (q_quants q) l in
            map (fun v => (cubic (evens l) (evens p) v + cubic (odds l) (odds p) v) / nofZ 2) (dat x))
          (np_unique_nat (dat row))).
    (** cdf_spline_derivative.py 34-89 *)
    Definition cdf_spline_pdf (q : quant) (x : nd T) (row : nd nat) : res (list T) :=
      if (length (q_quants q) <? 4)%nat then Err ValueError else
      Ok (flat_map (fun r => map (dspline (nth r (q_locs q) []) (q_quants q)) (dat x))
                   (np_unique_nat (dat row))).

    Definition quant_pdf (q : quant) : nd T -> nd nat -> res (list T) :=
      if String.eqb (q_ctor_name q) "cdf_spline_derivative" then cdf_spline_pdf q
      else if String.eqb (q_ctor_name q) "dual_spline_average" then dual_spline_pdf q
      else if String.eqb (q_ctor_name q) "piecewise_linear" then piecewise_linear_pdf q
      else piecewise_constant_pdf q.
    Definition quant_ens_pdf q x := rv_pdf (q_npdf q) (quant_pdf q) x.
  End Splines.

  (** quant_pdf.py 162-190, the [pdf_constructor_name] setter.  (The test
      [value is self._pdf_constructor_name] only affects whether equal work is redone.) *)
  Definition set_pdf_constructor (q : quant) (name : string) : res quant :=
    if negb (existsb (String.eqb name) pdf_constructor_names) then Err ValueError
    else Ok (mkquant (q_quants q) (q_locs q) (q_xmin q) (q_xmax q) name (q_check q) (q_shape q)).
End QuantPdf.
Arguments quant : clear implicits.

(** Concrete splines on the fewest points scipy accepts, where they are the interpolating
    polynomials: through three points (kind="quadratic") and four points (cubic). *)
Section Lagrange.
  Context {T : Type} {N : Num T}.
  Local Open Scope num_scope.
  (** Newton's divided differences; the polynomial through all points, evaluated at x. *)
  Fixpoint neville (n : nat) (xs ys : list T) (x : T) : T :=
    match n, xs, ys with
    | S m, x0 :: xt, y0 :: yt =>
        match yt with
        | [] => y0
        | _ => ((x - nth0 (length yt) xs) * neville m (removelast xs) (removelast ys) x
                - (x - x0) * neville m xt yt x) / (x0 - nth0 (length yt) xs)
        end
    | _, _, _ => n0
    end.
  Definition lagrange (xs ys : list T) (x : T) : T := neville (length xs) xs ys x.
  Definition lagrange_fill (xs ys : list T) (lo hi x : T) : T :=
    if x <? nhead xs then lo else if nlast xs <? x then hi else lagrange xs ys x.
End Lagrange.
