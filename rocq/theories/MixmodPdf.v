(** Model of qp/mixmod_pdf.py: Gaussian mixtures. *)
From Coq Require Import List Arith ZArith Bool.
From Verif Require Import Num Py NdArray NumpyLib Utils ScipyWrap.
Import ListNotations.

Section MixmodPdf.
  Context {T : Type} {N : Num T}.
  Local Open Scope num_scope.

  Record mixmod := mkmixmod {
    m_means : list (list T); m_stds : list (list T); m_weights : list (list T); m_shape : list nat }.

  (** mixmod_pdf.py 42-68 [mixmod_gen.__init__].  SIMPLIFICATION: the three arrays
      have the same shape (a mismatch would only surface at evaluation time) and no
      row of weights sums to zero (which would give NaN weights). *)
  Definition mixmod_init (means stds weights : nd T) : res mixmod :=
    let* m2 := reshape_to_pdf_size means in                                   (* 57 *)
    let* s2 := reshape_to_pdf_size stds in                                    (* 58 *)
    let* w2 := reshape_to_pdf_size weights in                                 (* 59 *)
    if existsb (existsb (fun w => w <? n0)) (rows_of w2) then Err ValueError  (* 63-64 *)
    else Ok (mkmixmod (rows_of m2) (rows_of s2)
                      (map (fun r => map (fun w => w / npsum r) r) (rows_of w2))  (* 65 *)
                      (removelast (shp means))).                              (* 60 *)

  (** mixmod_pdf.py 138-146 [_updated_ctor_param] and pdf_gen.py 227-236: freezing
      builds a new object from the stored arrays (see [hist_freeze]); [k] is the
      number of components. *)
  Definition mixmod_freeze (k : nat) (m : mixmod) : res mixmod :=
    let* f := mixmod_init (nd2 k (m_means m)) (nd2 k (m_stds m)) (nd2 k (m_weights m)) in
    Ok (mkmixmod (m_means f) (m_stds f) (m_weights f) (m_shape m)).
  (** The distribution behind an ensemble: constructor and freezing *)
  Definition mixmod_ctor (means stds weights : nd T) : res mixmod :=
    let* m := mixmod_init means stds weights in mixmod_freeze (last (shp means) 0) m.

  Definition m_npdf (m : mixmod) : nat := length (m_means m).

  (** [sps.norm(loc, scale).pdf/.cdf] in terms of the standard normal density [phi]
      and distribution function [Phi], which are parameters. *)
  Section Methods.
    Variables phi Phi : T -> T.
    Definition comp_pdf (loc scale x : T) : T := phi ((x - loc) / scale) / scale.
    Definition comp_cdf (loc scale x : T) : T := Phi ((x - loc) / scale).
    (** The weighted sum over the components of PDF [r]. *)
    Definition mix_sum (f : T -> T -> T -> T) (m : mixmod) (x : T) (r : nat) : T :=
      nsum (map2 (fun w ls => w * f (fst ls) (snd ls) x) (nth r (m_weights m) [])
                 (combine (nth r (m_means m) []) (nth r (m_stds m) []))).

    (** mixmod_pdf.py 96-106 [_pdf] and 108-118 [_cdf], for one-dimensional [x] and
        [row] (all that scipy's pdf/cdf pass): elementwise in (x, row), with no case
        distinction. *)
    Definition mixmod_pdf (m : mixmod) (x : nd T) (row : nd nat) : res (list T) :=
      Ok (vectorize2 (mix_sum comp_pdf m) (dat x) (dat row)).
    Definition mixmod_cdf (m : mixmod) (x : nd T) (row : nd nat) : res (list T) :=
      Ok (vectorize2 (mix_sum comp_cdf m) (dat x) (dat row)).

    (** mixmod_pdf.py 122-124: range and grid shared by all PDFs *)
    Definition mixmod_lows (m : mixmod) : list T :=
      concat (map2 (map2 (fun mu s => mu - nofZ 6 * s)) (m_means m) (m_stds m)).
    Definition mixmod_highs (m : mixmod) : list T :=
      concat (map2 (map2 (fun mu s => mu + nofZ 6 * s)) (m_means m) (m_stds m)).
    Definition mixmod_min (m : mixmod) : T := nminimum (nhead (mixmod_lows m)) (tl (mixmod_lows m)).
    Definition mixmod_max (m : mixmod) : T := nmaximum (nhead (mixmod_highs m)) (tl (mixmod_highs m)).
    Definition mixmod_grid (m : mixmod) : list T := np_linspace (mixmod_min m) (mixmod_max m) 201.

    (** mixmod_pdf.py 120-136 [_ppf]: the table of cdf values has one line per entry
        of [rr] but is indexed by PDF number in [interpolate_multi_x_y]; a PDF number
        beyond the table raises IndexError. *)
    Definition mixmod_ppf (m : mixmod) (x : nd T) (row : nd nat) : res (list T) :=
      let grid := mixmod_grid m in
      let* (c, _, rr) := get_eval_case x row in                               (* 125 *)
      match c with
      | CASE_FACTOR | CASE_FLAT =>
          let cdf_vals := map (fun r => map (fun g => mix_sum comp_cdf m g r) grid) (dat rr) in
          if existsb (fun r => (length cdf_vals <=? r)%nat) (dat row) then Err IndexError
          else interpolate_multi_x_y
                 (fun xs ys => interp1d xs ys (mixmod_min m) (mixmod_max m)) x row cdf_vals grid
      | _ => Err ValueError                                                   (* 131 *)
      end.

    Definition mixmod_ens_pdf m x := rv_pdf (m_npdf m) (mixmod_pdf m) x.
    Definition mixmod_ens_cdf m x := rv_cdf (m_npdf m) (mixmod_cdf m) x.
    Definition mixmod_ens_ppf m p := rv_ppf (m_npdf m) (mixmod_ppf m) p.
  End Methods.
End MixmodPdf.
Arguments mixmod T : clear implicits.
