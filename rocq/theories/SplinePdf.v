(** Model of qp/spline_pdf.py: densities given as B-splines (knots, coefficients, order). *)
From Coq Require Import List Arith ZArith Bool.
From Verif Require Import Num Py NdArray NumpyLib Utils ScipyWrap.
Import ListNotations.

Section SplinePdf.
  Context {T : Type} {N : Num T}.
  Local Open Scope num_scope.

  (** ** scipy.interpolate.splev and splint (FITPACK), TRUSTED to be as written here *)
  (** fpbspl: the value at [x] of the B-spline number [m] of order [j], as the polynomial that it is on the knot interval
      number [l]; terms with equal knots are left out *)
  Fixpoint bspl (t : list T) (x : T) (l j m : nat) : T :=
    match j with
    | O => if (m =? l)%nat then n1 else n0
    | S i =>
        (if nth0 (m + j) t =? nth0 m t then n0 else bspl t x l i m / (nth0 (m + j) t - nth0 m t) * (x - nth0 m t)) +
        (if nth0 (m + j + 1) t =? nth0 (m + 1) t then n0
         else bspl t x l i (m + 1) / (nth0 (m + j + 1) t - nth0 (m + 1) t) * (nth0 (m + j + 1) t - x))
    end.
  (** the spline on the knot interval [l] *)
  Definition piece (t c : list T) (k l : nat) (x : T) : T :=
    nsum (map (fun i => nth0 (l - k + i) c * bspl t x l k (l - k + i)) (seq 0 (S k))).
  (** splev searches the interval from the first one of the base range upwards and never leaves the base range: outside of it the first
      and the last polynomial are continued *)
  Fixpoint find_span (t : list T) (x : T) (fuel l : nat) : nat :=
    match fuel with
    | O => l
    | S f => if x <? nth0 (S l) t then l else find_span t x f (S l)
    end.
  (** knot intervals k, ..., n - k - 2 make the base range *)
  Definition last_steps (t : list T) (k : nat) : nat := length t - k - 2 - k.
  Definition span (t : list T) (k : nat) (x : T) : nat := find_span t x (last_steps t k) k.
  Definition splev (t c : list T) (k : nat) (x : T) : T := piece t c k (span t k x) x.
  (** Boole's rule, exact for the polynomials of degree 5 or less *)
  Definition boole (f : T -> T) (a b : T) : T :=
    (b - a) / nofZ 90 * (nofZ 7 * f a + nofZ 32 * f ((nofZ 3 * a + b) / nofZ 4) + nofZ 12 * f ((a + b) / nofZ 2) +
                         nofZ 32 * f ((a + nofZ 3 * b) / nofZ 4) + nofZ 7 * f b).
  (** splint: the integral from [a] to [b] of the spline, taken as zero outside of the base range *)
  Definition splint (t c : list T) (k : nat) (a b : T) : T :=
    nsum (map (fun l => boole (piece t c k l) (nclip (nth0 l t) (nth0 (S l) t) a) (nclip (nth0 l t) (nth0 (S l) t) b)) (seq k (S (last_steps t k)))).

  (** ** The class *)
  Record spline := mkspline {
    sp_x : list (list T); sp_y : list (list T); sp_n : list (list T); sp_min : T; sp_shape : list nat }.
  (** spline_pdf.py 116-154 [spline_gen.__init__].  The shape of [spln] is not checked. *)
  Definition spline_init (splx sply spln : nd T) : res spline :=
    if negb (if list_eq_dec Nat.eq_dec (shp splx) (shp sply) then true else false) then Err ValueError       (* 139-142 *)
    else if (length (dat splx) =? 0)%nat then Err ValueError                 (* 145 np.min of nothing *)
    else
      let* x2 := reshape_to_pdf_size splx in                                 (* 148 *)
      let* y2 := reshape_to_pdf_size sply in                                 (* 149 *)
      let* n2 := reshape_to_pdf_size spln in                                 (* 150 *)
      Ok (mkspline (rows_of x2) (rows_of y2) (rows_of n2) (nminimum (nhead (dat splx)) (tl (dat splx))) (removelast (shp splx))).
  (** spline_pdf.py 270-278 [_updated_ctor_param] and pdf_gen.py 227-236: freezing builds a new object from the stored
      arrays (see [hist_freeze]); [k] and [w] are the lengths of their rows. *)
  Definition spline_freeze (k w : nat) (s : spline) : res spline :=
    let* f := spline_init (nd2 k (sp_x s)) (nd2 k (sp_y s)) (nd2 w (sp_n s)) in
    Ok (mkspline (sp_x f) (sp_y f) (sp_n f) (sp_min f) (sp_shape s)).
  (** The distribution behind an ensemble: constructor and freezing *)
  Definition spline_ctor (splx sply spln : nd T) : res spline :=
    let* s := spline_init splx sply spln in spline_freeze (last (shp splx) 0%nat) (last (shp spln) 0%nat) s.
  Definition sp_npdf (s : spline) : nat := length (sp_x s).
  (** 250, 263: [spln[irow].item()] of a row that is not one number is a ValueError, of a missing row an IndexError; splev refuses orders above 5.
      Every evaluation touches every PDF, so it is enough that one order is wrong.
      SIMPLIFICATION: splint has no such limit for the order. *)
  Definition order_of (s : spline) (r : nat) : nat := Z.to_nat (nfloor (nth0 0 (nth r (sp_n s) []))).
  Definition orders_ok (s : spline) : res unit :=
    if (length (sp_n s) <? sp_npdf s)%nat then Err IndexError
    else if forallb (fun l => match l with [k] => (n0 <=? k) && (k <=? nofZ 5) | _ => false end) (sp_n s) then Ok tt
    else Err ValueError.
  (** 246-255 [_pdf] *)
  Definition spline_pdf (s : spline) (x : nd T) (row : nd nat) : res (list T) :=
    let* _ := orders_ok s in
    Ok (vectorize2 (fun xv r => splev (nth r (sp_x s) []) (nth r (sp_y s) []) (order_of s r) xv) (dat x) (dat row)).
  (** 257-268 [_cdf]: from the smallest knot of all PDFs *)
  Definition spline_cdf (s : spline) (x : nd T) (row : nd nat) : res (list T) :=
    let* _ := orders_ok s in
    Ok (vectorize2 (fun xv r => splint (nth r (sp_x s) []) (nth r (sp_y s) []) (order_of s r) (sp_min s) xv) (dat x) (dat row)).
  Definition spline_ens_pdf s x := rv_pdf (sp_npdf s) (spline_pdf s) x.
  Definition spline_ens_cdf s x := rv_cdf (sp_npdf s) (spline_cdf s) x.
  (** There is no [_ppf]: scipy inverts the cdf numerically, which is not modelled. *)
  Definition spline_ens_ppf s p := rv_ppf (sp_npdf s) (fun _ _ => Err NotModelled) p.
End SplinePdf.
Arguments spline T : clear implicits.
