(** Reconstruction of a sparse PDF from its shape parameters: sparse_rep.py 17-40 [shapes2pdf] and [create_basis],
    and [indices2shapes] with the errors of its indexing. *)
From Coq Require Import List Arith ZArith Bool.
From Verif Require Import Num Py NdArray NumpyLib Utils ScipyWrap InterpPdf Sparse.
Import ListNotations.

Section SparseShapes.
  Context {T : Type} {N : Num T}.
  Local Open Scope num_scope.
  (** scipy's Voigt profile and the square root (Sparse.v) *)
  Variables (voigt : T -> T -> T -> T) (sqrt : T -> T).

  (** The entries of the metadata dictionary that are read (sparse_rep.py 21, 35-40, 189-194): the grid (and whether
      numpy holds it as integers), the ranges of means and widths, and the four numbers of [dims]. *)
  Record sparse_meta := mkmeta {
    m_x : list T; m_x_int : bool; m_mu : T * T; m_sig : T * T; m_dims : list Z }.

  (** sparse_rep.py 32-41 [create_basis]; [np.linspace] (61-63) refuses a negative number of values. *)
  Definition create_basis (m : sparse_meta) (cut : T) : res (list (list T)) :=
    match m_dims m with
    | nmu :: nsig :: nv :: _ =>
        if (nmu <? 0)%Z || (nsig <? 0)%Z || (nv <? 0)%Z then Err ValueError
        else Ok (create_voigt_basis voigt sqrt (m_x m) (m_mu m) (Z.to_nat nmu) (m_sig m) (Z.to_nat nsig) (Z.to_nat nv) cut)
    | _ => Err IndexError
    end.

  (** sparse_rep.py 178-214 [indices2shapes], one PDF: weights, means, sigmas, gammas.
      SIMPLIFICATION: [Ncoef = 1] and [Nsigma * Nv = 0] (divisions by 0) are not modelled. *)
  Definition indices2shapes_meta (m : sparse_meta) (inds : list Z) : res (list T * list T * list T * list T) :=
    match m_dims m with
    | nmu :: nsig :: nv :: ncoef :: _ =>
        if (nmu <? 0)%Z || (nsig <? 0)%Z || (nv <? 0)%Z then Err ValueError              (* 196-198 *)
        else if (ncoef =? 1)%Z || (nsig * nv =? 0)%Z then Err NotModelled                (* 205, 210 *)
        else if (length inds =? 0)%nat then Err IndexError                               (* 207 *)
        else if existsb (fun i => (nmu <=? snd (get_N i) / (nsig * nv))%Z) inds then Err IndexError     (* 210 *)
        else
          let '(w, sh) := indices2shapes (m_mu m) (m_sig m) (Z.to_nat nmu) (Z.to_nat nsig) (Z.to_nat nv) ncoef inds in
          Ok (w, map (fun p => fst (fst p)) sh, map (fun p => snd (fst p)) sh, map snd sh)
    | _ => Err IndexError                                                                (* 189-192 *)
    end.

  (** sparse_rep.py 23-27: one pass through the loop *)
  Definition add_shape (cut : T) (xs : list T) (pdf : list T) (p : T * T * T * T) : list T :=
    let '(w, m, s, g) := p in
    let pdft := map (fun x => voigt (x - m) s g) xs in
    let pdft := map (fun v => if cut <=? v then v else n0) pdft in
    let nrm := norm sqrt pdft in
    let pdft := map (fun v => w * v / nrm) pdft in
    map2 nadd pdf pdft.
  (** sparse_rep.py 17-29 [shapes2pdf].  With an integer grid [np.zeros_like] is an integer array, and [pdf += pdft]
      is a TypeError (numpy's casting error). *)
  Definition shapes2pdf (wa ma sa ga : list T) (m : sparse_meta) (cut : T) : res (list T) :=
    let xs := m_x m in
    let ps := combine (combine (combine wa ma) sa) ga in
    if m_x_int m && negb (length ps =? 0)%nat then Err TypeError
    else
      let pdf := fold_left (add_shape cut xs) ps (map (fun _ => n0) xs) in
      let pdf := map (fun v => if cut <=? v then v else n0) pdf in
      Ok (map (fun v => v / trapezoid xs pdf) pdf).

  (** The two ways to the values of a coded PDF: through the shapes, and through the dictionary
      (sparse_rep.py 298-306; line 173 fails on a PDF without indices). *)
  Definition through_shapes (m : sparse_meta) (cut : T) (inds : list Z) : res (list T) :=
    let* r := indices2shapes_meta m inds in
    let '(w, ma, sa, ga) := r in shapes2pdf w ma sa ga m cut.
  Definition through_basis (m : sparse_meta) (cut : T) (inds : list Z) : res (list T) :=
    let* A := create_basis m cut in
    if (length inds =? 0)%nat then Err IndexError
    else pdf_from_sparse A (m_x m) cut inds.
End SparseShapes.
Arguments sparse_meta : clear implicits.
