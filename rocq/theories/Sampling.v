(** Random samples: [Ensemble.rvs(size)] (ensemble.py 475-489) -> scipy's
    [rv_continuous.rvs] -> [Pdf_rows_gen._rvs] (pdf_gen.py 312-318). *)
From Coq Require Import List Arith ZArith Bool.
From Verif Require Import Num Py NdArray NumpyLib Utils ScipyWrap HistPdf InterpPdf QuantPdf MixmodPdf.
Import ListNotations.

Section Sampling.
  Context {T : Type} {N : Num T}.

  (** pdf_gen.py 314-318: [U] is the matrix of uniform draws of shape (npdf, size); the
      [_ppf] METHOD is called on it directly, with the [row] argument that scipy leaves
      after dropping leading axes of length 1: shape (npdf, 1), or 0-d for one PDF.
      TRUSTED: scipy/stats/_distn_infrastructure.py rv_generic.rvs, _argcheck_rvs. *)
  Definition rvs_row (npdf : nat) : nd nat :=
    if (npdf =? 1)%nat then nd0 0 else mknd [npdf; 1] (seq 0 npdf).
  Definition rv_rvs (npdf : nat) (ppf : nd T -> nd nat -> res (list T)) (size : nat) (U : list (list T))
    : res (list (list T)) :=
    let* v := ppf (nd2 size U) (rvs_row npdf) in
    Ok (chunks npdf size v).

  Definition hist_ens_rvs (h : hist T) := rv_rvs (h_npdf h) (hist_ppf h).
  Definition interp_ens_rvs (i : interp T) := rv_rvs (i_npdf i) (interp_ppf i).
  Definition irr_ens_rvs (i : irregular T) := rv_rvs (r_npdf i) (irr_ppf i).
  (** utils.py 573 [np.vectorize(..., signature="(1),(nx)->(nx)")] needs a one-dimensional
      [row], so a 0-d one is a ValueError. *)
  Definition quant_ens_rvs quad (q : quant T) (size : nat) (U : list (list T)) :=
    if (q_npdf q =? 1)%nat then Err ValueError else rv_rvs (q_npdf q) (quant_ppf quad q) size U.
  Definition mixmod_ens_rvs Phi (m : mixmod T) := rv_rvs (m_npdf m) (mixmod_ppf Phi m).
End Sampling.
