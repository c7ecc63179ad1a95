(** Multi-dimensional ensembles: C51, C106. *)
From Coq Require Import List Arith ZArith Bool Sorted Lia Reals Lra.
From Verif Require Import Num NumProofs Py NdArray NumpyLib Utils ScipyWrap Spec HistPdf InterpPdf QuantPdf MixmodPdf Shapes
  SortProofs EvalProofs NdProofs InterpProofs IntegralProofs BinProofs HistProofs HistTheorems ShapeTheorems.
Import ListNotations.
Local Open Scope list_scope.
Local Open Scope nat_scope.

(** C51: reshaping to one row per PDF and back to the shape of the PDFs is the identity, however the split is given. *)
Theorem C51_roundtrip : forall A (a : nd A) s t k, nd_wf a -> shp a = s ++ t -> splits_after s t k ->
  exists b, reshape_to_pdf_size_at a k = Ok b /\ nd_wf b /\ shp b = prod s :: t /\ reshape_to_pdf_shape b s t = Ok a.
Proof. exact c51_roundtrip. Qed.

(** C51: and in the other order. *)
Theorem C51_back : forall A (b : nd A) s t, nd_wf b -> shp b = prod s :: t ->
  exists a, reshape_to_pdf_shape b s t = Ok a /\ nd_wf a /\ shp a = s ++ t /\ reshape_to_pdf_size_at a (Z.of_nat (length s)) = Ok b.
Proof. exact c51_back. Qed.

(** C51: the row of the PDF with index p has the number offset s p and holds exactly the entries a[p, ...]. *)
Theorem C51_rows : forall A (a b : nd A) s t k p q, nd_wf a -> shp a = s ++ t -> splits_after s t k -> reshape_to_pdf_size_at a k = Ok b ->
  index_of s p -> index_of t q -> element b (offset s p :: q) = element a (p ++ q) /\ element a (p ++ q) <> None.
Proof. exact c51_rows. Qed.

(** C51: the numbering is one-to-one between the indices of the shape and 0 .. npdf - 1. *)
Theorem C51_numbering : forall s,
  (forall p, index_of s p -> offset s p < prod s) /\
  (forall p p', index_of s p -> index_of s p' -> offset s p = offset s p' -> p = p') /\
  (forall r, r < prod s -> exists p, index_of s p /\ offset s p = r).
Proof. exact c51_numbering. Qed.

(** C51: the row number a frozen distribution stores for the PDF with index p is the number of its row. *)
Theorem C51_frozen : forall s, nd_wf (frozen_rows s) /\ forall p, index_of s p -> element (frozen_rows s) (p ++ [0]) = Some (offset s p).
Proof. exact c51_frozen. Qed.

(** (a 2 by 3 array of PDFs with two values each) *)
Example C51_example : nd_wf cube /\ splits_after [2; 3]%nat [2]%nat (-1) /\ index_of [2; 3]%nat [1; 2]%nat /\ index_of [2]%nat [1]%nat /\
  offset [2; 3]%nat [1; 2]%nat = 5%nat /\ element cube [1; 2; 1]%nat = Some 12%R /\ reshape_to_pdf_size_at cube (-1) = Ok (mknd [6; 2]%nat (dat cube)).
Proof. exact c51_example. Qed.

(** C106: line offset s p of the flattened input is the sub-array a[p]. *)
Theorem C106_rows : forall A (a : nd A) s k, nd_wf a -> shp a = s ++ [k] ->
  length (chunks (prod s) k (dat a)) = prod s /\
  forall p i, index_of s p -> i < k -> nth_error (nth (offset s p) (chunks (prod s) k (dat a)) []) i = element a (p ++ [i]) /\ element a (p ++ [i]) <> None.
Proof. exact c106_rows. Qed.

(** C106: an ensemble of histograms of any shape s is the flat ensemble of the sub-arrays, arranged in s: pdf, cdf and ppf at [p, j] are
    the values of the flat ensemble for PDF offset s p at point j, for numbers, grids and matrices of points. *)
Theorem C106_hist : forall V (N : Num V),
  forall bins (a : nd V) s k check h, nd_wf a -> shp a = s ++ [k] -> s <> [] -> hist_ctor bins a check = Ok h ->
    h_shape h = s /\ exists h1, hist_ctor bins (flat_rows_of s k a) check = Ok h1 /\ h_npdf h1 = prod s /\ h_shape h1 = [prod s] /\
    arranged s (hist_ens_pdf h1) (shaped_pdf s (hist_pdf h)) /\ arranged s (hist_ens_cdf h1) (shaped_pdf s (hist_cdf h)) /\ arranged s (hist_ens_ppf h1) (shaped_ppf s (hist_ppf h)).
Proof. exact @c106_hist. Qed.

(** C106: piecewise-linear PDFs *)
Theorem C106_interp : forall V (N : Num V),
  forall xs (a : nd V) s k check h, nd_wf a -> shp a = s ++ [k] -> s <> [] -> interp_ctor xs a check = Ok h ->
    i_shape h = s /\ exists h1, interp_ctor xs (flat_rows_of s k a) check = Ok h1 /\ i_npdf h1 = prod s /\ i_shape h1 = [prod s] /\
    arranged s (interp_ens_pdf h1) (shaped_pdf s (interp_pdf h)) /\ arranged s (interp_ens_cdf h1) (shaped_pdf s (interp_cdf h)) /\ arranged s (interp_ens_ppf h1) (shaped_ppf s (interp_ppf h)).
Proof. exact @c106_interp. Qed.

(** C106: piecewise-linear PDFs on their own grids *)
Theorem C106_irregular : forall V (N : Num V),
  forall (x a : nd V) s k check h, nd_wf x -> nd_wf a -> shp x = s ++ [k] -> shp a = s ++ [k] -> s <> [] -> irr_ctor x a check = Ok h ->
    r_shape h = s /\ exists h1, irr_ctor (flat_rows_of s k x) (flat_rows_of s k a) check = Ok h1 /\ r_npdf h1 = prod s /\ r_shape h1 = [prod s] /\
    arranged s (irr_ens_pdf h1) (shaped_pdf s (irr_pdf h)) /\ arranged s (irr_ens_cdf h1) (shaped_pdf s (irr_cdf h)) /\ arranged s (irr_ens_ppf h1) (shaped_ppf s (irr_ppf h)).
Proof. exact @c106_irregular. Qed.

(** C106: quantile tables *)
Theorem C106_quant : forall V (N : Num V),
  forall quad cubic dspline quants (a : nd V) s k check name h, nd_wf a -> shp a = s ++ [k] -> s <> [] -> quant_ctor quants a check name = Ok h ->
    q_shape h = s /\ exists h1, quant_ctor quants (flat_rows_of s k a) check name = Ok h1 /\ q_npdf h1 = prod s /\ q_shape h1 = [prod s] /\
    arranged s (quant_ens_pdf cubic dspline h1) (shaped_pdf s (quant_pdf cubic dspline h)) /\ arranged s (quant_ens_cdf quad h1) (shaped_pdf s (quant_cdf quad h)) /\ arranged s (quant_ens_ppf quad h1) (shaped_ppf s (quant_ppf quad h)).
Proof. exact @c106_quant. Qed.

(** C106: Gaussian mixtures *)
Theorem C106_mixmod : forall V (N : Num V),
  forall phi Phi (mu sd w : nd V) s k h, nd_wf mu -> nd_wf sd -> nd_wf w -> shp mu = s ++ [k] -> shp sd = s ++ [k] -> shp w = s ++ [k] -> s <> [] -> mixmod_ctor mu sd w = Ok h ->
    m_shape h = s /\ exists h1, mixmod_ctor (flat_rows_of s k mu) (flat_rows_of s k sd) (flat_rows_of s k w) = Ok h1 /\ m_npdf h1 = prod s /\ m_shape h1 = [prod s] /\
    arranged s (mixmod_ens_pdf phi h1) (shaped_pdf s (mixmod_pdf phi h)) /\ arranged s (mixmod_ens_cdf Phi h1) (shaped_pdf s (mixmod_cdf Phi h)) /\ arranged s (mixmod_ens_ppf Phi h1) (shaped_ppf s (mixmod_ppf Phi h)).
Proof. exact @c106_mixmod. Qed.

(** (a 2 by 3 array of histograms) *)
Example C106_example : exists h, hist_ctor [0; 1; 2]%R cube true = Ok h /\ nd_wf cube /\ shp cube = [2; 3]%nat ++ [2]%nat /\ h_shape h = [2; 3]%nat /\ nth0 1 (nth 5 (h_pdfs h) []) = (12 / 23)%R.
Proof. exact c106_example. Qed.

Print Assumptions C51_roundtrip.
Print Assumptions C51_back.
Print Assumptions C51_rows.
Print Assumptions C51_numbering.
Print Assumptions C51_frozen.
Print Assumptions C106_rows.
Print Assumptions C106_hist.
Print Assumptions C106_interp.
Print Assumptions C106_irregular.
Print Assumptions C106_quant.
Print Assumptions C106_mixmod.
