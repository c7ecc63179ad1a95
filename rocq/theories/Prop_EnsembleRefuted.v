(** Calls for which claims about ensembles fail: C21, C22, C24, C29-C31, C50. *)
From Coq Require Import String List Arith ZArith QArith Bool.
From Verif Require Import Num Py NdArray NumpyLib ScipyWrap Values Ensemble Classes EnsembleRefuted.
Import ListNotations.
Local Open Scope string_scope.
Local Open Scope list_scope.

(** An integer key raises ValueError when a column of the ancillary table has two entries per PDF. *)
Theorem C21_ancil_refuted : exists d anc, anc = [("z", VArr (nd2 2 [[1; 2]; [3; 4]]%Q))] /\
  yields (newQ "hist" d (Some anc)) (fun e => e_npdf e = 2%nat /\
    getitem qpQ e (KInt 0) = Err ValueError /\ yields (getitem qpQ e (KSlice 0 1)) (fun e' => e_npdf e' = 1%nat)).
Proof. exact c21_ancil_refuted. Qed.

(** The entries left by an integer key cannot be indexed again: ens[0][0] raises IndexError. *)
Theorem C21_twice_refuted : exists d anc,
  yields (newQ "hist" d (Some anc)) (fun e => yields (getitem qpQ e (KInt 0)) (fun e' =>
    e_npdf e' = 1%nat /\ getitem qpQ e' (KInt 0) = Err IndexError)).
Proof. exact c21_twice_refuted. Qed.

(** An empty selection of quantile PDFs raises ValueError; of histograms it works. *)
Theorem C21_empty_refuted : exists d d',
  yields (newQ "quant" d None) (fun e => e_npdf e = 2%nat /\ getitem qpQ e (KSlice 1 1) = Err ValueError) /\
  yields (newQ "hist" d' None) (fun e => yields (getitem qpQ e (KSlice 1 1)) (fun p => e_npdf p = 0%nat)).
Proof. exact c21_empty_refuted. Qed.

(** The density from the derivative of the cdf spline: PDF 1 answers with the density of PDF 0; taken out of
    the ensemble it answers with its own. *)
Theorem C21_spline_refuted : exists d,
  yields (newQ "quant" d None) (fun e => ens_pdf e (PScalar 1%Q) = Ok [[Fin 0%Q]; [Fin 0%Q]] /\
    yields (getitem qpQ e (KInt 1)) (fun e' => ens_pdf e' (PScalar 1%Q) = Ok [[Fin 5%Q]])).
Proof. exact c21_spline_refuted. Qed.

(** The ppf of a mixture is read off a grid spanning the whole ensemble, so the same PDF answers differently
    once it is alone. *)
Theorem C21_mixture_refuted : exists d a b,
  yields (newQ "mixmod" d None) (fun e => ens_ppf e (PScalar (1 # 4)%Q) = Ok [[Fin a]; [Fin b]] /\
    yields (getitem qpQ e (KInt 0)) (fun e' => exists a', ens_ppf e' (PScalar (1 # 4)%Q) = Ok [[Fin a']] /\ ~ (a == a')%Q)).
Proof. exact c21_mixture_refuted. Qed.

(** Bins that differ by less than the tolerance: the second ensemble silently gets the bins of the first, and
    its PDF is no longer what it was. *)
Theorem C22_tolerance_refuted : exists d d' x,
  yields (newQ "hist" d None) (fun a => yields (newQ "hist" d' None) (fun b =>
    e_npdf a = 2%nat /\ e_npdf b = 1%nat /\
    yields (concatenate [a; b]) (fun c => match c with
      | None => False
      | Some c => ens_cdf b (PScalar x) = Ok [[Fin (100000 # 100001)%Q]] /\ ens_cdf c (PScalar x) = Ok [[Fin 1%Q]; [Fin 1%Q]; [Fin 1%Q]]
      end))).
Proof. exact c22_tolerance_refuted. Qed.

(** One ensemble without ancillary data makes the data of all others disappear. *)
Theorem C22_dropped_refuted : exists d anc d',
  yields (newQ "hist" d (Some anc)) (fun a => yields (newQ "hist" d' None) (fun b =>
    anc <> [] /\ yields (concatenate [a; b]) (fun c => match c with None => False | Some c => e_npdf c = 3%nat /\ e_ancil c = None end))).
Proof. exact c22_dropped. Qed.

(** An ensemble of shape (2, 1): read back it has shape (2). *)
Theorem C24_shape_refuted : exists d,
  yields (newQ "hist" d None) (fun e => yields (from_tables qpQ (build_tables e)) (fun e' =>
    g_shape (e_obj e) = [2; 1]%nat /\ g_shape (e_obj e') = [2]%nat)).
Proof. exact c24_shape_refuted. Qed.

(** Update with a table that does not fit raises ValueError, but the PDFs are replaced: one PDF with a table
    of two rows (against C30), and gridded still answers for the old PDFs (against C29). *)
Theorem C31_update_refuted : exists d anc d' bad,
  yields (newQ "hist" d (Some anc)) (fun e =>
    let e1 := snd (gridded e [1 # 2]%Q) in
    let e2 := snd (update e1 d' (Some bad)) in
    fst (update e1 d' (Some bad)) = Err ValueError /\
    e_npdf e = 2%nat /\ e_npdf e2 = 1%nat /\ e_ancil e2 = Some [("z", VArr (nd1 [1; 2]%Q))] /\
    ens_pdf e2 (PGrid [1 # 2]%Q) = Ok [[Fin 0%Q]] /\
    fst (gridded e2 [1 # 2]%Q) = Ok ([1 # 2]%Q, [[Fin (1 # 2)%Q]; [Fin (1 # 4)%Q]])).
Proof. exact c31_update_refuted. Qed.

(** The cache keeps the caller's grid, not a copy: writing into that array makes gridded answer wrongly. *)
Theorem C29_alias_refuted : exists d grid grid',
  yields (newQ "hist" d None) (fun e =>
    let e1 := mutate_grid (snd (gridded e grid)) grid' in
    ens_pdf e1 (PGrid grid') = Ok [[Fin (1 # 2)%Q]; [Fin (3 # 4)%Q]] /\
    fst (gridded e1 grid') = Ok (grid', [[Fin (1 # 2)%Q]; [Fin (1 # 4)%Q]])).
Proof. exact c29_alias_refuted. Qed.

(** An ensemble of a scipy class with scalar parameters: every index is accepted, the loop never ends. *)
Theorem C50_scalar_refuted : exists d, yields (newQ "norm" d None) (fun e =>
  e_npdf e = 1%nat /\ forall fuel, iterate_from qpQ e 0 fuel = None).
Proof. exact c50_scalar_refuted. Qed.

(** The entries of e[0] have no axis left: iterating over e[0] visits nothing. *)
Theorem C50_single_refuted : exists d anc,
  yields (newQ "hist" d (Some anc)) (fun e => yields (getitem qpQ e (KInt 0)) (fun p =>
    e_npdf p = 1%nat /\ iterate_from qpQ p 0 10 = Some (Ok []))).
Proof. exact c50_single_refuted. Qed.

Print Assumptions C21_ancil_refuted.
Print Assumptions C21_twice_refuted.
Print Assumptions C21_empty_refuted.
Print Assumptions C21_spline_refuted.
Print Assumptions C21_mixture_refuted.
Print Assumptions C22_tolerance_refuted.
Print Assumptions C22_dropped_refuted.
Print Assumptions C24_shape_refuted.
Print Assumptions C31_update_refuted.
Print Assumptions C29_alias_refuted.
Print Assumptions C50_scalar_refuted.
Print Assumptions C50_single_refuted.
