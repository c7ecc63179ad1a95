(** Calls for which claims about HDF5 files fail: C26, C91. *)
From Coq Require Import String List Arith ZArith QArith Bool.
From Verif Require Import Num Py NdArray NumpyLib ScipyWrap Values Ensemble Classes Hdf5 EnsembleRefuted Hdf5Refuted.
Import ListNotations.
Local Open Scope string_scope.
Local Open Scope list_scope.
Local Open Scope nat_scope.

(** C26 is false: two histograms with an ancillary column, read in chunks of one; after the second step the first ensemble,
    kept by the caller, shows the ancillary entry of the second. *)
Theorem C26_refuted : exists d anc,
  yields (newQ "hist" d (Some anc)) (fun e => yields (iter_open qpQ (store (build_tables e)) 1 0 1) (fun it =>
    yields (iter_take 1 it) (fun r1 => yields (iter_take 2 it) (fun r2 =>
      map y_start (fst r1) = [0] /\ map y_start (fst r2) = [0; 1] /\
      map (fun y => e_ancil (seen (snd r1) y)) (fst r1) = [Some [("z", VArr (nd1 [5]%Q))]] /\
      map (fun y => e_ancil (seen (snd r2) y)) (fst r2) = [Some [("z", VArr (nd1 [6]%Q))]; Some [("z", VArr (nd1 [6]%Q))]])))).
Proof. exact c26_refuted. Qed.

(** C91: a quantile ensemble with piecewise constant density, its metadata cut off after three of five datasets: the file counts
    as complete, is read without an exception, and the PDFs have another density. *)
Theorem C91_silent : exists d,
  yields (newQ "quant" d None) (fun e => yields (initialize e 2) (fun f0 => fst (write_chunk f0 e 0 2) = Ok tt /\ let f := snd (write_chunk f0 e 0 2) in length (metadata e) = 5%nat /\
    is_qp_file (finalizing f (metadata e) 3) = true /\
    yields (read_file qpQ (finalizing f (metadata e) 3)) (fun e' =>
      ens_pdf e (PScalar (5 # 2)%Q) = Ok [[Fin 0%Q]; [Fin 0%Q]] /\ ens_pdf e' (PScalar (5 # 2)%Q) = Ok [[Fin (1 # 2)%Q]; [Fin 0%Q]]))).
Proof. exact c91_silent. Qed.

(** C91: a histogram file whose metadata stop after the name counts as complete but cannot be read. *)
Theorem C91_unreadable : exists d,
  yields (newQ "hist" d None) (fun e => yields (initialize e 2) (fun f0 => fst (write_chunk f0 e 0 2) = Ok tt /\ let f := snd (write_chunk f0 e 0 2) in
    is_qp_file (finalizing f (metadata e) 1) = true /\ read_file qpQ (finalizing f (metadata e) 1) = Err KeyError)).
Proof. exact c91_unreadable. Qed.

(** C91: a file of which one of two rows was never written can be finalised; that PDF is read with location 0 and scale 0. *)
Theorem C91_unwritten : exists d,
  yields (newQ "norm" d None) (fun e => yields (getitem qpQ e (KSlice 0 1)) (fun c => yields (initialize c 2) (fun f0 => fst (write_chunk f0 c 0 1) = Ok tt /\ let f := snd (write_chunk f0 c 0 1) in fst (finalize f c) = Ok tt /\ let f' := snd (finalize f c) in
    is_qp_file f' = true /\ yields (read_file qpQ f') (fun e' => e_npdf e' = 2%nat /\ objdata e' = [("loc", VArr (nd2 1 [[7]; [0]]%Q)); ("scale", VArr (nd2 1 [[2]; [0]]%Q))])))).
Proof. exact c91_unwritten. Qed.

Print Assumptions C26_refuted.
Print Assumptions C91_silent.
Print Assumptions C91_unreadable.
Print Assumptions C91_unwritten.
