(** Allocation for piecewise writing: C118. *)
From Coq Require Import String List Arith ZArith Bool Lia Reals Lra.
From Verif Require Import Num NumProofs Py NdArray NumpyLib ScipyWrap Spec Values Ensemble Classes QuantPdf Alloc
  SortProofs EvalProofs InterpProofs Kinds EnsembleProofs KindInputs ReachProofs EnsembleTheorems AllocTheorems.
Import ListNotations.
Local Open Scope string_scope.
Local Open Scope list_scope.
Local Open Scope R_scope.

(** C118: the allocation a class announces for N PDFs has exactly the tables of its ensembles, unless quantiles are padded or the number of splines differs. *)
Theorem C118_allocation : forall X i s e N, fill_outside X -> input_ok i -> anc_good (input_npdf i) s ->
  ens_new (create_of (qp X) (input_name i)) (input_dict i) (anc_dict s) = Ok e ->
  exists kw, get_allocation_kwds (input_name i) N (input_dict i) = Ok kw /\ (fits kw N e <-> allocated_well i N).
Proof. exact c118_allocation. Qed.

(** C118: without the array that gives the width it raises. *)
Theorem C118_missing : forall cls key ex N (d : vdict R), width_key cls = Some (key, ex) -> vget d key = None -> get_allocation_kwds cls N d = Err ex.
Proof. exact c118_missing. Qed.

(** (histograms) *)
Example C118_example : exists e, input_ok hist0 /\ ens_new (create_of (qp scipy0) "hist") (input_dict hist0) (anc_dict table0) = Ok e /\
  exists kw, get_allocation_kwds "hist" 10 (input_dict hist0) = Ok kw /\ kw = [("pdfs", ([10; 2]%nat, Fixed "f4"))] /\ fits kw 10 e.
Proof. exact c118_example. Qed.

(** C118: quantiles inside (0, 1) are announced without the end points that the ensemble adds. *)
Theorem C118_quantiles : exists e kw, input_ok quant1 /\ ens_new (create_of (qp scipy0) "quant") (input_dict quant1) None = Ok e /\
  get_allocation_kwds "quant" 2 (input_dict quant1) = Ok kw /\ kw = [("locs", ([2; 3]%nat, Fixed "f4"))] /\ ~ fits kw 2 e.
Proof. exact c118_quantiles. Qed.

(** C118: splines are announced with the rows of the chunk, not with the number asked for. *)
Theorem C118_splines : exists e kw, input_ok spline1 /\ ens_new (create_of (qp scipy0) "spline") (input_dict spline1) None = Ok e /\
  get_allocation_kwds "spline" 10 (input_dict spline1) = Ok kw /\ kw = [("splx", ([1; 4]%nat, Fixed "f4")); ("sply", ([1; 4]%nat, Fixed "f4")); ("spln", ([1; 1]%nat, Fixed "i4"))] /\ ~ fits kw 10 e.
Proof. exact c118_splines. Qed.

Print Assumptions C118_allocation.
Print Assumptions C118_missing.
Print Assumptions C118_quantiles.
Print Assumptions C118_splines.
