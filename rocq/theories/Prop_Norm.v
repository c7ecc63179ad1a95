(** C149: normal ensembles for every choice of keywords and every scale.  [new_normal], [normals], [normal], [column]: NormTheorems.v. *)
From Coq Require Import String List Arith ZArith Bool Lia Reals Lra.
From Verif Require Import Num NumProofs Py NdArray NumpyLib Utils ScipyWrap Spec Values Ensemble Classes
  EvalProofs EvalTheorems NdProofs InterpProofs Kinds KindProofs KindInputs EnsembleTheorems MetricsExamples NormTheorems.
Import ListNotations.
Local Open Scope string_scope.
Local Open Scope list_scope.
Local Open Scope R_scope.

(** C149: columns of locations and scales, any real numbers. *)
Theorem C149_columns : forall X locs scales, length scales = length locs ->
  exists e, new_normal X [("loc", VArr (column locs)); ("scale", VArr (column scales))] = Ok e /\
    normals X e (length locs) (fun r => nth r locs 0) (fun r => nth r scales 0).
Proof. exact c149_columns. Qed.

(** C149: without scales they are 1. *)
Theorem C149_loc : forall X locs, exists e, new_normal X [("loc", VArr (column locs))] = Ok e /\ normals X e (length locs) (fun r => nth r locs 0) (fun _ => 1).
Proof. exact c149_loc. Qed.

(** C149: without locations they are 0. *)
Theorem C149_scale : forall X scales, exists e, new_normal X [("scale", VArr (column scales))] = Ok e /\ normals X e (length scales) (fun _ => 0) (fun r => nth r scales 0).
Proof. exact c149_scale. Qed.

(** C149: two numbers are one PDF. *)
Theorem C149_numbers : forall X loc scale, exists e, new_normal X [("loc", VNum loc); ("scale", VNum scale)] = Ok e /\ normals X e 1 (fun _ => loc) (fun _ => scale).
Proof. exact c149_numbers. Qed.

(** C149: without keywords the ensemble is one standard normal PDF. *)
Theorem C149_none : forall X, exists e, new_normal X [] = Ok e /\ normals X e 1 (fun _ => 0) (fun _ => 1).
Proof. exact c149_none. Qed.

(** C149: a column and a number are rejected. *)
Theorem C149_mixed : forall X l s, new_normal X [("loc", VArr (column l)); ("scale", VNum s)] = Err ValueError /\
  new_normal X [("loc", VNum s); ("scale", VArr (column l))] = Err ValueError.
Proof. exact c149_mixed. Qed.

(** C149: columns of different lengths are rejected. *)
Theorem C149_lengths : forall X locs scales, length scales <> length locs ->
  new_normal X [("loc", VArr (column locs)); ("scale", VArr (column scales))] = Err ValueError.
Proof. exact c149_lengths. Qed.

(** C149: other keywords are rejected. *)
Theorem C149_unknown : forall X d k v, In (k, v) d -> k <> "loc" -> k <> "scale" -> new_normal X d = Err TypeError.
Proof. exact c149_unknown. Qed.

Example C149_example : exists X e, new_normal X [("loc", VArr (column [0; 1])); ("scale", VArr (column [2; -2]))] = Ok e /\ e_npdf e = 2%nat /\
  ens_cdf e (PGrid [0; 4]) = Ok [[Fin (s_Phi X 0); Fin (s_Phi X 2)]; [NaN; NaN]].
Proof. exact c149_example. Qed.

Print Assumptions C149_columns.
Print Assumptions C149_loc.
Print Assumptions C149_scale.
Print Assumptions C149_numbers.
Print Assumptions C149_none.
Print Assumptions C149_mixed.
Print Assumptions C149_lengths.
Print Assumptions C149_unknown.
