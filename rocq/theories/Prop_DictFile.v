(** Files with several ensembles: C119. *)
From Coq Require Import String List Arith ZArith Bool Sorted Permutation Lia Reals Lra.
From Verif Require Import Num NumProofs Py NdArray NumpyLib ScipyWrap Spec Values Ensemble Classes Hdf5 DictFile
  Kinds EnsembleProofs KindInputs ReachProofs EnsembleTheorems Hdf5Theorems AllocTheorems DictFileTheorems.
Import ListNotations.
Local Open Scope string_scope.
Local Open Scope list_scope.
Local Open Scope R_scope.

(** C119: the ensembles of a dictionary are read back under their names, ordered by name. *)
Theorem C119_roundtrip : forall X (es : list (string * ens R)), fill_outside X -> NoDup (map fst es) -> (forall name, In name (map fst es) -> plain_name name = true) ->
  (forall name e, In (name, e) es -> (exists M, made X M e) /\ proper (e_ancil e)) ->
  exists f d, write_dict (all_ensembles es) = Ok f /\ read_dict (qp X) f = Ok d /\
    Permutation (map fst d) (map fst es) /\ in_order (map fst d) /\
    forall name e, In (name, e) es -> exists e', vget d name = Some e' /\ stored_as X e e'.
Proof. exact c119_roundtrip. Qed.

(** C119: a dictionary with anything but ensembles is refused. *)
Theorem C119_others : forall (d : dict string (dentry R)) name, In (name, Other) d -> write_dict d = Err ValueError.
Proof. exact c119_others. Qed.

(** (three histograms with a table, and a spline) *)
Example C119_example : exists e1 e2 f d, made scipy0 (input_methods hist0) e1 /\ made scipy0 (input_methods spline1) e2 /\ NoDup (map fst [("b", e1); ("a", e2)]) /\
  write_dict (all_ensembles [("b", e1); ("a", e2)]) = Ok f /\ read_dict (qp scipy0) f = Ok d /\ map fst d = ["a"; "b"] /\ e_npdf e1 = 3%nat /\
  (exists e', vget d "b" = Some e' /\ stored_as scipy0 e1 e') /\ (exists e', vget d "a" = Some e' /\ stored_as scipy0 e2 e').
Proof. exact c119_example. Qed.

Print Assumptions C119_roundtrip.
Print Assumptions C119_others.
