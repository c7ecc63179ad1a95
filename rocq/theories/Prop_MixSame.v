(** C156: mixtures written in different ways.  [components] (weight, mean and width of each component of a PDF), [share] (weight given to one normal curve), [has_weight]: MixSameTheorems.v;
    [mix_input] (valid arguments of qp.mixmod): MixmodTheorems.v; [on_points]: EnsembleTheorems.v. *)
From Coq Require Import String List Arith ZArith Bool Lia Reals Lra Permutation.
From Verif Require Import Num NumProofs Py NdArray NumpyLib Utils ScipyWrap Spec Values Ensemble Classes BinProofs MixmodTheorems
  Kinds KindProofs EnsembleProofs KindInputs ReachProofs EnsembleTheorems ConvertTheorems MixSameTheorems.
Import ListNotations.
Local Open Scope string_scope.
Local Open Scope list_scope.
Local Open Scope R_scope.

(** C156: pdf and cdf depend only on the weight each normal curve gets in total, *)
Theorem C156_shares : forall X n means stds weights n' means' stds' weights', fill_outside X -> mix_input n means stds weights -> mix_input n' means' stds' weights' ->
  length means' = length means ->
  (forall r c, (r < length means)%nat -> share c (components n' means' stds' weights' r) = share c (components n means stds weights r)) ->
  exists e e', ens_new (create_of (qp X) "mixmod") (input_dict (IMix n means stds weights)) None = Ok e /\ ens_new (create_of (qp X) "mixmod") (input_dict (IMix n' means' stds' weights')) None = Ok e' /\
    forall m p, m = MPdf \/ m = MCdf -> on_points p -> evaluate m e' p = evaluate m e p.
Proof. exact c156_shares. Qed.

(** C156: hence not on the order of the components nor on components without weight. *)
Theorem C156_reordered : forall X n means stds weights n' means' stds' weights', fill_outside X -> mix_input n means stds weights -> mix_input n' means' stds' weights' ->
  length means' = length means ->
  (forall r, (r < length means)%nat -> Permutation (filter has_weight (components n' means' stds' weights' r)) (filter has_weight (components n means stds weights r))) ->
  exists e e', ens_new (create_of (qp X) "mixmod") (input_dict (IMix n means stds weights)) None = Ok e /\ ens_new (create_of (qp X) "mixmod") (input_dict (IMix n' means' stds' weights')) None = Ok e' /\
    forall m p, m = MPdf \/ m = MCdf -> on_points p -> evaluate m e' p = evaluate m e p.
Proof. exact c156_reordered. Qed.

Example C156_shares_example : exists n means stds weights n' means' stds' weights', mix_input n means stds weights /\ mix_input n' means' stds' weights' /\ n <> n' /\ length means' = length means /\
  forall r c, (r < length means)%nat -> share c (components n' means' stds' weights' r) = share c (components n means stds weights r).
Proof. exact c156_shares_example. Qed.

Example C156_reordered_example : exists n means stds weights n' means' stds' weights', mix_input n means stds weights /\ mix_input n' means' stds' weights' /\ n <> n' /\ length means' = length means /\
  forall r, (r < length means)%nat -> Permutation (filter has_weight (components n' means' stds' weights' r)) (filter has_weight (components n means stds weights r)).
Proof. exact c156_reordered_example. Qed.

Print Assumptions C156_shares.
Print Assumptions C156_reordered.
