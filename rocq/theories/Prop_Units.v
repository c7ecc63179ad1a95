(** C153, C154: the scale of the values and the units of the axis.  [scaled c i], [scalable]: ScaleTheorems.v; [in_units a b i], [movable], [moved_points], [moved_answer]: UnitTheorems.v;
    [input], [input_ok], [input_methods] (the arguments of the constructors): KindInputs.v; [identical]: ConvertTheorems.v; [on_points] (a number or an increasing list): EnsembleTheorems.v. *)
From Coq Require Import String List Arith ZArith Bool Lia Reals Lra.
From Verif Require Import Num NumProofs Py NdArray NumpyLib Utils ScipyWrap Spec Values Ensemble Classes BinProofs
  Kinds KindProofs EnsembleProofs KindInputs ReachProofs EnsembleTheorems ConvertTheorems Profile ProfileTheorems ScaleTheorems UnitTheorems.
Import ListNotations.
Local Open Scope string_scope.
Local Open Scope list_scope.
Local Open Scope R_scope.

(** C153: values multiplied by a positive number for each PDF give the same ensemble. *)
Theorem C153_scale : forall X i c, fill_outside X -> KindInputs.input_ok i -> scalable i -> length c = input_npdf i -> (forall a, In a c -> 0 < a) ->
  exists e e', ens_new (create_of (qp X) (input_name i)) (input_dict i) None = Ok e /\ ens_new (create_of (qp X) (input_name i)) (input_dict (scaled c i)) None = Ok e' /\ identical e' e.
Proof. exact c153_scale. Qed.

(** C154: in units a x + b densities are divided by a, probabilities stay, quantiles move. *)
Theorem C154_units : forall X i a b, fill_outside X -> 0 < a -> KindInputs.input_ok i -> movable a b i ->
  exists e e', ens_new (create_of (qp X) (input_name i)) (input_dict i) None = Ok e /\ ens_new (create_of (qp X) (input_name i)) (input_dict (in_units a b i)) None = Ok e' /\
    e_npdf e' = e_npdf e /\
    forall m p, In m (input_methods i) -> on_points p ->
      exists t, evaluate m e p = Ok t /\ length t = e_npdf e /\ evaluate m e' (moved_points a b m p) = Ok (map (map (moved_answer a b m)) t).
Proof. exact c154_units. Qed.

(** C154: equal widths satisfy the condition on histograms, *)
Theorem C154_uniform : forall a b bins rows, equal_width bins -> movable a b (IHist bins rows).
Proof. exact uniform_movable. Qed.

(** C154: and so do widths that differ by more than the tolerance in both units. *)
Theorem C154_unequal : forall a b bins rows, clearly_unequal bins -> clearly_unequal (map (unit_of a b) bins) -> movable a b (IHist bins rows).
Proof. exact unequal_movable. Qed.

(** C154: not so the edges 0, 1, 3 in units of 10^9. *)
Theorem C154_tiny : exists X i a b e e' y, fill_outside X /\ 0 < a /\ KindInputs.input_ok i /\
  ens_new (create_of (qp X) (input_name i)) (input_dict i) None = Ok e /\ ens_new (create_of (qp X) (input_name i)) (input_dict (in_units a b i)) None = Ok e' /\
  0 < y /\ ens_pdf e (PScalar 2) = Ok [[Fin y]] /\ ens_pdf e' (PScalar (unit_of a b 2)) = Ok [[Fin 0]].
Proof. exact c154_tiny. Qed.

Example C153_example : exists X i c, fill_outside X /\ KindInputs.input_ok i /\ scalable i /\ length c = input_npdf i /\ (forall a, In a c -> 0 < a) /\ input_npdf i = 2%nat /\ c = [2; 3].
Proof. exact c153_example. Qed.

Example C154_example : exists X i a b, fill_outside X /\ 0 < a /\ KindInputs.input_ok i /\ movable a b i /\ a <> 1 /\ b <> 0 /\ input_npdf i = 2%nat /\ input_name i = "hist".
Proof. exact c154_example. Qed.

Print Assumptions C153_scale.
Print Assumptions C154_units.
Print Assumptions C154_uniform.
Print Assumptions C154_unequal.
Print Assumptions C154_tiny.
