(** C160: conversions in other units.  [follows a b m e e'] (e' answers the method as e does, points and answers in the new units), [moved_target], [target_movable]: UnitConvertTheorems.v;
    [target], [usable], [suits], [asks], [curves]: CommuteTheorems.v; [both]: UnitMetricTheorems.v; [unit_of], [moved_points], [moved_answer]: UnitTheorems.v. *)
From Coq Require Import String List Arith ZArith Bool Lia Reals Lra.
From Verif Require Import Num NumProofs Py NdArray NumpyLib Utils ScipyWrap Spec Values Ensemble Classes Registry RegistryTheorems Convert SortProofs InterpProofs
  Kinds KindProofs EnsembleProofs KindInputs ReachProofs EnsembleTheorems IntegrateTheorems ConvertTheorems ConvertExamples CommuteTheorems UnitTheorems UnitMetricTheorems UnitConvertTheorems.
Import ListNotations.
Local Open Scope string_scope.
Local Open Scope list_scope.
Local Open Scope R_scope.

(** C160: if two ensembles agree up to the units of x, so do their conversions to a grid and to the grid in the new units: density, distribution function and quantiles. *)
Theorem C160_convert : forall X hs mf xy a b t e e' F, fill_outside X -> 0 < a -> usable t -> target_movable a b t ->
  (0 < e_npdf e)%nat -> g_shape (e_obj e') = [e_npdf e'] -> curves (asks t) e F -> (forall r, (r < e_npdf e)%nat -> suits t (F r)) -> follows a b (asks t) e e' ->
  exists c c', factory_convert (QH X hs mf xy) (QW X hs mf xy) e (class_name t) (keywords t) = Ok c /\
    factory_convert (QH X hs mf xy) (QW X hs mf xy) e' (class_name (moved_target a b t)) (keywords (moved_target a b t)) = Ok c' /\
    follows a b MPdf c c' /\ follows a b MCdf c c' /\ follows a b MPpf c c'.
Proof. exact c160_convert. Qed.

(** C160: ensembles created from parameters in the two units agree in this sense, *)
Theorem C160_both : forall X a b i e e' m, fill_outside X -> 0 < a -> both X a b i e e' -> In m (input_methods i) -> follows a b m e e'.
Proof. exact c160_both. Qed.

(** C160: so changing units and converting can be done in either order. *)
Theorem C160_created : forall X hs mf xy a b i t e e' F, fill_outside X -> 0 < a -> both X a b i e e' -> usable t -> target_movable a b t -> In (asks t) (input_methods i) ->
  curves (asks t) e F -> (forall r, (r < input_npdf i)%nat -> suits t (F r)) ->
  exists c c', factory_convert (QH X hs mf xy) (QW X hs mf xy) e (class_name t) (keywords t) = Ok c /\
    factory_convert (QH X hs mf xy) (QW X hs mf xy) e' (class_name (moved_target a b t)) (keywords (moved_target a b t)) = Ok c' /\
    follows a b MPdf c c' /\ follows a b MCdf c c' /\ follows a b MPpf c c'.
Proof. exact c160_created. Qed.

Example C160_example : exists X a b i e e', fill_outside X /\ 0 < a /\ a <> 1 /\ b <> 0 /\ both X a b i e e' /\ input_npdf i = 2%nat /\
  forall t, In t [ToHist [-1; 0; 3]; ToInterp [-1; 0; 3]; ToIrr [-1; 0; 3]] -> usable t /\ target_movable a b t /\ In (asks t) (input_methods i) /\
    exists F, curves (asks t) e F /\ forall r, (r < input_npdf i)%nat -> suits t (F r).
Proof. exact c160_example. Qed.

Print Assumptions C160_convert.
Print Assumptions C160_both.
Print Assumptions C160_created.
