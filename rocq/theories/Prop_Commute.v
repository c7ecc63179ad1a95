(** C151: conversions commute with selection and concatenation.  [target], [usable], [asks], [curves], [suits], [alike]: CommuteTheorems.v; [identical] (same class,
    shape, metadata, parameters and answers at all points), [quantiles]: ConvertTheorems.v; [picks], [joinable], [joined]: EnsembleTheorems.v. *)
From Coq Require Import String List Arith ZArith Bool Lia Reals Lra.
From Verif Require Import Num NumProofs Py NdArray NumpyLib Utils ScipyWrap Spec Values Ensemble Classes Convert
  EvalProofs NdProofs InterpProofs Kinds KindProofs EnsembleProofs KindInputs ReachProofs EnsembleTheorems Registry ConvertTheorems CommuteTheorems.
Import ListNotations.
Local Open Scope string_scope.
Local Open Scope list_scope.
Local Open Scope R_scope.

(** C151: converting the selected PDFs is selecting from the converted ensemble. *)
Theorem C151_select : forall X hs mf xy M e key ps s t F, fill_outside X -> made X M e -> picks (e_npdf e) key ps -> ps <> [] -> has_ancil e s -> (is_int key = true -> anc_plain s) ->
  usable t -> In (asks t) M -> curves (asks t) e F -> (forall r, (r < e_npdf e)%nat -> suits t (F r)) ->
  exists part converted_part whole part_of_whole,
    getitem (qp X) e key = Ok part /\ factory_convert (QH X hs mf xy) (QW X hs mf xy) part (class_name t) (keywords t) = Ok converted_part /\
    factory_convert (QH X hs mf xy) (QW X hs mf xy) e (class_name t) (keywords t) = Ok whole /\ getitem (qp X) whole key = Ok part_of_whole /\
    identical converted_part part_of_whole.
Proof. exact c151_select. Qed.

(** C151: converting the concatenation is concatenating the converted ensembles. *)
Theorem C151_concatenate : forall X hs mf xy M es joint t, fill_outside X -> joinable X M es -> es <> [] -> joined X M es joint ->
  usable t -> In (asks t) M -> (forall e, In e es -> exists F, curves (asks t) e F /\ forall r, (r < e_npdf e)%nat -> suits t (F r)) ->
  exists parts whole together,
    Forall2 (fun e p => factory_convert (QH X hs mf xy) (QW X hs mf xy) e (class_name t) (keywords t) = Ok p) es parts /\
    factory_convert (QH X hs mf xy) (QW X hs mf xy) joint (class_name t) (keywords t) = Ok whole /\
    concatenate parts = Ok (Some together) /\ identical whole together.
Proof. exact c151_concatenate. Qed.

(** C151: selection and conversion to quantile tables. *)
Theorem C151_quantiles : forall X hs mf xy M e key ps s Q qs, fill_outside X -> made X M e -> picks (e_npdf e) key ps -> ps <> [] -> has_ancil e s -> (is_int key = true -> anc_plain s) ->
  In MPpf M -> quantiles e (e_npdf e) Q -> increasing qs -> (2 <= length qs)%nat -> inside qs -> / 2 ^ 52 < nth0 0 qs -> (forall r, (r < e_npdf e)%nat -> increasing (map (Q r) qs)) ->
  exists part converted_part whole part_of_whole,
    getitem (qp X) e key = Ok part /\ factory_convert (QH X hs mf xy) (QW X hs mf xy) part "quant" [("quants", VArr (nd1 qs))] = Ok converted_part /\
    factory_convert (QH X hs mf xy) (QW X hs mf xy) e "quant" [("quants", VArr (nd1 qs))] = Ok whole /\ getitem (qp X) whole key = Ok part_of_whole /\
    alike converted_part part_of_whole.
Proof. exact c151_quantiles. Qed.

Example C151_select_example : exists X M e key ps s, fill_outside X /\ made X M e /\ picks (e_npdf e) key ps /\ ps = [1; 0]%nat /\ has_ancil e s /\ (is_int key = true -> anc_plain s) /\
  forall t, In t [ToHist [-1; 0; 3]; ToInterp [-1; 0; 3]; ToIrr [-1; 0; 3]] -> usable t /\ In (asks t) M /\ exists F, curves (asks t) e F /\ forall r, (r < e_npdf e)%nat -> suits t (F r).
Proof. exact c151_select_example. Qed.

Example C151_concatenate_example : exists X M es joint, fill_outside X /\ joinable X M es /\ length es = 2%nat /\ joined X M es joint /\ e_npdf joint = 4%nat /\
  forall t, In t [ToHist [-1; 0; 3]; ToInterp [-1; 0; 3]; ToIrr [-1; 0; 3]] -> usable t /\ In (asks t) M /\
    forall e, In e es -> exists F, curves (asks t) e F /\ forall r, (r < e_npdf e)%nat -> suits t (F r).
Proof. exact c151_concatenate_example. Qed.

Example C151_quantiles_example : exists X M e key ps s Q qs, fill_outside X /\ made X M e /\ picks (e_npdf e) key ps /\ ps = [1; 0]%nat /\ has_ancil e s /\ (is_int key = true -> anc_plain s) /\
  In MPpf M /\ quantiles e (e_npdf e) Q /\ increasing qs /\ (2 <= length qs)%nat /\ inside qs /\ / 2 ^ 52 < nth0 0 qs /\ (forall r, (r < e_npdf e)%nat -> increasing (map (Q r) qs)).
Proof. exact c151_quantiles_example. Qed.

Print Assumptions C151_select.
Print Assumptions C151_concatenate.
Print Assumptions C151_quantiles.
