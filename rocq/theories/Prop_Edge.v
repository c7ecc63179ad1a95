(** Probabilities outside (0,1): C53, C107. *)
From Coq Require Import QArith String List Arith ZArith Bool Sorted Lia Reals Lra.
From Verif Require Import Num NumProofs Py NdArray NumpyLib Utils ScipyWrap Spec HistPdf InterpPdf QuantPdf MixmodPdf Packing PackedPdf
  Values Ensemble Classes Kinds EnsembleProofs KindInputs ReachProofs EnsembleTheorems Convert ConvertTheorems
  SortProofs EvalProofs NdProofs InterpProofs IntegralProofs BinProofs HistProofs HistTheorems EdgeTheorems.
Import ListNotations.
Local Open Scope list_scope.
Local Open Scope R_scope.

(** C53, partial: for every reachable ensemble of a class of qp and every grid of probabilities outside [0,1], ppf is NaN for every
    PDF.  Missing: 0 and 1, where ppf is infinite (C53_ends_refuted, C89). *)
Theorem C53_outside_partial : forall X M e ps, made X M e -> g_name (e_obj e) <> "norm"%string -> (forall p, In p ps -> p < 0 \/ 1 < p) ->
  ens_ppf e (PGrid ps) = table (e_npdf e) (fun _ _ => NaN) ps.
Proof. exact c53_outside. Qed.

(** C53 is false at 0 and 1: PDFs that live on three grid points have ppf(0) = -inf and ppf(1) = inf. *)
Theorem C53_ends_refuted : exists X M e xs, fill_outside X /\ made X M e /\ g_name (e_obj e) = "interp"%string /\ vget (metadata e) "xvals" = Some (VArr (mknd [1; length xs]%nat xs)) /\ length xs = 3%nat /\
  ens_ppf e (PScalar 0) = Ok [[NInf]; [NInf]] /\ ens_ppf e (PScalar 1) = Ok [[PInf]; [PInf]].
Proof. exact c53_ends_refuted. Qed.

(** C107: for every reachable ensemble of a class of qp (a mixture must hold more than one PDF), asking for a grid of probabilities of
    which some are not inside (0,1) gives in the places of the inner ones exactly the answer to the grid of the inner ones alone, or its error, and in
    the other places -inf for 0, inf for 1 and NaN otherwise. *)
Theorem C107_grid : forall X M e, made X M e -> g_name (e_obj e) <> "norm"%string -> e_npdf e <> 1%nat \/ g_name (e_obj e) <> "mixmod"%string -> undisturbed (e_npdf e) (ens_ppf e).
Proof. exact c107_grid. Qed.

(** C107: a grid without any inner probability is answered without asking the class, for mixtures of one PDF too. *)
Theorem C107_ends : forall X M e ps, made X M e -> g_name (e_obj e) <> "norm"%string -> (forall p, In p ps -> ~ inner p) ->
  ens_ppf e (PGrid ps) = table (e_npdf e) (fun _ => edge) ps.
Proof. exact c107_ends. Qed.

(** C107: the exception: a mixture of a single PDF raises ValueError for every grid that mixes inner and other probabilities. *)
Theorem C107_single_mixture : forall Phi (m : mixmod R) ps p q, m_npdf m = 1%nat -> In p ps -> inner p -> In q ps -> ~ inner q -> mixmod_ens_ppf Phi m (PGrid ps) = Err ValueError.
Proof. exact single_mixture. Qed.

(** (two interpolated PDFs, the probabilities 2, 1/2, 0) *)
Example C107_example : exists X M e, made X M e /\ g_name (e_obj e) = "interp"%string /\ e_npdf e = 2%nat /\ inner_of [2; 1 / 2; 0] = [1 / 2] /\ merged [2; 1 / 2; 0] [Fin 7] [NaN; Fin 7; NInf].
Proof. exact c107_example. Qed.

Print Assumptions C53_outside_partial.
Print Assumptions C53_ends_refuted.
Print Assumptions C107_grid.
Print Assumptions C107_ends.
Print Assumptions C107_single_mixture.
