(** C161: quantile tables in other units.  [quad_moves X a b] (what is used of scipy's quadratic interpolation), [moved_rows]: UnitQuantTheorems.v; [follows]: UnitConvertTheorems.v;
    [unit_of], [moved_points], [moved_answer]: UnitTheorems.v. *)
From Coq Require Import String List Arith ZArith Bool Lia Reals Lra.
From Verif Require Import Num NumProofs Py NdArray NumpyLib Utils ScipyWrap Spec Values Ensemble Classes QuantPdf SortProofs InterpProofs
  Kinds KindProofs EnsembleProofs KindInputs ReachProofs EnsembleTheorems UnitTheorems UnitConvertTheorems UnitQuantTheorems.
Import ListNotations.
Local Open Scope string_scope.
Local Open Scope list_scope.
Local Open Scope R_scope.

(** C161: the density of quantile tables with the default constructor moves with the units, *)
Theorem C161_linear : forall X a b quants rows, fill_outside X -> 0 < a -> KindInputs.input_ok (IQuant quants rows "piecewise_linear") ->
  exists e e', ens_new (create_of (qp X) "quant") (input_dict (IQuant quants rows "piecewise_linear")) None = Ok e /\
    ens_new (create_of (qp X) "quant") (input_dict (IQuant quants (moved_rows a b rows) "piecewise_linear")) None = Ok e' /\ follows a b MPdf e e'.
Proof. exact c161_linear. Qed.

(** C161: and so do distribution function and quantiles, for every constructor, if scipy's quadratic interpolation does. *)
Theorem C161_cdf_ppf : forall X a b quants rows name, fill_outside X -> 0 < a -> quad_moves X a b -> KindInputs.input_ok (IQuant quants rows name) ->
  exists e e', ens_new (create_of (qp X) "quant") (input_dict (IQuant quants rows name)) None = Ok e /\
    ens_new (create_of (qp X) "quant") (input_dict (IQuant quants (moved_rows a b rows) name)) None = Ok e' /\ follows a b MCdf e e' /\ follows a b MPpf e e'.
Proof. exact c161_cdf_ppf. Qed.

(** C161: the density of the piecewise-constant constructor does not: in units half as large it is 1/8, not 3/16, at the point where it was 3/8. *)
Theorem C161_constant_refuted : exists X a b quants rows e e' y y', fill_outside X /\ 0 < a /\ KindInputs.input_ok (IQuant quants rows "piecewise_constant") /\
  ens_new (create_of (qp X) "quant") (input_dict (IQuant quants rows "piecewise_constant")) None = Ok e /\ ens_new (create_of (qp X) "quant") (input_dict (IQuant quants (moved_rows a b rows) "piecewise_constant")) None = Ok e' /\
  evaluate MPdf e (PScalar 1) = Ok [[Fin y]] /\ evaluate MPdf e' (PScalar (unit_of a b 1)) = Ok [[Fin y']] /\ y = 3 / 8 /\ a = 2 /\ y' = 1 / 8.
Proof. exact c161_constant. Qed.

Example C161_example : exists X a b quants rows, fill_outside X /\ 0 < a /\ a <> 1 /\ b <> 0 /\ quad_moves X a b /\ KindInputs.input_ok (IQuant quants rows "piecewise_linear") /\ length rows = 2%nat.
Proof. exact c161_example. Qed.

Print Assumptions C161_linear.
Print Assumptions C161_cdf_ppf.
Print Assumptions C161_constant_refuted.
