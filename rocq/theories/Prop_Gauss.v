(** C125: with the normal law itself, PDFs are probability distributions.  [gauss], [Gauss]: its density and distribution function. *)
From Coq Require Import String List Arith ZArith Bool Lia Reals Lra.
From Coquelicot Require Import Coquelicot.
From Verif Require Import Num Py NdArray ScipyWrap Spec Values Ensemble Classes MixmodTheorems Kinds KindInputs ReachProofs EnsembleTheorems
  IntegrateTheorems Gauss GaussTheorems.
Import ListNotations.
Local Open Scope string_scope.
Local Open Scope list_scope.
Local Open Scope R_scope.

(** C125: what the theorems ask of scipy.stats.norm holds of the normal law, and its distribution function runs from 0 to 1. *)
Theorem C125_laws : normal_laws gauss Gauss /\ total Gauss.
Proof. exact c125_laws. Qed.

(** C125: its tails. *)
Theorem C125_tails : forall z, (0 <= z -> 1 - Gauss z <= exp (- (z * z) / 2)) /\ (z <= 0 -> Gauss z <= exp (- (z * z) / 2)).
Proof. exact c125_tails. Qed.

(** C125: every reachable ensemble of a class other than quant and spline: non-negative pdf, and a non-decreasing cdf that runs from 0 to 1. *)
Theorem C125_total : forall X M e, fill_outside X -> normal_laws (s_phi X) (s_Phi X) -> total (s_Phi X) -> made X M e -> proper_class e ->
  exists f F, computes (ens_pdf e) (e_npdf e) f /\ computes (ens_cdf e) (e_npdf e) F /\
    forall r, (r < e_npdf e)%nat -> distribution (f r) (F r) /\ total (F r).
Proof. exact c125_total. Qed.

(** C125: mixtures and normal distributions: the pdf integrates to the cdf over every interval, so that the whole integral is 1. *)
Theorem C125_integral : forall X M e, fill_outside X -> s_phi X = gauss -> s_Phi X = Gauss -> made X M e -> g_name (e_obj e) = "mixmod" \/ g_name (e_obj e) = "norm" ->
  exists f F, computes (ens_pdf e) (e_npdf e) f /\ computes (ens_cdf e) (e_npdf e) F /\
    forall r, (r < e_npdf e)%nat -> (forall a b, is_RInt (f r) a b (F r b - F r a)) /\ (forall x, 0 <= f r x) /\ total (F r).
Proof. exact c125_integral. Qed.

(** (two mixtures of two components) *)
Example C125_example : exists M e, fill_outside scipy2 /\ s_phi scipy2 = gauss /\ s_Phi scipy2 = Gauss /\ made scipy2 M e /\ g_name (e_obj e) = "mixmod" /\ e_npdf e = 2%nat.
Proof. exact c125_example. Qed.

Print Assumptions C125_laws.
Print Assumptions C125_tails.
Print Assumptions C125_total.
Print Assumptions C125_integral.
