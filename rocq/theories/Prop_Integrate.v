(** Integration and histogramize: C36, C81. *)
From Coq Require Import String List Arith ZArith Bool Lia Reals Lra.
From Verif Require Import Num NumProofs Py NdArray NumpyLib Utils ScipyWrap Spec Values Ensemble Classes
  InterpProofs MixmodTheorems Kinds EnsembleProofs KindInputs ReachProofs EnsembleTheorems IntegrateTheorems.
Import ListNotations.
Local Open Scope string_scope.
Local Open Scope list_scope.
Local Open Scope R_scope.

(** C36: for an ensemble of any class whose cdf computes [F]: integrate is additive, the values of histogramize are the
    integrals over the bins and add up to the integral over the whole range, and where [F r] is monotone in [0,1] all integrals of
    PDF [r] lie in [0,1]. *)
Theorem C36_integrate : forall (e : ens R) n F, computes (ens_cdf e) n F ->
  exists I, (forall r a b, I r a b = F r b - F r a) /\
    (forall a b, integrate e (PScalar a) (PScalar b) = Ok (map (fun r => [Fin (I r a b)]) (seq 0 n))) /\
    (forall r a b c, I r a b + I r b c = I r a c) /\
    (forall bins, increasing bins -> bins <> [] ->
       histogramize e bins = Ok (map (fun r => map (fun i => Fin (I r (nth0 i bins) (nth0 (S i) bins))) (seq 0 (pred (length bins)))) (seq 0 n)) /\
       forall r, rsum (pred (length bins)) (fun i => I r (nth0 i bins) (nth0 (S i) bins)) = I r (nth0 0 bins) (nlast bins)) /\
    forall r, (forall x y, x <= y -> F r x <= F r y) -> (forall x, 0 <= F r x <= 1) -> forall a b, a <= b -> 0 <= I r a b <= 1.
Proof. exact c36_any. Qed.

(** The hypothesis holds for every ensemble obtained by valid calls (seven classes). *)
Theorem C36_reachable : forall X M e, fill_outside X -> made X M e -> exists F, computes (ens_cdf e) (e_npdf e) F.
Proof. exact c36_reachable. Qed.

(** (an ensemble of three histograms) *)
Example C36_example : exists X M e, fill_outside X /\ normal_laws (s_phi X) (s_Phi X) /\ made X M e /\ proper_class e /\ e_npdf e = 3%nat.
Proof. exact c36_example. Qed.

(** C81: whatever sequence of valid calls produced the ensemble, every PDF is non-negative and its cdf is monotone in [0,1]. *)
Theorem C81_proper : forall X M e, fill_outside X -> normal_laws (s_phi X) (s_Phi X) -> made X M e -> proper_class e ->
  exists f F, computes (ens_pdf e) (e_npdf e) f /\ computes (ens_cdf e) (e_npdf e) F /\
    forall r, (r < e_npdf e)%nat -> distribution (f r) (F r).
Proof. exact c81_proper. Qed.

(** (the hypotheses are met by) *)
Example C81_example : exists X M e, fill_outside X /\ normal_laws (s_phi X) (s_Phi X) /\ made X M e /\ proper_class e /\ e_npdf e = 3%nat.
Proof. exact c36_example. Qed.

Print Assumptions C36_integrate.
Print Assumptions C36_reachable.
Print Assumptions C81_proper.
