(** Risk based point estimates: C120. *)
From Coq Require Import String List Arith ZArith Bool Lia Reals Lra.
From Coquelicot Require Import Coquelicot.
From Verif Require Import Num NumProofs Py NdArray NumpyLib ScipyWrap Spec Values Ensemble Classes Rbpe
  BinProofs Kinds EnsembleProofs KindInputs ReachProofs EnsembleTheorems RbpeMath RbpeTheorems.
Import ListNotations.
Local Open Scope string_scope.
Local Open Scope list_scope.
Local Open Scope R_scope.

(** C120: with finite limits the estimates minimise the risk between them. *)
Theorem C120_within : forall X M e s f Q quad minimize within eps lo hi, rbpe_ready X M e s f Q -> quad_law quad -> within_law eps within -> lo <= hi ->
  exists zs, calculate_rbpe (qp X) quad minimize within e (Fin lo, Fin hi) = Ok zs /\ length zs = e_npdf e /\
    forall r, (r < e_npdf e)%nat -> lo <= nth r zs 0 <= hi /\ forall zp, lo <= zp <= hi -> risk_of f Q r (nth r zs 0) <= risk_of f Q r zp + eps.
Proof. exact c120_within. Qed.

(** C120: without limits they minimise the risk over all numbers. *)
Theorem C120_default : forall X M e s f Q quad minimize within eps, rbpe_ready X M e s f Q -> quad_law quad -> minimize_law eps minimize ->
  exists zs, calculate_rbpe (qp X) quad minimize within e (PInf, PInf) = Ok zs /\ length zs = e_npdf e /\
    forall r, (r < e_npdf e)%nat -> forall zp, risk_of f Q r (nth r zs 0) <= risk_of f Q r zp + eps.
Proof. exact c120_default. Qed.

(** C120: the risk is at most the probability of the central 98%, and smallest inside it. *)
Theorem C120_central : forall X M e s f Q r, rbpe_ready X M e s f Q -> (r < e_npdf e)%nat ->
  (forall zp, 0 <= risk_of f Q r zp <= RInt (f r) (Q r (1 / 100)) (Q r (99 / 100))) /\
  (exists m, Q r (1 / 100) <= m <= Q r (99 / 100) /\ forall zp, risk_of f Q r m <= risk_of f Q r zp) /\
  (0 < RInt (f r) (Q r (1 / 100)) (Q r (99 / 100)) -> forall m, (forall zp, risk_of f Q r m <= risk_of f Q r zp) -> Q r (1 / 100) <= m <= Q r (99 / 100)).
Proof. exact c120_central. Qed.

(** C120: an infinite first limit makes the second one irrelevant; other limits that are not finite and ordered raise ValueError. *)
Theorem C120_limits : forall X M e s f Q quad minimize within lo hi, rbpe_ready X M e s f Q -> e_npdf e <> 0%nat ->
  calculate_rbpe (qp X) quad minimize within e (PInf, hi) = calculate_rbpe (qp X) quad minimize within e (PInf, PInf) /\
  (lo <> PInf -> (forall a b, lo = Fin a -> hi = Fin b -> b < a) -> calculate_rbpe (qp X) quad minimize within e (lo, hi) = Err ValueError).
Proof. exact c120_limits. Qed.

(** C120: every PDF is estimated on its own. *)
Theorem C120_rows : forall X M e s f Q quad minimize within limits zs key ps, rbpe_ready X M e s f Q ->
  calculate_rbpe (qp X) quad minimize within e limits = Ok zs -> picks (e_npdf e) key ps -> ps <> [] -> is_int key = false ->
  exists e', getitem (qp X) e key = Ok e' /\ calculate_rbpe (qp X) quad minimize within e' limits = Ok (select 0 zs ps).
Proof. exact c120_rows. Qed.

(** C120: histograms above -1 meet the conditions. *)
Theorem C120_histograms : forall X bins rows s e, fill_outside X -> input_ok (IHist bins rows) -> sound_bins bins -> -1 < nth0 0 bins ->
  anc_good (input_npdf (IHist bins rows)) s -> anc_plain s ->
  ens_new (create_of (qp X) "hist") (input_dict (IHist bins rows)) (anc_dict s) = Ok e ->
  exists f Q, rbpe_ready X (input_methods (IHist bins rows)) e s f Q /\
    forall r, (r < e_npdf e)%nat -> RInt (f r) (Q r (1 / 100)) (Q r (99 / 100)) = 98 / 100.
Proof. exact c120_histograms. Qed.

(** (three histograms with ancillary data, and functions that satisfy the laws) *)
Example C120_example : exists X M e s f Q quad minimize within lo hi, rbpe_ready X M e s f Q /\ quad_law quad /\ minimize_law 0 minimize /\ within_law 0 within /\ lo < hi /\
  e_npdf e = 3%nat /\ s <> None /\ forall r, (r < e_npdf e)%nat -> 0 < RInt (f r) (Q r (1 / 100)) (Q r (99 / 100)).
Proof. exact c120_example. Qed.

Print Assumptions C120_within.
Print Assumptions C120_default.
Print Assumptions C120_central.
Print Assumptions C120_limits.
Print Assumptions C120_rows.
Print Assumptions C120_histograms.
