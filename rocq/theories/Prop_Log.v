(** C126: logpdf, logcdf and logsf.  [log_of], [log_answer], [expo] and the methods: LogTheorems.v *)
From Coq Require Import String List Arith ZArith Bool Lia Reals Lra.
From Verif Require Import Num Py NdArray ScipyWrap Spec Values Ensemble Classes MixmodTheorems Kinds KindInputs ReachProofs EnsembleTheorems
  IntegrateTheorems SortProofs InterpProofs Gauss GaussTheorems Logs LogTheorems.
Import ListNotations.
Local Open Scope string_scope.
Local Open Scope list_scope.
Local Open Scope R_scope.

(** C126: every reachable ensemble that is not normal has the three methods. *)
Theorem C126_methods : forall X M e, made X M e -> g_name (e_obj e) <> "norm" ->
  (exists l, logpdf_method e l) /\ (exists l, logcdf_method e l) /\ exists l, logsf_method e l.
Proof. exact c126_methods. Qed.

(** C126: they answer, for all forms of points, the logarithms of pdf, cdf and 1 - cdf, entry by entry: minus infinity exactly for 0, no number exactly for negative ones; and they fail where pdf and cdf fail. *)
Theorem C126_log : forall e logpdf logcdf logsf, logpdf_method e logpdf -> logcdf_method e logcdf -> logsf_method e logsf -> forall x,
  log_answer (ens_pdf e x) (logpdf x) /\ log_answer (ens_cdf e x) (logcdf x) /\
  log_answer (match ens_cdf e x with Ok t => Ok (map (map negation) t) | Err er => Err er end) (logsf x).
Proof. exact c126_log. Qed.

(** C126: so does logpdf of a normal ensemble, which scipy computes by another formula. *)
Theorem C126_norm : forall X M e, fill_outside X -> s_phi X = gauss -> made X M e -> g_name (e_obj e) = "norm" ->
  forall x, log_answer (ens_pdf e x) (norm_ens_logpdf ln (ln (sqrt (2 * PI))) e x).
Proof. exact c126_norm. Qed.

(** C126: for proper distributions the exponentials are pdf, cdf and 1 - cdf, and no log-probability is positive. *)
Theorem C126_grid : forall X M e logpdf logcdf logsf, fill_outside X -> normal_laws (s_phi X) (s_Phi X) -> made X M e -> proper_class e ->
  logpdf_method e logpdf -> logcdf_method e logcdf -> logsf_method e logsf ->
  exists f F, computes (ens_pdf e) (e_npdf e) f /\ computes (ens_cdf e) (e_npdf e) F /\ (forall r, (r < e_npdf e)%nat -> distribution (f r) (F r)) /\
    forall xs, increasing xs -> exists u v w, logpdf (PGrid xs) = Ok u /\ logcdf (PGrid xs) = Ok v /\ logsf (PGrid xs) = Ok w /\
      Ok (map (map expo) u) = table (e_npdf e) (fin f) xs /\ Ok (map (map expo) v) = table (e_npdf e) (fin F) xs /\
      Ok (map (map expo) w) = table (e_npdf e) (fin (fun r x => 1 - F r x)) xs /\
      forall l y, In l v \/ In l w -> In (Fin y) l -> y <= 0.
Proof. exact c126_grid. Qed.

(** (three histograms) *)
Example C126_example : exists X M e logpdf logcdf logsf, fill_outside X /\ normal_laws (s_phi X) (s_Phi X) /\ made X M e /\ proper_class e /\ g_name (e_obj e) <> "norm" /\
  logpdf_method e logpdf /\ logcdf_method e logcdf /\ logsf_method e logsf /\ e_npdf e = 3%nat.
Proof. exact c126_example. Qed.

(** (two normal distributions) *)
Example C126_norm_example : exists M e, fill_outside scipy2 /\ s_phi scipy2 = gauss /\ made scipy2 M e /\ g_name (e_obj e) = "norm" /\ e_npdf e = 2%nat.
Proof. exact c126_norm_example. Qed.

Print Assumptions C126_methods.
Print Assumptions C126_log.
Print Assumptions C126_norm.
Print Assumptions C126_grid.
